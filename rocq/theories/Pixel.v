(** Filters that compute a new plane sample by sample: common loops. *)
From Coq Require Import ZArith List Lia Bool.
From Verif Require Import Common FormatSpec Format Frame ImageSpec PlaneMem Spatial.
Import ListNotations.
Open Scope Z_scope.

(** Reading and writing one element of [k] bytes, little endian. *)
Definition loadS (k : Z) (b : pbuf) (o : Z) : outcome Z :=
  if inside b o k then Ok (leval (Z.to_nat k) (b_data b) o) else UB.
Definition storeS (k : Z) (b : pbuf) (o v : Z) : outcome pbuf := fill b o k v 1.

(** Consecutive elements. *)
Fixpoint loadLanes (k : Z) (b : pbuf) (o : Z) (n : nat) : outcome (list Z) :=
  match n with
  | O => Ok []
  | S m => obind (loadS k b o) (fun v => obind (loadLanes k b (o + k) m) (fun r => Ok (v :: r)))
  end.
Fixpoint storeLanes (k : Z) (b : pbuf) (o : Z) (l : list Z) : outcome pbuf :=
  match l with
  | [] => Ok b
  | v :: r => obind (storeS k b o v) (fun b' => storeLanes k b' (o + k) r)
  end.

(** for (y < h) for (x < w) dst[x] = val(x, y), the rows being p_stride bytes apart. *)
Definition drawPlane (k w h : Z) (val : Z -> Z -> outcome Z) (dst : plane) : outcome pbuf :=
  forZ h (fun y m => forZ w (fun x m' =>
    obind (val x y) (fun v => storeS k m' (y * p_stride dst + x * k) v)) m) (p_buf dst).

(** for (x = 0; x < w; x += n): a group of [n] elements at a time; the last group may reach
    into the padding of the row. *)
Definition groups (w n : Z) : Z := (w + n - 1) / n.
Definition drawGroups (k w h n : Z) (val : Z -> Z -> outcome (list Z)) (dst : plane) : outcome pbuf :=
  forZ h (fun y m => forZ (groups w n) (fun j m' =>
    obind (val (n * j) y) (fun l => storeLanes k m' (y * p_stride dst + n * j * k) l)) m) (p_buf dst).

(** newVideoFrame2 as the sample by sample filters use it, followed by their loop over the
    planes: planes that are not processed are taken from [src] with their stride, the other
    ones are allocated and painted.  Mismatching plane dimensions terminate the process
    (vscore.cpp:210-219); the sample sizes are not compared. *)
Definition freshPlane (al : Z) (g : Z -> Z -> Z) (f : vfmt) (w h i : Z) : plane :=
  mkPl (strideAt al f w i) (mkB (strideAt al f w i * getHeight f h i) (g i)).

Definition filterFrame (al : Z) (g : Z -> Z -> Z) (f : vfmt) (w h : Z) (process : Z -> bool)
    (src : vframe) (paint : Z -> plane -> outcome pbuf) : outcome vframe :=
  if (w <=? 0) || (h <=? 0) then UB
  else obind (eachPlane (Z.to_nat (f_np f)) 0 (fun i =>
         if process i then
           let q := freshPlane al g f w h i in
           obind (paint i q) (fun m => Ok (mkPl (p_stride q) m))
         else if f_np (vf_fmt src) <=? i then UB
         else if negb (getHeight (vf_fmt src) (vf_h src) i =? getHeight f h i)
                 || negb (getWidth (vf_fmt src) (vf_w src) i =? getWidth f w i) then UB
         else match nthz (vf_planes src) i with Some p => Ok p | None => UB end))
       (fun l => Ok (mkVF f w h l (vf_props src))).

(** filtershared.h:195-212, getPlanesArg: [None] = an error. *)
Fixpoint planesLoop (l : list Z) (process : Z -> bool) : option (Z -> bool) :=
  match l with
  | [] => Some process
  | o :: r =>
      let o := sat32 o in
      if (o <? 0) || (3 <=? o) then None
      else if process o then None
      else planesLoop r (fun i => if i =? o then true else process i)
  end.
Definition getPlanesArg (l : list Z) : option (Z -> bool) :=
  planesLoop l (fun i => match l with [] => (0 <=? i) && (i <? 3) | _ => false end).

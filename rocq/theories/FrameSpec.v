(** What frames are for their users: every frame owns its planes.  Independent of
    the reference counted implementation. *)
From Coq Require Import ZArith List Lia Bool.
From Verif Require Import Common FormatSpec.
Import ListNotations.
Open Scope Z_scope.

Inductive kind :=
| Video (f : vfmt) (w h : Z)
| Audio (a : afmt) (n : Z).

(** Number of planes or channels. *)
Definition k_np (k : kind) : Z :=
  match k with Video f _ _ => f_np f | Audio a _ => a_nch a end.

(** Dimensions of a plane: the chroma planes are subsampled. *)
Definition planeW (f : vfmt) (w i : Z) : Z := if i =? 0 then w else w / 2 ^ f_ssw f.
Definition planeH (f : vfmt) (h i : Z) : Z := if i =? 0 then h else h / 2 ^ f_ssh f.

(** Smallest multiple of [al] that is not below [x]. *)
Definition ceilTo (al x : Z) : Z := al * ((x + al - 1) / al).

(** Distance between rows and the number of bytes a user may access in a plane. *)
Definition strideOf (al : Z) (f : vfmt) (w i : Z) : Z := ceilTo al (planeW f w i * f_bytes f).

Definition planeBytes (al : Z) (k : kind) (i : Z) : Z :=
  match k with
  | Video f w h => strideOf al f w i * planeH f h i
  | Audio a n => n * a_bytes a
  end.

(** Samples of an audio frame other than the last one. *)
Definition AUDIO_FRAME_SAMPLES := 3072.

Inductive op :=
| ONewVideo (f : vfmt) (w h : Z)
| ONewVideo2 (f : vfmt) (w h : Z) (src : list (option (nat * Z)))
| ONewAudio (a : afmt) (n : Z)
| ONewAudio2 (a : afmt) (n : Z) (src : list (option (nat * Z)))
| OCopy (g : nat)
| OAddRef (g : nat)
| OFree (g : nat)
| OWrite (g : nat) (plane off v : Z)
| ORead (g : nat) (plane off : Z)
| OGetWrite (g : nat) (plane : Z)
| OLimit (bytes : Z)
| OCoreFree.

Inductive obs := RNone | RHandle (g : nat) | RByte (b : option Z) | RPtr (nonnull : bool).

(** [sf_cont plane offset]: the byte there, [None] while nothing was written. *)
Record sframe := mkSF { sf_ref : Z; sf_kind : kind; sf_cont : Z -> Z -> option Z }.

Record sst := mkSS { s_next : nat; s_frames : nat -> option sframe; s_core : bool }.

Definition sinit : sst := mkSS 0 (fun _ => None) true.

Definition sput (s : sst) (g : nat) (v : option sframe) : sst :=
  mkSS (s_next s) (fun x => if Nat.eqb x g then v else s_frames s x) (s_core s).

Definition snew (s : sst) (v : sframe) : sst * obs :=
  (mkSS (S (s_next s)) (fun x => if Nat.eqb x (s_next s) then Some v else s_frames s x) (s_core s),
   RHandle (s_next s)).

(** A plane source that is refused: no such plane or other dimensions. *)
Definition badVideoSrc (s : sst) (f : vfmt) (w h i : Z) (o : option (nat * Z)) : bool :=
  match o with
  | None => false
  | Some (g, k) =>
      match s_frames s g with
      | Some (mkSF _ (Video f' w' h') _) =>
          (k <? 0) || (f_np f' <=? k) ||
          negb (planeH f' h' k =? planeH f h i) || negb (planeW f' w' k =? planeW f w i)
      | _ => true
      end
  end.

Definition badAudioSrc (s : sst) (n : Z) (o : option (nat * Z)) : bool :=
  match o with
  | None => false
  | Some (g, k) =>
      match s_frames s g with
      | Some (mkSF _ (Audio a' n') _) => (k <? 0) || (a_nch a' <=? k) || negb (n' =? n)
      | _ => true
      end
  end.

Fixpoint anyBad (bad : Z -> option (nat * Z) -> bool) (i : Z) (l : list (option (nat * Z))) : bool :=
  match l with [] => false | o :: r => bad i o || anyBad bad (i + 1) r end.

(** Contents of a frame assembled from source planes; fresh planes are unwritten. *)
Definition srcCont (s : sst) (src : list (option (nat * Z))) (i off : Z) : option Z :=
  match nthz src i with
  | Some (Some (g, k)) => match s_frames s g with Some fr => sf_cont fr k off | None => None end
  | _ => None
  end.

(** One operation; [None] = the process is terminated with a fatal error. *)
Definition sstep (s : sst) (o : op) : option (sst * obs) :=
  match o with
  | ONewVideo f w h =>
      if (w <=? 0) || (h <=? 0) then None
      else Some (snew s (mkSF 1 (Video f w h) (fun _ _ => None)))
  | ONewVideo2 f w h src =>
      if (w <=? 0) || (h <=? 0) then None
      else if anyBad (badVideoSrc s f w h) 0 src then None
      else Some (snew s (mkSF 1 (Video f w h) (srcCont s src)))
  | ONewAudio a n =>
      if n <=? 0 then None else Some (snew s (mkSF 1 (Audio a n) (fun _ _ => None)))
  | ONewAudio2 a n src =>
      if n <=? 0 then None
      else if anyBad (fun _ => badAudioSrc s n) 0 src then None
      else Some (snew s (mkSF 1 (Audio a n) (srcCont s src)))
  | OCopy g =>
      match s_frames s g with
      | Some fr => Some (snew s (mkSF 1 (sf_kind fr) (sf_cont fr)))
      | None => None
      end
  | OAddRef g =>
      match s_frames s g with
      | Some fr => Some (sput s g (Some (mkSF (sf_ref fr + 1) (sf_kind fr) (sf_cont fr))), RNone)
      | None => None
      end
  | OFree g =>
      match s_frames s g with
      | Some fr => Some (sput s g (if sf_ref fr =? 1 then None
                                   else Some (mkSF (sf_ref fr - 1) (sf_kind fr) (sf_cont fr))), RNone)
      | None => None
      end
  | OWrite g plane off v =>
      match s_frames s g with
      | Some fr =>
          Some (sput s g (Some (mkSF (sf_ref fr) (sf_kind fr)
                 (fun i x => if (i =? plane) && (x =? off) then Some v else sf_cont fr i x))), RNone)
      | None => None
      end
  | ORead g plane off =>
      match s_frames s g with
      | Some fr => Some (s, RByte (sf_cont fr plane off))
      | None => None
      end
  | OGetWrite g plane =>
      match s_frames s g with
      | Some fr => Some (s, RPtr ((0 <=? plane) && (plane <? k_np (sf_kind fr))))
      | None => None
      end
  | OLimit _ => Some (s, RNone)
  | OCoreFree => Some (mkSS (s_next s) (s_frames s) false, RNone)
  end.

(** What the API allows a caller to do. *)
Definition videoSrcAllowed (s : sst) (f : vfmt) (o : option (nat * Z)) : Prop :=
  match o with
  | None => True
  | Some (g, k) =>
      exists r f' w' h' c, s_frames s g = Some (mkSF r (Video f' w' h') c) /\ f_bytes f' = f_bytes f
  end.

Definition audioSrcAllowed (s : sst) (a : afmt) (o : option (nat * Z)) : Prop :=
  match o with
  | None => True
  | Some (g, k) =>
      exists r a' n' c, s_frames s g = Some (mkSF r (Audio a' n') c) /\ a_bytes a' = a_bytes a
  end.

(** Planes that can be addressed at all (ptrdiff_t). *)
Definition addressable (al : Z) (f : vfmt) (w h : Z) : Prop :=
  strideOf al f w 0 * h <= INT64_MAX.

Definition inRange (al : Z) (s : sst) (g : nat) (plane off : Z) : Prop :=
  exists fr, s_frames s g = Some fr /\ 0 <= plane < k_np (sf_kind fr) /\
             0 <= off < planeBytes al (sf_kind fr) plane.

Definition allowed (al : Z) (s : sst) (o : op) : Prop :=
  match o with
  | ONewVideo f w h =>
      s_core s = true /\ fmt_valid f /\ w <= INT_MAX /\ h <= INT_MAX /\ addressable al f w h
  | ONewVideo2 f w h src =>
      s_core s = true /\ fmt_valid f /\ w <= INT_MAX /\ h <= INT_MAX /\ addressable al f w h /\
      zlength src = f_np f /\ Forall (videoSrcAllowed s f) src
  | ONewAudio a n => s_core s = true /\ afmt_valid a /\ n <= AUDIO_FRAME_SAMPLES
  | ONewAudio2 a n src =>
      s_core s = true /\ afmt_valid a /\ n <= AUDIO_FRAME_SAMPLES /\
      zlength src = a_nch a /\ Forall (audioSrcAllowed s a) src
  | OCopy g => s_core s = true /\ s_frames s g <> None
  | OAddRef g | OFree g | OGetWrite g _ => s_frames s g <> None
  | OWrite g plane off _ | ORead g plane off => inRange al s g plane off
  | OLimit _ | OCoreFree => s_core s = true
  end.

(** Runs: the observations, ending early with [false] on a fatal error. *)
Fixpoint srun (s : sst) (l : list op) : list obs * bool :=
  match l with
  | [] => ([], true)
  | o :: r => match sstep s o with
              | None => ([], false)
              | Some (s', b) => let (bs, e) := srun s' r in (b :: bs, e)
              end
  end.

Fixpoint sallowed (al : Z) (s : sst) (l : list op) : Prop :=
  match l with
  | [] => True
  | o :: r => allowed al s o /\ match sstep s o with None => True | Some (s', _) => sallowed al s' r end
  end.

(** Frame reordering filters.  Source: src/core/reorderfilters.cpp.
    Modelled: every create function's argument checks and length computation,
    every getFrame function's choice of source frame, the declared request
    pattern, and the clamping of frame numbers by requestFrameFilter /
    getFrameFilter (src/core/vsapi.cpp:148-171).
    Not modelled: frame contents (a frame is an arbitrary value), frame rate /
    duration properties, format mismatch checks (src/core/reorderfilters.cpp:42-103). *)
From Coq Require Import ZArith List Lia Bool Permutation Sorting.Sorted.
From Verif Require Import Common ReqPat.
Import ListNotations.
Open Scope Z_scope.

(** src/core/vsapi.cpp:150-152 and 159-161 (a node always has numFrames > 0,
    src/core/vscore.cpp VSNode constructors). *)
Definition clampFrame (N n : Z) : Z := if N <=? n then N - 1 else n.

(** Frame number [n] of a clip [l] as a filter gets it. *)
Definition fetch {A} (l : list A) (n : Z) : option A := nthz l (clampFrame (zlength l) n).

Definition fetch2 {A} (ls : list (list A)) (r : Z * Z) : option A :=
  match nthz ls (fst r) with Some l => fetch l (snd r) | None => None end.

(** A created single input filter: output length, source frame of each output
    frame, declared pattern. *)
Record filter1 := { f_len : Z; f_src : Z -> Z; f_rp : reqpat }.

(** Result of a create function: an error, the source clip itself, or a filter. *)
Inductive created (F : Type) := CErr | CUB | CPass | CFilter (f : F).
Arguments CErr {F}. Arguments CUB {F}. Arguments CPass {F}. Arguments CFilter {F} _.

(** The clip that comes out: [None] for an error, otherwise the list of frames
    (a frame is [None] when the request cannot be served). *)
Definition output1 {A} (l : list A) (c : created filter1) : option (list (option A)) :=
  match c with
  | CErr => None
  | CUB => None
  | CPass => Some (map Some l)
  | CFilter f => Some (map (fun n => fetch l (f_src f n)) (zseq (f_len f)))
  end.

(** ** Trim: reorderfilters.cpp:111-170.  [None] = argument not given. *)
Definition argd (o : option Z) : Z := match o with Some x => sat32 x | None => 0 end.
Definition isset {A} (o : option A) : bool := match o with Some _ => true | None => false end.

Definition trimCreate (N : Z) (afirst alast alength : option Z) : created filter1 :=
  let first := argd afirst in
  let last := argd alast in
  let len := argd alength in
  let lastset := isset alast in
  let lengthset := isset alength in
  if first <? 0 then CErr
  else if N <=? first then CErr
  else if lastset && lengthset then CErr
  else if lastset && (last <? first) then CErr
  else if lengthset && (len <? 1) then CErr
  else if (lastset && (N <=? last)) || (lengthset && (N - first <? len)) then CErr
  else
    let trimlen := if lastset then last - first + 1
                   else if lengthset then len else N - first in
    if (negb (isset afirst) && negb lastset && negb lengthset)
       || (negb (trimlen =? 0) && (trimlen =? N)) then CPass
    else CFilter {| f_len := trimlen; f_src := fun n => n + first;
                    f_rp := if first =? 0 then rpStrictSpatial else rpNoFrameReuse |}.

(** ** Reverse: reorderfilters.cpp:280-302 *)
Definition reverseCreate (N : Z) : created filter1 :=
  CFilter {| f_len := N; f_src := fun n => Z.max (N - n - 1) 0; f_rp := rpNoFrameReuse |}.

(** ** Loop: reorderfilters.cpp:308-347.  [times = None]: argument missing, value 0. *)
Definition loopCreate (N : Z) (atimes : option Z) : created filter1 :=
  let times := argd atimes in
  if times <? 0 then CErr
  else if times =? 1 then CPass
  else if 0 <? times then
    if INT_MAX / times <? N then CErr
    else CFilter {| f_len := N * times; f_src := fun n => Z.rem n N; f_rp := rpGeneral |}
  else CFilter {| f_len := INT_MAX; f_src := fun n => Z.rem n N; f_rp := rpGeneral |}.

(** ** SelectEvery: reorderfilters.cpp:364-456 *)
Fixpoint has_dup (l : list Z) : bool :=
  match l with [] => false | a :: t => existsb (Z.eqb a) t || has_dup t end.

Definition nth0 (l : list Z) (i : Z) : Z := nth (Z.to_nat i) l 0.

Definition selectEveryCreate (N acycle : Z) (aoffsets : list Z) : created filter1 :=
  let cycle := sat32 acycle in
  let offsets := map sat32 aoffsets in
  let num := zlength offsets in
  if cycle <=? 1 then CErr
  else if negb (forallb (fun o => (0 <=? o) && (o <? cycle)) offsets) then CErr
  else
    let fullCycles := N / cycle in
    let tail := filter (fun o => o <? N mod cycle) offsets in
    let nf := fullCycles * num + zlength tail in
    if INT_MAX <? nf then CErr
    else if nf =? 0 then CErr
    else CFilter {| f_len := nf;
                    f_src := fun n =>
                      let cyc := n / num in
                      if cyc =? fullCycles then cyc * cycle + nth0 tail (n mod num)
                      else cyc * cycle + nth0 offsets (n mod num);
                    f_rp := if has_dup offsets then rpGeneral else rpNoFrameReuse |}.

(** ** Splice: reorderfilters.cpp:468-536 *)
Fixpoint splice_find (lens : list Z) (i cum n : Z) : Z * Z :=
  match lens with
  | [] => (0, 0)
  | x :: t =>
    if ((cum <=? n) && (n <? cum + x)) || (match t with [] => true | _ => false end)
    then (i, n - cum)
    else splice_find t (i + 1) (cum + x) n
  end.

Record filterN := { fn_len : Z; fn_src : Z -> Z * Z; fn_rp : Z -> reqpat }.

(** reorderfilters.cpp:519-526: accumulating the total length. *)
Fixpoint splice_total (lens : list Z) (acc : Z) : option Z :=
  match lens with
  | [] => Some acc
  | x :: t => if INT_MAX - acc <? x then None else splice_total t (acc + x)
  end.

Definition spliceCreate (lens : list Z) : created filterN :=
  match lens with
  | [_] => CPass
  | _ =>
    match splice_total lens 0 with
    | None => CErr
    | Some total => CFilter {| fn_len := total; fn_src := fun n => splice_find lens 0 0 n;
                               fn_rp := fun _ => rpNoFrameReuse |}
    end
  end.

Definition outputN {A} (ls : list (list A)) (c : created filterN) : option (list (option A)) :=
  match c with
  | CErr => None
  | CUB => None
  | CPass => match ls with l :: _ => Some (map Some l) | [] => None end
  | CFilter f => Some (map (fun n => fetch2 ls (fn_src f n)) (zseq (fn_len f)))
  end.

(** ** Interleave: reorderfilters.cpp:188-270.  The extend branch multiplies in
    [int] even when the overflow flag was set (line 244): undefined behaviour. *)
Fixpoint inter_len (lens : list Z) (k i acc : Z) (ovf : bool) : Z * bool :=
  match lens with
  | [] => (acc, ovf)
  | c :: t =>
    if (INT_MAX - i - 1) / k + 1 <? c then inter_len t k (i + 1) acc true
    else inter_len t k (i + 1) (Z.max acc ((c - 1) * k + i + 1)) ovf
  end.

Definition maxlen (lens : list Z) : Z := fold_left Z.max lens 0.

Definition interleaveCreate (lens : list Z) (extend : bool) : created filterN :=
  let k := zlength lens in
  match lens with
  | [_] => CPass
  | _ =>
    let '(nf, ovf) :=
      if extend then (maxlen lens * k, INT_MAX / k <? maxlen lens)
      else inter_len lens k 0 0 false in
    if extend && negb (in_intb (maxlen lens * k)) then CUB
    else if ovf then CErr
    else
      let maxNum := (nf + k - 1) / k in
      CFilter {| fn_len := nf; fn_src := fun n => (n mod k, n / k);
                 fn_rp := fun i => match nthz lens i with
                                   | Some len => if maxNum <=? len then rpNoFrameReuse
                                                 else rpFrameReuseLastOnly
                                   | None => rpGeneral end |}
  end.

(** ** Sorting: std::sort on ints; a sorted permutation is unique, so any
    sorting function is faithful. *)
Fixpoint zinsert (x : Z) (l : list Z) : list Z :=
  match l with [] => [x] | a :: t => if x <=? a then x :: a :: t else a :: zinsert x t end.
Definition zsort (l : list Z) : list Z := fold_right zinsert [] l.

(** ** DuplicateFrames: reorderfilters.cpp:546-593 *)
Fixpoint dup_src (dups : list Z) (n : Z) : Z :=
  match dups with [] => n | d :: t => if d <? n then dup_src t (n - 1) else n end.

Definition duplicateCreate (N : Z) (aframes : list Z) : created filter1 :=
  let dups := map sat32 aframes in
  if negb (forallb (fun d => (0 <=? d) && (d <=? N - 1)) dups) then CErr
  else if INT_MAX - N <? zlength dups then CErr
  else let s := zsort dups in
       CFilter {| f_len := N + zlength dups; f_src := dup_src s; f_rp := rpGeneral |}.

(** ** DeleteFrames: reorderfilters.cpp:604-657 *)
Fixpoint del_src (del : list Z) (n : Z) : Z :=
  match del with [] => n | d :: t => if d <=? n then del_src t (n + 1) else n end.

Fixpoint adj_eq (l : list Z) : bool :=
  match l with a :: ((b :: _) as t) => (a =? b) || adj_eq t | _ => false end.

Definition deleteCreate (N : Z) (aframes : list Z) : created filter1 :=
  let del := map sat32 aframes in
  if negb (forallb (fun d => (0 <=? d) && (d <? N)) del) then CErr
  else let s := zsort del in
       if adj_eq s then CErr
       else if N - zlength del <=? 0 then CErr
       else CFilter {| f_len := N - zlength del; f_src := del_src s; f_rp := rpNoFrameReuse |}.

(** ** FreezeFrames: reorderfilters.cpp:664-737.  std::sort compares [first]
    only; accepted range lists have distinct [first] values (the overlap check),
    for which the sorted order is unique. *)
Record freeze := { fz_first : Z; fz_last : Z; fz_rep : Z }.

Fixpoint finsert (x : freeze) (l : list freeze) : list freeze :=
  match l with
  | [] => [x]
  | a :: t => if fz_first x <=? fz_first a then x :: a :: t else a :: finsert x t
  end.
Definition fsort (l : list freeze) : list freeze := fold_right finsert [] l.

Definition mkFreeze (t : Z * Z * Z) : freeze :=
  let '(f, l, r) := t in
  let f := sat32 f in let l := sat32 l in let r := sat32 r in
  if l <? f then {| fz_first := l; fz_last := f; fz_rep := r |}
  else {| fz_first := f; fz_last := l; fz_rep := r |}.

Fixpoint overlap (l : list freeze) : bool :=
  match l with
  | a :: ((b :: _) as t) => (fz_first b <=? fz_last a) || overlap t
  | _ => false
  end.

Fixpoint freeze_find (l : list freeze) (n : Z) : Z :=
  match l with
  | [] => n
  | a :: t => if (fz_first a <=? n) && (n <=? fz_last a) then fz_rep a else freeze_find t n
  end.

Definition freeze_src (l : list freeze) (n : Z) : Z :=
  match l with
  | [] => n
  | a :: _ =>
    let b := last l a in
    if (fz_first a <=? n) && (n <=? fz_last b) then freeze_find l n else n
  end.

Definition freezeCreate (N : Z) (ranges : list (Z * Z * Z)) : created filter1 :=
  match ranges with
  | [] => CPass
  | _ =>
    let fs := map mkFreeze ranges in
    if negb (forallb (fun f => (0 <=? fz_first f) && (fz_last f <? N)
                               && (0 <=? fz_rep f) && (fz_rep f <? N)) fs) then CErr
    else let s := fsort fs in
         if overlap s then CErr
         else CFilter {| f_len := N; f_src := freeze_src s; f_rp := rpGeneral |}
  end.

(** Slices of sequences in Python: the language reference, and slice.indices. *)
From Coq Require Import ZArith List Bool.
From Verif Require Import Common.
Import ListNotations.
Open Scope Z_scope.

(** A bound: negative ones count from the end, and all are moved into [lo, hi]. *)
Definition bound (N lo hi x : Z) : Z := let y := if x <? 0 then x + N else x in Z.min hi (Z.max lo y).
(** The start and the stop of the slice for a sequence of [N] and a step [s]. *)
Definition sliceStart (N s : Z) (start : option Z) : Z :=
  match start with Some x => if 0 <? s then bound N 0 N x else bound N (-1) (N - 1) x | None => if 0 <? s then 0 else N - 1 end.
Definition sliceStop (N s : Z) (stop : option Z) : Z :=
  match stop with Some x => if 0 <? s then bound N 0 N x else bound N (-1) (N - 1) x | None => if 0 <? s then N else -1 end.
(** Item [i] of a slice is the one at [start + i * s], for all [i] for which this does not reach the stop. *)
Definition inSlice (N s : Z) (start stop : option Z) (i : Z) : Prop :=
  0 <= i /\ if 0 <? s then sliceStart N s start + i * s < sliceStop N s stop else sliceStop N s stop < sliceStart N s start + i * s.
Definition sliceItem (N s : Z) (start : option Z) (i : Z) : Z := sliceStart N s start + i * s.
(** [out] is the slice of [l]. *)
Definition isSlice {A} (l out : list A) (s : Z) (start stop : option Z) : Prop :=
  forall i, (inSlice (zlength l) s start stop i -> 0 <= sliceItem (zlength l) s start i < zlength l /\ 0 <= i < zlength out /\ nthz out i = nthz l (sliceItem (zlength l) s start i)) /\
            (0 <= i -> ~ inSlice (zlength l) s start stop i -> zlength out <= i).

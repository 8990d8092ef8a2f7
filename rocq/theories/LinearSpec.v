(** What a filter that wants to be asked for frames in order is promised. *)
From Coq Require Import ZArith List Lia.
Import ListNotations.
Open Scope Z_scope.

(** The numbers from [a] to [b]. *)
Definition upTo (a b : Z) : list Z := map (fun k => a + Z.of_nat k) (seq 0 (Z.to_nat (b - a + 1))).
(** [calls]: what the filter is called for in order to get frame [n], its previous call having been for [prev]; it is not made to go further than [window] ahead. *)
Definition goodCalls (window prev n : Z) (calls : list Z) : Prop :=
  if andb (prev <? n) (n <? prev + window) then calls = upTo (prev + 1) n else calls = [n].
(** A whole history of (frame asked for, calls made). *)
Fixpoint linear (window prev : Z) (h : list (Z * list Z)) : Prop :=
  match h with [] => True | (n, calls) :: r => goodCalls window prev n calls /\ linear window (last calls prev) r end.
(** The calls alone: one further, back, or far ahead, never over a small gap. *)
Fixpoint noGap (window prev : Z) (calls : list Z) : Prop :=
  match calls with [] => True | c :: r => (c = prev + 1 \/ c <= prev \/ prev + window <= c) /\ noGap window c r end.

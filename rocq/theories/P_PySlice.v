(** C104: indexing and slicing clips in Python. *)
From Coq Require Import ZArith List Bool Lia.
From Verif Require Import Common Reorder PySlice PySliceSpec PySliceFacts.
Import ListNotations.
Open Scope Z_scope.

Theorem C104_slice : forall A (l : list A) start stop step, 0 < zlength l <= INT_MAX -> stepOf step <> 0 -> Z.abs (stepOf step) <= INT64_MAX ->
  inSlice (zlength l) (stepOf step) start stop 0 ->
  exists out, getSlice l start stop step = POk out /\ isSlice l out (stepOf step) start stop.
Proof. exact getSlice_ok. Qed.
Theorem C104_empty : forall A (l : list A) start stop step, 0 < zlength l <= INT_MAX ->
  ~ inSlice (zlength l) (stepOf step) start stop 0 -> stepOf step <> 0 -> getSlice l start stop step = PRaise FilterError.
Proof. exact getSlice_empty. Qed.
Theorem C104_overflow : forall A (l : list A) start stop step, 0 < zlength l <= INT_MAX -> INT64_MAX < Z.abs (stepOf step) ->
  inSlice (zlength l) (stepOf step) start stop 0 -> getSlice l start stop step = PRaise OverflowError.
Proof. exact getSlice_overflow. Qed.
Theorem C104_zero : forall A (l : list A) start stop, getSlice l start stop (Some 0) = PRaise ValueError.
Proof. exact getSlice_zero. Qed.
Theorem C104_index : forall A (l : list A) v, 0 < zlength l <= INT_MAX ->
  (- zlength l <= v < zlength l -> exists x, getIndex l v = POk [x] /\ nthz l (if v <? 0 then zlength l + v else v) = Some x) /\
  (~ (- zlength l <= v < zlength l) -> getIndex l v = PRaise IndexError).
Proof. exact getIndex_spec. Qed.

Definition clip7 : list Z := [10; 11; 12; 13; 14; 15; 16].
Example C104_ex1 : getSlice clip7 (Some 1) (Some 6) (Some 2) = POk [11; 13; 15]. Proof. reflexivity. Qed.
Example C104_ex2 : getSlice clip7 None None (Some (-3)) = POk [16; 13; 10]. Proof. reflexivity. Qed.
Example C104_ex3 : getSlice clip7 (Some (-2)) (Some 100) None = POk [15; 16]. Proof. reflexivity. Qed.
Example C104_ex4 : getSlice clip7 (Some 3) (Some 3) None = PRaise FilterError. Proof. reflexivity. Qed.
Example C104_ex5 : getSlice clip7 (Some 5) (Some 1) (Some (-1)) = POk [15; 14; 13; 12]. Proof. reflexivity. Qed.
Example C104_ex6 : getIndex clip7 (-1) = POk [16]. Proof. reflexivity. Qed.
Example C104_ex7 : getIndex clip7 7 = PRaise IndexError /\ getIndex clip7 (-8) = PRaise IndexError. Proof. split; reflexivity. Qed.
Example C104_in : inSlice 7 2 (Some 1) (Some 6) 0. Proof. unfold inSlice. simpl. vm_compute. split; [discriminate | reflexivity]. Qed.
Print Assumptions C104_slice.
Print Assumptions C104_empty.
Print Assumptions C104_overflow.
Print Assumptions C104_zero.
Print Assumptions C104_index.

(** What blending two samples means, independent of any kernel. *)
From Coq Require Import ZArith List Lia Bool.
Open Scope Z_scope.

(** [q] is an integer nearest to the exact quotient n/d. *)
Definition nearest (n d q : Z) : Prop := 2 * Z.abs (q * d - n) <= d.

Definition between (a b x : Z) : Prop := Z.min a b <= x <= Z.max a b.

(** Samples of an integer format with [depth] bits. *)
Definition sample (depth x : Z) : Prop := 0 <= x < 2 ^ depth.

Definition maxOf (depth : Z) : Z := 2 ^ depth - 1.

(** Nearest representable sample to an arbitrary integer. *)
Definition clampTo (depth x : Z) : Z := Z.max 0 (Z.min (maxOf depth) x).

(** With an odd divisor there are no ties, so "nearest" determines the result. *)
Lemma nearest_unique : forall n d q q', 0 < d -> d mod 2 = 1 ->
  nearest n d q -> nearest n d q' -> q = q'.
Proof.
  unfold nearest; intros n d q q' Hd Ho H1 H2.
  pose proof (Z.div_mod d 2 ltac:(lia)) as E. rewrite Ho in E.
  remember (d / 2) as k eqn:Ek.
  assert (Hk : Z.abs (q * d - n) <= k) by lia.
  assert (Hk' : Z.abs (q' * d - n) <= k) by lia.
  assert (Z.abs ((q - q') * d) <= 2 * k).
  { replace ((q - q') * d) with ((q * d - n) - (q' * d - n)) by ring. lia. }
  nia.
Qed.

Example nearest_ex1 : nearest 127 255 0. Proof. unfold nearest; lia. Qed.
Example nearest_ex2 : nearest 128 255 1. Proof. unfold nearest; lia. Qed.
Example nearest_ex3 : ~ nearest 128 255 0. Proof. unfold nearest; lia. Qed.
Example clampTo_ex : clampTo 8 300 = 255 /\ clampTo 8 (-3) = 0 /\ clampTo 8 77 = 77.
Proof. vm_compute; auto. Qed.

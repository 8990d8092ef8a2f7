(** The registers at the left and the right border: a sample moved in. *)
From Coq Require Import ZArith List Lia Bool.
From Verif Require Import Common PlaneMem GenericOps Simd GenericSimd GenericSimdLanes.
Import ListNotations.
Open Scope Z_scope.

Definition nlanes (B : backend) (k : Z) : nat := Z.to_nat (lanes B k).

Lemma lor0 : forall x, orL x 0 = x.
Proof. intros. apply Z.lor_0_r. Qed.
Lemma lor0' : forall x, orL 0 x = x.
Proof. intros. apply Z.lor_0_l. Qed.
Lemma rejoin : forall x, join8 (x mod 256) (x / 256) = x.
Proof. intros x. unfold join8. pose proof (Z.div_mod x 256 ltac:(lia)). lia. Qed.
Lemma join00 : join8 0 0 = 0.
Proof. reflexivity. Qed.


Lemma shl_bytes : forall B x y, known B -> length x = (16 * be_nb B)%nat -> shlInsert B 1 x y = y :: firstn (16 * be_nb B - 1) x.
Proof.
  intros B x y [->|[->| ->]] L; cbn [be_nb sse2 avx2 avx512 Nat.mul Nat.add] in L.
  all: do 16 (destruct x as [|? x]; [discriminate|]).
  - destruct x; [|discriminate]. cbv -[orL]. rewrite ?lor0, ?lor0'. reflexivity.
  - do 16 (destruct x as [|? x]; [discriminate|]). destruct x; [|discriminate]. cbv -[orL]. rewrite ?lor0, ?lor0'. reflexivity.
  - do 48 (destruct x as [|? x]; [discriminate|]). destruct x; [|discriminate]. cbv -[orL]. rewrite ?lor0, ?lor0'. reflexivity.
Qed.
Lemma shl_words : forall B x y, known B -> length x = (8 * be_nb B)%nat -> shlInsert B 2 x y = y :: firstn (8 * be_nb B - 1) x.
Proof.
  intros B x y [->|[->| ->]] L; cbn [be_nb sse2 avx2 avx512 Nat.mul Nat.add] in L.
  all: do 8 (destruct x as [|? x]; [discriminate|]).
  - destruct x; [|discriminate]. cbv -[orL join8 Z.modulo Z.div]. rewrite ?lor0, ?lor0', ?rejoin. reflexivity.
  - do 8 (destruct x as [|? x]; [discriminate|]). destruct x; [|discriminate]. cbv -[orL join8 Z.modulo Z.div]. rewrite ?lor0, ?lor0', ?rejoin. reflexivity.
  - do 24 (destruct x as [|? x]; [discriminate|]). destruct x; [|discriminate]. cbv -[orL join8 Z.modulo Z.div]. rewrite ?lor0, ?lor0', ?rejoin. reflexivity.
Qed.

Lemma shr_bytes : forall B x, known B -> length x = (16 * be_nb B)%nat -> shrWhole B 1 x = skipn 1 x ++ [0].
Proof.
  intros B x [->|[->| ->]] L; cbn [be_nb sse2 avx2 avx512 Nat.mul Nat.add] in L.
  all: do 16 (destruct x as [|? x]; [discriminate|]).
  - destruct x; [|discriminate]. cbv -[orL]. rewrite ?lor0, ?lor0'. reflexivity.
  - do 16 (destruct x as [|? x]; [discriminate|]). destruct x; [|discriminate]. cbv -[orL]. rewrite ?lor0, ?lor0'. reflexivity.
  - do 48 (destruct x as [|? x]; [discriminate|]). destruct x; [|discriminate]. cbv -[orL]. rewrite ?lor0, ?lor0'. reflexivity.
Qed.
Lemma shr_words : forall B x, known B -> length x = (8 * be_nb B)%nat -> ofBytes 2 (shrWhole B 2 (toBytes 2 x)) = skipn 1 x ++ [0].
Proof.
  intros B x [->|[->| ->]] L; cbn [be_nb sse2 avx2 avx512 Nat.mul Nat.add] in L.
  all: do 8 (destruct x as [|? x]; [discriminate|]).
  - destruct x; [|discriminate]. cbv -[orL join8 Z.modulo Z.div]. rewrite ?lor0, ?lor0', ?rejoin, ?join00. reflexivity.
  - do 8 (destruct x as [|? x]; [discriminate|]). destruct x; [|discriminate]. cbv -[orL join8 Z.modulo Z.div]. rewrite ?lor0, ?lor0', ?rejoin, ?join00. reflexivity.
  - do 24 (destruct x as [|? x]; [discriminate|]). destruct x; [|discriminate]. cbv -[orL join8 Z.modulo Z.div]. rewrite ?lor0, ?lor0', ?rejoin, ?join00. reflexivity.
Qed.

Lemma zip_length : forall {A B C} (f : A -> B -> C) a b, length a = length b -> length (zip f a b) = length a.
Proof. intros A B C f. induction a as [|x a IH]; destruct b as [|y b]; intros E; try discriminate; [reflexivity|]. cbn [zip length] in *. f_equal. apply IH. lia. Qed.
Lemma nth_zip_seq : forall (f : nat -> Z -> Z) b s i d, (i < length b)%nat -> nth i (zip f (seq s (length b)) b) d = f (s + i)%nat (nth i b 0).
Proof.
  intros f. induction b as [|y b IH]; intros s i d I; [cbn in I; lia|]. cbn [length seq zip]. destruct i as [|i].
  - cbn [nth]. rewrite Nat.add_0_r. reflexivity.
  - cbn [nth]. cbn [length] in I. rewrite IH by lia. f_equal. lia.
Qed.

Lemma lanes_nat : forall B k, smallk k -> nlanes B k = (if (k =? 1)%Z then 16 * be_nb B else 8 * be_nb B)%nat.
Proof. intros B k [->| ->]; unfold nlanes, lanes; cbn [Z.eqb Pos.eqb]; lia. Qed.

Lemma shl_spec : forall B k x y, known B -> smallk k -> length x = nlanes B k ->
  length (shlInsert B k x y) = nlanes B k /\
  forall i, (i < nlanes B k)%nat -> nth i (shlInsert B k x y) 0 = match i with O => y | S j => nth j x 0 end.
Proof.
  intros B k x y KB K L.
  assert (E : shlInsert B k x y = y :: firstn (nlanes B k - 1) x).
  { rewrite lanes_nat in * by exact K. destruct K as [->| ->]; cbn [Z.eqb Pos.eqb] in *; [apply shl_bytes | apply shl_words]; assumption. }
  assert (N : (0 < nlanes B k)%nat) by (rewrite lanes_nat by exact K; destruct KB as [->|[->| ->]], K as [->| ->]; cbn; lia).
  rewrite E. split.
  - cbn [length]. rewrite firstn_length. lia.
  - intros [|j] I; [reflexivity|]. cbn [nth]. rewrite <- (firstn_skipn (nlanes B k - 1) x) at 2. rewrite app_nth1; [reflexivity|]. rewrite firstn_length. lia.
Qed.

Lemma shr_spec : forall B k x y idx, known B -> smallk k -> length x = nlanes B k -> 0 <= idx < lanes B k ->
  length (shrInsert B k x y idx) = nlanes B k /\
  forall i, (i < nlanes B k)%nat -> nth i (shrInsert B k x y idx) 0 = if Z.of_nat i =? idx then y else nth (S i) x 0.
Proof.
  intros B k x y idx KB K L I.
  assert (E : ofBytes k (shrWhole B (Z.to_nat k) (toBytes k x)) = skipn 1 x ++ [0]).
  { rewrite lanes_nat in * by exact K. destruct K as [->| ->]; cbn [Z.eqb Pos.eqb] in *; [apply shr_bytes | apply shr_words]; assumption. }
  assert (N : (0 < nlanes B k)%nat) by (rewrite lanes_nat by exact K; destruct KB as [->|[->| ->]], K as [->| ->]; cbn; lia).
  assert (M : idx mod 256 ^ k = idx).
  { apply Z.mod_small. pose proof (smallk_pow k K). split; [lia|].
    assert (lanes B k <= 64) by (destruct KB as [->|[->| ->]], K as [->| ->]; cbn; lia). lia. }
  assert (LM : length (skipn 1 x ++ [0]) = length x) by (rewrite app_length, skipn_length; cbn [length]; lia).
  unfold shrInsert. rewrite E, M, <- LM. split.
  - rewrite zip_length; rewrite seq_length; [|reflexivity]. congruence.
  - intros i J. rewrite nth_zip_seq by (rewrite LM; lia). cbn [Nat.add]. destruct (Z.of_nat i =? idx); [reflexivity|].
    destruct x as [|v x]; [cbn in L; lia|]. cbn [skipn nth]. cbn [length] in L. destruct (Nat.eq_dec i (length x)) as [->|Q].
    + rewrite app_nth2, Nat.sub_diag by lia. symmetry. apply nth_overflow. lia.
    + rewrite app_nth1 by lia. reflexivity.
Qed.

(** Finite sums over [0..n-1], pointer counting and function update, used by the
    reference counting models. *)
From Coq Require Import ZArith List Lia Bool.
Import ListNotations.
Open Scope Z_scope.

Definition fset {B} (f : nat -> B) (k : nat) (b : B) : nat -> B :=
  fun x => if Nat.eqb x k then b else f x.

Lemma fset_same : forall B (f : nat -> B) k b, fset f k b k = b.
Proof. intros. unfold fset. rewrite Nat.eqb_refl. reflexivity. Qed.
Lemma fset_other : forall B (f : nat -> B) k b x, x <> k -> fset f k b x = f x.
Proof. intros. unfold fset. apply Nat.eqb_neq in H. rewrite H. reflexivity. Qed.

(** ** Sums *)
Fixpoint sumto (n : nat) (g : nat -> Z) : Z := match n with O => 0 | S m => sumto m g + g m end.

Lemma sumto_ext : forall n g g', (forall x, (x < n)%nat -> g x = g' x) -> sumto n g = sumto n g'.
Proof. induction n; simpl; intros; auto. rewrite (IHn g g'), H; auto. Qed.
Lemma sumto_upd : forall n i g g', (i < n)%nat -> (forall x, x <> i -> g' x = g x) ->
  sumto n g' = sumto n g - g i + g' i.
Proof.
  induction n; intros i g g' Hi H; [lia|]. simpl. destruct (Nat.eq_dec i n).
  - subst. rewrite (sumto_ext n g' g); [lia|]. intros. apply H. lia.
  - rewrite (IHn i g g'); [|lia|auto]. rewrite (H n); auto. lia.
Qed.
Lemma sumto_nonneg : forall n g, (forall x, 0 <= g x) -> 0 <= sumto n g.
Proof. induction n; simpl; intros; [lia|]. specialize (IHn g H). specialize (H n). lia. Qed.
Lemma sumto_ge : forall n i g, (forall x, 0 <= g x) -> (i < n)%nat -> g i <= sumto n g.
Proof.
  induction n; intros i g H Hi; [lia|]. simpl. pose proof (sumto_nonneg n g H). pose proof (H n).
  destruct (Nat.eq_dec i n); [subst; lia|]. specialize (IHn i g H ltac:(lia)). lia.
Qed.
Lemma sumto_ge2 : forall n i j g, (forall x, 0 <= g x) -> (i < n)%nat -> (j < n)%nat -> i <> j -> g i + g j <= sumto n g.
Proof.
  induction n; intros i j g H Hi Hj Hne; [lia|]. simpl. pose proof (H n).
  destruct (Nat.eq_dec i n).
  - subst. pose proof (sumto_ge n j g H ltac:(lia)). lia.
  - destruct (Nat.eq_dec j n).
    + subst. pose proof (sumto_ge n i g H ltac:(lia)). lia.
    + specialize (IHn i j g H ltac:(lia) ltac:(lia) Hne). lia.
Qed.
Lemma sumto_zero : forall n g, (forall x, (x < n)%nat -> g x = 0) -> sumto n g = 0.
Proof. induction n; simpl; intros; auto. rewrite IHn, H; auto; lia. Qed.

(** ** Counting pointers *)
Definition d (a b : nat) : Z := if Nat.eqb a b then 1 else 0.
Definition cntl (a : nat) (l : list nat) : Z := Z.of_nat (count_occ Nat.eq_dec l a).

Lemma d_same : forall a, d a a = 1.
Proof. intros. unfold d. rewrite Nat.eqb_refl. reflexivity. Qed.
Lemma d_nonneg : forall a b, 0 <= d a b.
Proof. intros. unfold d. destruct (Nat.eqb a b); lia. Qed.
Lemma d_other : forall a b, a <> b -> d a b = 0.
Proof. intros. unfold d. apply Nat.eqb_neq in H. rewrite H. reflexivity. Qed.
Lemma cntl_nonneg : forall a l, 0 <= cntl a l.
Proof. intros. unfold cntl. lia. Qed.
Lemma cntl_cons : forall a b l, cntl a (b :: l) = d a b + cntl a l.
Proof.
  intros. unfold cntl, d. simpl. destruct (Nat.eq_dec b a).
  - subst. rewrite Nat.eqb_refl. lia.
  - destruct (Nat.eqb_spec a b); [congruence|]. lia.
Qed.
Lemma cntl_in : forall a l, In a l -> 1 <= cntl a l.
Proof. intros. unfold cntl. apply (count_occ_In Nat.eq_dec) in H. lia. Qed.
Lemma cntl_notin : forall a l, ~ In a l -> cntl a l = 0.
Proof. intros. unfold cntl. apply (count_occ_not_In Nat.eq_dec) in H. lia. Qed.
Lemma cntl_app : forall a l1 l2, cntl a (l1 ++ l2) = cntl a l1 + cntl a l2.
Proof. intros. unfold cntl. rewrite count_occ_app. lia. Qed.

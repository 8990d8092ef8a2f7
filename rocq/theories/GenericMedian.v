(** The median network selects the fifth smallest of nine, for every strict weak order. *)
From Coq Require Import ZArith List Lia Bool Permutation Sorted.
From Verif Require Import Common ImageSpec GenericSpec Generic.
Import ListNotations.
Open Scope Z_scope.

Definition count {A} (f : A -> bool) (l : list A) : Z := zlength (filter f l).

Lemma count_cons : forall A (f : A -> bool) x l, count f (x :: l) = (if f x then 1 else 0) + count f l.
Proof. intros. unfold count. cbn [filter]. destruct (f x); [rewrite zlength_cons|]; lia. Qed.
Lemma count_nonneg : forall A (f : A -> bool) l, 0 <= count f l.
Proof. intros. unfold count. apply zlength_nonneg. Qed.
Lemma count_perm : forall A (f : A -> bool) l l', Permutation l l' -> count f l = count f l'.
Proof.
  intros A f l l' P. induction P; [reflexivity | rewrite !count_cons, IHP; reflexivity | rewrite !count_cons; lia | congruence].
Qed.

Definition ltB (b c : bool) : bool := negb b && c.

Lemma median_bool : forall b1 b2 b3 b4 b5 b6 b7 b8 b9,
  median9 ltB b1 b2 b3 b4 b5 b6 b7 b8 b9 = (5 <=? count (fun b => b) [b1; b2; b3; b4; b5; b6; b7; b8; b9]).
Proof. intros [] [] [] [] [] [] [] [] []; vm_compute; reflexivity. Qed.

Section Order.
Variable T : Type.
Variable lt : T -> T -> bool.
Hypothesis irrefl : forall x, lt x x = false.
Hypothesis negtrans : forall x y z, lt x y = false -> lt y z = false -> lt x z = false.
Hypothesis asym : forall x y, lt x y = true -> lt y x = false.

(** Predicates that hold upwards. *)
Definition upward (f : T -> bool) : Prop := forall x y, lt y x = false -> f x = true -> f y = true.

Lemma cex_bool : forall f, upward f -> forall a b, 
  let '(x, y) := cex lt a b in let '(u, v) := cex ltB (f a) (f b) in f x = u /\ f y = v.
Proof.
  intros f U a b. unfold cex, tmin, tmax, ltB. destruct (lt b a) eqn:E1; destruct (lt a b) eqn:E2.
  - rewrite (asym _ _ E1) in E2. discriminate.
  - destruct (f b) eqn:B; destruct (f a) eqn:A; cbn [negb andb]; auto.
    exfalso. rewrite (U b a (asym _ _ E1) B) in A. discriminate.
  - destruct (f b) eqn:B; destruct (f a) eqn:A; cbn [negb andb]; auto.
    exfalso. rewrite (U a b (asym _ _ E2) A) in B. discriminate.
  - destruct (f b) eqn:B; destruct (f a) eqn:A; cbn [negb andb]; auto.
    + exfalso. rewrite (U b a E2 B) in A. discriminate.
    + exfalso. rewrite (U a b E1 A) in B. discriminate.
Qed.

Lemma median_up : forall f, upward f -> forall a1 a2 a3 a4 a5 a6 a7 a8 a9,
  f (median9 lt a1 a2 a3 a4 a5 a6 a7 a8 a9) = median9 ltB (f a1) (f a2) (f a3) (f a4) (f a5) (f a6) (f a7) (f a8) (f a9).
Proof.
  intros f U. intros. unfold median9.
  repeat match goal with
  | |- context [cex lt ?a ?b] =>
      pose proof (cex_bool f U a b); destruct (cex lt a b) as (?x & ?y); destruct (cex ltB (f a) (f b)) as (?u & ?v);
      match goal with H : _ /\ _ |- _ => destruct H; subst end
  end. reflexivity.
Qed.

Lemma cex_in : forall (l : list T) a b, In a l -> In b l -> let '(x, y) := cex lt a b in In x l /\ In y l.
Proof. intros l a b A B. unfold cex, tmin, tmax. destruct (lt b a); destruct (lt a b); auto. Qed.

Lemma median_in : forall a1 a2 a3 a4 a5 a6 a7 a8 a9,
  In (median9 lt a1 a2 a3 a4 a5 a6 a7 a8 a9) [a1; a2; a3; a4; a5; a6; a7; a8; a9].
Proof.
  intros. remember [a1; a2; a3; a4; a5; a6; a7; a8; a9] as l.
  assert (A : In a1 l /\ In a2 l /\ In a3 l /\ In a4 l /\ In a5 l /\ In a6 l /\ In a7 l /\ In a8 l /\ In a9 l) by (subst; cbn; tauto).
  clear Heql. destruct A as (? & ? & ? & ? & ? & ? & ? & ? & ?). unfold median9.
  repeat match goal with
  | |- context [cex lt ?a ?b] =>
      pose proof (cex_in l a b ltac:(assumption) ltac:(assumption)); destruct (cex lt a b) as (?x & ?y);
      match goal with H : _ /\ _ |- _ => destruct H end
  end. assumption.
Qed.

Theorem median_order : forall a1 a2 a3 a4 a5 a6 a7 a8 a9,
  let l := [a1; a2; a3; a4; a5; a6; a7; a8; a9] in let m := median9 lt a1 a2 a3 a4 a5 a6 a7 a8 a9 in
  In m l /\ count (fun x => lt x m) l <= 4 /\ count (fun x => lt m x) l <= 4.
Proof.
  intros. split; [apply median_in|].
  assert (G : forall f, upward f -> f m = (5 <=? count f l)).
  { intros f U. subst l m. rewrite (median_up f U), median_bool. f_equal. unfold count. cbn [filter].
    destruct (f a1), (f a2), (f a3), (f a4), (f a5), (f a6), (f a7), (f a8), (f a9); reflexivity. }
  split.
  - assert (U : upward (fun x => negb (lt x m))).
    { intros x y XY H. apply negb_true_iff in H. apply negb_true_iff. eapply negtrans; eassumption. }
    specialize (G _ U). cbv beta in G. rewrite irrefl in G. symmetry in G. apply Z.leb_le in G.
    assert (C : count (fun x => lt x m) l + count (fun x => negb (lt x m)) l = 9).
    { subst l. rewrite !count_cons. clear. unfold count. cbn [filter zlength length].
      repeat match goal with |- context [negb (lt ?a m)] => destruct (lt a m); cbn [negb] end; reflexivity. }
    lia.
  - assert (U : upward (fun x => lt m x)).
    { intros x y XY H. destruct (lt m y) eqn:E; [reflexivity|]. rewrite (negtrans _ _ _ E XY) in H. discriminate. }
    specialize (G _ U). cbv beta in G. rewrite irrefl in G. symmetry in G. apply Z.leb_gt in G. lia.
Qed.
End Order.

(** ** Integers *)

Lemma insert_perm : forall x l, Permutation (x :: l) (insert x l).
Proof.
  intros x. induction l as [|y l IH]; cbn [insert]; [reflexivity|]. destruct (x <=? y); [reflexivity|].
  rewrite perm_swap. constructor. exact IH.
Qed.
Lemma sorted_perm : forall l, Permutation l (sorted l).
Proof.
  induction l as [|x l IH]; [reflexivity|]. unfold sorted. cbn [fold_right]. rewrite <- insert_perm. constructor. exact IH.
Qed.
Lemma insert_sorted : forall x l, StronglySorted Z.le l -> StronglySorted Z.le (insert x l).
Proof.
  intros x. induction l as [|y l IH]; intros S; cbn [insert]; [repeat constructor|].
  inversion S as [|? ? S1 S2]; subst. destruct (Z.leb_spec x y).
  - constructor; [exact S|]. constructor; [lia|]. rewrite Forall_forall in *. intros z Z. specialize (S2 z Z). lia.
  - constructor; [auto|]. rewrite Forall_forall in *. intros z Z.
    apply (Permutation_in _ (Permutation_sym (insert_perm x l))) in Z. destruct Z as [<-|Z]; [lia | auto].
Qed.
Lemma sorted_sorted : forall l, StronglySorted Z.le (sorted l).
Proof. induction l as [|x l IH]; [constructor|]. unfold sorted. cbn [fold_right]. apply insert_sorted. exact IH. Qed.

Lemma fifth_unique : forall l m, zlength l = 9 -> count (fun x => x <? m) l <= 4 -> count (fun x => m <? x) l <= 4 -> fifth l = m.
Proof.
  intros l m L C1 C2. unfold fifth. pose proof (sorted_perm l) as P. pose proof (sorted_sorted l) as S.
  rewrite (count_perm _ _ _ _ P) in C1. rewrite (count_perm _ _ _ _ P) in C2.
  assert (LS : length (sorted l) = 9%nat) by (rewrite <- (Permutation_length P); unfold zlength in L; lia).
  destruct (sorted l) as [|s0 [|s1 [|s2 [|s3 [|s4 [|s5 [|s6 [|s7 [|s8 [|? ?]]]]]]]]]]; try discriminate LS. clear P LS L. cbn [nth].
  repeat match goal with
  | H : StronglySorted Z.le (_ :: _) |- _ => apply StronglySorted_inv in H; destruct H
  | H : Forall _ (_ :: _) |- _ => apply Forall_cons_iff in H; destruct H
  end.
  rewrite !count_cons in C1, C2.
  pose proof (count_nonneg _ (fun x => x <? m) []) as N1. pose proof (count_nonneg _ (fun x => m <? x) []) as N2.
  assert (Q : s4 < m \/ s4 = m \/ m < s4) by lia. destruct Q as [Q|[Q|Q]]; [| exact Q |]; exfalso.
  - repeat match goal with H : context [?a <? m] |- _ => destruct (Z.ltb_spec a m); try lia end.
  - clear C1. unfold count in C2. cbn [filter] in C2. change (zlength (@nil Z)) with 0 in C2.
    repeat match goal with H : context [m <? ?a] |- _ => destruct (Z.ltb_spec m a); try lia end.
Qed.

Lemma median_Z : forall a1 a2 a3 a4 a5 a6 a7 a8 a9,
  median9 Z.ltb a1 a2 a3 a4 a5 a6 a7 a8 a9 = fifth [a1; a2; a3; a4; a5; a6; a7; a8; a9].
Proof.
  intros. destruct (median_order Z Z.ltb) with (a1 := a1) (a2 := a2) (a3 := a3) (a4 := a4) (a5 := a5) (a6 := a6) (a7 := a7) (a8 := a8) (a9 := a9) as (I & C1 & C2).
  - intros. apply Z.ltb_irrefl.
  - intros x y z. rewrite !Z.ltb_ge. lia.
  - intros x y. rewrite Z.ltb_lt, Z.ltb_ge. lia.
  - symmetry. apply fifth_unique; [reflexivity | exact C1 | exact C2].
Qed.

Lemma medianOp_spec : forall l, zlength l = 9 -> medianOp l = Ok (fifth l).
Proof.
  intros l L.
  destruct l as [|s0 [|s1 [|s2 [|s3 [|s4 [|s5 [|s6 [|s7 [|s8 [|? ?]]]]]]]]]]; try (unfold zlength in L; cbn [length] in L; lia).
  unfold medianOp. rewrite median_Z. reflexivity.
Qed.

Lemma fifth_in : forall l, zlength l = 9 -> In (fifth l) l.
Proof.
  intros l L. unfold fifth. eapply Permutation_in; [apply Permutation_sym, sorted_perm|]. apply nth_In.
  rewrite <- (Permutation_length (sorted_perm l)). unfold zlength in L. lia.
Qed.

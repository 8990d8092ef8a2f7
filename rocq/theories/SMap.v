(** Ordered maps with string keys: std::map<std::string, T> as a sorted
    association list.  Ordering is byte-wise, then by length, as std::string's. *)
From Coq Require Import ZArith List Lia Bool String Ascii Sorting.Sorted.
Import ListNotations.

Definition smap (A : Type) := list (string * A).

Fixpoint mput {A} (k : string) (v : A) (m : smap A) : smap A :=
  match m with
  | [] => [(k, v)]
  | (k', v') :: t =>
    match String.compare k k' with
    | Eq => (k, v) :: t
    | Lt => (k, v) :: m
    | Gt => (k', v') :: mput k v t
    end
  end.
Fixpoint mdel {A} (k : string) (m : smap A) : smap A :=
  match m with
  | [] => []
  | (k', v') :: t => if String.eqb k k' then t else (k', v') :: mdel k t
  end.
Fixpoint mget {A} (k : string) (m : smap A) : option A :=
  match m with
  | [] => None
  | (k', v') :: t => if String.eqb k k' then Some v' else mget k t
  end.

Definition klt {A} (a b : string * A) : Prop := String.compare (fst a) (fst b) = Lt.
Definition msorted {A} (m : smap A) : Prop := StronglySorted klt m.

Lemma ascii_lt_trans : forall a b c, Ascii.compare a b = Lt -> Ascii.compare b c = Lt -> Ascii.compare a c = Lt.
Proof.
  unfold Ascii.compare. intros a b c H1 H2. rewrite N.compare_lt_iff in *. eapply N.lt_trans; eauto.
Qed.
Lemma ascii_refl : forall a, Ascii.compare a a = Eq.
Proof. intros. unfold Ascii.compare. apply N.compare_refl. Qed.

Lemma scmp_refl : forall s, String.compare s s = Eq.
Proof. induction s; simpl; auto. rewrite ascii_refl. auto. Qed.

Lemma scmp_trans : forall a b c, String.compare a b = Lt -> String.compare b c = Lt -> String.compare a c = Lt.
Proof.
  induction a as [|x a IH]; intros [|y b] [|z c]; simpl; try discriminate; auto.
  destruct (Ascii.compare x y) eqn:E1; try discriminate; destruct (Ascii.compare y z) eqn:E2; try discriminate; intros.
  - apply Ascii.compare_eq_iff in E1, E2. subst. rewrite ascii_refl. eauto.
  - apply Ascii.compare_eq_iff in E1. subst. rewrite E2. auto.
  - apply Ascii.compare_eq_iff in E2. subst. rewrite E1. auto.
  - rewrite (ascii_lt_trans _ _ _ E1 E2). auto.
Qed.

Lemma scmp_gt : forall a b, String.compare a b = Gt -> String.compare b a = Lt.
Proof. intros. rewrite String.compare_antisym, H. auto. Qed.

Lemma mput_in : forall A k (v : A) m p, In p (mput k v m) -> p = (k, v) \/ In p m.
Proof.
  induction m as [|[k' v'] t IH]; simpl; intros p H; [intuition|].
  destruct (String.compare k k'); simpl in H; intuition. apply IH in H0. intuition.
Qed.

Lemma mput_sorted : forall A k (v : A) m, msorted m -> msorted (mput k v m).
Proof.
  induction m as [|[k' v'] t IH]; simpl; intros H.
  - repeat constructor.
  - inversion H; subst. destruct (String.compare k k') eqn:E.
    + apply String.compare_eq_iff in E. subst. constructor; auto.
    + constructor; auto. constructor; auto. rewrite Forall_forall in *. intros p Hp. unfold klt in *. simpl.
      eapply scmp_trans; [exact E|]. apply H3 in Hp. auto.
    + constructor; [apply IH; auto|]. rewrite Forall_forall in *. intros p Hp. apply mput_in in Hp.
      destruct Hp as [->|Hp]; auto. unfold klt. simpl. apply scmp_gt; auto.
Qed.

Lemma mdel_in : forall A k (m : smap A) p, In p (mdel k m) -> In p m.
Proof.
  induction m as [|[k' v'] t IH]; simpl; intros p H; auto. destruct (String.eqb k k'); simpl in *; intuition.
Qed.
Lemma mdel_sorted : forall A k (m : smap A), msorted m -> msorted (mdel k m).
Proof.
  induction m as [|[k' v'] t IH]; simpl; intros H; auto. inversion H; subst.
  destruct (String.eqb k k'); auto. constructor; [apply IH; auto|]. rewrite Forall_forall in *. intros p Hp.
  apply H3. eapply mdel_in; eauto.
Qed.

Lemma mget_put_same : forall A k (v : A) m, mget k (mput k v m) = Some v.
Proof.
  induction m as [|[k' v'] t IH]; simpl.
  - rewrite String.eqb_refl. auto.
  - destruct (String.compare k k') eqn:E; simpl; try rewrite String.eqb_refl; auto.
    destruct (String.eqb_spec k k'); auto. subst. rewrite scmp_refl in E. discriminate.
Qed.
Lemma mget_put_other : forall A k k2 (v : A) m, k2 <> k -> mget k2 (mput k v m) = mget k2 m.
Proof.
  induction m as [|[k' v'] t IH]; simpl; intros H.
  - destruct (String.eqb_spec k2 k); congruence.
  - destruct (String.compare k k') eqn:E; simpl.
    + apply String.compare_eq_iff in E. subst. destruct (String.eqb_spec k2 k'); congruence.
    + destruct (String.eqb_spec k2 k); congruence.
    + rewrite IH; auto.
Qed.

Lemma mget_in : forall A k (m : smap A) v, mget k m = Some v -> In (k, v) m.
Proof.
  induction m as [|[k' v'] t IH]; simpl; intros v H; [discriminate|].
  destruct (String.eqb_spec k k'); subst; [inversion H; auto|auto].
Qed.
Lemma mget_below : forall A k (m : smap A), (forall p, In p m -> String.compare k (fst p) = Lt) -> mget k m = None.
Proof.
  induction m as [|[k' v'] t IH]; simpl; intros H; auto.
  destruct (String.eqb_spec k k').
  - subst. specialize (H (k', v') (or_introl eq_refl)). simpl in H. rewrite scmp_refl in H. discriminate.
  - apply IH. intros. apply H. auto.
Qed.
Lemma mget_del_same : forall A k (m : smap A), msorted m -> mget k (mdel k m) = None.
Proof.
  induction m as [|[k' v'] t IH]; simpl; intros H; auto. inversion H; subst.
  destruct (String.eqb_spec k k').
  - subst. apply mget_below. intros p Hp. rewrite Forall_forall in H3. apply H3 in Hp. auto.
  - simpl. destruct (String.eqb_spec k k'); [contradiction|]. apply IH; auto.
Qed.
Lemma mget_del_other : forall A k k2 (m : smap A), k2 <> k -> mget k2 (mdel k m) = mget k2 m.
Proof.
  induction m as [|[k' v'] t IH]; simpl; intros H; auto.
  destruct (String.eqb_spec k k').
  - subst. destruct (String.eqb_spec k2 k'); congruence.
  - simpl. rewrite IH; auto.
Qed.

Lemma mget_map : forall A B (f : A -> B) k m, mget k (map (fun p => (fst p, f (snd p))) m) = option_map f (mget k m).
Proof. induction m as [|[k' v'] t IH]; simpl; auto. destruct (String.eqb k k'); auto. Qed.
Lemma mput_map : forall A B (f : A -> B) k v m,
  map (fun p => (fst p, f (snd p))) (mput k v m) = mput k (f v) (map (fun p => (fst p, f (snd p))) m).
Proof.
  induction m as [|[k' v'] t IH]; simpl; auto. destruct (String.compare k k'); simpl; auto. rewrite IH. auto.
Qed.
Lemma mdel_map : forall A B (f : A -> B) k m,
  map (fun p => (fst p, f (snd p))) (mdel k m) = mdel k (map (fun p => (fst p, f (snd p))) m).
Proof. induction m as [|[k' v'] t IH]; simpl; auto. destruct (String.eqb k k'); simpl; auto. rewrite IH. auto. Qed.

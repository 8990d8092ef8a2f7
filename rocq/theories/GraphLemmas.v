(** Sets and maps of texts, escaping, and what stays inside quotes. *)
From Coq Require Import String Ascii ZArith List Bool Lia.
From Verif Require Import Common OptSpec OptLemmas Graph GraphSpec.
Import ListNotations.
Open Scope Z_scope.

(** ---- The order of texts ---- *)
Lemma tcmp_eq : forall a b, tcmp a b = Eq <-> a = b.
Proof.
  induction a as [|x a IH]; intros [|y b]; cbn [tcmp]; try (split; [discriminate|discriminate]); [split; reflexivity|].
  destruct (N.compare_spec (N_of_ascii x) (N_of_ascii y)) as [E|E|E].
  - rewrite IH. assert (x = y) by (rewrite <- (ascii_N_embedding x), <- (ascii_N_embedding y), E; reflexivity). subst. split; congruence.
  - split; [discriminate|]. intros H. injection H as -> _. lia.
  - split; [discriminate|]. intros H. injection H as -> _. lia.
Qed.

Lemma tcmp_gt : forall a b, tcmp a b = Gt <-> tcmp b a = Lt.
Proof.
  induction a as [|x a IH]; intros [|y b]; cbn [tcmp]; try (split; congruence).
  rewrite (N.compare_antisym (N_of_ascii x) (N_of_ascii y)). destruct (N.compare (N_of_ascii x) (N_of_ascii y)); cbn [CompOpp]; [apply IH|split; congruence|split; congruence].
Qed.

Lemma tcmp_trans : forall a b c, tcmp a b = Lt -> tcmp b c = Lt -> tcmp a c = Lt.
Proof.
  induction a as [|x a IH]; intros [|y b] [|z c]; cbn [tcmp]; try congruence.
  destruct (N.compare_spec (N_of_ascii x) (N_of_ascii y)) as [E|E|E]; [rewrite E|intros _|discriminate].
  - destruct (N.compare (N_of_ascii y) (N_of_ascii z)); [apply IH|intros _ _; reflexivity|discriminate].
  - destruct (N.compare_spec (N_of_ascii y) (N_of_ascii z)) as [F|F|F]; [rewrite <- F|intros _|discriminate].
    + apply N.compare_lt_iff in E. rewrite E. reflexivity.
    + assert (G : (N_of_ascii x < N_of_ascii z)%N) by lia. apply N.compare_lt_iff in G. rewrite G. reflexivity.
Qed.

Lemma ascending_below : forall l y x, ascending (y :: l) -> tcmp x y = Lt -> forall z, In z (y :: l) -> tcmp x z = Lt.
Proof.
  induction l as [|w l IH]; intros y x A L z [<-|I]; try exact L; [destruct I|].
  destruct A as (A1 & A2). apply (IH w x A2 (tcmp_trans _ _ _ L A1) z I).
Qed.

Lemma setInsert_in : forall x l z, In z (setInsert x l) <-> z = x \/ In z l.
Proof.
  intros x. induction l as [|y tl IH]; intros z; cbn [setInsert In]; [split; [intros [<-|[]]; left; reflexivity|intros [->|[]]; left; reflexivity]|].
  destruct (tcmp x y) eqn:E; cbn [In].
  - apply tcmp_eq in E. subst. split; [intros H; right; exact H|intros [->|H]; [left; reflexivity|exact H]].
  - split; [intros [<-|H]; [left; reflexivity|right; exact H]|intros [->|H]; [left; reflexivity|right; exact H]].
  - rewrite IH. tauto.
Qed.

Lemma setInsert_asc : forall x l, ascending l -> ascending (setInsert x l).
Proof.
  intros x. induction l as [|y tl IH]; intros A; cbn [setInsert]; [repeat split|].
  destruct (tcmp x y) eqn:E; [exact A|split; [exact E|exact A]|]. destruct A as (A1 & A2). specialize (IH A2).
  split; [|exact IH]. apply tcmp_gt in E. destruct tl as [|z tl]; cbn [setInsert]; [exact E|]. destruct (tcmp x z); assumption.
Qed.

Lemma boxOf_absent : forall k m, ~ In k (map fst m) -> boxOf k m = [].
Proof.
  intros k. induction m as [|(k', s) tl IH]; intros N; [reflexivity|]. cbn [boxOf map fst In] in *.
  destruct (list_eq_dec ascii_dec k k') as [->|_]; [exfalso; apply N; left; reflexivity|]. apply IH. tauto.
Qed.

Lemma mapInsert_keys : forall k x m, ascending (map fst m) -> ascending (map fst (mapInsert k x m)).
Proof.
  intros k x. induction m as [|(k', s) tl IH]; intros A; cbn [mapInsert map fst]; [repeat split|].
  destruct (tcmp k k') eqn:E; cbn [map fst] in *; [exact A|split; [exact E|exact A]|]. destruct A as (A1 & A2). specialize (IH A2).
  split; [|exact IH]. apply tcmp_gt in E. destruct tl as [|(z, s') tl]; cbn [mapInsert map fst] in *; [exact E|]. destruct (tcmp k z); cbn [map fst]; assumption.
Qed.

Lemma mapInsert_box : forall k x m, ascending (map fst m) ->
  forall k', boxOf k' (mapInsert k x m) = if list_eq_dec ascii_dec k' k then setInsert x (boxOf k m) else boxOf k' m.
Proof.
  intros k x. induction m as [|(k0, s) tl IH]; intros A k'; cbn [mapInsert boxOf].
  - destruct (list_eq_dec ascii_dec k' k); reflexivity.
  - destruct (tcmp k k0) eqn:E.
    + apply tcmp_eq in E. subst k0. cbn [boxOf]. destruct (list_eq_dec ascii_dec k' k) as [->|D]; [|reflexivity].
      destruct (list_eq_dec ascii_dec k k); [reflexivity|contradiction].
    + cbn [boxOf]. destruct (list_eq_dec ascii_dec k' k) as [->|D]; [|reflexivity].
      assert (Nk : k <> k0) by (intros ->; assert (X := proj2 (tcmp_eq k0 k0) eq_refl); congruence).
      destruct (list_eq_dec ascii_dec k k0) as [H|_]; [contradiction|].
      rewrite boxOf_absent; [reflexivity|]. intros I. assert (L := ascending_below _ _ _ A E k (or_intror I)).
      assert (X := proj2 (tcmp_eq k k) eq_refl). congruence.
    + cbn [boxOf]. assert (Nk : k <> k0) by (intros ->; assert (X := proj2 (tcmp_eq k0 k0) eq_refl); congruence).
      rewrite (IH (proj2 A) k'). destruct (list_eq_dec ascii_dec k' k) as [->|D]; [|destruct (list_eq_dec ascii_dec k' k0); reflexivity].
      destruct (list_eq_dec ascii_dec k k0) as [H|_]; [contradiction|reflexivity].
Qed.

(** ---- Escaping ---- *)
Lemma scan1 : forall c to s, replaceScan [c] to 0 s = flat_map (fun x => if Ascii.eqb c x then to else [x]) s.
Proof.
  intros c to. induction s as [|x tl IH]; [reflexivity|]. cbn [replaceScan starts flat_map]. rewrite Bool.andb_true_r.
  destruct (Ascii.eqb c x); cbn [length pred app]; rewrite IH; reflexivity.
Qed.

Definition nl : text := [bs; "n"%char].
Definition g1 (x : ascii) : text := if Ascii.eqb bs x then [bs; bs] else [x].
Definition g3 (x : ascii) : text := if Ascii.eqb CR x then nl else [x].
Definition g4 (x : ascii) : text := if Ascii.eqb LF x then nl else [x].
Definition last2 (s : text) : text := flat_map g4 (flat_map g3 (replaceScan [CR; LF] nl 0 s)).

Lemma escapeDot_unfold : forall s, escapeDot s = last2 (flat_map g1 s).
Proof. intros s. unfold escapeDot, replaceAll, last2, g1, g3, g4. rewrite !scan1. reflexivity. Qed.

Lemma scan2_other : forall c s, c <> CR -> replaceScan [CR; LF] nl 0 (c :: s) = c :: replaceScan [CR; LF] nl 0 s.
Proof.
  intros c s N. cbn [replaceScan starts]. destruct (Ascii.eqb_spec CR c) as [E|_]; [congruence|]. reflexivity.
Qed.

Lemma scan2_pair : forall s, replaceScan [CR; LF] nl 0 (CR :: LF :: s) = nl ++ replaceScan [CR; LF] nl 0 s.
Proof. reflexivity. Qed.

Lemma scan2_lone : forall s, (forall r, s <> LF :: r) -> replaceScan [CR; LF] nl 0 (CR :: s) = CR :: replaceScan [CR; LF] nl 0 s.
Proof.
  intros [|d s] N; [reflexivity|]. cbn [replaceScan starts]. destruct (Ascii.eqb_spec LF d) as [<-|D]; [exfalso; exact (N s eq_refl)|].
  rewrite Ascii.eqb_refl. cbn [andb]. reflexivity.
Qed.

Lemma last2_other : forall c s, c <> CR -> c <> LF -> last2 (c :: s) = c :: last2 s.
Proof.
  intros c s N1 N2. unfold last2. rewrite scan2_other by exact N1. cbn [flat_map]. unfold g3 at 1.
  destruct (Ascii.eqb_spec CR c) as [E|_]; [congruence|]. cbn [app flat_map]. unfold g4 at 1. destruct (Ascii.eqb_spec LF c) as [E|_]; [congruence|]. reflexivity.
Qed.

Lemma last2_lf : forall s, last2 (LF :: s) = nl ++ last2 s.
Proof. intros s. unfold last2. rewrite scan2_other by discriminate. reflexivity. Qed.

Lemma last2_pair : forall s, last2 (CR :: LF :: s) = nl ++ last2 s.
Proof. intros s. unfold last2. rewrite scan2_pair. reflexivity. Qed.

Lemma last2_lone : forall s, (forall r, s <> LF :: r) -> last2 (CR :: s) = nl ++ last2 s.
Proof. intros s N. unfold last2. rewrite scan2_lone by exact N. reflexivity. Qed.

(** The four replacements together are the one pass. *)
Lemma escapeDot_spec : forall s, escapeDot s = escaped s.
Proof.
  intros s. rewrite escapeDot_unfold. remember (length s) as n eqn:En. assert (L : (length s <= n)%nat) by lia. clear En.
  revert s L. induction n as [|n IH]; intros s L; [destruct s; [reflexivity|cbn in L; lia]|].
  destruct s as [|c r]; [reflexivity|]. cbn [length] in L. cbn [flat_map escaped]. unfold g1 at 1. rewrite (Ascii.eqb_sym bs c).
  destruct (Ascii.eqb_spec c bs) as [->|N1]; cbn [app].
  { rewrite !last2_other by discriminate. rewrite IH by lia. reflexivity. }
  destruct (Ascii.eqb_spec c LF) as [->|N2].
  { rewrite last2_lf, IH by lia. reflexivity. }
  destruct (Ascii.eqb_spec c CR) as [->|N3].
  2: { rewrite last2_other by assumption. rewrite IH by lia. reflexivity. }
  destruct r as [|d r]; [reflexivity|]. cbn [length] in L.
  destruct (Ascii.eqb_spec d LF) as [->|N4].
  - change (flat_map g1 (LF :: r)) with (LF :: flat_map g1 r). rewrite last2_pair, IH by lia. reflexivity.
  - rewrite last2_lone; [rewrite IH by (cbn [length]; lia); reflexivity|].
    intros x. cbn [flat_map]. unfold g1 at 1. destruct (Ascii.eqb_spec bs d) as [<-|_]; cbn [app]; [discriminate|congruence].
Qed.

Lemma escaped_cases : forall (P : text -> text -> Prop),
  P [] [] -> (forall r, P r (escaped r) -> P (bs :: r) (bs :: bs :: escaped r)) ->
  (forall p r, (p = [LF] \/ p = [CR] \/ p = [CR; LF]) -> P r (escaped r) -> P (p ++ r) (bs :: "n"%char :: escaped r)) ->
  (forall c r, c <> bs -> c <> LF -> c <> CR -> P r (escaped r) -> P (c :: r) (c :: escaped r)) ->
  forall s, P s (escaped s).
Proof.
  intros P H0 H1 H2 H3 s. remember (length s) as n eqn:En. assert (L : (length s <= n)%nat) by lia. clear En.
  revert s L. induction n as [|n IH]; intros s L; [destruct s; [exact H0|cbn in L; lia]|].
  destruct s as [|c r]; [exact H0|]. cbn [length] in L. cbn [escaped].
  destruct (Ascii.eqb_spec c bs) as [->|N1]; [apply H1, IH; lia|].
  destruct (Ascii.eqb_spec c LF) as [->|N2]; [apply (H2 [LF]); [tauto|apply IH; lia]|].
  destruct (Ascii.eqb_spec c CR) as [->|N3]; [|apply H3; try assumption; apply IH; lia].
  destruct r as [|d r]; [apply (H2 [CR] []); [tauto|exact H0]|]. cbn [length] in L.
  destruct (Ascii.eqb_spec d LF) as [->|N4]; [apply (H2 [CR; LF] r); [tauto|apply IH; lia]|].
  apply (H2 [CR] (d :: r)); [tauto|apply IH; cbn [length]; lia].
Qed.

(** The result is one line. *)
Lemma escapeDot_one_line : forall s, ~ In LF (escapeDot s) /\ ~ In CR (escapeDot s).
Proof.
  intros s. rewrite escapeDot_spec. apply (escaped_cases (fun _ e => ~ In LF e /\ ~ In CR e)).
  - split; intros [].
  - intros r (A & B). split; intros [H|[H|H]]; try discriminate; contradiction.
  - intros p r _ (A & B). split; intros [H|[H|H]]; try discriminate; contradiction.
  - intros c r _ N1 N2 (A & B). split; intros [H|H]; congruence.
Qed.

(** ---- Inside quotes ---- *)
Lemma inside_app : forall a b, inside a = true -> inside (a ++ b) = inside b.
Proof.
  intros a b. remember (length a) as n eqn:En. assert (L : (length a <= n)%nat) by lia. clear En.
  revert a L. induction n as [|n IH]; intros a L I; [destruct a; [reflexivity|cbn in L; lia]|].
  destruct a as [|c r]; [reflexivity|]. cbn [length] in L. cbn [app inside] in *.
  destruct (Ascii.eqb c quote); [discriminate|]. destruct (Ascii.eqb c bs); [|apply IH; [lia|exact I]].
  destruct r as [|d r]; [discriminate|]. cbn [app length] in *. apply IH; [lia|exact I].
Qed.

Lemma inside_both : forall a b, inside a = true -> inside b = true -> inside (a ++ b) = true.
Proof. intros a b A B. rewrite inside_app; assumption. Qed.

Lemma plain_inside : forall s, plain s -> inside s = true.
Proof.
  induction s as [|c r IH]; intros (A & B); [reflexivity|]. cbn [inside In] in *.
  destruct (Ascii.eqb_spec c quote) as [->|_]; [exfalso; apply B; left; reflexivity|].
  destruct (Ascii.eqb_spec c bs) as [->|_]; [exfalso; apply A; left; reflexivity|]. apply IH. split; tauto.
Qed.

Lemma escapeDot_inside : forall s, ~ In quote s -> inside (escapeDot s) = true.
Proof.
  intros s. rewrite escapeDot_spec. apply (escaped_cases (fun x e => ~ In quote x -> inside e = true)).
  - reflexivity.
  - intros r H N. cbn [inside]. apply H. intros I. apply N. right. exact I.
  - intros p r _ H N. cbn [inside]. apply H. intros I. apply N. apply in_or_app. right. exact I.
  - intros c r N1 _ _ H N. cbn [inside]. destruct (Ascii.eqb_spec c quote) as [->|_]; [exfalso; apply N; left; reflexivity|].
    destruct (Ascii.eqb_spec c bs) as [->|_]; [congruence|]. apply H. intros I. apply N. right. exact I.
Qed.

Lemma digit_plain : forall t acc v, digits acc t = Some v -> forall c, In c t -> c <> bs /\ c <> quote /\ c <> " "%char.
Proof.
  induction t as [|x r IH]; intros acc v H c I; [destruct I|]. cbn [digits] in H. destruct (digit x) as [d|] eqn:D; [|discriminate].
  destruct I as [<-|I]; [|exact (IH _ _ H c I)]. repeat split; intros ->; vm_compute in D; discriminate.
Qed.

Lemma dec_chars : forall v c, In c (dec v) -> c <> bs /\ c <> quote /\ c <> " "%char.
Proof.
  intros v c I. assert (H := dec_number v). unfold numberOf in H. destruct (dec v) as [|x r] eqn:E; [discriminate|].
  destruct (Ascii.eqb_spec x "-") as [->|N].
  - destruct I as [<-|I]; [repeat split; discriminate|]. unfold natural in H. destruct r as [|y r]; [destruct I|].
    destruct (digits 0 (y :: r)) as [w|] eqn:D; [|discriminate]. exact (digit_plain _ _ _ D c I).
  - exact (digit_plain (x :: r) 0 v H c I).
Qed.

Lemma dec_plain : forall v, plain (dec v).
Proof. intros v. split; intros I; destruct (dec_chars v _ I) as (A & B & _); contradiction. Qed.

Lemma dec_inj : forall a b, dec a = dec b -> a = b.
Proof. intros a b E. assert (A := dec_number a). rewrite E, dec_number in A. congruence. Qed.

(** The linear wrapper: calls, frames, and what stays in the cache. *)
From Coq Require Import ZArith List Lia Bool FinFun.
From Verif Require Import Common CacheSpec Cache CacheLemmas CacheLemmas2 CacheLemmas3 LinearSpec Linear.
Import ListNotations.
Open Scope Z_scope.

Lemma upTo_cons : forall a b, a <= b -> upTo a b = a :: upTo (a + 1) b.
Proof.
  intros a b H. unfold upTo. replace (Z.to_nat (b - a + 1)) with (S (Z.to_nat (b - (a + 1) + 1))) by lia. cbn [seq map]. f_equal; [lia |].
  rewrite <- seq_shift, map_map. apply map_ext. intros. lia.
Qed.
Lemma upTo_nil : forall a b, b < a -> upTo a b = [].
Proof. intros a b H. unfold upTo. replace (Z.to_nat (b - a + 1)) with O by lia. reflexivity. Qed.
Lemma upTo_snoc : forall n a b, n = Z.to_nat (b - a) -> a <= b -> upTo a b = upTo a (b - 1) ++ [b].
Proof.
  induction n as [|n IH]; intros a b E H.
  - assert (a = b) by lia. subst. rewrite upTo_cons by lia. rewrite !upTo_nil by lia. reflexivity.
  - rewrite upTo_cons by lia. rewrite (upTo_cons a (b - 1)) by lia. cbn [app]. rewrite <- (IH (a + 1) b) by lia. reflexivity.
Qed.
Lemma last_snoc_Z : forall (l : list Z) x d, last (l ++ [x]) d = x.
Proof. intros. apply last_last. Qed.
Lemma threshold_of : forall t, linearThreshold t = t + 10.
Proof. intros t. unfold linearThreshold, linearFrames. replace (t * 2 + 20) with ((t + 10) * 2) by ring. apply Z.div_mul. lia. Qed.

Section Wrapper.
Variables S F : Type.
Variable call : S -> Z -> S * option F.
Notation fill := (fill S F call).
Notation getFrame := (getFrame S F call).
Notation requests := (requests S F call).
Notation answers := (answers S F call).
Definition runCalls (s : S) (l : list Z) : S := fold_left (fun s i => fst (call s i)) l s.
Lemma answers_app : forall l s m, answers s (l ++ m) = answers s l ++ answers (runCalls s l) m.
Proof. induction l as [|i l IH]; intros s m; [reflexivity |]. cbn [app Linear.answers runCalls fold_left]. destruct (call s i) as [s' f]. cbn [fst app]. rewrite IH. reflexivity. Qed.
Lemma fill_ok : forall k i s s' c l, fill k i s = (s', c, l, true) ->
  l = upTo i (i + Z.of_nat k - 1) /\ s' = runCalls s l /\ answers s l = map (fun e => (fst e, Some (snd e))) c /\ map fst c = l.
Proof.
  induction k as [|k IH]; intros i s s' c l; cbn [Linear.fill].
  - intros E; injection E as <- <- <-. rewrite upTo_nil by lia. auto.
  - destruct (call s i) as [s1 [f|]] eqn:C; [| discriminate]. destruct (fill k (i + 1) s1) as [[[s2 c2] l2] ok] eqn:R. intros E; injection E as <- <- <- ->.
    apply IH in R. destruct R as (A & B & D & E). split; [rewrite A, (upTo_cons i) by lia; do 2 f_equal; lia |].
    cbn [runCalls fold_left Linear.answers map fst snd]. rewrite C. cbn [fst]. split; [exact B |]. split; [rewrite D; reflexivity | rewrite E; reflexivity].
Qed.
Lemma fill_fail : forall k i s s' c l, fill k i s = (s', c, l, false) ->
  exists j, i <= j < i + Z.of_nat k /\ l = upTo i j /\ s' = runCalls s l /\ answers s l = map (fun e => (fst e, Some (snd e))) c ++ [(j, None)].
Proof.
  induction k as [|k IH]; intros i s s' c l; cbn [Linear.fill]; [discriminate |].
  destruct (call s i) as [s1 [f|]] eqn:C.
  - destruct (fill k (i + 1) s1) as [[[s2 c2] l2] ok] eqn:R. intros E; injection E as <- <- <- ->.
    apply IH in R. destruct R as (j & J & A & B & D). exists j. split; [lia |]. split; [rewrite A, (upTo_cons i) by lia; reflexivity |].
    cbn [runCalls fold_left Linear.answers map fst snd app]. rewrite C. cbn [fst]. split; [exact B | rewrite D; reflexivity].
  - intros E; injection E as <- <- <-. exists i. split; [lia |]. split; [rewrite upTo_cons, upTo_nil by lia; reflexivity |]. cbn [runCalls fold_left Linear.answers map app]. rewrite C. auto.
Qed.
(** Either the request was answered by the filter, or the filter failed on the way to it. *)
Lemma getFrame_spec : forall t last n s, let q := getFrame t last n s in
  r_state S F q = runCalls s (r_calls S F q) /\
  ((r_last S F q = n /\ goodCalls t last n (r_calls S F q) /\ answers s (r_calls S F q) = map (fun e => (fst e, Some (snd e))) (r_cache S F q) ++ [(n, r_frame S F q)] /\
    r_calls S F q = map fst (r_cache S F q) ++ [n]) \/
   (r_last S F q = last /\ r_frame S F q = None /\ last < n < last + t /\ exists j, last < j < n /\ r_calls S F q = upTo (last + 1) j /\
    answers s (r_calls S F q) = map (fun e => (fst e, Some (snd e))) (r_cache S F q) ++ [(j, None)])).
Proof.
  intros t last n s q. unfold q, Linear.getFrame. clear q.
  destruct ((last <? n) && (n - t <? last)) eqn:W.
  - apply andb_true_iff in W. destruct W as (W1 & W2). apply Z.ltb_lt in W1, W2.
    destruct (fill (Z.to_nat (n - (last + 1))) (last + 1) s) as [[[s1 c] l] ok] eqn:R. destruct ok.
    + apply fill_ok in R. destruct R as (A & B & D & E). rewrite Z2Nat.id in A by lia. destruct (call s1 n) as [s2 f] eqn:C. cbn [r_state r_calls r_last r_cache r_frame].
      assert (RC : s2 = runCalls s (l ++ [n])) by (unfold runCalls; rewrite fold_left_app; cbn [fold_left]; fold (runCalls s l); rewrite <- B, C; reflexivity).
      split; [exact RC |]. left. split; [reflexivity |]. split.
      * unfold goodCalls. destruct (Z.ltb_spec last n); [| lia]. destruct (Z.ltb_spec n (last + t)); [| lia]. cbn [andb]. rewrite A. symmetry.
        rewrite (upTo_snoc _ (last + 1) n eq_refl) by lia. do 2 f_equal. lia.
      * split; [rewrite answers_app, D, <- B; cbn [Linear.answers]; rewrite C; reflexivity | rewrite E; reflexivity].
    + apply fill_fail in R. destruct R as (j & J & A & B & D). cbn [r_state r_calls r_last r_cache r_frame]. split; [exact B |]. right. split; [reflexivity |]. split; [reflexivity |]. split; [lia |].
      exists j. rewrite Z2Nat.id in J by lia. split; [lia |]. auto.
  - destruct (call s n) as [s2 f] eqn:C. cbn [r_state r_calls r_last r_cache r_frame app]. unfold runCalls. cbn [fold_left Linear.answers map app]. rewrite C. cbn [fst]. split; [reflexivity |]. left. split; [reflexivity |]. split; [| auto].
    unfold goodCalls. apply andb_false_iff in W. destruct (Z.ltb_spec last n), (Z.ltb_spec n (last + t)); cbn [andb]; try reflexivity. exfalso. destruct W as [W | W]; [discriminate | apply Z.ltb_ge in W; lia].
Qed.
(** Every run without a failure on the way to another frame is linear. *)
Definition smooth (n : Z) (q : reply S F) : Prop := In n (r_calls S F q).
Lemma upTo_In : forall a b x, In x (upTo a b) -> a <= x <= b.
Proof. intros a b x H. unfold upTo in H. apply in_map_iff in H. destruct H as (k & <- & K). apply in_seq in K. lia. Qed.
Lemma requests_linear : forall t ns last s, Forall2 smooth ns (requests t last s ns) -> linear t last (combine ns (map (r_calls S F) (requests t last s ns))).
Proof.
  intros t. induction ns as [|n ns IH]; intros lst s H; [exact I |]. cbn [Linear.requests map combine] in *. inversion H as [|? ? ? ? H1 H2]; subst. cbn [linear].
  destruct (getFrame_spec t lst n s) as (_ & [(A & B & _ & C) | (_ & _ & _ & j & J & C & _)]).
  - split; [exact B |]. rewrite C, last_snoc_Z. rewrite A in *. apply IH, H2.
  - exfalso. unfold smooth in H1. rewrite C in H1. apply upTo_In in H1. lia.
Qed.
Lemma noGap_upTo : forall t n a b r, n = Z.to_nat (b - a) -> a <= b -> noGap t b r -> noGap t (a - 1) (upTo a b ++ r).
Proof.
  intros t. induction n as [|n IH]; intros a b r E H R.
  - assert (a = b) by lia. subst. rewrite upTo_cons, upTo_nil by lia. cbn [app noGap]. split; [lia | exact R].
  - rewrite upTo_cons by lia. cbn [app noGap]. split; [lia |]. assert (G := IH (a + 1) b r ltac:(lia) ltac:(lia) R). replace (a + 1 - 1) with a in G by lia. exact G.
Qed.
Lemma linear_noGap : forall t h prev, 0 < t -> linear t prev h -> noGap t prev (concat (map snd h)).
Proof.
  intros t. induction h as [|[n c] h IH]; intros prev T H; [exact I |]. cbn [linear map snd concat] in *. destruct H as (G & L). unfold goodCalls in G.
  destruct (Z.ltb_spec prev n); cbn [andb] in G; [destruct (Z.ltb_spec n (prev + t)); cbn [andb] in G |]; subst c.
  - rewrite (upTo_snoc _ (prev + 1) n eq_refl) in L by lia. rewrite last_snoc_Z in L. apply (IH n T) in L. assert (X := noGap_upTo t _ (prev + 1) n _ eq_refl ltac:(lia) L). replace (prev + 1 - 1) with prev in X by lia. exact X.
  - cbn [last] in L. cbn [app noGap]. split; [lia | apply IH; assumption].
  - cbn [last] in L. cbn [app noGap]. split; [lia | apply IH; assumption].
Qed.
End Wrapper.

(** ** The frames passed over stay in the cache *)
Section Kept.
Variable F : Type.
Variable fsz : F -> Z.
Notation s_run := (s_run F fsz).
Definition inserts (c : list (Z * F)) : list (op F) := map (fun e => OInsert (fst e) (snd e)) c.
Lemma without_none : forall k (l : list (Z * F)), ~ In k (map fst l) -> without F k l = l.
Proof.
  intros k l. unfold without. induction l as [|a l IH]; intros H; [reflexivity |]. cbn [filter]. destruct (Z.eqb_spec (fst a) k) as [E|E]; cbn [negb].
  - exfalso. apply H. left. exact E.
  - rewrite IH; [reflexivity |]. intros X. apply H. right. exact X.
Qed.
Lemma without_app : forall k (l m : list (Z * F)), without F k (l ++ m) = without F k l ++ without F k m.
Proof. intros. unfold without. apply filter_app. Qed.
Lemma inserts_live : forall c a done, NoDup (map fst (done ++ c)) -> zlength (done ++ c) <= cap F a -> (exists r, live F a = rev done ++ r) ->
  let b := fst (s_run a (inserts c)) in (exists r, live F b = rev (done ++ c) ++ r) /\ cap F b = cap F a.
Proof.
  induction c as [|[k f] c IH]; intros a done N L (r & R); cbn [inserts map CacheSpec.s_run fst snd].
  - rewrite app_nil_r. split; [exists r; exact R | reflexivity].
  - set (a1 := fst (s_step F fsz a (OInsert k f))). assert (C1 : cap F a1 = cap F a) by reflexivity.
    assert (K : ~ In k (map fst (rev done))).
    { intros X. rewrite map_rev in X. apply in_rev in X. rewrite map_app in N. cbn [map fst] in N. apply NoDup_remove_2 in N. apply N, in_or_app. left. exact X. }
    assert (R1 : exists r1, live F a1 = rev (done ++ [(k, f)]) ++ r1).
    { exists (firstn (Z.to_nat (cap F a) - Datatypes.S (length done)) (without F k r)). unfold a1. cbn [s_step fst]. unfold settle, keep. cbn [lists live cap hcap]. rewrite R, without_app, without_none by exact K.
      rewrite rev_app_distr. cbn [rev app]. rewrite app_comm_cons. rewrite firstn_app.
      assert (LL : (length ((k, f) :: rev done) <= Z.to_nat (cap F a))%nat).
      { cbn [length]. rewrite rev_length. unfold zlength in L. rewrite app_length in L. cbn [length] in L. lia. }
      rewrite firstn_all2 by exact LL. cbn [length]. rewrite rev_length. reflexivity. }
    replace (done ++ (k, f) :: c) with ((done ++ [(k, f)]) ++ c) in * by (rewrite <- app_assoc; reflexivity).
    destruct (IH a1 (done ++ [(k, f)]) N ltac:(rewrite C1; exact L) R1) as (A & B). split; [exact A | etransitivity; [exact B | exact C1]].
Qed.
Lemma assoc_front : forall l r k f, NoDup (map fst l) -> In (k, f) l -> assoc F k (l ++ r) = Some f.
Proof.
  intros l r k f. unfold assoc. induction l as [|[k0 f0] l IH]; intros N H; [destruct H |]. cbn [map fst] in N. inversion N; subst. cbn [app find fst]. destruct (Z.eqb_spec k0 k) as [E|E].
  - subst. destruct H as [H | H]; [injection H as ->; reflexivity |]. exfalso. match goal with X : ~ In _ _ |- _ => apply X end. apply in_map_iff. exists (k, f). auto.
  - destruct H as [H | H]; [injection H as ? ?; contradiction | apply IH; assumption].
Qed.
Lemma passed_over_kept : forall c a k f inserted, rel F fsz c a -> run_ok F fsz a (inserts inserted) -> NoDup (map fst inserted) -> zlength inserted <= cap F a -> In (k, f) inserted ->
  exists c' rs c'', run F fsz c (inserts inserted) = Ok (c', rs) /\ relink F fsz c' k = Ok (c'', Some f).
Proof.
  intros c a k f ins R OK N L H.
  assert (X : exists c' rs, run F fsz c (inserts ins) = Ok (c', rs) /\ rel F fsz c' (fst (s_run a (inserts ins)))).
  { clear L. revert c a R OK. generalize (inserts ins). induction l as [|o l IH]; intros c a R OK; cbn [run CacheSpec.s_run run_ok] in *; [exists c, []; auto |].
    destruct OK as (O1 & O2). destruct (step_rel F fsz c a o R O1) as (c1 & E1 & R1). rewrite E1. cbn [obind fst snd]. destruct (IH c1 _ R1 O2) as (c' & rs & E & R'). rewrite E. cbn [obind fst snd]. eexists. eexists. split; [reflexivity |]. exact R'. }
  destruct X as (c' & rs & E & R'). destruct (step_rel F fsz c' _ (OLookup k) R' I) as (c'' & E2 & _).
  destruct (inserts_live ins a [] N L (ex_intro _ (live F a) eq_refl)) as ((r & LV) & _). cbn [app] in LV.
  exists c', rs, c''. split; [exact E |]. cbn [step] in E2. rewrite E2. cbn [s_step]. rewrite LV. rewrite assoc_front with (f := f); [reflexivity | rewrite map_rev; apply NoDup_rev, N | apply in_rev in H; exact H].
Qed.
End Kept.
Lemma upTo_length : forall a b, zlength (upTo a b) = Z.max 0 (b - a + 1).
Proof. intros a b. unfold zlength, upTo. rewrite map_length, seq_length. lia. Qed.
Lemma upTo_NoDup : forall a b, NoDup (upTo a b).
Proof. intros a b. unfold upTo. apply FinFun.Injective_map_NoDup; [intros x y; lia | apply seq_NoDup]. Qed.
Lemma cache_suffices : forall S F call threads last n s, 1 <= threads -> let q := getFrame S F call (linearThreshold threads) last n s in
  zlength (r_cache S F q) < linearFrames threads /\ NoDup (map fst (r_cache S F q)).
Proof.
  intros S F call threads last n s T q. assert (H := getFrame_spec S F call (linearThreshold threads) last n s). fold q in H. rewrite threshold_of in H. unfold linearFrames.
  destruct H as (_ & [(_ & G & A & C) | (_ & _ & W & j & J & C & A)]).
  - assert (E : map fst (r_cache S F q) = upTo (last + 1) (n - 1) /\ last < n < last + (threads + 10) \/ map fst (r_cache S F q) = []).
    { unfold goodCalls in G. destruct (Z.ltb_spec last n); cbn [andb] in G; [destruct (Z.ltb_spec n (last + (threads + 10))); cbn [andb] in G |]; rewrite C in G.
      - left. rewrite (upTo_snoc _ (last + 1) n eq_refl) in G by lia. apply app_inj_tail in G. split; [apply G | lia].
      - right. change [n] with ([] ++ [n]) in G at 2. apply app_inj_tail in G. apply G.
      - right. change [n] with ([] ++ [n]) in G at 2. apply app_inj_tail in G. apply G. }
    assert (Z : zlength (r_cache S F q) = zlength (map fst (r_cache S F q))) by (unfold zlength; rewrite map_length; reflexivity). rewrite Z.
    destruct E as [(E & W) | E]; rewrite E; [rewrite upTo_length; split; [lia | apply upTo_NoDup] | split; [unfold zlength; cbn; lia | constructor]].
  - assert (E : map fst (r_cache S F q) = upTo (last + 1) (j - 1)).
    { assert (X : map fst (answers S F call s (r_calls S F q)) = r_calls S F q) by (generalize (r_calls S F q); intros l; revert s q C A; clear; intros s _ _ _; revert s; induction l as [|i l IH]; intros s; [reflexivity |]; cbn [answers]; destruct (call s i); cbn [map fst]; rewrite IH; reflexivity).
      rewrite A, C in X. rewrite (upTo_snoc _ (last + 1) j eq_refl) in X by lia. rewrite map_app, map_map in X. cbn [map fst] in X. apply app_inj_tail in X. apply X. }
    assert (Z : zlength (r_cache S F q) = zlength (map fst (r_cache S F q))) by (unfold zlength; rewrite map_length; reflexivity). rewrite Z, E, upTo_length. split; [lia | apply upTo_NoDup].
Qed.
Lemma failing_restart : exists S F call t a b s c1 c2, map (r_calls S F) (requests S F call t (-1) s [a; b]) = [c1; c2] /\ c1 <> [] /\
  last c1 0 < b < last c1 0 + t /\ hd 0 c2 <> last c1 0 + 1.
Proof.
  exists unit, Z, (fun s i => (s, if i =? 3 then None else Some i)), 11, 5, 6, tt, [0; 1; 2; 3], [0; 1; 2; 3]. split; [reflexivity |]. split; [discriminate |]. cbn. lia.
Qed.

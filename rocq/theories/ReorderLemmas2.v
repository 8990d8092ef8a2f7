(** Proofs about Interleave, DuplicateFrames, DeleteFrames, FreezeFrames and
    the request patterns. *)
From Coq Require Import ZArith List Lia Bool Permutation Sorting.Sorted.
From Verif Require Import Common ReqPat Reorder ReorderSpec ReorderLemmas.
Require Import ZifyBool.
Import ListNotations.
Open Scope Z_scope.

(** ** Interleave *)

Lemma inter_len_spec : forall lens k i acc ovf,
  0 < k -> 0 <= i -> i + zlength lens <= k -> k <= INT_MAX ->
  Forall (fun c => 0 < c) lens ->
  let r := inter_len lens k i acc ovf in
  (snd r = false <->
    ovf = false /\ forall j c, nthz lens j = Some c -> (c - 1) * k + (i + j) + 1 <= INT_MAX) /\
  acc <= fst r /\
  (snd r = false -> forall j c, nthz lens j = Some c -> (c - 1) * k + (i + j) + 1 <= fst r) /\
  (fst r = acc \/ exists j c, nthz lens j = Some c /\ fst r = (c - 1) * k + (i + j) + 1).
Proof.
  induction lens as [|c t IH]; intros k i acc ovf Hk Hi Hik Hkm Hp; cbn [inter_len].
  - cbn [fst snd]. split.
    + split; intros H; [split; auto; intros j c Hj|tauto].
      unfold nthz in Hj. destruct (j <? 0); try discriminate. destruct (Z.to_nat j); discriminate.
    + split; [lia|]. split; [|auto]. intros _ j c Hj.
      unfold nthz in Hj. destruct (j <? 0); try discriminate. destruct (Z.to_nat j); discriminate.
  - inversion Hp as [|? ? Hc Ht]; subst. rewrite zlength_cons in Hik.
    assert (Hcond : (INT_MAX - i - 1) / k + 1 < c <-> INT_MAX < (c - 1) * k + i + 1).
    { split; intros H.
      - destruct (Z.ltb_spec INT_MAX ((c - 1) * k + i + 1)); auto.
        exfalso. assert (c - 1 <= (INT_MAX - i - 1) / k) by (apply Z.div_le_lower_bound; lia). lia.
      - assert ((INT_MAX - i - 1) / k < c - 1) by (apply Z.div_lt_upper_bound; lia). lia. }
    destruct (Z.ltb_spec ((INT_MAX - i - 1) / k + 1) c) as [Hov|Hok].
    + specialize (IH k (i + 1) acc true Hk ltac:(lia) ltac:(lia) Hkm Ht).
      cbv zeta in IH. destruct IH as [H1 [H2 [H3 H4]]].
      set (r := inter_len t k (i + 1) acc true) in *.
      assert (Hsr : snd r = true).
      { destruct (snd r) eqn:E; auto. destruct H1 as [H1 _]. specialize (H1 eq_refl). destruct H1; discriminate. }
      split; [|split; [|split]]; auto.
      * split; intros H; [congruence|]. destruct H as [_ H]. specialize (H 0 c eq_refl).
        apply Hcond in Hov. lia.
      * intros; congruence.
      * destruct H4 as [H4|[j [c' [Hj He]]]]; auto. right. exists (j + 1), c'. split.
        -- pose proof (nthz_range _ _ _ _ Hj). rewrite nthz_cons_S by lia. rewrite <- Hj. f_equal; lia.
        -- lia.
    + specialize (IH k (i + 1) (Z.max acc ((c - 1) * k + i + 1)) ovf Hk ltac:(lia) ltac:(lia) Hkm Ht).
      cbv zeta in IH. destruct IH as [H1 [H2 [H3 H4]]].
      set (r := inter_len t k (i + 1) (Z.max acc ((c - 1) * k + i + 1)) ovf) in *.
      assert (Hc0 : (c - 1) * k + i + 1 <= INT_MAX) by lia.
      split; [|split; [|split]].
      * rewrite H1. split; intros [Ho Hall]; split; auto; intros j c' Hj.
        -- pose proof (nthz_range _ _ _ _ Hj). destruct (Z.eq_dec j 0) as [->|Hj0].
           ++ rewrite nthz_cons_0 in Hj. inversion Hj; subst. lia.
           ++ rewrite nthz_cons_S in Hj by lia. specialize (Hall _ _ Hj). lia.
        -- pose proof (nthz_range _ _ _ _ Hj). specialize (Hall (j + 1) c').
           rewrite nthz_cons_S in Hall by lia. replace (j + 1 - 1) with j in Hall by lia.
           specialize (Hall Hj). lia.
      * lia.
      * intros Hs j c' Hj. pose proof (nthz_range _ _ _ _ Hj). destruct (Z.eq_dec j 0) as [->|Hj0].
        -- rewrite nthz_cons_0 in Hj. inversion Hj; subst. lia.
        -- rewrite nthz_cons_S in Hj by lia. specialize (H3 Hs _ _ Hj). lia.
      * destruct H4 as [H4|[j [c' [Hj He]]]].
        -- destruct (Z.leb_spec acc ((c - 1) * k + i + 1)).
           ++ right. exists 0, c. split; auto. lia.
           ++ left. lia.
        -- right. exists (j + 1), c'. split.
           ++ pose proof (nthz_range _ _ _ _ Hj). rewrite nthz_cons_S by lia. rewrite <- Hj. f_equal; lia.
           ++ lia.
Qed.

(** Every [n < M] with [M - 1 <= (c_i - 1) * k + i] maximal has its clip index in range. *)
Lemma interleave_output : forall A (ls : list (list A)),
  1 < zlength ls <= INT_MAX -> Forall (fun l => 0 < zlength l) ls ->
  (forall i l, nthz ls i = Some l -> (zlength l - 1) * zlength ls + i + 1 <= INT_MAX) ->
  exists out, outputN ls (interleaveCreate (map (@zlength A) ls) false) = Some out /\
    (forall i l j, nthz ls i = Some l -> 0 <= j < zlength l ->
       nthz out (j * zlength ls + i) = Some (nthz l j)) /\
    (forall n, 0 <= n < zlength out ->
       exists l, nthz ls (n mod zlength ls) = Some l /\
         nthz out n = Some (nthz l (Z.min (n / zlength ls) (zlength l - 1)))) /\
    (exists l, nthz ls ((zlength out - 1) mod zlength ls) = Some l /\
       (zlength out - 1) / zlength ls = zlength l - 1).
Proof.
  intros A ls Hk Hp Hmax. set (k := zlength ls) in *.
  assert (Hlm : zlength (map (@zlength A) ls) = k) by apply zlength_map.
  assert (Hpos : Forall (fun c => 0 < c) (map (@zlength A) ls)).
  { apply Forall_forall. intros x Hx. apply in_map_iff in Hx. destruct Hx as [y [<- Hy]].
    rewrite Forall_forall in Hp. auto. }
  pose proof (inter_len_spec (map (@zlength A) ls) k 0 0 false ltac:(lia) ltac:(lia)
    ltac:(lia) ltac:(lia) Hpos) as Hs. cbv zeta in Hs.
  destruct (inter_len (map (@zlength A) ls) k 0 0 false) as [M o] eqn:Ei. cbn [fst snd] in Hs.
  destruct Hs as [H1 [H2 [H3 H4]]].
  assert (Ho : o = false).
  { apply H1. split; auto. intros j c Hj. rewrite nthz_map in Hj.
    destruct (nthz ls j) as [l|] eqn:El; [|discriminate]. simpl in Hj. inversion Hj; subst.
    specialize (Hmax _ _ El). lia. }
  subst o. specialize (H3 eq_refl).
  assert (Hne : exists l0, nthz ls 0 = Some l0) by (apply nthz_Some_iff; lia).
  assert (HM : exists j l, nthz ls j = Some l /\ M = (zlength l - 1) * k + j + 1).
  { destruct H4 as [H4|[j [c [Hj He]]]].
    - destruct Hne as [l0 Hl0]. specialize (H3 0 (zlength l0)). rewrite nthz_map, Hl0 in H3.
      specialize (H3 eq_refl).
      assert (0 < zlength l0) by (rewrite Forall_forall in Hp; apply Hp; eapply nthz_In; eauto).
      nia.
    - rewrite nthz_map in Hj. destruct (nthz ls j) as [l|] eqn:El; [|discriminate].
      simpl in Hj; inversion Hj; subst. exists j, l. split; auto. }
  assert (Hcr : interleaveCreate (map (@zlength A) ls) false =
    CFilter {| fn_len := M; fn_src := fun n => (n mod k, n / k);
               fn_rp := fun i => match nthz (map (@zlength A) ls) i with
                                   | Some len => if (M + k - 1) / k <=? len then rpNoFrameReuse
                                                 else rpFrameReuseLastOnly
                                   | None => rpGeneral end |}).
  { unfold interleaveCreate. rewrite Hlm, Ei. cbn [andb].
    destruct ls as [|l1 [|l2 ls]]; try reflexivity.
    exfalso; unfold k in Hk. rewrite zlength_cons, zlength_nil in Hk. lia. }
  rewrite Hcr. eexists. split; [reflexivity|]. cbn [fn_len fn_src].
  assert (HMp : 0 < M).
  { destruct HM as [j [l [Hl ->]]]. pose proof (nthz_range _ _ _ _ Hl).
    assert (0 < zlength l) by (rewrite Forall_forall in Hp; apply Hp; eapply nthz_In; eauto). nia. }
  assert (Hlen : zlength (map (fun n => fetch2 ls (n mod k, n / k)) (zseq M)) = M)
    by (rewrite zlength_map, zlength_zseq; lia).
  rewrite Hlen.
  assert (Hn : forall n, 0 <= n < M ->
    exists l, nthz ls (n mod k) = Some l /\
    nthz (map (fun n => fetch2 ls (n mod k, n / k)) (zseq M)) n =
      Some (nthz l (Z.min (n / k) (zlength l - 1)))).
  { intros n Hn. rewrite nthz_map, nthz_zseq by lia. cbn [option_map]. unfold fetch2. cbn [fst snd].
    pose proof (Z.mod_pos_bound n k ltac:(lia)).
    destruct (proj2 (nthz_Some_iff _ ls (n mod k)) ltac:(lia)) as [l Hl]. rewrite Hl.
    exists l. split; auto. f_equal. unfold fetch, clampFrame.
    destruct (Z.leb_spec (zlength l) (n / k)); f_equal; lia. }
  split; [|split; [exact Hn|]].
  - intros i l j Hl Hj.
    pose proof (nthz_range _ _ _ _ Hl).
    assert (Hle : j * k + i < M).
    { specialize (H3 i (zlength l)). rewrite nthz_map, Hl in H3. specialize (H3 eq_refl). nia. }
    assert (Hq : (j * k + i) / k = j) by (symmetry; apply Z.div_unique with i; lia).
    assert (Hr : (j * k + i) mod k = i) by (symmetry; apply Z.mod_unique with j; lia).
    destruct (Hn (j * k + i) ltac:(nia)) as [l' [Hl' He]]. rewrite Hr in Hl'. rewrite Hq in He.
    rewrite Hl in Hl'. inversion Hl'; subst l'. rewrite He. do 2 f_equal. lia.
  - destruct HM as [j [l [Hl HMe]]]. exists l. pose proof (nthz_range _ _ _ _ Hl).
    assert (Hr : (M - 1) mod k = j) by (symmetry; apply Z.mod_unique with (zlength l - 1); lia).
    assert (Hq : (M - 1) / k = zlength l - 1) by (symmetry; apply Z.div_unique with j; lia).
    rewrite Hr, Hq. auto.
Qed.

Lemma interleave_too_long : forall A (ls : list (list A)) i l,
  1 < zlength ls <= INT_MAX -> Forall (fun l => 0 < zlength l) ls ->
  nthz ls i = Some l -> INT_MAX < (zlength l - 1) * zlength ls + i + 1 ->
  interleaveCreate (map (@zlength A) ls) false = CErr.
Proof.
  intros A ls i l Hk Hp Hl Hbig.
  assert (Hlm : zlength (map (@zlength A) ls) = zlength ls) by apply zlength_map.
  assert (Hpos : Forall (fun c => 0 < c) (map (@zlength A) ls)).
  { apply Forall_forall. intros x Hx. apply in_map_iff in Hx. destruct Hx as [y [<- Hy]].
    rewrite Forall_forall in Hp. auto. }
  pose proof (inter_len_spec (map (@zlength A) ls) (zlength ls) 0 0 false ltac:(lia) ltac:(lia)
    ltac:(lia) ltac:(lia) Hpos) as Hs. cbv zeta in Hs.
  destruct (inter_len (map (@zlength A) ls) (zlength ls) 0 0 false) as [M o] eqn:Ei. cbn [fst snd] in Hs.
  destruct Hs as [H1 _].
  assert (o = true).
  { destruct o; auto. destruct H1 as [H1 _]. destruct (H1 eq_refl) as [_ H].
    specialize (H i (zlength l)). rewrite nthz_map, Hl in H. specialize (H eq_refl). lia. }
  subst o. unfold interleaveCreate. rewrite Hlm, Ei. cbn [andb].
  destruct ls as [|l1 [|l2 ls]]; try reflexivity.
  rewrite zlength_cons, zlength_nil in Hk. lia.
Qed.

Lemma maxlen_spec : forall lens acc, let m := fold_left Z.max lens acc in
  acc <= m /\ (forall c, In c lens -> c <= m) /\ (m = acc \/ In m lens).
Proof.
  induction lens as [|a t IH]; intros acc; cbn [fold_left].
  - split; [lia|]. split; [intros c []|auto].
  - specialize (IH (Z.max acc a)). cbv zeta in *. destruct IH as [H1 [H2 H3]].
    split; [lia|]. split.
    + intros c [->|Hc]; [lia|auto].
    + destruct H3 as [H3|H3]; [|right; right; auto].
      destruct (Z.max_spec acc a) as [[_ E]|[_ E]]; rewrite E in *.
      * right; left; auto.
      * left; auto.
Qed.

Lemma interleave_extend_output : forall A (ls : list (list A)) L,
  1 < zlength ls <= INT_MAX -> Forall (fun l => 0 < zlength l) ls ->
  (exists l, In l ls /\ zlength l = L) -> (forall l, In l ls -> zlength l <= L) ->
  L * zlength ls <= INT_MAX ->
  exists out, outputN ls (interleaveCreate (map (@zlength A) ls) true) = Some out /\
    zlength out = L * zlength ls /\
    (forall n, 0 <= n < zlength out ->
       exists l, nthz ls (n mod zlength ls) = Some l /\
         nthz out n = Some (nthz l (Z.min (n / zlength ls) (zlength l - 1)))).
Proof.
  intros A ls L Hk Hp [lm [Hlm HL]] Hup Hmax. set (k := zlength ls) in *.
  assert (Hm : maxlen (map (@zlength A) ls) = L).
  { unfold maxlen. pose proof (maxlen_spec (map (@zlength A) ls) 0) as H. cbv zeta in H.
    destruct H as [H1 [H2 H3]]. set (m := fold_left _ _ _) in *.
    assert (L <= m) by (rewrite <- HL; apply H2; apply in_map; auto).
    assert (0 < L) by (rewrite <- HL; rewrite Forall_forall in Hp; auto).
    destruct H3 as [H3|H3]; [lia|]. apply in_map_iff in H3. destruct H3 as [y [Hy Hin]].
    specialize (Hup y Hin). lia. }
  assert (HLp : 0 < L) by (rewrite <- HL; rewrite Forall_forall in Hp; auto).
  assert (Hcr : exists rp, interleaveCreate (map (@zlength A) ls) true =
    CFilter {| fn_len := L * k; fn_src := fun n => (n mod k, n / k); fn_rp := rp |}).
  { eexists. unfold interleaveCreate. rewrite zlength_map, Hm. fold k. cbn [andb].
    assert (E1 : in_intb (L * k) = true) by (apply in_intb_spec; unfold in_int, INT_MIN; nia).
    rewrite E1. cbn [negb].
    destruct (Z.ltb_spec (INT_MAX / k) L).
    { exfalso. assert (L <= INT_MAX / k) by (apply Z.div_le_lower_bound; lia). lia. }
    destruct ls as [|l1 [|l2 ls]]; try reflexivity.
    exfalso; unfold k in Hk. rewrite zlength_cons, zlength_nil in Hk. lia. }
  destruct Hcr as [rp Hcr]. rewrite Hcr. eexists. split; [reflexivity|]. cbn [fn_len fn_src].
  assert (Hlen : zlength (map (fun n => fetch2 ls (n mod k, n / k)) (zseq (L * k))) = L * k)
    by (rewrite zlength_map, zlength_zseq; nia).
  split; [exact Hlen|]. rewrite Hlen.
  intros n Hn. rewrite nthz_map, nthz_zseq by lia. cbn [option_map]. unfold fetch2. cbn [fst snd].
  pose proof (Z.mod_pos_bound n k ltac:(lia)).
  destruct (proj2 (nthz_Some_iff _ ls (n mod k)) ltac:(lia)) as [l Hl]. rewrite Hl.
  exists l. split; auto. f_equal. unfold fetch, clampFrame.
  destruct (Z.leb_spec (zlength l) (n / k)); f_equal; lia.
Qed.

(** ** Sorting *)

Lemma zinsert_perm : forall x l, Permutation (x :: l) (zinsert x l).
Proof.
  induction l as [|a t IH]; cbn [zinsert]; auto.
  destruct (x <=? a); auto. rewrite perm_swap. constructor. exact IH.
Qed.

Lemma zsort_perm : forall l, Permutation l (zsort l).
Proof.
  induction l as [|a t IH]; auto. cbn [zsort fold_right]. rewrite <- zinsert_perm.
  constructor. exact IH.
Qed.

Lemma zinsert_sorted : forall x l, StronglySorted Z.le l -> StronglySorted Z.le (zinsert x l).
Proof.
  induction l as [|a t IH]; intros Hs; cbn [zinsert].
  - repeat constructor.
  - inversion Hs as [|? ? Ht Ha]; subst. destruct (Z.leb_spec x a).
    + constructor; auto. constructor; auto. eapply Forall_impl; [|exact Ha]. intros; lia.
    + constructor; auto. apply Forall_forall. intros y Hy.
      apply (Permutation_in _ (Permutation_sym (zinsert_perm x t))) in Hy.
      destruct Hy as [->|Hy]; [lia|]. rewrite Forall_forall in Ha; auto.
Qed.

Lemma zsort_sorted : forall l, StronglySorted Z.le (zsort l).
Proof.
  induction l; [constructor|]. cbn [zsort fold_right]. apply zinsert_sorted; auto.
Qed.

Lemma zlength_perm : forall A (l l' : list A), Permutation l l' -> zlength l = zlength l'.
Proof. intros. unfold zlength. rewrite (Permutation_length H). reflexivity. Qed.

Lemma zseq_app : forall a b, 0 <= a -> 0 <= b -> zseq (a + b) = zseq a ++ map (fun i => i + a) (zseq b).
Proof.
  intros a b Ha Hb. apply nthz_ext.
  - rewrite zlength_app, zlength_map, !zlength_zseq. lia.
  - rewrite zlength_zseq. intros i Hi. rewrite nthz_zseq by lia.
    destruct (Z.ltb_spec i a).
    + rewrite nthz_app1 by (rewrite zlength_zseq; lia). rewrite nthz_zseq by lia. reflexivity.
    + rewrite nthz_app2 by (rewrite zlength_zseq; lia). rewrite zlength_zseq, nthz_map.
      rewrite nthz_zseq by lia. simpl. f_equal; lia.
Qed.

Lemma flat_map_ext_in : forall A B (f g : A -> list B) l,
  (forall x, In x l -> f x = g x) -> flat_map f l = flat_map g l.
Proof.
  induction l; simpl; intros; auto. rewrite H by auto. f_equal; auto.
Qed.

Lemma flat_map_single : forall A (l : list A), flat_map (fun i => [i]) l = l.
Proof. induction l; simpl; congruence. Qed.

(** ** DuplicateFrames *)

Lemma dup_indices_perm : forall N l l', Permutation l l' -> dup_indices N l = dup_indices N l'.
Proof.
  intros. unfold dup_indices. apply flat_map_ext_in. intros x _. do 2 f_equal.
  rewrite (Permutation_count_occ Z.eq_dec) in H. auto.
Qed.

Lemma count_occ_lt : forall d i (t : list Z), i < d -> Forall (fun x => d <= x) t ->
  count_occ Z.eq_dec t i = O.
Proof.
  intros. apply count_occ_not_In. intro Hin. rewrite Forall_forall in H0.
  specialize (H0 i Hin). lia.
Qed.

Lemma dup_split : forall N d t, 0 <= d < N -> Forall (fun x => d <= x) t ->
  exists rest, dup_indices N t = zseq d ++ rest /\ dup_indices N (d :: t) = zseq d ++ d :: rest.
Proof.
  intros N d t Hd Ht. unfold dup_indices.
  replace N with (d + ((N - d - 1) + 1)) by lia.
  rewrite zseq_app by lia. rewrite zseq_cons by lia. cbn [map].
  rewrite !flat_map_app. cbn [flat_map].
  set (tl := map (fun i => i + d) (map (fun i => i + 1) (zseq (N - d - 1)))).
  exists (repeat (0 + d) (S (count_occ Z.eq_dec t (0 + d)))
     ++ flat_map (fun i => repeat i (S (count_occ Z.eq_dec t i))) tl).
  assert (Hpre : forall s, Forall (fun x => d <= x) s ->
    flat_map (fun i => repeat i (S (count_occ Z.eq_dec s i))) (zseq d) = zseq d).
  { intros s Hs. rewrite (flat_map_ext_in _ _ _ (fun i => [i])), flat_map_single; auto.
    intros x Hx. apply In_zseq in Hx. rewrite (count_occ_lt d) by (auto; lia). reflexivity. }
  split.
  - rewrite Hpre by auto. reflexivity.
  - rewrite Hpre by (constructor; auto; lia). f_equal.
    replace (0 + d) with d by lia.
    rewrite count_occ_cons_eq by reflexivity. cbn [repeat app].
    do 3 f_equal. apply flat_map_ext_in. intros x Hx. do 2 f_equal.
    apply count_occ_cons_neq. unfold tl in Hx.
    apply in_map_iff in Hx. destruct Hx as [y [<- Hy]].
    apply in_map_iff in Hy. destruct Hy as [z [<- Hz]]. apply In_zseq in Hz. lia.
Qed.

Lemma dup_src_spec : forall N s, 0 <= N -> StronglySorted Z.le s -> Forall (fun d => 0 <= d < N) s ->
  zlength (dup_indices N s) = N + zlength s /\
  forall n, 0 <= n < N + zlength s -> nthz (dup_indices N s) n = Some (dup_src s n).
Proof.
  intros N s HN. induction s as [|d t IH]; intros Hs Hr.
  - unfold dup_indices. simpl count_occ. cbn [repeat].
    rewrite flat_map_single, zlength_zseq, zlength_nil. split; [lia|].
    intros n Hn. simpl. apply nthz_zseq; lia.
  - inversion Hs as [|? ? Hst Hd]; subst. inversion Hr as [|? ? Hdr Hrt]; subst.
    specialize (IH Hst Hrt). destruct IH as [IHl IHn].
    destruct (dup_split N d t) as [rest [E1 E2]]; auto.
    rewrite E1 in *. rewrite E2. rewrite zlength_app, zlength_zseq in IHl.
    rewrite zlength_app, !zlength_cons, zlength_zseq. split; [lia|].
    intros n Hn. cbn [dup_src]. destruct (Z.ltb_spec d n).
    + rewrite <- IHn by lia.
      rewrite !nthz_app2 by (rewrite zlength_zseq; lia). rewrite zlength_zseq.
      rewrite nthz_cons_S by lia. f_equal; lia.
    + destruct (Z.eq_dec n d) as [->|].
      * rewrite nthz_app2 by (rewrite zlength_zseq; lia). rewrite zlength_zseq.
        replace (d - Z.max 0 d) with 0 by lia. reflexivity.
      * rewrite nthz_app1 by (rewrite zlength_zseq; lia). apply nthz_zseq; lia.
Qed.

Lemma output1_pick : forall A (l : list A) idx f,
  f_len f = zlength idx ->
  (forall n, 0 <= n < zlength idx -> nthz idx n = Some (f_src f n)) ->
  (forall i, In i idx -> i < zlength l) ->
  output1 l (CFilter f) = Some (pick l idx).
Proof.
  intros A l idx f Hl Hn Hr. simpl. f_equal. unfold pick. apply nthz_ext.
  - rewrite !zlength_map, zlength_zseq. pose proof (zlength_nonneg _ idx). lia.
  - pose proof (zlength_nonneg _ idx).
    rewrite zlength_map, zlength_zseq. intros i Hi. rewrite !nthz_map.
    rewrite nthz_zseq by lia. rewrite Hn by lia. simpl. f_equal.
    apply fetch_in. apply Hr. eapply nthz_In. apply Hn. lia.
Qed.

Lemma dup_indices_In : forall N dups i, In i (dup_indices N dups) -> 0 <= i < N.
Proof.
  intros N dups i H. unfold dup_indices in H. apply in_flat_map in H.
  destruct H as [x [Hx Hr]]. apply repeat_spec in Hr. subst. apply In_zseq; auto.
Qed.

Lemma Forall_int_range : forall N l, N <= INT_MAX -> Forall (fun d => 0 <= d < N) l -> Forall in_int l.
Proof. intros. eapply Forall_impl; [|eassumption]. unfold in_int, INT_MIN. simpl. intros; lia. Qed.

Lemma duplicate_output : forall A (l : list A) frames,
  0 < zlength l <= INT_MAX -> Forall (fun d => 0 <= d < zlength l) frames ->
  zlength l + zlength frames <= INT_MAX ->
  output1 l (duplicateCreate (zlength l) frames) = Some (pick l (dup_indices (zlength l) frames)).
Proof.
  intros A l frames HN Hf Hmax. unfold duplicateCreate.
  rewrite map_sat32_id by (eapply Forall_int_range; [|eassumption]; lia).
  replace (forallb _ frames) with true.
  2:{ symmetry. apply forallb_forall. rewrite Forall_forall in Hf. intros x Hx. specialize (Hf x Hx). lia. }
  cbn [negb]. destruct (Z.ltb_spec (INT_MAX - zlength l) (zlength frames)); [lia|].
  pose proof (zsort_perm frames) as Hp.
  destruct (dup_src_spec (zlength l) (zsort frames)) as [H1 H2]; try lia.
  { apply zsort_sorted. }
  { eapply Permutation_Forall; eauto. }
  rewrite <- (dup_indices_perm _ _ _ Hp) in *. rewrite <- (zlength_perm _ _ _ Hp) in *.
  apply output1_pick; cbn [f_len f_src].
  - lia.
  - intros n Hn. apply H2. lia.
  - intros i Hi. apply dup_indices_In in Hi. lia.
Qed.

Lemma duplicate_reject : forall N frames,
  0 < N < INT_MAX ->
  ~ Forall (fun d => 0 <= d < N) frames \/ INT_MAX < N + zlength frames ->
  duplicateCreate N frames = CErr.
Proof.
  intros N frames HN Hbad. unfold duplicateCreate.
  destruct (forallb _ (map sat32 frames)) eqn:E; auto. cbn [negb].
  assert (Hf : Forall (fun d => 0 <= d < N) frames).
  { apply Forall_forall. intros x Hx. rewrite forallb_forall in E.
    specialize (E (sat32 x) (in_map _ _ _ Hx)). pose proof (sat32_cases x).
    unfold INT_MAX, INT_MIN in *. lia. }
  destruct Hbad as [Hbad|Hbad]; [contradiction|].
  rewrite zlength_map. destruct (Z.ltb_spec (INT_MAX - N) (zlength frames)); [reflexivity|lia].
Qed.

(** ** DeleteFrames *)

Lemma existsb_perm : forall A (f : A -> bool) l l', Permutation l l' -> existsb f l = existsb f l'.
Proof.
  intros A f l l' H. apply eq_true_iff_eq. rewrite !existsb_exists.
  split; intros [x [Hx Hf]]; exists x; split; auto.
  - eapply Permutation_in; eauto.
  - eapply Permutation_in; [apply Permutation_sym; eauto|auto].
Qed.

Lemma filter_ext_in' : forall A (f g : A -> bool) l,
  (forall x, In x l -> f x = g x) -> filter f l = filter g l.
Proof. induction l; simpl; intros; auto. rewrite H by auto. rewrite IHl; auto. Qed.

Lemma del_indices_perm : forall N l l', Permutation l l' -> del_indices N l = del_indices N l'.
Proof.
  intros. unfold del_indices. apply filter_ext_in'. intros x _. f_equal. apply existsb_perm; auto.
Qed.

Lemma existsb_eqb_In : forall i l, existsb (Z.eqb i) l = true <-> In i l.
Proof.
  intros. rewrite existsb_exists. split.
  - intros [x [Hx E]]. apply Z.eqb_eq in E. subst; auto.
  - intros H; exists i; split; auto. apply Z.eqb_refl.
Qed.

Lemma existsb_eqb_notIn : forall i l, existsb (Z.eqb i) l = false <-> ~ In i l.
Proof. intros. rewrite <- existsb_eqb_In. destruct (existsb (Z.eqb i) l); split; congruence. Qed.

Lemma del_split : forall N d t, 0 <= d < N -> Forall (fun x => d < x) t ->
  exists rest, del_indices N t = zseq d ++ d :: rest /\ del_indices N (d :: t) = zseq d ++ rest.
Proof.
  intros N d t Hd Ht. unfold del_indices.
  replace N with (d + ((N - d - 1) + 1)) by lia.
  rewrite zseq_app by lia. rewrite zseq_cons by lia. cbn [map].
  rewrite !filter_app. cbn [filter].
  set (tl := map (fun i => i + d) (map (fun i => i + 1) (zseq (N - d - 1)))).
  replace (0 + d) with d by lia.
  assert (Hnot : forall i, i <= d -> existsb (Z.eqb i) t = false).
  { intros i Hi. apply existsb_eqb_notIn. intro Hin. rewrite Forall_forall in Ht. specialize (Ht i Hin). lia. }
  exists (filter (fun i => negb (existsb (Z.eqb i) t)) tl). split.
  - rewrite Hnot by lia. cbn [negb]. f_equal. apply filter_all. intros x Hx.
    apply In_zseq in Hx. rewrite Hnot by lia. reflexivity.
  - cbn [existsb]. rewrite Z.eqb_refl. cbn [orb negb]. f_equal.
    + apply filter_all. intros x Hx. apply In_zseq in Hx. rewrite Hnot by lia.
      destruct (Z.eqb_spec x d); [lia|reflexivity].
    + apply filter_ext_in'. intros x Hx. unfold tl in Hx.
      apply in_map_iff in Hx. destruct Hx as [y [<- Hy]].
      apply in_map_iff in Hy. destruct Hy as [z [<- Hz]]. apply In_zseq in Hz.
      destruct (Z.eqb_spec (z + 1 + d) d); [lia|reflexivity].
Qed.

Lemma del_src_spec : forall N s, 0 <= N -> StronglySorted Z.lt s -> Forall (fun d => 0 <= d < N) s ->
  zlength (del_indices N s) = N - zlength s /\
  forall n, 0 <= n < N - zlength s -> nthz (del_indices N s) n = Some (del_src s n).
Proof.
  intros N s HN. induction s as [|d t IH]; intros Hs Hr.
  - unfold del_indices. rewrite filter_all by reflexivity. rewrite zlength_zseq, zlength_nil.
    split; [lia|]. intros n Hn. simpl. apply nthz_zseq; lia.
  - inversion Hs as [|? ? Hst Hd]; subst. inversion Hr as [|? ? Hdr Hrt]; subst.
    specialize (IH Hst Hrt). destruct IH as [IHl IHn].
    destruct (del_split N d t) as [rest [E1 E2]]; auto.
    rewrite E1 in *. rewrite E2. rewrite zlength_app, zlength_cons, zlength_zseq in IHl.
    rewrite zlength_app, !zlength_cons, zlength_zseq. split; [lia|].
    intros n Hn. cbn [del_src]. destruct (Z.leb_spec d n).
    + rewrite <- IHn by lia.
      rewrite !nthz_app2 by (rewrite zlength_zseq; lia). rewrite zlength_zseq.
      rewrite nthz_cons_S by lia. f_equal; lia.
    + rewrite nthz_app1 by (rewrite zlength_zseq; lia). apply nthz_zseq; lia.
Qed.

Lemma adj_eq_sorted : forall l, StronglySorted Z.le l ->
  (adj_eq l = false <-> NoDup l) /\ (adj_eq l = false -> StronglySorted Z.lt l).
Proof.
  induction l as [|a t IH]; intros Hs.
  - split; [split; intros; [constructor|reflexivity]|constructor].
  - inversion Hs as [|? ? Ht Ha]; subst. specialize (IH Ht). destruct IH as [IH1 IH2].
    destruct t as [|b t].
    + split; [split; intros; auto; repeat constructor; auto|intros; repeat constructor].
    + cbn [adj_eq]. rewrite orb_false_iff.
      assert (Hlt : a <> b -> Forall (fun x => a < x) (b :: t)).
      { intros Hab. inversion Ha; subst. constructor; [lia|].
        inversion Ht; subst. eapply Forall_impl; [|eassumption]. simpl; intros; lia. }
      split; [split|].
      * intros [H1 H2]. constructor.
        -- intros Hin. apply Z.eqb_neq in H1. specialize (Hlt H1). rewrite Forall_forall in Hlt.
           specialize (Hlt a Hin). lia.
        -- apply IH1; auto.
      * intros Hn. inversion Hn; subst. split.
        -- apply Z.eqb_neq. intro; subst. apply H1; left; auto.
        -- apply IH1; auto.
      * intros [H1 H2]. apply Z.eqb_neq in H1. constructor; auto.
Qed.

Lemma delete_accept : forall N frames,
  0 < N <= INT_MAX -> Forall (fun d => 0 <= d < N) frames -> NoDup frames ->
  zlength frames < N ->
  deleteCreate N frames = CFilter {| f_len := N - zlength frames; f_src := del_src (zsort frames);
                                     f_rp := rpNoFrameReuse |} /\
  StronglySorted Z.lt (zsort frames) /\ Forall (fun d => 0 <= d < N) (zsort frames) /\
  zlength (zsort frames) = zlength frames.
Proof.
  intros N frames HN Hf Hnd Hlt. unfold deleteCreate.
  rewrite map_sat32_id by (eapply Forall_int_range; [|eassumption]; lia).
  replace (forallb _ frames) with true.
  2:{ symmetry. apply forallb_forall. rewrite Forall_forall in Hf. intros x Hx. specialize (Hf x Hx). lia. }
  cbn [negb]. pose proof (zsort_perm frames) as Hp.
  destruct (adj_eq_sorted (zsort frames) (zsort_sorted frames)) as [H1 H2].
  assert (Ha : adj_eq (zsort frames) = false).
  { apply H1. eapply Permutation_NoDup; eauto. }
  rewrite Ha. destruct (Z.leb_spec (N - zlength frames) 0); [lia|].
  split; [reflexivity|]. split; [auto|]. split.
  - eapply Permutation_Forall; eauto.
  - symmetry. apply zlength_perm; auto.
Qed.

Lemma delete_output : forall A (l : list A) frames,
  0 < zlength l <= INT_MAX -> Forall (fun d => 0 <= d < zlength l) frames -> NoDup frames ->
  zlength frames < zlength l ->
  output1 l (deleteCreate (zlength l) frames) = Some (pick l (del_indices (zlength l) frames)).
Proof.
  intros A l frames HN Hf Hnd Hlt.
  destruct (delete_accept (zlength l) frames) as [E [Hs [Hr Hl]]]; auto.
  rewrite E.
  destruct (del_src_spec (zlength l) (zsort frames)) as [H1 H2]; auto; try lia.
  rewrite <- (del_indices_perm _ _ _ (zsort_perm frames)) in *. rewrite Hl in *.
  apply output1_pick; cbn [f_len f_src].
  - lia.
  - intros n Hn. apply H2. lia.
  - intros i Hi. unfold del_indices in Hi. apply filter_In in Hi. destruct Hi as [Hi _].
    apply In_zseq in Hi. lia.
Qed.

Lemma delete_reject : forall N frames,
  0 < N < INT_MAX ->
  ~ Forall (fun d => 0 <= d < N) frames \/ ~ NoDup frames \/ N <= zlength frames ->
  deleteCreate N frames = CErr.
Proof.
  intros N frames HN Hbad. unfold deleteCreate.
  destruct (forallb _ (map sat32 frames)) eqn:E; auto. cbn [negb].
  assert (Hf : Forall (fun d => 0 <= d < N) frames).
  { apply Forall_forall. intros x Hx. rewrite forallb_forall in E.
    specialize (E (sat32 x) (in_map _ _ _ Hx)). pose proof (sat32_cases x).
    unfold INT_MAX, INT_MIN in *. lia. }
  rewrite map_sat32_id by (eapply Forall_int_range; [|eassumption]; lia).
  destruct (adj_eq_sorted (zsort frames) (zsort_sorted frames)) as [H1 H2].
  destruct (adj_eq (zsort frames)) eqn:Ea; auto.
  assert (NoDup frames).
  { eapply Permutation_NoDup; [apply Permutation_sym, zsort_perm|]. apply H1; auto. }
  destruct Hbad as [|[|Hbad]]; try contradiction.
  destruct (Z.leb_spec (N - zlength frames) 0); [reflexivity|lia].
Qed.

(** ** Deleting the inserted copies undoes a duplication *)

Lemma del_src_shift : forall P n, del_src (map (fun p => p + 1) P) (n + 1) = del_src P n + 1.
Proof.
  induction P as [|p t IH]; intros n; cbn [map del_src]; auto.
  destruct (Z.leb_spec (p + 1) (n + 1)), (Z.leb_spec p n); try lia; auto.
Qed.

Lemma del_src_ge : forall P n, n <= del_src P n.
Proof.
  induction P as [|p t IH]; intros n; cbn [del_src]; [lia|].
  destruct (Z.leb_spec p n); [|lia]. specialize (IH (n + 1)). lia.
Qed.

Lemma copy_positions_cons : forall d t,
  copy_positions (d :: t) = d :: map (fun p => p + 1) (copy_positions t).
Proof.
  intros. unfold copy_positions. cbn [length]. rewrite <- cons_seq. cbn [combine map].
  f_equal; [cbn [fst snd]; lia|]. rewrite <- seq_shift.
  assert (forall (f : list Z) s, map (fun p => fst p + Z.of_nat (snd p)) (combine f (map S s)) =
    map (fun p => p + 1) (map (fun p => fst p + Z.of_nat (snd p)) (combine f s))).
  { induction f as [|x f IH]; intros [|y s]; cbn [map combine]; auto. rewrite IH. f_equal. cbn [fst snd]. lia. }
  apply H.
Qed.

Lemma dup_del_src : forall s n, dup_src s (del_src (copy_positions s) n) = n.
Proof.
  induction s as [|d t IH]; intros n; [reflexivity|].
  rewrite copy_positions_cons. cbn [del_src]. destruct (Z.leb_spec d n).
  - rewrite del_src_shift. cbn [dup_src]. pose proof (del_src_ge (copy_positions t) n).
    destruct (Z.ltb_spec d (del_src (copy_positions t) n + 1)); [|lia].
    replace (del_src (copy_positions t) n + 1 - 1) with (del_src (copy_positions t) n) by lia. apply IH.
  - cbn [dup_src]. destruct (Z.ltb_spec d n); [lia|reflexivity].
Qed.

Lemma copy_positions_sorted : forall s, StronglySorted Z.le s ->
  StronglySorted Z.lt (copy_positions s) /\
  (forall lo, Forall (fun d => lo <= d) s -> Forall (fun d => lo <= d) (copy_positions s)).
Proof.
  induction s as [|d t IH]; intros Hs.
  - split; [constructor|]. intros; constructor.
  - inversion Hs as [|? ? Ht Hd]; subst. destruct (IH Ht) as [I1 I2].
    rewrite copy_positions_cons. split.
    + constructor.
      * clear -I1. induction I1; cbn [map]; constructor; auto.
        apply Forall_map. eapply Forall_impl; [|eassumption]. simpl; intros; lia.
      * apply Forall_map. eapply Forall_impl; [|apply (I2 d Hd)]. simpl; intros; lia.
    + intros lo Hlo. inversion Hlo; subst. constructor; auto. apply Forall_map.
      eapply Forall_impl; [|apply (I2 lo H2)]. simpl; intros; lia.
Qed.

Lemma copy_positions_upper : forall s N, Forall (fun d => d < N) s ->
  Forall (fun p => p < N + zlength s) (copy_positions s).
Proof.
  induction s as [|d t IH]; intros N H; [constructor|].
  inversion H; subst. rewrite copy_positions_cons, zlength_cons.
  pose proof (zlength_nonneg _ t). constructor; [lia|].
  apply Forall_map. eapply Forall_impl; [|apply (IH N); auto]. cbv beta; intros; lia.
Qed.

Lemma zlength_copy_positions : forall s, zlength (copy_positions s) = zlength s.
Proof.
  induction s; [reflexivity|]. rewrite copy_positions_cons, !zlength_cons, zlength_map. lia.
Qed.

Lemma SSorted_lt_NoDup : forall l, StronglySorted Z.lt l -> NoDup l.
Proof.
  induction 1; constructor; auto. intro Hin. rewrite Forall_forall in H0. specialize (H0 a Hin). lia.
Qed.

Lemma SSorted_unique : forall l, StronglySorted Z.le l -> zsort l = l.
Proof.
  induction 1 as [|a t Ht IH Ha]; auto. cbn [zsort fold_right]. fold (zsort t). rewrite IH.
  destruct t as [|b t]; auto. inversion Ha; subst. cbn [zinsert].
  destruct (Z.leb_spec a b); [reflexivity|lia].
Qed.

Lemma SSorted_lt_le : forall l, StronglySorted Z.lt l -> StronglySorted Z.le l.
Proof.
  induction 1; constructor; auto. eapply Forall_impl; [|eassumption]. simpl; intros; lia.
Qed.

Lemma pick_total : forall A (l : list A) idx, Forall (fun i => 0 <= i < zlength l) idx ->
  exists out, pick l idx = map Some out.
Proof.
  induction 1 as [|i t Hi Ht IH].
  - exists []. reflexivity.
  - destruct IH as [out E]. destruct (proj2 (nthz_Some_iff _ l i) Hi) as [a Ea].
    exists (a :: out). unfold pick in *. cbn [map]. rewrite Ea, E. reflexivity.
Qed.

Lemma duplicate_delete_inverse : forall A (l : list A) frames,
  0 < zlength l -> Forall (fun d => 0 <= d < zlength l) frames -> StronglySorted Z.le frames ->
  zlength l + zlength frames <= INT_MAX ->
  exists out, output1 l (duplicateCreate (zlength l) frames) = Some (map Some out) /\
    output1 out (deleteCreate (zlength out) (copy_positions frames)) = Some (map Some l).
Proof.
  intros A l frames HN Hf Hs Hmax. pose proof (zlength_nonneg _ frames) as Hfn.
  destruct (pick_total _ l (dup_indices (zlength l) frames)) as [out Eout].
  { apply Forall_forall. intros i Hi. apply dup_indices_In in Hi. auto. }
  exists out. split.
  { rewrite duplicate_output by (auto; lia). congruence. }
  destruct (dup_src_spec (zlength l) frames) as [D1 D2]; auto; try lia.
  assert (Hol : zlength out = zlength l + zlength frames).
  { rewrite <- D1. unfold pick in Eout. rewrite <- (zlength_map _ _ Some out), <- Eout.
    apply zlength_map. }
  destruct (copy_positions_sorted frames Hs) as [P1 P2].
  assert (Hpr : Forall (fun d => 0 <= d < zlength out) (copy_positions frames)).
  { pose proof (P2 0) as L. pose proof (copy_positions_upper frames (zlength l)) as U.
    apply Forall_forall. intros x Hx. rewrite Hol. split.
    - assert (HL : Forall (fun d => 0 <= d) (copy_positions frames)).
      { apply L. eapply Forall_impl; [|exact Hf]. simpl; intros; lia. }
      rewrite Forall_forall in HL; auto.
    - assert (HU : Forall (fun p => p < zlength l + zlength frames) (copy_positions frames)).
      { apply U. eapply Forall_impl; [|exact Hf]. simpl; intros; lia. }
      rewrite Forall_forall in HU; auto. }
  rewrite delete_output; auto.
  - destruct (del_src_spec (zlength out) (copy_positions frames)) as [E1 E2]; auto; try lia.
    rewrite zlength_copy_positions, Hol in E1, E2.
    f_equal. unfold pick. apply nthz_ext.
    + rewrite !zlength_map, Hol. lia.
    + rewrite zlength_map, Hol. intros i Hi. rewrite !nthz_map.
      rewrite <- Hol in *. rewrite E2 by lia. cbn [option_map].
      set (p := del_src (copy_positions frames) i).
      assert (Hp : 0 <= p < zlength out).
      { assert (Hin : In p (del_indices (zlength out) (copy_positions frames))).
        { eapply nthz_In. apply E2. lia. }
        unfold del_indices in Hin. apply filter_In in Hin. destruct Hin as [Hin _].
        apply In_zseq in Hin. exact Hin. }
      assert (Hd : nthz (pick l (dup_indices (zlength l) frames)) p = Some (nthz l i)).
      { unfold pick. rewrite nthz_map, D2 by lia. cbn [option_map]. unfold p.
        rewrite dup_del_src. reflexivity. }
      rewrite Eout, nthz_map in Hd.
      destruct (proj2 (nthz_Some_iff _ l i) ltac:(lia)) as [a Ea]. rewrite Ea in *. cbn [option_map].
      destruct (nthz out p); simpl in Hd; congruence.
  - lia.
  - apply SSorted_lt_NoDup; auto.
  - rewrite zlength_copy_positions. lia.
Qed.

(** ** FreezeFrames *)

Definition fz_disjoint (a b : freeze) : Prop :=
  fz_last a < fz_first b \/ fz_last b < fz_first a.

Lemma finsert_perm : forall x l, Permutation (x :: l) (finsert x l).
Proof.
  induction l as [|a t IH]; cbn [finsert]; auto.
  destruct (fz_first x <=? fz_first a); auto. rewrite perm_swap. constructor. exact IH.
Qed.

Lemma fsort_perm : forall l, Permutation l (fsort l).
Proof.
  induction l as [|a t IH]; auto. cbn [fsort fold_right]. rewrite <- finsert_perm.
  constructor. exact IH.
Qed.

Definition fle (a b : freeze) := fz_first a <= fz_first b.

Lemma finsert_sorted : forall x l, StronglySorted fle l -> StronglySorted fle (finsert x l).
Proof.
  induction l as [|a t IH]; intros Hs; cbn [finsert].
  - repeat constructor.
  - inversion Hs as [|? ? Ht Ha]; subst. destruct (Z.leb_spec (fz_first x) (fz_first a)).
    + constructor; auto. constructor; auto. eapply Forall_impl; [|exact Ha]. unfold fle; intros; lia.
    + constructor; auto. apply Forall_forall. intros y Hy.
      apply (Permutation_in _ (Permutation_sym (finsert_perm x t))) in Hy.
      destruct Hy as [->|Hy]; [unfold fle; lia|]. rewrite Forall_forall in Ha; auto.
Qed.

Lemma fsort_sorted : forall l, StronglySorted fle (fsort l).
Proof.
  induction l; [constructor|]. cbn [fsort fold_right]. apply finsert_sorted; auto.
Qed.

Lemma FOP_perm : forall l l', Permutation l l' ->
  ForallOrdPairs fz_disjoint l -> ForallOrdPairs fz_disjoint l'.
Proof.
  induction 1; intros H1; auto.
  - inversion H1; subst. constructor; auto. eapply Permutation_Forall; eauto.
  - inversion H1 as [|? ? Hy Hl]; subst. inversion Hl; subst. inversion Hy; subst.
    constructor; [constructor; auto|constructor; auto].
    unfold fz_disjoint in *; tauto.
Qed.

Lemma overlap_spec : forall l, StronglySorted fle l ->
  Forall (fun f => fz_first f <= fz_last f) l ->
  (overlap l = false <-> ForallOrdPairs fz_disjoint l) /\
  (overlap l = false -> StronglySorted (fun a b => fz_last a < fz_first b) l).
Proof.
  induction l as [|a t IH]; intros Hs Hv.
  - split; [split; intros; [constructor|reflexivity]|constructor].
  - inversion Hs as [|? ? Ht Ha]; subst. inversion Hv as [|? ? Hav Hvt]; subst.
    destruct (IH Ht Hvt) as [IH1 IH2]. destruct t as [|b t].
    + split; [split; intros; auto; repeat constructor|intros; repeat constructor].
    + cbn [overlap]. rewrite orb_false_iff.
      assert (Hlt : fz_last a < fz_first b -> Forall (fun x => fz_last a < fz_first x) (b :: t)).
      { intros Hab. constructor; [lia|]. inversion Ht; subst. eapply Forall_impl; [|eassumption].
        unfold fle; simpl; intros; lia. }
      split; [split|].
      * intros [H1 H2]. constructor.
        -- eapply Forall_impl; [|apply Hlt; lia]. unfold fz_disjoint; intros; auto.
        -- apply IH1; auto.
      * intros Hn. inversion Hn as [|? ? Hfa Hft]; subst. split.
        -- inversion Hfa as [|? ? Hab ?]; subst. inversion Ha; subst. unfold fle in *.
           inversion Hvt; subst. unfold fz_disjoint in Hab. lia.
        -- apply IH1; auto.
      * intros [H1 H2]. constructor; auto. apply Hlt. lia.
Qed.

Lemma freeze_find_hit : forall l f n,
  StronglySorted (fun a b => fz_last a < fz_first b) l -> In f l ->
  Forall (fun f => fz_first f <= fz_last f) l ->
  fz_first f <= n <= fz_last f -> freeze_find l n = fz_rep f.
Proof.
  induction l as [|a t IH]; intros f n Hs Hin Hv Hn; [destruct Hin|].
  inversion Hs as [|? ? Hst Ha]; subst. inversion Hv; subst. cbn [freeze_find].
  destruct Hin as [->|Hin].
  - destruct (Z.leb_spec (fz_first f) n), (Z.leb_spec n (fz_last f)); try lia. reflexivity.
  - rewrite Forall_forall in Ha. specialize (Ha f Hin).
    destruct (Z.leb_spec n (fz_last a)); [lia|]. rewrite andb_false_r. eapply IH; eauto.
Qed.

Lemma freeze_find_miss : forall l n,
  (forall f, In f l -> ~ (fz_first f <= n <= fz_last f)) -> freeze_find l n = n.
Proof.
  induction l as [|a t IH]; intros n H; cbn [freeze_find]; auto.
  destruct (Z.leb_spec (fz_first a) n), (Z.leb_spec n (fz_last a)); cbn [andb];
    try (apply IH; intros f Hf; apply H; right; auto).
  exfalso. apply (H a); [left; auto|lia].
Qed.

Lemma last_In : forall A (l : list A) d, l <> [] -> In (last l d) l.
Proof.
  induction l as [|a t IH]; intros d H; [contradiction|]. destruct t; [left; auto|].
  right. apply IH. discriminate.
Qed.

Lemma freeze_src_spec : forall l n,
  StronglySorted (fun a b => fz_last a < fz_first b) l ->
  Forall (fun f => fz_first f <= fz_last f) l ->
  (forall f, In f l -> fz_first f <= n <= fz_last f -> freeze_src l n = fz_rep f) /\
  ((forall f, In f l -> ~ (fz_first f <= n <= fz_last f)) -> freeze_src l n = n).
Proof.
  intros l n Hs Hv. split.
  - intros f Hin Hn. destruct l as [|a t]; [destruct Hin|]. unfold freeze_src.
    assert (H1 : fz_first a <= fz_first f).
    { destruct Hin as [->|Hin]; [lia|]. inversion Hs as [|? ? ? Ha]; subst.
      rewrite Forall_forall in Ha. specialize (Ha f Hin).
      inversion Hv; subst. lia. }
    assert (H2 : fz_last f <= fz_last (last (a :: t) a)).
    { clear H1. revert f Hin Hn. generalize a at 3. revert Hs Hv. generalize (a :: t) as l. clear.
      induction l as [|b l IH]; intros Hs Hv d f Hin Hn; [destruct Hin|].
      inversion Hs as [|? ? Hsl Hb]; subst. inversion Hv; subst.
      destruct l as [|c l].
      - destruct Hin as [->|[]]. simpl. lia.
      - destruct Hin as [->|Hin].
        + assert (Hl : In (last (f :: c :: l) d) (c :: l)).
          { change (last (f :: c :: l) d) with (last (c :: l) d). apply last_In. discriminate. }
          rewrite Forall_forall in Hb, H2. specialize (Hb _ Hl). specialize (H2 _ Hl). lia.
        + change (last (b :: c :: l) d) with (last (c :: l) d). apply IH; auto. }
    destruct (Z.leb_spec (fz_first a) n); [|lia].
    destruct (Z.leb_spec n (fz_last (last (a :: t) a))); [|lia]. cbn [andb].
    apply freeze_find_hit; auto.
  - intros H. destruct l as [|a t]; auto. unfold freeze_src.
    destruct ((fz_first a <=? n) && (n <=? fz_last (last (a :: t) a))); auto.
    apply freeze_find_miss; auto.
Qed.

(** Ranges as given by the user: (first, last, replacement) in any order. *)

Lemma mkFreeze_ok : forall N a b r, N <= INT_MAX -> range_ok N (a, b, r) ->
  mkFreeze (a, b, r) = {| fz_first := Z.min a b; fz_last := Z.max a b; fz_rep := r |}.
Proof.
  intros N a b r HN [Ha [Hb Hr]]. unfold mkFreeze.
  rewrite !sat32_in by (unfold in_int, INT_MIN; lia).
  destruct (Z.ltb_spec b a); f_equal; lia.
Qed.

Lemma FOP_map_iff : forall N rs, N <= INT_MAX -> Forall (range_ok N) rs ->
  (ForallOrdPairs range_disjoint rs <-> ForallOrdPairs fz_disjoint (map mkFreeze rs)).
Proof.
  intros N rs HN. induction 1 as [|[[a b] r] t Ht HF IH].
  - split; constructor.
  - cbn [map]. rewrite (mkFreeze_ok N) by auto.
    assert (Hhd : Forall (range_disjoint (a, b, r)) t <->
      Forall (fz_disjoint {| fz_first := Z.min a b; fz_last := Z.max a b; fz_rep := r |}) (map mkFreeze t)).
    { clear IH. induction HF as [|[[c d] e] u Hu HF IH2]; [split; constructor|].
      cbn [map]. rewrite !Forall_cons_iff, IH2, (mkFreeze_ok N) by auto.
      assert (range_disjoint (a, b, r) (c, d, e) <->
        fz_disjoint {| fz_first := Z.min a b; fz_last := Z.max a b; fz_rep := r |}
                    {| fz_first := Z.min c d; fz_last := Z.max c d; fz_rep := e |}) by reflexivity.
      tauto. }
    split; intros H; inversion H; subst; constructor; tauto.
Qed.

Lemma freeze_output : forall A (l : list A) ranges,
  0 < zlength l <= INT_MAX -> Forall (range_ok (zlength l)) ranges ->
  ForallOrdPairs range_disjoint ranges ->
  exists out, output1 l (freezeCreate (zlength l) ranges) = Some out /\
    zlength out = zlength l /\
    (forall n a b r, 0 <= n < zlength l -> In (a, b, r) ranges -> in_range a b n ->
       nthz out n = Some (nthz l r)) /\
    (forall n, 0 <= n < zlength l ->
       (forall a b r, In (a, b, r) ranges -> ~ in_range a b n) -> nthz out n = Some (nthz l n)).
Proof.
  intros A l ranges HN Hok Hdis. set (N := zlength l) in *.
  destruct ranges as [|r0 rs].
  { exists (map Some l). split; [reflexivity|]. split; [apply zlength_map|].
    split; [intros n a b r _ []|]. intros n Hn _. rewrite nthz_map.
    destruct (proj2 (nthz_Some_iff _ l n) Hn) as [x Hx]. rewrite Hx. reflexivity. }
  set (ranges := r0 :: rs) in *.
  set (fs := map mkFreeze ranges).
  assert (Hfs : Forall (fun f => (0 <= fz_first f /\ fz_first f <= fz_last f /\ fz_last f < N) /\ 0 <= fz_rep f < N) fs).
  { unfold fs. apply Forall_map. eapply Forall_impl; [|exact Hok]. intros [[a b] r] H.
    rewrite (mkFreeze_ok N) by (auto; lia). destruct H as [Ha [Hb Hr]]. cbn [fz_first fz_last fz_rep]. lia. }
  assert (Hperm : Permutation fs (fsort fs)) by apply fsort_perm.
  assert (Hval : Forall (fun f => fz_first f <= fz_last f) (fsort fs)).
  { eapply Permutation_Forall; [exact Hperm|]. eapply Forall_impl; [|exact Hfs]. simpl; intros; lia. }
  destruct (overlap_spec (fsort fs) (fsort_sorted fs) Hval) as [O1 O2].
  assert (Hov : overlap (fsort fs) = false).
  { apply O1. eapply FOP_perm; [exact Hperm|]. unfold fs. apply (FOP_map_iff N); auto. lia. }
  specialize (O2 Hov).
  assert (Hcr : freezeCreate N ranges = CFilter {| f_len := N; f_src := freeze_src (fsort fs); f_rp := rpGeneral |}).
  { unfold freezeCreate. unfold ranges at 1. cbv iota. fold fs.
    replace (forallb _ fs) with true.
    2:{ symmetry. apply forallb_forall. intros f Hf. rewrite Forall_forall in Hfs. specialize (Hfs f Hf). lia. }
    cbn [negb]. rewrite Hov. reflexivity. }
  rewrite Hcr. eexists. split; [reflexivity|]. cbn [f_len f_src]. split.
  { rewrite zlength_map, zlength_zseq. lia. }
  assert (Hbase : forall n, 0 <= n < N -> forall m, freeze_src (fsort fs) n = m -> m < N ->
    nthz (map (fun n => fetch l (freeze_src (fsort fs) n)) (zseq N)) n = Some (nthz l m)).
  { intros n Hn m Hm Hlt. rewrite nthz_map, nthz_zseq by lia. cbn [option_map]. rewrite Hm.
    rewrite fetch_in by (fold N; lia). reflexivity. }
  split.
  - intros n a b r Hn Hin Hr. apply Hbase; auto.
    + destruct (freeze_src_spec (fsort fs) n O2 Hval) as [S1 _].
      rewrite Forall_forall in Hok. pose proof (Hok _ Hin) as Hrok.
      assert (Hinf : In (mkFreeze (a, b, r)) (fsort fs)).
      { eapply Permutation_in; [exact Hperm|]. unfold fs. apply in_map; auto. }
      rewrite (mkFreeze_ok N) in Hinf by (auto; lia).
      specialize (S1 _ Hinf). cbn [fz_first fz_last fz_rep] in S1. apply S1. exact Hr.
    + rewrite Forall_forall in Hok. specialize (Hok _ Hin). simpl in Hok. lia.
  - intros n Hn Hno. apply Hbase; auto; [|lia].
    destruct (freeze_src_spec (fsort fs) n O2 Hval) as [_ S2]. apply S2.
    intros f Hf Hr. apply (Permutation_in _ (Permutation_sym Hperm)) in Hf. unfold fs in Hf.
    apply in_map_iff in Hf. destruct Hf as [[[a b] r] [E Hin]].
    rewrite Forall_forall in Hok. pose proof (Hok _ Hin) as Hrok.
    rewrite (mkFreeze_ok N) in E by (auto; lia). subst f. apply (Hno a b r Hin). exact Hr.
Qed.

Lemma freeze_reject : forall N ranges,
  0 < N < INT_MAX -> ranges <> [] ->
  ~ Forall (range_ok N) ranges \/ ~ ForallOrdPairs range_disjoint ranges ->
  freezeCreate N ranges = CErr.
Proof.
  intros N ranges HN Hne Hbad. destruct ranges as [|r0 rs]; [contradiction|].
  unfold freezeCreate. set (ranges := r0 :: rs) in *. set (fs := map mkFreeze ranges).
  destruct (forallb _ fs) eqn:E; auto. cbn [negb].
  assert (Hok : Forall (range_ok N) ranges).
  { apply Forall_forall. intros [[a b] r] Hin. rewrite forallb_forall in E.
    specialize (E (mkFreeze (a, b, r)) (in_map mkFreeze _ _ Hin)).
    unfold mkFreeze in E. pose proof (sat32_cases a). pose proof (sat32_cases b). pose proof (sat32_cases r).
    destruct (Z.ltb_spec (sat32 b) (sat32 a)); cbn [fz_first fz_last fz_rep] in E;
    unfold INT_MAX, INT_MIN in *; simpl; lia. }
  destruct Hbad as [|Hbad]; [contradiction|].
  destruct (overlap (fsort fs)) eqn:Ho; auto. exfalso. apply Hbad.
  apply (FOP_map_iff N); auto; [lia|]. fold fs.
  assert (Hval : Forall (fun f => fz_first f <= fz_last f) (fsort fs)).
  { eapply Permutation_Forall; [apply fsort_perm|]. unfold fs. apply Forall_map.
    eapply Forall_impl; [|exact Hok]. intros [[a b] r] H. rewrite (mkFreeze_ok N) by (auto; lia).
    cbn [fz_first fz_last]. lia. }
  destruct (overlap_spec (fsort fs) (fsort_sorted fs) Hval) as [O1 _].
  eapply FOP_perm; [apply Permutation_sym, fsort_perm|]. apply O1; auto.
Qed.

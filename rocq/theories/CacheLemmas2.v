(** Refinement of every cache operation and of operation sequences. *)
From Coq Require Import ZArith List Lia Bool.
From Verif Require Import Common CacheSpec Cache CacheLemmas.
Import ListNotations.
Open Scope Z_scope.


Section Refine.
Variable F : Type.
Variable fsz : F -> Z.

Notation cache := (cache F). Notation lru := (lru F).
Notation total := (total F fsz).
Notation rel0 := (rel0 F fsz). Notation rel := (rel F fsz).
Notation keys := (keys F). Notation frames := (frames F).

Ltac prj := cbn [hash cfirst cweak clast maxSize currentSize maxHistorySize historySize fixedSize hits nearMiss
  farMiss currentBytes userSize lastActivity set_hash set_ptrs set_counts set_stats set_limits set_tuning
  live hist cap hcap fixed nhit nnear nfar floor seen lists caps stats tune keys fst snd].

Lemma in_without : forall k p l, In p (without F k l) <-> In p l /\ fst p <> k.
Proof. clear fsz.
  intros. unfold without. rewrite filter_In. rewrite negb_true_iff, Z.eqb_neq. tauto.
Qed.
Lemma in_hwithout : forall k x l, In x (hwithout k l) <-> In x l /\ x <> k.
Proof. clear fsz. intros. unfold hwithout. rewrite filter_In. rewrite negb_true_iff, Z.eqb_neq. tauto. Qed.

Lemma not_in_keys_view : forall c a k, rel0 c a -> (hash F c k = None <-> ~ In k (keys a)).
Proof.
  intros c a k R. split.
  - intros H Hi. pose proof (r_view _ _ _ _ R k) as Hv.
    unfold CacheLemmas.frames in Hv. rewrite H in Hv. simpl in Hv.
    unfold CacheLemmas.keys in Hi. apply in_app_iff in Hi. destruct Hi as [Hi|Hi].
    + apply in_map_iff in Hi. destruct Hi as [[k' f] [<- Hi]].
      erewrite view_live in Hv; [discriminate|exact (r_nodup _ _ _ _ R)|exact Hi].
    + rewrite view_hist in Hv; [discriminate|exact (r_nodup _ _ _ _ R)|exact Hi].
  - intros H. apply frames_None. rewrite (r_view _ _ _ _ R). apply view_out; auto.
Qed.

Lemma remove_rel0 : forall c a k, rel0 c a ->
  exists c' b, remove F fsz c k = Ok (c', b) /\
    rel0 c' (lists F a (without F k (live F a)) (hwithout k (hist F a))).
Proof.
  intros c a k R. unfold remove. destruct (hash F c k) eqn:E.
  - destruct (unlink_rel F fsz c a k R) as [c' [E1 R1]].
    { destruct (in_dec Z.eq_dec k (keys a)) as [H|H]; auto. apply (not_in_keys_view c a k R) in H. congruence. }
    rewrite E1. cbn [obind]. eauto.
  - apply (not_in_keys_view c a k R) in E. unfold CacheLemmas.keys in E. rewrite in_app_iff in E.
    exists c, false. split; auto. rewrite without_notin, hwithout_notin by tauto. rewrite lists_same. auto.
Qed.

(** Pushing a fresh node in front. *)
Lemma push_rel : forall c a k f, rel0 c a -> ~ In k (keys a) ->
  0 <= fsz f -> total (live F a) + fsz f < SIZE_MAX ->
  let h := hset F (hash F c) k {| n_frame := Some f; n_prev := None; n_next := None |} in
  exists h1 h2, (match cfirst F c with Some x => upd F h x (with_prev F (Some k)) | None => Ok h end) = Ok h1 /\
   upd F h1 k (with_next F (cfirst F c)) = Ok h2 /\
   rel0 (set_counts F (set_hash F (set_ptrs F c (Some k) (cweak F c)
           (match clast F c with None => Some k | Some _ => clast F c end)) h2)
             (currentSize F c + 1) (historySize F c) (currentBytes F c + fsz f))
        (lists F a ((k, f) :: live F a) (hist F a)).
Proof.
  intros c a k f R Hk Hf Hmem h. destruct R.
  set (ks := keys a) in *.
  assert (S1 : exists h1, (match cfirst F c with Some x => upd F h x (with_prev F (Some k)) | None => Ok h end) = Ok h1 /\
     seg F h1 (Some k) ks None /\ h1 k = Some {| n_frame := Some f; n_prev := None; n_next := None |} /\
     (forall x, frames h1 x = frames h x)).
  { rewrite r_first. destruct ks as [|q t]; simpl hd_or.
    - exists h. split; auto. split; [simpl; auto|]. split; auto. unfold h. apply hset_same.
    - cbn [seg] in r_seg. destruct r_seg as [[fq Hq] Hs].
      assert (q <> k) by (intros ->; apply Hk; simpl; auto).
      unfold upd. unfold h at 1. rewrite hset_other by auto. rewrite Hq. eexists; split; [reflexivity|].
      cbn [with_prev n_frame n_prev n_next].
      inversion r_nodup; subst.
      split; [|split].
      + cbn [seg]. split. { exists fq. apply hset_same. }
        eapply seg_ext; [|exact Hs]. intros x Hx. rewrite hset_other by congruence. unfold h.
        apply hset_other. intros ->. apply Hk. simpl; auto.
      + rewrite hset_other by auto. unfold h. apply hset_same.
      + intros x. unfold CacheLemmas.frames. destruct (Z.eq_dec x q).
        * subst. rewrite hset_same. unfold h. rewrite hset_other by auto. rewrite Hq. auto.
        * rewrite hset_other by auto. auto. }
  destruct S1 as [h1 [E1 [Hs [Hk1 Hfr]]]]. rewrite E1. exists h1.
  unfold upd. rewrite Hk1. eexists. split; [reflexivity|]. split; [reflexivity|].
  cbn [with_next n_frame n_prev n_next].
  set (h2 := hset F h1 k _).
  assert (Hfr2 : forall x, frames h2 x = frames h x).
  { intros x. rewrite <- Hfr. unfold CacheLemmas.frames, h2. destruct (Z.eq_dec x k).
    - subst. rewrite hset_same, Hk1. auto.
    - rewrite hset_other; auto. }
  assert (Hfo : forall x, x <> k -> frames h2 x = frames (hash F c) x).
  { intros x Hx. rewrite Hfr2. unfold CacheLemmas.frames, h. rewrite hset_other; auto. }
  assert (Hnd : NoDup (map fst ((k, f) :: live F a) ++ hist F a)).
  { simpl. constructor; auto. }
  constructor; prj; unfold CacheLemmas.keys; prj; auto.
  - cbn [map app seg fst]. fold ks. split.
    + exists (Some f). unfold h2. rewrite hset_same. rewrite r_first. fold ks. auto.
    + eapply seg_ext; [|exact Hs]. intros x Hx. unfold h2. apply hset_other. intros ->. exact (Hk Hx).
  - intros x. apply view_eq; auto.
    + intros x0 f0 [Hx|Hx].
      * inversion Hx; subst. rewrite Hfr2. unfold CacheLemmas.frames, h. rewrite hset_same. auto.
      * rewrite Hfo, r_view. { apply view_live; auto. }
        intros ->. apply Hk. unfold ks, CacheLemmas.keys. apply in_app_iff. left. apply in_map_iff. exists (k, f0); auto.
    + intros x0 Hx. rewrite Hfo, r_view. { apply view_hist; auto. }
      intros ->. apply Hk. unfold ks, CacheLemmas.keys. apply in_app_iff; auto.
    + intros x0 Hx. cbn [map app fst In] in Hx. rewrite Hfo by (intros ->; apply Hx; left; reflexivity). rewrite r_view. apply view_out. intro Hx2. apply Hx. right. exact Hx2.
  - rewrite r_last. cbn [map app fst last_or]. change (map fst (live F a) ++ hist F a) with ks.
    destruct (list_snoc _ ks) as [E|[z [y E]]]; rewrite E; auto. rewrite !last_or_snoc. auto.
  - rewrite r_cur, zlength_cons. lia.
  - rewrite r_bytes. simpl. lia.
  - simpl. lia.
Qed.

Lemma total_without : forall k l, Forall (fun p => 0 <= fsz (snd p)) l -> total (without F k l) <= total l.
Proof.
  intros k l H. unfold without. induction H as [|[k' f'] t H1 H2 IH]; simpl in *; [lia|].
  destruct (k' =? k); simpl; lia.
Qed.

Lemma insert_rel : forall c a k f, rel0 c a -> 0 <= fsz f -> total (live F a) + fsz f < SIZE_MAX ->
  exists c', insert F fsz c k f = Ok c' /\ rel c' (fst (s_step F fsz a (OInsert k f))).
Proof.
  intros c a k f R Hf Hmem. unfold insert.
  destruct (remove_rel0 c a k R) as [c1 [b [E1 R1]]]. rewrite E1. cbn [obind fst].
  set (a1 := lists F a _ _) in *.
  assert (Hk : ~ In k (keys a1)).
  { unfold CacheLemmas.keys, a1. prj. rewrite in_app_iff, in_map_iff. intros [[p [H1 H2]]|H].
    - apply in_without in H2. tauto.
    - apply in_hwithout in H. tauto. }
  destruct (push_rel c1 a1 k f R1 Hk Hf) as [h1 [h2 [E2 [E3 R3]]]].
  { unfold a1. prj. pose proof (total_without k (live F a) (r_sizes _ _ _ _ R)). lia. }
  cbv zeta. rewrite E2. cbn [obind]. rewrite E3. cbn [obind].
  edestruct (evict_settle F fsz) as [c' [fr [E4 R4]]]; [exact R3|].
  rewrite E4. cbn [obind fst]. exists c'. split; auto.
Qed.

Lemma total_move : forall l1 k f l2, total ((k, f) :: l1 ++ l2) = total (l1 ++ (k, f) :: l2).
Proof. intros. simpl. rewrite !total_app. simpl. lia. Qed.

Lemma relink_rel : forall c a k, rel c a ->
  exists c', relink F fsz c k = Ok (c', snd (s_step F fsz a (OLookup k))) /\
    rel c' (fst (s_step F fsz a (OLookup k))).
Proof.
  intros c a k [R [Hb1 Hb2]]. unfold relink. cbn [s_step].
  pose proof (r_view _ _ _ _ R k) as Hv. unfold view in Hv.
  destruct (assoc F k (live F a)) as [f|] eqn:Ea.
  2:{ destruct (existsb (Z.eqb k) (hist F a)).
      - destruct (frames_Some F _ _ _ Hv) as [n [Hn Hf]]. rewrite Hn, Hf. eexists; split; [reflexivity|].
        split; [|split; auto]. destruct R; constructor; prj; auto; lia.
      - rewrite (frames_None F _ _ Hv). eexists; split; [reflexivity|].
        split; [|split; auto]. destruct R; constructor; prj; auto; lia. }
  destruct (frames_Some F _ _ _ Hv) as [n [Hn Hf]]. rewrite Hn, Hf. cbn [fst snd].
  apply assoc_In in Ea. pose proof Ea as Hin. apply in_split in Ea. destruct Ea as [l1 [l2 El]].
  destruct R.
  assert (Hkeys : keys a = map fst l1 ++ k :: (map fst l2 ++ hist F a)).
  { unfold CacheLemmas.keys. rewrite El, map_app, <- app_assoc. auto. }
  assert (Hnl : NoDup (map fst (live F a))).
  { unfold CacheLemmas.keys in r_nodup. eapply NoDup_app_l; eauto. }
  assert (Ew : without F k (live F a) = l1 ++ l2) by (rewrite El; apply without_split; rewrite <- El; auto).
  rewrite Ew.
  assert (Hw : oeqb (cweak F c) (Some k) = false).
  { apply oeqb_neq. rewrite r_weak. destruct (hist F a) as [|w t] eqn:Eh; simpl; [discriminate|].
    intros E; inversion E; subst. unfold CacheLemmas.keys in r_nodup. rewrite Eh in r_nodup.
    eapply NoDup_app_disj; [exact r_nodup| |simpl; left; reflexivity].
    apply in_map_iff. exists (k, f). auto. }
  prj. rewrite Hw. prj.
  (* the tail of relink does nothing *)
  assert (Htail : forall c1 : cache, hash F c1 k = Some (match hash F c1 k with Some m => m | None => n end) ->
     option_map (n_frame F) (hash F c1 k) = Some (Some f) ->
     cweak F c1 = cweak F c -> maxSize F c1 = maxSize F c -> currentSize F c1 = currentSize F c ->
     maxHistorySize F c1 = maxHistorySize F c -> historySize F c1 = historySize F c ->
     obind (match cweak F c1 with
         | None =>
           if maxSize F c1 <? currentSize F c1 then
             match clast F c1 with
             | None => UB
             | Some l => match hash F c1 l with
                         | None => UB
                         | Some m => Ok (set_counts F (set_ptrs F (set_hash F c1 (hset F (hash F c1) l (no_frame F m))) (cfirst F c1) (Some l) (clast F c1))
                                          (currentSize F c1) (historySize F c1) (currentBytes F c1 - frame_bytes F fsz m))
                         end
             end
           else Ok c1
         | Some w =>
           if false || (maxHistorySize F c1 <? historySize F c1) then
             match hash F c1 w with
             | None => UB
             | Some wn =>
               match n_prev F wn with
               | None => UB
               | Some p => match hash F c1 p with
                           | None => UB
                           | Some m => Ok (set_counts F (set_ptrs F (set_hash F c1 (hset F (hash F c1) p (no_frame F m))) (cfirst F c1) (Some p) (clast F c1))
                                            (currentSize F c1) (historySize F c1) (currentBytes F c1 - frame_bytes F fsz m))
                           end
               end
             end
           else Ok c1
         end) (fun c2 => match hash F c2 k with Some n' => Ok (c2, n_frame F n') | None => UB end) = Ok (c1, Some f)).
  { intros c1 Hk1 Hk2 W1 W2 W3 W4 W5.
    assert (E1 : (maxSize F c1 <? currentSize F c1) = false) by (apply Z.ltb_ge; rewrite W2, W3, r_cur, r_max; auto).
    assert (E2 : (maxHistorySize F c1 <? historySize F c1) = false) by (apply Z.ltb_ge; rewrite W4, W5, r_histn, r_maxh; auto).
    rewrite E1, E2. cbn [orb].
    destruct (cweak F c1); cbn [obind]; destruct (hash F c1 k) as [m|]; simpl in Hk2; try discriminate;
      inversion Hk2; congruence. }
  destruct (oeqb (cfirst F c) (Some k)) eqn:Ef.
  - (* already first *)
    cbn [obind]. rewrite Htail; prj; auto; try (rewrite Hn; simpl; congruence).
    eexists; split; [reflexivity|].
    assert (l1 = []).
    { destruct l1 as [|[y fy] l1]; auto. apply oeqb_eq in Ef. rewrite r_first, Hkeys in Ef. simpl in Ef.
      inversion Ef; subst. rewrite Hkeys in r_nodup. simpl in r_nodup. inversion r_nodup; subst.
      exfalso. apply H1. apply in_app_iff. simpl; auto. }
    subst l1. simpl app in *. split; [|split; prj].
    + constructor; prj; unfold CacheLemmas.keys in *; prj; rewrite <- ?El; auto; lia.
    + rewrite <- El. auto.
    + auto.
  - (* move to the front *)
    rewrite Hkeys in r_nodup, r_seg.
    destruct (unlink_heap F _ _ _ _ _ r_nodup r_seg Hn) as [Ep [En [h1 [h2 [E1 [E2 [Hs [Hk Hfr]]]]]]]].
    rewrite E1. cbn [obind]. rewrite E2. cbn [obind].
    unfold upd at 1. rewrite Hk. cbn [obind].
    destruct l1 as [|[y fy] l1'] eqn:El1.
    { exfalso. apply oeqb_neq in Ef. apply Ef. rewrite r_first, Hkeys. auto. }
    assert (Hfirst : cfirst F c = Some y) by (rewrite r_first, Hkeys; auto).
    rewrite Hfirst.
    pose proof (NoDup_remove_2 _ _ _ r_nodup) as Hkn. pose proof (NoDup_remove_1 _ _ _ r_nodup) as Hnd1.
    assert (Hyk : y <> k) by (intros ->; apply Hkn; simpl; auto).
    simpl map in Hs. simpl app in Hs. cbn [seg] in Hs. destruct Hs as [[fr Hy] Hs].
    unfold upd. rewrite hset_other by auto. rewrite Hy. cbn [obind].
    set (h4 := hset F _ y _).
    assert (Hh4k : frames h4 k = Some (Some f)).
    { unfold CacheLemmas.frames, h4. rewrite hset_other by congruence. rewrite hset_same. simpl. congruence. }
    assert (Hfr4 : forall x, frames h4 x = frames (hash F c) x).
    { intros x. destruct (Z.eq_dec x k).
      - subst. rewrite Hh4k. unfold CacheLemmas.frames. rewrite Hn. simpl. congruence.
      - rewrite <- Hfr. unfold CacheLemmas.frames, h4. destruct (Z.eq_dec x y).
        + subst. rewrite hset_same, Hy. auto.
        + rewrite hset_other, hset_other by auto. auto. }
    rewrite Htail; prj; auto; try (destruct (frames_Some F _ _ _ Hh4k) as [m [-> _]]; auto).
    eexists; split; [reflexivity|].
    set (lv := (k, f) :: ((y, fy) :: l1') ++ l2).
    assert (Hnd : NoDup (map fst lv ++ hist F a)).
    { unfold lv. cbn [map fst]. rewrite map_app. simpl. rewrite <- app_assoc. simpl in Hnd1. simpl in Hkn.
      constructor; auto. }
    split; [|split; prj].
    + constructor; prj; unfold CacheLemmas.keys; prj; auto.
      * unfold lv. cbn [map fst app seg]. rewrite map_app, <- app_assoc. split; [|split].
        -- exists (n_frame F n). unfold h4. rewrite hset_other by congruence. rewrite hset_same. simpl. auto.
        -- exists fr. unfold h4. rewrite hset_same. auto.
        -- eapply seg_ext; [|exact Hs]. intros x Hx. unfold h4.
           simpl in Hnd1. inversion Hnd1; subst. rewrite hset_other by congruence. apply hset_other.
           intros ->. apply Hkn. simpl; auto.
      * intros x. fold lv. apply view_eq; auto.
        -- intros x0 f0 Hx. rewrite Hfr4, r_view. apply view_live.
           ++ unfold CacheLemmas.keys in Hkeys. rewrite Hkeys. auto.
           ++ rewrite El. unfold lv in Hx. simpl in Hx. simpl. rewrite in_app_iff in *. simpl. tauto.
        -- intros x0 Hx. rewrite Hfr4, r_view. apply view_hist; auto. unfold CacheLemmas.keys in Hkeys. rewrite Hkeys. auto.
        -- intros x0 Hx. rewrite Hfr4, r_view. apply view_out.
           unfold CacheLemmas.keys in Hkeys. rewrite Hkeys. intro Hx2. apply Hx. unfold lv.
           cbn [map app fst In] in *. rewrite map_app. rewrite !in_app_iff in *. cbn [In] in *. clear -Hx2. rewrite in_app_iff in Hx2. intuition.
      * rewrite r_last, Hkeys. unfold lv. cbn [map fst app last_or]. rewrite last_or_app. cbn [last_or].
        rewrite map_app, <- app_assoc, (last_or_app _ (map fst l1')).
        destruct (list_snoc _ (map fst l2 ++ hist F a)) as [E0|[z [w E0]]]; rewrite E0.
        -- simpl. rewrite Z.eqb_refl, Ep. reflexivity.
        -- rewrite !last_or_snoc. simpl.
           assert (Hwk : w <> k).
           { intros ->. apply Hkn. rewrite E0. rewrite !in_app_iff. simpl; auto. }
           destruct (Z.eqb_spec w k); [congruence|]. auto.
      * rewrite r_cur, El. unfold lv. repeat rewrite ?zlength_cons, ?zlength_app. lia.
      * rewrite r_bytes, El. unfold lv. symmetry. apply total_move.
      * lia.
      * lia.
      * rewrite El in r_sizes. unfold lv. apply Forall_app in r_sizes. destruct r_sizes as [S1 S2]. inversion S2; subst.
        assert (S3 : Forall (fun p => 0 <= fsz (snd p)) (((y, fy) :: l1') ++ l2)) by (apply Forall_app; auto).
        constructor; auto.
      * rewrite El in r_mem. unfold lv. rewrite total_move. auto.
    + rewrite El in Hb1. unfold lv. repeat rewrite ?zlength_cons, ?zlength_app in *. lia.
    + auto.
Qed.

Lemma rel0_caps : forall c a m mh, rel0 c a -> 0 <= m -> 0 <= mh -> rel0 (set_limits F c m mh) (caps F a m mh).
Proof. intros c a m mh R H1 H2. destruct R. constructor; prj; auto. lia. Qed.
Lemma rel0_stats : forall c a h n f, rel0 c a -> 0 <= h -> 0 <= n -> 0 <= f -> rel0 (set_stats F c h n f) (stats F a h n f).
Proof. intros c a h n f R H1 H2 H3. destruct R. constructor; prj; auto. Qed.
Lemma rel0_tune : forall c a fx u l, rel0 c a -> 0 <= u -> rel0 (set_tuning F c fx u l) (tune F a fx u l).
Proof. intros c a fx u l R H1. destruct R. constructor; prj; auto. lia. Qed.

Lemma setMax_rel : forall c a m, rel0 c a -> 0 <= m ->
  exists c', setMaxFrames F fsz c m = Ok c' /\ rel c' (s_setmax F a m).
Proof.
  intros c a m R Hm. unfold setMaxFrames. pose proof (r_nonneg _ _ _ _ R) as [_ [Hh _]].
  rewrite (r_maxh _ _ _ _ R).
  edestruct (evict_settle F fsz) as [c' [fr [E R']]]; [apply (rel0_caps c a m (hcap F a) R Hm Hh)|].
  cbn [maxSize set_limits] in E. rewrite E. cbn [obind fst]. eauto.
Qed.
Lemma setHist_rel : forall c a m, rel0 c a -> 0 <= m ->
  exists c', setMaxHistory F fsz c m = Ok c' /\ rel c' (s_sethist F a m).
Proof.
  intros c a m R Hm. unfold setMaxHistory. pose proof (r_nonneg _ _ _ _ R) as [Hh _].
  rewrite (r_max _ _ _ _ R).
  edestruct (evict_settle F fsz) as [c' [fr [E R']]]; [apply (rel0_caps c a (cap F a) m R Hh Hm)|].
  cbn [maxSize set_limits] in E. rewrite E. cbn [obind fst]. eauto.
Qed.

Lemma clear_rel : forall c a, rel0 c a -> rel (clear F c) (s_clear F a).
Proof.
  intros c a R. destruct R. split.
  - constructor; unfold clear, s_clear, clearStats; prj; unfold CacheLemmas.keys; prj; simpl; auto; try lia.
    constructor. unfold SIZE_MAX; lia.
  - unfold bounded, s_clear; prj. rewrite !zlength_nil. lia.
Qed.

Lemma drop_count_ecount : forall rl b, drop_count F fsz rl b = ecount F fsz rl (zlength rl) b.
Proof.
  induction rl as [|[k f] t IH]; intros b; cbn [drop_count ecount]; auto.
  rewrite zlength_cons. pose proof (zlength_nonneg _ t). destruct (Z.ltb_spec 0 (1 + zlength t)); [|lia]. cbn [andb].
  rewrite IH. replace (1 + zlength t - 1) with (zlength t) by lia. auto.
Qed.

Lemma drop_rel : forall c a b, rel c a ->
  exists c' fr, dropLRUFrames F fsz c b = Ok (c', fr) /\ rel c' (s_drop F fsz a b).
Proof.
  intros c a b [R [B1 B2]]. unfold dropLRUFrames.
  destruct (evictFrames_rel F fsz c a 0 b R) as [c' [fr [E R']]]; [lia|].
  rewrite E. cbn [obind fst snd].
  unfold s_drop. rewrite drop_count_ecount. rewrite zlength_rev. rewrite Z.sub_0_r in R'.
  set (a1 := keep F a _) in *.
  assert (Hb : bounded F a1).
  { unfold bounded, a1, keep. prj. unfold zlength in *. rewrite !firstn_length.
    pose proof (r_nonneg _ _ _ _ R). lia. }
  unfold reSeedSize. rewrite (r_user _ _ _ _ R'), (r_max _ _ _ _ R').
  pose proof (r_nonneg _ _ _ _ R') as Hnn.
  destruct (Z.ltb_spec (Z.max 20 (floor F a1)) (cap F a1)).
  - eexists _, _. split; [reflexivity|]. split.
    + rewrite (r_cur _ _ _ _ R'), (r_maxh _ _ _ _ R'). apply rel0_caps; auto; lia.
    + destruct Hb as [Hb1 Hb2]. split; prj; [lia|auto].
  - eexists _, _. split; [reflexivity|]. split; auto.
Qed.

Lemma adjust_rel : forall c a m x, rel c a ->
  exists c', adjustSize F fsz c m x = Ok c' /\ rel c' (s_adjust F a m x).
Proof.
  intros c a m x [R B]. unfold adjustSize, s_adjust.
  rewrite (r_fixed _ _ _ _ R). destruct (fixed F a) eqn:Efx; [eexists; split; [reflexivity|split; auto]|].
  pose proof (r_nonneg _ _ _ _ R) as Hnn. pose proof (r_stats _ _ _ _ R) as Hst.
  rewrite (r_hits _ _ _ _ R), (r_near _ _ _ _ R), (r_far _ _ _ _ R), (r_act _ _ _ _ R), (r_user _ _ _ _ R).
  set (req := nhit F a + nnear F a + nfar F a).
  assert (Hfin : forall c4 a4, rel c4 a4 -> exists c', (if maxHistorySize F c4 <? maxSize F c4
        then setMaxHistory F fsz c4 (maxSize F c4) else Ok c4) = Ok c' /\
      rel c' (if hcap F a4 <? cap F a4 then s_sethist F a4 (cap F a4) else a4)).
  { intros c4 a4 [R4 B4]. rewrite (r_max _ _ _ _ R4), (r_maxh _ _ _ _ R4).
    destruct (hcap F a4 <? cap F a4).
    - destruct (setHist_rel c4 a4 (cap F a4) R4) as [c5 [E5 R5]]; [|eauto].
      pose proof (r_nonneg _ _ _ _ R4); lia.
    - eexists; split; [reflexivity|split; auto]. }
  unfold wrapu64, deadBranchDelay. change (2 ^ 64) with 18446744073709551616.
  destruct (Z.ltb_spec 0 req) as [Hp|Hp]; cbn [negb andb].
  - destruct (Z.leb_spec req 0); [lia|].
    assert (R1 : rel0 (set_tuning F c false (floor F a) x) (tune F a false (floor F a) x)) by (apply rel0_tune; auto; lia).
    unfold recommendSize. prj. rewrite (r_hits _ _ _ _ R), (r_near _ _ _ _ R), (r_far _ _ _ _ R). fold req.
    destruct (Z.eqb_spec req 0); [lia|].
    assert (R2 : rel0 (clearStats F (set_tuning F c false (floor F a) x)) (stats F (tune F a false (floor F a) x) 0 0 0))
      by (apply rel0_stats; auto; lia).
    rewrite ?Efx.
    destruct (Z.ltb_spec req 30).
    + cbn [obind]. apply Hfin. split; [assumption|exact B].
    + destruct (Z.leb_spec req (nnear F a * 20)).
      * destruct m.
        -- destruct (setMax_rel _ _ (cap F a + 2) R2) as [c3 [E3 R3]]; [lia|].
           cbn [clearStats maxSize set_stats set_tuning] in *. rewrite (r_max _ _ _ _ R), E3. cbn [obind]. apply Hfin; auto.
        -- cbn [obind]. apply Hfin. split; [assumption|exact B].
      * destruct ((nnear F a =? 0) && (nhit F a =? 0)).
        -- destruct (setMax_rel _ _ (Z.max (cap F a - 1) (floor F a)) R2) as [c3 [E3 R3]]; [lia|].
           cbn [clearStats maxSize userSize set_stats set_tuning] in *. rewrite (r_max _ _ _ _ R), E3. cbn [obind]. apply Hfin; auto.
        -- cbn [obind]. apply Hfin. split; [assumption|exact B].
  - destruct (Z.leb_spec req 0); [|lia].
    destruct ((x - seen F a) mod 18446744073709551616 <? 3); [eexists; split; [reflexivity|split; auto]|].
    unfold recommendSize. rewrite (r_hits _ _ _ _ R), (r_near _ _ _ _ R), (r_far _ _ _ _ R). fold req.
    destruct (Z.eqb_spec req 0); [|unfold req in *; lia]. cbn iota beta.
    destruct (clear_rel c a R) as [R1 _].
    destruct (setMax_rel _ _ (Z.max (cap F a - 2) (floor F a)) R1) as [c3 [E3 R3]]; [lia|].
    unfold clear, clearStats in *. cbn [maxSize userSize set_stats set_counts set_ptrs set_hash] in *.
    rewrite (r_max _ _ _ _ R), (r_user _ _ _ _ R), E3. cbn [obind]. apply Hfin; auto.
Qed.

Lemma without_len : forall k l, zlength (without F k l) <= zlength l.
Proof. intros. unfold zlength, without. induction l as [|[k' f'] t IH]; simpl; [lia|]. destruct (k' =? k); simpl; lia. Qed.
Lemma hwithout_len : forall k l, zlength (hwithout k l) <= zlength l.
Proof. intros. unfold zlength, hwithout. induction l as [|k' t IH]; simpl; [lia|]. destruct (k' =? k); simpl; lia. Qed.

Theorem step_rel : forall c a o, rel c a -> op_ok F fsz a o ->
  exists c', step F fsz c o = Ok (c', snd (s_step F fsz a o)) /\ rel c' (fst (s_step F fsz a o)).
Proof.
  intros c a o [R B] Hok. pose proof (r_nonneg _ _ _ _ R) as Hnn.
  destruct o as [k f|k|k| |m|m|m|b| |b|m x]; cbn [op_ok] in Hok; cbn [step s_step fst snd].
  - destruct (insert_rel c a k f R (proj1 Hok)) as [c' [E R']].
    { change SIZE_MAX with (2 ^ 64 - 1). exact (proj2 Hok). }
    rewrite E. cbn [obind]. eauto.
  - destruct (relink_rel c a k (conj R B)) as [c' [E R']]. eauto.
  - destruct (remove_rel0 c a k R) as [c' [b [E R']]]. rewrite E. cbn [obind fst]. exists c'. split; auto.
    split; auto. destruct B; split; prj.
    + pose proof (without_len k (live F a)); lia.
    + pose proof (hwithout_len k (hist F a)); lia.
  - eexists; split; [reflexivity|]. apply clear_rel; auto.
  - destruct (setMax_rel c a m R Hok) as [c' [E R']]. rewrite E. cbn [obind]. eauto.
  - destruct (setHist_rel c a m R Hok) as [c' [E R']]. rewrite E. cbn [obind]. eauto.
  - unfold setUserMaxFrames. rewrite (r_fixed _ _ _ _ R), (r_act _ _ _ _ R).
    destruct (setMax_rel _ _ m (rel0_tune c a (fixed F a) m (seen F a) R Hok) Hok) as [c' [E R']].
    rewrite E. cbn [obind]. eauto.
  - eexists; split; [reflexivity|]. unfold setFixedSize. rewrite (r_user _ _ _ _ R), (r_act _ _ _ _ R). split.
    + apply rel0_tune; auto; tauto. + destruct B; split; auto.
  - eexists; split; [reflexivity|]. unfold resetSizeTuning. rewrite (r_fixed _ _ _ _ R), (r_act _ _ _ _ R). split.
    + apply rel0_tune; auto; lia. + destruct B; split; auto.
  - destruct (drop_rel c a b (conj R B)) as [c' [fr [E R']]]. rewrite E. cbn [obind fst]. eauto.
  - destruct (adjust_rel c a m x (conj R B)) as [c' [E R']]. rewrite E. cbn [obind]. eauto.
Qed.

Lemma init_rel : forall m mh fx, 0 <= m -> 0 <= mh -> rel (newCache F m mh fx) (s_init F m mh fx).
Proof.
  intros. split.
  - constructor; unfold newCache, s_init; prj; unfold CacheLemmas.keys; prj; simpl; auto; try lia.
    constructor. unfold SIZE_MAX; lia.
  - split; simpl; unfold zlength; simpl; lia.
Qed.

Theorem run_rel : forall os c a, rel c a -> run_ok F fsz a os ->
  exists c', run F fsz c os = Ok (c', snd (s_run F fsz a os)) /\ rel c' (fst (s_run F fsz a os)).
Proof.
  induction os as [|o t IH]; intros c a R Hok; cbn [run s_run fst snd].
  - eauto.
  - cbn [run_ok] in Hok. destruct Hok as [H1 H2].
    destruct (step_rel c a o R H1) as [c1 [E1 R1]]. rewrite E1. cbn [obind fst snd].
    destruct (IH c1 _ R1 H2) as [c2 [E2 R2]]. rewrite E2. cbn [obind fst snd]. eauto.
Qed.

(** ** Facts about the abstract cache *)

(** Every live frame is the latest one inserted for its key. *)
Definition fresh (a : lru) (os : list (op F)) : Prop :=
  forall k f, In (k, f) (live F a) -> latest F k os = Some f.

Lemma latest_snoc : forall k os o, latest F k (os ++ [o]) = latest_step F k (latest F k os) o.
Proof. intros. unfold latest. rewrite fold_left_app. auto. Qed.

Lemma firstn_In' : forall A n (l : list A) x, In x (firstn n l) -> In x l.
Proof. induction n; destruct l; simpl; intros; auto; try contradiction. destruct H; auto. Qed.

Lemma live_adjust : forall a m x p, In p (live F (s_adjust F a m x)) -> In p (live F a).
Proof.
  intros a m x p. unfold s_adjust, s_setmax, s_sethist, settle, keep, s_clear.
  repeat match goal with |- context [if ?c then _ else _] => destruct c end; prj; auto;
  intros H; repeat (apply firstn_In' in H); cbn in H; auto; try contradiction.
Qed.

Lemma fresh_step : forall a os o, fresh a os -> fresh (fst (s_step F fsz a o)) (os ++ [o]).
Proof.
  intros a os o H k f Hin. rewrite latest_snoc.
  destruct o as [k' f'|k'|k'| |m|m|m|b| |b|m x]; cbn [s_step fst] in Hin; cbn [latest_step].
  - unfold settle, keep in Hin. cbn [lists live cap] in Hin. apply firstn_In' in Hin. simpl in Hin.
    destruct Hin as [Hin|Hin].
    + inversion Hin; subst. rewrite Z.eqb_refl. auto.
    + apply in_without in Hin. simpl in Hin. destruct (Z.eqb_spec k' k); [exfalso; intuition congruence|]. apply H; tauto.
  - destruct (assoc F k' (live F a)) as [f0|] eqn:E; cbn [fst live lists stats] in Hin.
    + destruct Hin as [Hin|Hin].
      * inversion Hin; subst. apply H. apply assoc_In; auto.
      * apply in_without in Hin. apply H; tauto.
    + destruct (existsb (Z.eqb k') (hist F a)); apply H; exact Hin.
  - cbn [lists live] in Hin. apply in_without in Hin. simpl in Hin.
    destruct (Z.eqb_spec k' k); [exfalso; intuition congruence|]. apply H; tauto.
  - simpl in Hin. contradiction.
  - apply H. unfold s_setmax, settle, keep in Hin. cbn in Hin. eapply firstn_In'; eauto.
  - apply H. unfold s_sethist, settle, keep in Hin. cbn in Hin. eapply firstn_In'; eauto.
  - apply H. unfold s_setmax, settle, keep in Hin. cbn in Hin. eapply firstn_In'; eauto.
  - apply H. exact Hin.
  - apply H. exact Hin.
  - apply H. unfold s_drop in Hin. destruct (_ <? _) in Hin; cbn in Hin; eapply firstn_In'; eauto.
  - apply H. eapply live_adjust; eauto.
Qed.

Lemma s_run_app : forall os1 os2 a, fst (s_run F fsz a (os1 ++ os2)) = fst (s_run F fsz (fst (s_run F fsz a os1)) os2).
Proof. induction os1; simpl; intros; auto. Qed.

Lemma fresh_run : forall os m mh fx, fresh (fst (s_run F fsz (s_init F m mh fx) os)) os.
Proof.
  intros os m mh fx. induction os as [|o os IH] using rev_ind.
  - intros k f H. simpl in H. contradiction.
  - rewrite s_run_app. cbn [s_run fst]. apply fresh_step. exact IH.
Qed.

Lemma run_ok_app : forall os1 os2 a, run_ok F fsz a (os1 ++ os2) <->
  run_ok F fsz a os1 /\ run_ok F fsz (fst (s_run F fsz a os1)) os2.
Proof. induction os1; simpl; intros; [tauto|]. rewrite IHos1. tauto. Qed.

(** ** C09: a lookup returns the latest inserted frame or nothing; bounds *)
Theorem lookup_latest : forall m mh fx os k, 0 <= m -> 0 <= mh ->
  run_ok F fsz (s_init F m mh fx) os ->
  exists c rs c' r, run F fsz (newCache F m mh fx) os = Ok (c, rs) /\
    relink F fsz c k = Ok (c', r) /\
    (forall f, r = Some f -> latest F k os = Some f).
Proof.
  intros m mh fx os k Hm Hmh Hok.
  destruct (run_rel os _ _ (init_rel m mh fx Hm Hmh) Hok) as [c [E R]].
  destruct (relink_rel c _ k R) as [c' [E2 R2]].
  eexists _, _, _, _. split; [exact E|]. split; [exact E2|].
  intros f Hf. apply (fresh_run os m mh fx k f). cbn [s_step snd] in Hf.
  destruct (assoc F k _) as [f0|] eqn:Ea.
  - cbn [snd] in Hf. inversion Hf; subst. apply assoc_In; auto.
  - cbn [snd] in Hf. discriminate.
Qed.

(** What the frames held and remembered are, read off the concrete hash. *)
Definition held (c : cache) (ks : list Z) : Prop :=
  NoDup ks /\ forall k, In k ks <-> exists n f, hash F c k = Some n /\ n_frame F n = Some f.
Definition remembered (c : cache) (ks : list Z) : Prop :=
  NoDup ks /\ forall k, In k ks <-> exists n, hash F c k = Some n /\ n_frame F n = None.

Theorem cache_bounds : forall m mh fx os, 0 <= m -> 0 <= mh ->
  run_ok F fsz (s_init F m mh fx) os ->
  exists c rs hk rk, run F fsz (newCache F m mh fx) os = Ok (c, rs) /\
    held c hk /\ remembered c rk /\
    zlength hk = currentSize F c /\ zlength hk <= maxSize F c /\
    zlength rk = historySize F c /\ zlength rk <= maxHistorySize F c.
Proof.
  intros m mh fx os Hm Hmh Hok.
  destruct (run_rel os _ _ (init_rel m mh fx Hm Hmh) Hok) as [c [E [R [B1 B2]]]].
  set (a := fst (s_run F fsz (s_init F m mh fx) os)) in *.
  exists c, (snd (s_run F fsz (s_init F m mh fx) os)), (map fst (live F a)), (hist F a).
  destruct R. unfold CacheLemmas.keys in *. split; auto.
  split; [|split; [|repeat split; rewrite ?zlength_map; lia]].
  - split; [eapply NoDup_app_l; eauto|]. intros k. split.
    + intros Hi. apply in_map_iff in Hi. destruct Hi as [[k' f] [<- Hi]].
      pose proof (r_view k') as Hv. erewrite view_live in Hv; eauto.
      destruct (frames_Some F _ _ _ Hv) as [n [H1 H2]]. eauto.
    + intros [n [f [H1 H2]]]. pose proof (r_view k) as Hv. unfold CacheLemmas.frames in Hv. rewrite H1 in Hv.
      simpl in Hv. rewrite H2 in Hv. unfold view in Hv. destruct (assoc F k (live F a)) eqn:Ea.
      * apply assoc_In in Ea. apply in_map_iff. eexists (_, _); split; eauto. auto.
      * destruct (existsb (Z.eqb k) (hist F a)); discriminate.
  - split; [eapply NoDup_app_r; eauto|]. intros k. split.
    + intros Hi. pose proof (r_view k) as Hv. rewrite view_hist in Hv; auto.
      destruct (frames_Some F _ _ _ Hv) as [n [H1 H2]]. eauto.
    + intros [n [H1 H2]]. pose proof (r_view k) as Hv. unfold CacheLemmas.frames in Hv. rewrite H1 in Hv.
      simpl in Hv. rewrite H2 in Hv. unfold view in Hv. destruct (assoc F k (live F a)) eqn:Ea; [discriminate|].
      destruct (existsb (Z.eqb k) (hist F a)) eqn:Eb; [|discriminate]. apply existsb_eqb; auto.
Qed.

(** A frame just inserted into a cache of positive size is found. *)
Theorem insert_then_lookup : forall m mh fx os k f, 0 <= m -> 0 <= mh ->
  run_ok F fsz (s_init F m mh fx) (os ++ [OInsert k f]) ->
  0 < cap F (fst (s_run F fsz (s_init F m mh fx) os)) ->
  exists c rs c', run F fsz (newCache F m mh fx) (os ++ [OInsert k f]) = Ok (c, rs) /\
    relink F fsz c k = Ok (c', Some f).
Proof.
  intros m mh fx os k f Hm Hmh Hok Hcap.
  destruct (run_rel _ _ _ (init_rel m mh fx Hm Hmh) Hok) as [c [E R]].
  destruct (relink_rel c _ k R) as [c' [E2 R2]].
  eexists _, _, _. split; [exact E|]. rewrite E2. f_equal. f_equal.
  rewrite s_run_app. cbn [s_run fst s_step]. set (a := fst (s_run F fsz (s_init F m mh fx) os)) in *.
  unfold settle, keep. cbn [live lists cap]. destruct (Z.to_nat (cap F a)) eqn:En; [lia|].
  cbn [firstn]. unfold assoc at 1. cbn [find fst snd]. rewrite Z.eqb_refl. auto.
Qed.

(** ** C11 *)
Theorem adjust_policy : forall c a comfortable completed, rel c a ->
  exists c', adjustSize F fsz c comfortable completed = Ok c' /\
    0 <= maxSize F c' /\
    (fixedSize F c = true -> c' = c) /\
    (maxSize F c < maxSize F c' -> comfortable = true /\ 0 < nearMiss F c /\ maxSize F c' = maxSize F c + 2 \/
                                   maxSize F c < userSize F c /\ maxSize F c' = userSize F c) /\
    (maxSize F c' < maxSize F c ->
       hits F c = 0 /\ nearMiss F c = 0 /\ maxSize F c - 2 <= maxSize F c' /\ userSize F c <= maxSize F c').
Proof.
  intros c a comf x R. destruct (adjust_rel c a comf x R) as [c' [E [R' _]]].
  exists c'. split; auto. destruct R as [R _].
  rewrite (r_max _ _ _ _ R), (r_max _ _ _ _ R'), (r_near _ _ _ _ R), (r_hits _ _ _ _ R), (r_user _ _ _ _ R).
  split. { apply (r_nonneg _ _ _ _ R'). }
  pose proof (r_stats _ _ _ _ R) as Hst. pose proof (r_nonneg _ _ _ _ R) as Hnn.
  split.
  { intros Hf. unfold adjustSize in E. rewrite Hf in E. congruence. }
  unfold s_adjust. destruct (fixed F a); [split; intros; lia|].
  set (req := nhit F a + nnear F a + nfar F a).
  destruct (Z.leb_spec req 0).
  - destruct (_ mod _ <? 3); [split; intros; lia|].
    set (b := s_setmax F (s_clear F a) (Z.max (cap F a - 2) (floor F a))).
    assert (Hb : cap F (if hcap F b <? cap F b then s_sethist F b (cap F b) else b) = Z.max (cap F a - 2) (floor F a)).
    { destruct (hcap F b <? cap F b); reflexivity. }
    rewrite Hb. unfold req in *. split; intros; lia.
  - set (b := if req <? 30 then _ else _).
    assert (Hb : cap F (if hcap F b <? cap F b then s_sethist F b (cap F b) else b) = cap F b).
    { destruct (hcap F b <? cap F b); reflexivity. }
    rewrite Hb. unfold b. cbn [nnear nhit tune].
    destruct (Z.ltb_spec req 30); [split; intros; cbn in *; lia|].
    destruct (Z.leb_spec req (nnear F a * 20)).
    + destruct comf; cbn; split; intros; lia.
    + destruct (Z.eqb_spec (nnear F a) 0), (Z.eqb_spec (nhit F a) 0); cbn; split; intros; lia.
Qed.

Theorem drop_policy : forall c a budget, rel c a ->
  exists c' freed, dropLRUFrames F fsz c budget = Ok (c', freed) /\
    maxSize F c' <= maxSize F c /\ Z.min (maxSize F c) (Z.max 20 (userSize F c)) <= maxSize F c'.
Proof.
  intros c a b R. destruct (drop_rel c a b R) as [c' [fr [E [R' _]]]].
  exists c', fr. split; auto. destruct R as [R [B1 B2]].
  rewrite (r_max _ _ _ _ R), (r_max _ _ _ _ R'), (r_user _ _ _ _ R).
  unfold s_drop. set (b0 := keep F a _).
  assert (Hb : cap F b0 = cap F a /\ floor F b0 = floor F a /\ zlength (live F b0) <= zlength (live F a)).
  { unfold b0, keep. prj. unfold zlength. rewrite firstn_length. repeat split; lia. }
  destruct Hb as [H1 [H2 H3]].
  destruct (Z.ltb_spec (Z.max 20 (floor F b0)) (cap F b0)); prj; lia.
Qed.

End Refine.

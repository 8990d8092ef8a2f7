(** Proofs about the reordering filters. *)
From Coq Require Import ZArith List Lia Bool Permutation Sorting.Sorted.
From Verif Require Import Common ReqPat Reorder ReorderSpec.
Require Import ZifyBool.
Import ListNotations.
Open Scope Z_scope.

Ltac dz := unfold argd, isset, opt0, sat32, INT_MAX, INT_MIN in *.

Lemma fetch_in : forall A (l : list A) i, i < zlength l -> fetch l i = nthz l i.
Proof.
  intros; unfold fetch, clampFrame. destruct (Z.leb_spec (zlength l) i); [lia|reflexivity].
Qed.

Lemma sat32_in : forall x, in_int x -> sat32 x = x.
Proof. unfold in_int, sat32, INT_MAX, INT_MIN; intros.
  destruct (Z.ltb_spec 2147483647 x); [lia|]. destruct (Z.ltb_spec x (-2147483648)); lia. Qed.

Lemma sat32_cases : forall x,
  (INT_MAX < x /\ sat32 x = INT_MAX) \/ (x < INT_MIN /\ sat32 x = INT_MIN) \/
  (INT_MIN <= x <= INT_MAX /\ sat32 x = x).
Proof. unfold sat32, INT_MAX, INT_MIN; intros.
  destruct (Z.ltb_spec 2147483647 x); [lia|]. destruct (Z.ltb_spec x (-2147483648)); lia. Qed.

Lemma sat32_range : forall x, in_int (sat32 x).
Proof. unfold in_int, sat32, INT_MAX, INT_MIN; intros.
  destruct (Z.ltb_spec 2147483647 x); [lia|]. destruct (Z.ltb_spec x (-2147483648)); lia. Qed.

Lemma output1_filter : forall A (l : list A) (out : list A) f,
  f_len f = zlength out ->
  (forall n, 0 <= n < zlength out -> 0 <= f_src f n < zlength l /\ nthz l (f_src f n) = nthz out n) ->
  output1 l (CFilter f) = Some (map Some out).
Proof.
  intros A l out f Hl H. simpl. rewrite Hl. f_equal.
  apply map_zseq_eq. intros i Hi. destruct (H i Hi) as [Hr He].
  rewrite fetch_in by lia. exact He.
Qed.

(** ** Trim *)

Lemma trim_valid_output : forall A (l : list A) first last len,
  0 < zlength l <= INT_MAX ->
  trim_valid (zlength l) first last len ->
  output1 l (trimCreate (zlength l) first last len) =
    Some (map Some (trim_frames first last len l)).
Proof.
  intros A l first last len HN [Hf Hv].
  unfold trimCreate.
  assert (Ef : argd first = opt0 first).
  { destruct first; simpl in *; auto. apply sat32_in; unfold in_int, INT_MIN, INT_MAX in *; lia. }
  rewrite Ef.
  destruct (Z.ltb_spec (opt0 first) 0); [lia|].
  destruct (Z.leb_spec (zlength l) (opt0 first)); [lia|].
  set (f := opt0 first) in *.
  assert (Hgo : forall trimlen rp, 0 < trimlen -> f + trimlen <= zlength l ->
    trim_count (zlength l) first last len = trimlen ->
    output1 l (CFilter {| f_len := trimlen; f_src := fun n => n + f; f_rp := rp |}) =
    Some (map Some (trim_frames first last len l))).
  { intros tl rp H1 H2 H3. unfold trim_frames. rewrite H3. fold f.
    assert (Hlen : zlength (firstn (Z.to_nat tl) (skipn (Z.to_nat f) l)) = tl).
    { apply zlength_firstn. rewrite zlength_skipn by lia. lia. }
    apply output1_filter.
    - simpl. auto.
    - rewrite Hlen. cbn [f_src]. intros n Hn. split; [lia|].
      rewrite nthz_firstn, nthz_skipn by lia. f_equal; lia. }
  assert (Hpass : forall trimlen, trimlen = zlength l -> f + trimlen <= zlength l ->
    trim_count (zlength l) first last len = trimlen ->
    output1 l (@CPass filter1) = Some (map Some (trim_frames first last len l))).
  { intros tl H1 H2 H3. unfold trim_frames. rewrite H3. fold f.
    assert (f = 0) by lia. rewrite H4. simpl. do 2 f_equal.
    rewrite H1. unfold zlength. rewrite Nat2Z.id, firstn_all. reflexivity. }
  destruct last as [b|]; destruct len as [m|]; cbn [isset andb orb negb]; try contradiction.
  - assert (Eb : argd (Some b) = b) by (simpl; apply sat32_in; unfold in_int, INT_MIN; lia).
    rewrite Eb. destruct (Z.ltb_spec b f); [lia|]. destruct (Z.leb_spec (zlength l) b); [lia|].
    cbn [orb]. rewrite andb_false_r. cbn [andb orb].
    destruct (Z.eqb_spec (b - f + 1) 0); [lia|]. cbn [negb andb].
    destruct (Z.eqb_spec (b - f + 1) (zlength l)).
    + eapply Hpass; eauto; try lia.
    + apply Hgo; try lia; try reflexivity.
  - assert (Eb : argd (Some m) = m) by (simpl; apply sat32_in; unfold in_int, INT_MIN; lia).
    rewrite Eb. destruct (Z.ltb_spec m 1); [lia|]. destruct (Z.ltb_spec (zlength l - f) m); [lia|].
    cbn [orb]. rewrite andb_false_r. cbn [andb orb].
    destruct (Z.eqb_spec m 0); [lia|]. cbn [negb andb].
    destruct (Z.eqb_spec m (zlength l)).
    + eapply Hpass; eauto; try lia.
    + apply Hgo; try lia; try reflexivity.
  - destruct first as [f0|]; cbn [isset negb andb orb].
    + destruct (Z.eqb_spec (zlength l - f) 0); [lia|]. cbn [negb andb].
      destruct (Z.eqb_spec (zlength l - f) (zlength l)).
      * eapply Hpass; eauto; try lia.
      * apply Hgo; try lia; try reflexivity.
    + eapply Hpass with (trimlen := zlength l); eauto; subst f; simpl; lia.
Qed.

Lemma trim_invalid_error : forall N first last len,
  0 < N < INT_MAX -> ~ trim_valid N first last len ->
  trimCreate N first last len = CErr.
Proof.
  intros N first last len HN Hv. unfold trimCreate.
  destruct (Z.ltb_spec (argd first) 0); auto.
  destruct (Z.leb_spec N (argd first)); auto.
  assert (Ef : argd first = opt0 first).
  { destruct first; simpl in *; auto. pose proof (sat32_cases z). unfold INT_MAX, INT_MIN in *. lia. }
  rewrite Ef in *.
  destruct last as [b|]; destruct len as [m|]; cbn [isset andb orb negb]; auto.
  - destruct (Z.ltb_spec (argd (Some b)) (opt0 first)); auto.
    destruct (Z.leb_spec N (argd (Some b))); auto.
    exfalso; apply Hv. split; [lia|].
    simpl in *. pose proof (sat32_cases b). unfold INT_MAX, INT_MIN in *. lia.
  - destruct (Z.ltb_spec (argd (Some m)) 1); auto.
    destruct (Z.ltb_spec (N - opt0 first) (argd (Some m))); auto.
    exfalso; apply Hv. split; [lia|].
    simpl in *. pose proof (sat32_cases m). unfold INT_MAX, INT_MIN in *. lia.
  - exfalso; apply Hv. split; [lia|exact I].
Qed.

(** ** Reverse *)

Lemma reverse_output : forall A (l : list A),
  output1 l (reverseCreate (zlength l)) = Some (map Some (rev l)).
Proof.
  intros. apply output1_filter; simpl.
  - rewrite zlength_rev; auto.
  - intros n Hn. rewrite zlength_rev in Hn. split; [lia|].
    rewrite nthz_rev by lia. f_equal; lia.
Qed.

(** ** Uniform concatenations *)

Lemma zlength_flat_map_const : forall A (f : Z -> list A) m k,
  0 <= k -> (forall c, 0 <= c < k -> zlength (f c) = m) ->
  zlength (flat_map f (zseq k)) = k * m.
Proof.
  intros A f m k Hk. pattern k. apply natlike_ind; [| |exact Hk].
  - intros; reflexivity.
  - intros x Hx IH Hf. unfold Z.succ. rewrite zseq_succ, flat_map_app, zlength_app by lia.
    rewrite IH by (intros; apply Hf; lia). cbn [flat_map]. rewrite app_nil_r, Hf by lia. lia.
Qed.

Lemma nthz_flat_map_const : forall A (f : Z -> list A) m k i,
  0 <= k -> 0 < m -> (forall c, 0 <= c < k -> zlength (f c) = m) -> 0 <= i < k * m ->
  nthz (flat_map f (zseq k)) i = nthz (f (i / m)) (i mod m).
Proof.
  intros A f m k i Hk Hm. revert i. pattern k. apply natlike_ind; [| |exact Hk].
  - intros; lia.
  - intros x Hx IH i Hf Hi. unfold Z.succ in *. rewrite zseq_succ, flat_map_app by lia.
    assert (Hl : zlength (flat_map f (zseq x)) = x * m)
      by (apply zlength_flat_map_const; auto; intros; apply Hf; lia).
    destruct (Z.ltb_spec i (x * m)).
    + rewrite nthz_app1 by lia. apply IH; auto. intros; apply Hf; lia. lia.
    + rewrite nthz_app2 by lia. rewrite Hl. cbn [flat_map]. rewrite app_nil_r.
      assert (Hq : i / m = x).
      { symmetry. apply Z.div_unique with (i - x * m); lia. }
      assert (Hr : i mod m = i - x * m).
      { symmetry. apply Z.mod_unique with x; lia. }
      rewrite Hq, Hr. reflexivity.
Qed.

(** ** Loop *)

Lemma concat_repeat_flat_map : forall A (l : list A) k,
  0 <= k -> concat (repeat l (Z.to_nat k)) = flat_map (fun _ => l) (zseq k).
Proof.
  intros A l k Hk. pattern k. apply natlike_ind; [reflexivity| |exact Hk].
  intros x Hx IH. unfold Z.succ. rewrite zseq_cons by lia.
  replace (Z.to_nat (x + 1)) with (S (Z.to_nat x)) by lia.
  cbn [repeat concat flat_map]. rewrite IH. f_equal.
  rewrite flat_map_concat_map, (flat_map_concat_map _ (map _ _)), map_map. reflexivity.
Qed.

Lemma loop_output : forall A (l : list A) times,
  0 < zlength l <= INT_MAX -> 0 < times -> zlength l * times <= INT_MAX ->
  output1 l (loopCreate (zlength l) (Some times)) =
    Some (map Some (concat (repeat l (Z.to_nat times)))).
Proof.
  intros A l times HN Ht Hmax. unfold loopCreate. simpl argd.
  rewrite sat32_in by (unfold in_int, INT_MIN in *; nia).
  destruct (Z.ltb_spec times 0); [lia|].
  destruct (Z.eqb_spec times 1) as [->|].
  { simpl. rewrite app_nil_r. reflexivity. }
  destruct (Z.ltb_spec 0 times); [|lia].
  destruct (Z.ltb_spec (INT_MAX / times) (zlength l)) as [Hbad|_].
  { exfalso. assert (zlength l <= INT_MAX / times) by (apply Z.div_le_lower_bound; lia). lia. }
  rewrite concat_repeat_flat_map by lia.
  assert (Hlen : zlength (flat_map (fun _ : Z => l) (zseq times)) = times * zlength l)
    by (apply zlength_flat_map_const; auto; lia).
  apply output1_filter; simpl.
  - lia.
  - clear n; intros n Hn. rewrite Z.rem_mod_nonneg by lia.
    pose proof (Z.mod_pos_bound n (zlength l) ltac:(lia)). split; [lia|].
    rewrite (nthz_flat_map_const _ (fun _ => l) (zlength l)); auto; try lia.
Qed.

Lemma loop_too_long : forall N times,
  0 < N <= INT_MAX -> 1 < times <= INT_MAX -> INT_MAX < N * times ->
  loopCreate N (Some times) = CErr.
Proof.
  intros N times HN Ht Hmax. unfold loopCreate. simpl argd.
  rewrite sat32_in by (unfold in_int, INT_MIN in *; lia).
  destruct (Z.ltb_spec times 0); [lia|]. destruct (Z.eqb_spec times 1); [lia|].
  destruct (Z.ltb_spec 0 times); [|lia].
  destruct (Z.ltb_spec (INT_MAX / times) N) as [|Hle]; auto.
  exfalso. pose proof (Z.mul_div_le INT_MAX times ltac:(lia)). nia.
Qed.

Lemma loop_negative : forall N times, times < 0 -> loopCreate N (Some times) = CErr.
Proof.
  intros. unfold loopCreate. simpl argd.
  assert (sat32 times < 0).
  { unfold sat32, INT_MAX, INT_MIN. destruct (Z.ltb_spec 2147483647 times); [lia|].
    destruct (Z.ltb_spec times (-2147483648)); lia. }
  destruct (Z.ltb_spec (sat32 times) 0); [reflexivity|lia].
Qed.

(** times = 0 or missing: endless (INT_MAX frames). *)
Lemma loop_endless : forall A (l : list A) atimes,
  0 < zlength l <= INT_MAX -> atimes = None \/ atimes = Some 0 ->
  exists out, output1 l (loopCreate (zlength l) atimes) = Some out /\
    zlength out = INT_MAX /\
    forall n, 0 <= n < INT_MAX -> nthz out n = Some (nthz l (n mod zlength l)).
Proof.
  intros A l atimes HN Ht.
  assert (E : loopCreate (zlength l) atimes =
    CFilter {| f_len := INT_MAX; f_src := fun n => Z.rem n (zlength l); f_rp := rpGeneral |}).
  { destruct Ht; subst; reflexivity. }
  rewrite E. eexists. split; [reflexivity|]. cbn [f_len f_src]. split.
  - rewrite zlength_map, zlength_zseq. reflexivity.
  - intros n Hn. rewrite nthz_map, nthz_zseq by lia. cbn [option_map].
    rewrite Z.rem_mod_nonneg by lia. pose proof (Z.mod_pos_bound n (zlength l) ltac:(lia)).
    rewrite fetch_in by lia. reflexivity.
Qed.

(** ** SelectEvery *)

Lemma map_sat32_id : forall l, Forall in_int l -> map sat32 l = l.
Proof. induction 1; simpl; f_equal; auto using sat32_in. Qed.

Lemma nth0_nthz : forall l i, 0 <= i < zlength l -> nthz l i = Some (nth0 l i).
Proof.
  intros. unfold nthz, nth0, zlength in *. destruct (Z.ltb_spec i 0); [lia|].
  apply nth_error_nth'. lia.
Qed.

Lemma filter_all : forall A (f : A -> bool) l, (forall x, In x l -> f x = true) -> filter f l = l.
Proof.
  induction l; simpl; intros; auto. rewrite H by auto. f_equal; auto.
Qed.

Lemma select_split : forall N cycle offsets,
  0 < N -> 1 < cycle -> Forall (fun o => 0 <= o < cycle) offsets ->
  select_indices N cycle offsets =
    flat_map (fun c => map (fun o => c * cycle + o) offsets) (zseq (N / cycle))
    ++ map (fun o => N / cycle * cycle + o) (filter (fun o => o <? N mod cycle) offsets).
Proof.
  intros N cycle offsets HN Hc Ho. unfold select_indices.
  pose proof (Z.div_pos N cycle ltac:(lia) ltac:(lia)).
  rewrite zseq_succ, flat_map_app by lia. f_equal.
  - rewrite !flat_map_concat_map. f_equal. apply map_ext_in. intros c Hin.
    apply In_zseq in Hin. apply filter_all. intros x Hx. apply in_map_iff in Hx.
    destruct Hx as [o [<- Hin2]]. rewrite Forall_forall in Ho. specialize (Ho o Hin2).
    pose proof (Z.mul_div_le N cycle ltac:(lia)). apply Z.ltb_lt.
    assert ((c + 1) * cycle <= (N / cycle) * cycle) by nia. lia.
  - cbn [flat_map]. rewrite app_nil_r. induction offsets as [|o t IH]; auto.
    cbn [map filter]. inversion Ho; subst.
    pose proof (Z.div_mod N cycle ltac:(lia)).
    replace (N / cycle * cycle + o <? N) with (o <? N mod cycle).
    + destruct (o <? N mod cycle); cbn [map]; rewrite IH by auto; reflexivity.
    + apply eq_true_iff_eq. rewrite !Z.ltb_lt. lia.
Qed.

Lemma selectEvery_accept : forall N cycle offsets,
  0 < N <= INT_MAX -> cycle <= INT_MAX -> offsets <> [] ->
  1 < cycle -> Forall (fun o => 0 <= o < cycle) offsets ->
  0 < zlength (select_indices N cycle offsets) <= INT_MAX ->
  exists f, selectEveryCreate N cycle offsets = CFilter f /\
    f_len f = zlength (select_indices N cycle offsets) /\
    (forall n, 0 <= n < f_len f -> nthz (select_indices N cycle offsets) n = Some (f_src f n)) /\
    f_rp f = (if has_dup offsets then rpGeneral else rpNoFrameReuse).
Proof.
  intros N cycle offsets HN Hcm Hne Hc Ho Hlen. unfold selectEveryCreate.
  assert (Hs : Forall in_int offsets).
  { eapply Forall_impl; [|exact Ho]. unfold in_int, INT_MIN. intros; lia. }
  rewrite map_sat32_id by auto. rewrite sat32_in by (unfold in_int, INT_MIN; lia).
  destruct (Z.leb_spec cycle 1); [lia|].
  replace (forallb _ offsets) with true.
  2:{ symmetry. apply forallb_forall. rewrite Forall_forall in Ho. intros x Hx.
      specialize (Ho x Hx). lia. }
  cbn [negb]. rewrite select_split in * by (auto; lia).
  set (tail := filter (fun o => o <? N mod cycle) offsets) in *.
  set (num := zlength offsets) in *.
  assert (Hnum : 0 < num).
  { unfold num. destruct offsets; [contradiction|]. rewrite zlength_cons.
    pose proof (zlength_nonneg _ offsets). lia. }
  pose proof (Z.div_pos N cycle ltac:(lia) ltac:(lia)) as Hq.
  assert (Hfull : zlength (flat_map (fun c => map (fun o => c * cycle + o) offsets) (zseq (N / cycle)))
                  = N / cycle * num).
  { apply zlength_flat_map_const; auto. intros. apply zlength_map. }
  rewrite zlength_app, Hfull, zlength_map in *.
  destruct (Z.ltb_spec INT_MAX (N / cycle * num + zlength tail)); [lia|].
  destruct (Z.eqb_spec (N / cycle * num + zlength tail) 0); [lia|].
  eexists. split; [reflexivity|]. cbn [f_len f_src f_rp]. split; [reflexivity|]. split; [|reflexivity].
  clear n; intros n Hn.
  assert (Htl : zlength tail <= num).
  { unfold tail, num, zlength. clear. induction offsets; simpl; [lia|].
    destruct (a <? N mod cycle); simpl; lia. }
  pose proof (zlength_nonneg _ tail).
  destruct (Z.ltb_spec n (N / cycle * num)) as [Hlt|Hge].
  - assert (n / num < N / cycle) by (apply Z.div_lt_upper_bound; lia).
    destruct (Z.eqb_spec (n / num) (N / cycle)); [lia|].
    rewrite nthz_app1 by lia.
    rewrite (nthz_flat_map_const _ _ num); auto; try (intros; apply zlength_map).
    pose proof (Z.mod_pos_bound n num Hnum).
    rewrite nthz_map, nth0_nthz by (fold num; lia). reflexivity. lia.
  - assert (Hq2 : n / num = N / cycle).
    { symmetry. apply Z.div_unique with (n - N / cycle * num); lia. }
    assert (Hr2 : n mod num = n - N / cycle * num).
    { symmetry. apply Z.mod_unique with (N / cycle); lia. }
    rewrite Hq2, Z.eqb_refl, Hr2. rewrite nthz_app2 by lia. rewrite Hfull, nthz_map.
    rewrite nth0_nthz by lia. reflexivity.
Qed.

Lemma select_indices_range : forall N cycle offsets i,
  1 < cycle -> Forall (fun o => 0 <= o < cycle) offsets ->
  In i (select_indices N cycle offsets) -> 0 <= i < N.
Proof.
  intros N cycle offsets i Hc Ho Hin. unfold select_indices in Hin.
  apply in_flat_map in Hin. destruct Hin as [c [Hcin Hin]].
  apply filter_In in Hin. destruct Hin as [Hin Hlt].
  apply in_map_iff in Hin. destruct Hin as [o [<- Hoin]]. rewrite Forall_forall in Ho.
  specialize (Ho o Hoin). apply In_zseq in Hcin. apply Z.ltb_lt in Hlt. nia.
Qed.

Lemma selectEvery_output : forall A (l : list A) cycle offsets,
  0 < zlength l <= INT_MAX -> cycle <= INT_MAX -> offsets <> [] ->
  1 < cycle -> Forall (fun o => 0 <= o < cycle) offsets ->
  0 < zlength (select_indices (zlength l) cycle offsets) <= INT_MAX ->
  output1 l (selectEveryCreate (zlength l) cycle offsets) =
    Some (pick l (select_indices (zlength l) cycle offsets)).
Proof.
  intros A l cycle offsets HN Hcm Hne Hc Ho Hlen.
  destruct (selectEvery_accept (zlength l) cycle offsets) as [f [E [El [Es _]]]]; auto.
  rewrite E. simpl. f_equal. unfold pick. apply nthz_ext.
  - rewrite !zlength_map, zlength_zseq. lia.
  - rewrite zlength_map, zlength_zseq. intros i Hi. rewrite !nthz_map.
    rewrite nthz_zseq by lia. rewrite Es by lia. simpl. f_equal.
    apply fetch_in.
    eapply select_indices_range; eauto. eapply nthz_In. apply Es. lia.
Qed.

Lemma selectEvery_reject : forall N cycle offsets,
  0 < N <= INT_MAX -> cycle <= INT_MAX -> offsets <> [] ->
  cycle <= 1 \/ ~ Forall (fun o => 0 <= o < cycle) offsets \/
  ~ (0 < zlength (select_indices N cycle offsets) <= INT_MAX) ->
  selectEveryCreate N cycle offsets = CErr.
Proof.
  intros N cycle offsets HN Hcm Hne Hbad. unfold selectEveryCreate.
  destruct (Z.leb_spec (sat32 cycle) 1) as [|Hc]; auto.
  assert (Hc1 : 1 < cycle /\ sat32 cycle = cycle).
  { pose proof (sat32_cases cycle). unfold INT_MAX, INT_MIN in *. lia. }
  destruct Hc1 as [Hc1 Hc2]. rewrite Hc2 in *.
  destruct (forallb _ (map sat32 offsets)) eqn:Hall; auto. cbn [negb].
  assert (Ho : Forall (fun o => 0 <= o < cycle) offsets).
  { rewrite forallb_forall in Hall. apply Forall_forall. intros x Hx.
    specialize (Hall (sat32 x) (in_map _ _ _ Hx)).
    pose proof (sat32_cases x). unfold INT_MAX, INT_MIN in *. lia. }
  rewrite map_sat32_id.
  2:{ eapply Forall_impl; [|exact Ho]. unfold in_int, INT_MIN. intros; lia. }
  destruct Hbad as [|[|Hbad]]; [lia|contradiction|].
  rewrite select_split in Hbad by (auto; lia).
  pose proof (Z.div_pos N cycle ltac:(lia) ltac:(lia)).
  rewrite zlength_app, zlength_map in Hbad.
  rewrite (zlength_flat_map_const _ _ (zlength offsets)) in Hbad;
    [|lia|intros; apply zlength_map].
  set (nf := N / cycle * zlength offsets + _) in *.
  destruct (Z.ltb_spec INT_MAX nf); auto.
  destruct (Z.eqb_spec nf 0); auto.
  exfalso. pose proof (zlength_nonneg _ offsets).
  pose proof (zlength_nonneg _ (filter (fun o => o <? N mod cycle) offsets)). unfold nf in *. nia.
Qed.

(** ** Splice *)

Fixpoint zsum (l : list Z) : Z := match l with [] => 0 | a :: t => a + zsum t end.

Lemma splice_total_spec : forall lens acc,
  Forall (fun x => 0 <= x) lens ->
  splice_total lens acc =
    if acc + zsum lens <=? INT_MAX then Some (acc + zsum lens) else
    match lens with [] => Some acc | _ => None end.
Proof.
  induction lens as [|x t IH]; intros acc Hp; cbn [splice_total zsum].
  - rewrite Z.add_0_r. destruct (acc <=? INT_MAX); reflexivity.
  - inversion Hp; subst.
    assert (Hs : 0 <= zsum t).
    { clear -H2. induction H2; simpl; lia. }
    destruct (Z.ltb_spec (INT_MAX - acc) x).
    + destruct (Z.leb_spec (acc + (x + zsum t)) INT_MAX); [lia|reflexivity].
    + rewrite IH by auto. rewrite Z.add_assoc.
      destruct (Z.leb_spec (acc + x + zsum t) INT_MAX); auto.
      destruct t; auto. cbn [zsum] in *. lia.
Qed.

Lemma splice_find_spec : forall A (ls pre : list (list A)) n,
  ls <> [] -> Forall (fun l => 0 < zlength l) ls ->
  zlength (concat pre) <= n < zlength (concat pre) + zlength (concat ls) ->
  exists i l j, splice_find (map (@zlength A) ls) (zlength pre) (zlength (concat pre)) n = (i, j) /\
    nthz (pre ++ ls) i = Some l /\ 0 <= j < zlength l /\
    nthz l j = nthz (concat (pre ++ ls)) n.
Proof.
  induction ls as [|l t IH]; intros pre n Hne Hp Hn; [contradiction|].
  inversion Hp; subst. cbn [map splice_find].
  cbn [concat] in Hn. rewrite zlength_app in Hn.
  destruct (Z.ltb_spec n (zlength (concat pre) + zlength l)).
  - destruct (Z.leb_spec (zlength (concat pre)) n); [|lia]. cbn [andb orb].
    exists (zlength pre), l, (n - zlength (concat pre)). repeat split; try lia.
    + rewrite nthz_app2 by lia. rewrite Z.sub_diag. reflexivity.
    + rewrite concat_app, nthz_app2 by lia. cbn [concat]. rewrite nthz_app1 by lia. reflexivity.
  - assert (t <> []).
    { intro; subst t. simpl in Hn. rewrite zlength_nil in Hn. lia. }
    rewrite andb_false_r. cbn [orb].
    destruct t as [|l2 t]; [contradiction|]. cbn [map].
    specialize (IH (pre ++ [l]) n).
    rewrite concat_app in IH. cbn [concat] in IH. rewrite app_nil_r in IH.
    rewrite !zlength_app in IH. rewrite zlength_cons, zlength_nil in IH.
    replace (1 + 0) with 1 in IH by lia. cbn [map] in IH.
    rewrite <- !app_assoc in IH. cbn [app] in IH. cbn [concat] in Hn. rewrite zlength_app in Hn.
    apply IH; auto; try discriminate. rewrite ?zlength_app; lia.
Qed.

Lemma splice_output : forall A (ls : list (list A)),
  ls <> [] -> Forall (fun l => 0 < zlength l) ls -> zlength (concat ls) <= INT_MAX ->
  outputN ls (spliceCreate (map (@zlength A) ls)) = Some (map Some (concat ls)).
Proof.
  intros A ls Hne Hp Hmax.
  assert (Hsum : zsum (map (@zlength A) ls) = zlength (concat ls)).
  { clear. induction ls; simpl; auto. rewrite zlength_app. lia. }
  destruct ls as [|l1 [|l2 ls]]; [contradiction| |].
  - simpl. rewrite app_nil_r. reflexivity.
  - set (lls := l1 :: l2 :: ls) in *.
    assert (E : spliceCreate (map (@zlength A) lls) =
      CFilter {| fn_len := zlength (concat lls);
                 fn_src := fun n => splice_find (map (@zlength A) lls) 0 0 n;
                 fn_rp := fun _ => rpNoFrameReuse |}).
    { unfold spliceCreate. subst lls. cbn [map]. 
      change (zlength l1 :: zlength l2 :: map (zlength (A:=A)) ls)
        with (map (@zlength A) (l1 :: l2 :: ls)).
      rewrite splice_total_spec.
      - rewrite Hsum. rewrite Z.add_0_l. destruct (Z.leb_spec (zlength (concat (l1 :: l2 :: ls))) INT_MAX); [|lia].
        reflexivity.
      - apply Forall_forall. intros x Hx. apply in_map_iff in Hx. destruct Hx as [y [<- _]].
        apply zlength_nonneg. }
    rewrite E. unfold outputN. cbn [fn_len fn_src]. f_equal.
    apply map_zseq_eq. intros n Hn.
    destruct (splice_find_spec A lls [] n) as [i [l [j [H1 [H2 [H3 H4]]]]]]; auto.
    change (zlength (concat (@nil (list A)))) with 0 in *. change (zlength (@nil (list A))) with 0 in *.
    rewrite H1. unfold fetch2. cbn [fst snd app] in *. rewrite H2. rewrite fetch_in by lia. exact H4.
Qed.

Lemma splice_too_long : forall A (ls : list (list A)),
  1 < zlength ls -> INT_MAX < zlength (concat ls) ->
  spliceCreate (map (@zlength A) ls) = CErr.
Proof.
  intros A ls Hl Hmax.
  assert (Hsum : zsum (map (@zlength A) ls) = zlength (concat ls)).
  { clear. induction ls; simpl; auto. rewrite zlength_app. lia. }
  destruct ls as [|l1 [|l2 ls]].
  - rewrite zlength_nil in Hl; lia.
  - rewrite zlength_cons, zlength_nil in Hl; lia.
  - unfold spliceCreate. cbn [map].
    change (zlength l1 :: zlength l2 :: map (zlength (A:=A)) ls)
        with (map (@zlength A) (l1 :: l2 :: ls)).
    rewrite splice_total_spec.
    + rewrite Hsum, Z.add_0_l.
      destruct (Z.leb_spec (zlength (concat (l1 :: l2 :: ls))) INT_MAX); [lia|reflexivity].
    + apply Forall_forall. intros x Hx. apply in_map_iff in Hx. destruct Hx as [y [<- _]].
      apply zlength_nonneg.
Qed.

(** AudioSplice, AudioLoop and the generators. *)
From Coq Require Import ZArith List Bool Lia.
From Verif Require Import Common AudioSpec Audio AudioLemmas.
Import ListNotations.
Open Scope Z_scope.

Section L.
Context {A : Type}.
Implicit Types (c : clip A) (s : stream A) (f : aframe A) (b : list (option A)).

Definition lens (l : list (Z * stream A)) : list Z := map fst l.

Lemma total_app : forall l1 l2, total (l1 ++ l2) = total l1 + total l2.
Proof. induction l1 as [|x l1 IH]; intros l2; cbn [total app]; [lia|]. rewrite IH; lia. Qed.

Lemma total_nonneg : forall l, Forall (fun x => 1 <= x) l -> 0 <= total l.
Proof. induction 1; cbn [total]; lia. Qed.

Lemma joined_at : forall (l : list (Z * stream A)) i L s p, Forall (fun x => 1 <= x) (lens l) ->
  nth_error l i = Some (L, s) -> 0 <= p < L ->
  joined l (total (firstn i (lens l)) + p) = s p.
Proof.
  induction l as [|[L0 s0] l IH]; intros i L s p HF E Hp; [destruct i; discriminate|].
  cbn [lens map fst] in *. fold (lens l) in *. inversion HF as [|? ? P0 P1]; subst.
  destruct i as [|i]; cbn [nth_error] in E.
  - injection E as -> ->. cbn [firstn total joined]. destruct (Z.ltb_spec (0 + p) L); [|lia].
    f_equal; lia.
  - cbn [firstn total joined].
    assert (0 <= total (firstn i (lens l))).
    { apply total_nonneg. clear -P1. revert i. induction P1; intros [|i]; cbn; auto. }
    destruct (Z.ltb_spec (L0 + total (firstn i (lens l)) + p) L0); [lia|].
    rewrite <- (IH i L s p P1 E Hp). f_equal; lia.
Qed.

Lemma firstn_S_total : forall l i x, nth_error l i = Some x ->
  total (firstn (S i) l) = total (firstn i l) + x.
Proof.
  induction l as [|y l IH]; intros i x E; [destruct i; discriminate|].
  destruct i as [|i]; cbn [nth_error] in E.
  - injection E as ->. cbn [firstn total]. lia.
  - change (firstn (S (S i)) (y :: l)) with (y :: firstn (S i) l).
    change (firstn (S i) (y :: l)) with (y :: firstn i l).
    cbn [total]. rewrite (IH i x E). lia.
Qed.

Definition dstOK (dst : option (aframe A)) (k rem base : Z) (s : stream A) : Prop :=
  match dst with
  | None => k = 0
  | Some d => af_len d = k + rem /\ filled (af_buf d) k base s
  end.

Lemma dst_ready : forall dst k rem base s, dstOK dst k rem base s -> 0 < rem ->
  exists d, match dst with Some d => Ok d | None => newFrame rem end = Ok d /\
    af_len d = k + rem /\ filled (af_buf d) k base s.
Proof.
  intros [d|] k rem base s H R; cbn [dstOK] in H.
  - exists d; auto.
  - subst k. rewrite newFrame_ok by lia. eexists; split; [reflexivity|]. split; [cbn; lia|].
    apply empty_filled.
Qed.

Lemma allServe_pos : forall cs ls, allServe cs ls -> Forall (fun x => 1 <= x) (lens ls).
Proof.
  unfold lens. induction 1 as [|c [L s] cs ls H _ IH]; cbn [map fst]; constructor; auto.
  cbn [fst] in H. destruct H as (_ & B & _); lia.
Qed.

Lemma allServe_nth : forall cs ls i L s, allServe cs ls -> nth_error ls i = Some (L, s) ->
  exists c, nth_error cs i = Some c /\ serves c L s.
Proof.
  intros cs ls i L s H. revert i. induction H as [|c x cs' ls' H SV' IH]; intros i E; [destruct i; discriminate|].
  destruct i as [|i]; cbn [nth_error] in *.
  - injection E as ->. exists c; auto.
  - apply IH; exact E.
Qed.

Section Splice.
Variable cs : list (clip A).
Variable ls : list (Z * stream A).
Hypothesis SV : allServe cs ls.

Lemma ls_pos : Forall (fun x => 1 <= x) (lens ls).
Proof. eapply allServe_pos; exact SV. Qed.

Lemma sv_nth : forall i L s, nth_error ls i = Some (L, s) ->
  exists c, nth_error cs i = Some c /\ serves c L s.
Proof. intros. eapply allServe_nth; eauto. Qed.

Lemma splice_loops : forall fuel i L s reqFrame off rem,
  nth_error ls i = Some (L, s) -> 0 <= reqFrame -> 0 <= off < AFS -> AFS * reqFrame + off < L ->
  0 < rem <= AFS -> rem <= Z.of_nat fuel ->
  let g := total (firstn i (lens ls)) + (AFS * reqFrame + off) in
  g + rem <= total (lens ls) ->
  exists reqs, spliceReqLoop fuel cs i reqFrame off rem = Ok reqs /\
    (forall j n, In (j, n) reqs -> exists c, nth_error cs j = Some c /\ 0 <= n < c_frames c) /\
    forall av base k dst, incl reqs av -> 0 <= k -> k + rem <= AFS -> base + k = g ->
      dstOK dst k rem base (joined ls) ->
      exists f, spliceCopyLoop fuel cs av i reqFrame off rem dst k = Ok f /\
        af_len f = k + rem /\ filled (af_buf f) (k + rem) base (joined ls).
Proof.
  induction fuel as [|fuel IH]; intros i L s reqFrame off rem E H1 H2 H3 H4 H5 g H6; [lia|].
  destruct (sv_nth _ _ _ E) as (c & Ec & Sc).
  pose proof Sc as (EL & BL & FF & _). pose proof (framesFor_bound _ _ FF BL) as FB.
  destruct (serves_frame c L s reqFrame Sc) as (RR & f & G & EF & BF & CF); [lia|unfold AFS in *; lia|].
  cbn [spliceReqLoop spliceCopyLoop]. rewrite Ec, EL.
  set (m := Z.min (AFS - off) (L - reqFrame * AFS - off)).
  rewrite (w32 m) by (unfold m, AFS, INT_MAX in *; lia).
  assert (M0 : 0 < m <= AFS) by (unfold m, AFS in *; lia).
  assert (EM : af_len f - off = m) by (rewrite EF; unfold m; lia).
  assert (NEXT : 0 < rem - m ->
    exists i' rf' L' s', (if c_frames c - 1 <? reqFrame + 1 then (S i, 0) else (i, reqFrame + 1)) = (i', rf') /\
      nth_error ls i' = Some (L', s') /\ 0 <= rf' /\ AFS * rf' + 0 < L' /\
      total (firstn i' (lens ls)) + (AFS * rf' + 0) = g + m).
  { intros R. destruct (Z.ltb_spec (c_frames c - 1) (reqFrame + 1)) as [LT|GE].
    - assert (ET : total (firstn (S i) (lens ls)) = total (firstn i (lens ls)) + L).
      { apply firstn_S_total. unfold lens. rewrite nth_error_map, E. reflexivity. }
      assert (GM : g + m = total (firstn (S i) (lens ls))).
      { rewrite ET. unfold g, m, framesFor, AFS in *. lia. }
      destruct (nth_error ls (S i)) as [[L' s']|] eqn:E'.
      + exists (S i), 0, L', s'. split; [reflexivity|]. split; [exact E'|]. split; [lia|].
        split; [|lia]. pose proof ls_pos as P. rewrite Forall_forall in P.
        assert (1 <= L'); [|lia]. apply P. unfold lens. apply in_map_iff.
        exists (L', s'). split; [reflexivity|]. eapply nth_error_In; exact E'.
      + exfalso. apply nth_error_None in E'.
        rewrite firstn_all2 in GM by (unfold lens; rewrite map_length; lia). lia.
    - exists i, (reqFrame + 1), L, s. split; [reflexivity|]. split; [exact E|]. split; [lia|].
      unfold framesFor in FF. split; unfold g, m, AFS in *; lia. }
  destruct (Z.ltb_spec 0 (rem - m)) as [MORE|DONE].
  - destruct (NEXT MORE) as (i' & rf' & L' & s' & EI & EN & N1 & N2 & N3). rewrite EI.
    destruct (IH i' L' s' rf' 0 (rem - m)) as (reqs & Q1 & Q2 & Q3); try (unfold AFS in *; lia); auto.
    rewrite Q1. cbn [obind]. eexists; split; [reflexivity|]. split.
    { intros j n [X|X]; [injection X as <- <-; exists c; split; [exact Ec|exact RR]|apply Q2; exact X]. }
    intros av base k dst I K1 K2 K3 DK.
    rewrite (getFilter_ok cs av i reqFrame c Ec RR) by (apply I; left; reflexivity).
    rewrite G. cbn [obind]. rewrite EM.
    destruct (dst_ready _ _ _ _ _ DK) as (d & ED & DL & DF); [lia|]. rewrite ED. cbn [obind].
    rewrite Z.min_l by lia.
    destruct (copyTo_fill (af_buf d) k base (joined ls) (af_buf f) off m)
      as (b & EB & FB'); auto; try lia.
    { intros j Hj. destruct (CF (off + j)) as (a & X & Y); [rewrite EF; unfold m in *; lia|].
      exists a. split; [exact X|]. rewrite <- Y.
      rewrite <- (joined_at ls i L s (AFS * reqFrame + (off + j)) ls_pos E); [f_equal; unfold g in *; lia|].
      unfold m, AFS in *; lia. }
    rewrite EB. cbn [obind].
    destruct (Z.ltb_spec 0 (rem - m)); [|lia].
    destruct (Q3 av base (k + m) (Some (mkAF (af_len d) b))) as (f' & X & Y & W); try lia.
    { intros x Hx; apply I; right; exact Hx. }
    { cbn [dstOK af_len af_buf]. split; [lia|exact FB']. }
    exists f'. split; [exact X|]. replace (k + rem) with (k + m + (rem - m)) by lia. auto.
  - assert (RM : rem <= m) by lia.
    exists [(i, reqFrame)]. split.
    { destruct (c_frames c - 1 <? reqFrame + 1); reflexivity. }
    split.
    { intros j n [X|[]]; injection X as <- <-; exists c; split; [exact Ec|exact RR]. }
    intros av base k dst I K1 K2 K3 DK.
    rewrite (getFilter_ok cs av i reqFrame c Ec RR) by (apply I; left; reflexivity).
    rewrite G. cbn [obind]. rewrite EM.
    destruct (dst_ready _ _ _ _ _ DK) as (d & ED & DL & DF); [lia|]. rewrite ED. cbn [obind].
    rewrite Z.min_r by lia.
    destruct (copyTo_fill (af_buf d) k base (joined ls) (af_buf f) off rem)
      as (b & EB & FB'); auto; try lia.
    { intros j Hj. destruct (CF (off + j)) as (a & X & Y); [rewrite EF; unfold m in *; lia|].
      exists a. split; [exact X|]. rewrite <- Y.
      rewrite <- (joined_at ls i L s (AFS * reqFrame + (off + j)) ls_pos E); [f_equal; unfold g in *; lia|].
      unfold m, AFS in *; lia. }
    rewrite EB. cbn [obind].
    destruct (Z.ltb_spec 0 (rem - m)); [lia|].
    exists (mkAF (af_len d) b). cbn [af_len af_buf].
    split; [|split; [exact DL|exact FB']].
    destruct (c_frames c - 1 <? reqFrame + 1); reflexivity.
Qed.

Fixpoint cumsOf (prev : Z) (l : list Z) : list Z :=
  match l with [] => [] | x :: t => prev + x :: cumsOf (prev + x) t end.

Lemma spliceFind_ok : forall l i prev start, Forall (fun x => 1 <= x) l ->
  prev <= start < prev + total l ->
  exists j L pos, spliceFind i prev (cumsOf prev l) start = Some ((i + j)%nat, pos) /\
    nth_error l j = Some L /\ 0 <= pos < L /\ start = prev + total (firstn j l) + pos.
Proof.
  induction l as [|x l IH]; intros i prev start P H; cbn [total] in H; [lia|].
  inversion P as [|? ? P0 P1]; subst. cbn [cumsOf spliceFind].
  destruct (Z.ltb_spec start (prev + x)) as [LT|GE].
  - exists O, x, (start - prev). rewrite Nat.add_0_r. split; [reflexivity|]. split; [reflexivity|].
    split; [lia|]. cbn [firstn total]. lia.
  - destruct (IH (S i) (prev + x) start P1) as (j & L & pos & E1 & E2 & E3 & E4); [lia|].
    exists (S j), L, pos. split; [rewrite E1; f_equal; f_equal; lia|]. split; [exact E2|].
    split; [exact E3|]. cbn [firstn total]. lia.
Qed.

Lemma splice_get : forall n, total (lens ls) <= INT_MAX * AFS -> 0 <= n -> AFS * n < total (lens ls) ->
  exists f, spliceGet cs (cumsOf 0 (lens ls)) (total (lens ls)) n = Ok f /\
    holds (total (lens ls)) (joined ls) n f.
Proof.
  intros n HT H1 H2. unfold spliceGet.
  destruct (spliceFind_ok (lens ls) 0 0 (n * AFS) ls_pos) as (i & L & pos & E1 & E2 & E3 & E4);
    [unfold AFS in *; lia|].
  rewrite E1. cbn [Nat.add].
  set (rem := Z.min AFS (total (lens ls) - AFS * n)).
  replace (wrap32 (Z.min AFS (total (lens ls) - n * AFS))) with rem.
  2:{ unfold rem. rewrite w32; unfold AFS, INT_MAX in *; lia. }
  rewrite Z.rem_mod_nonneg by (unfold AFS; lia). rewrite Z.quot_div_nonneg by (unfold AFS; lia).
  unfold lens in E2. rewrite nth_error_map in E2.
  destruct (nth_error ls i) as [[L' s]|] eqn:EI; [|discriminate]. cbn [option_map fst] in E2.
  injection E2 as ->.
  destruct (sv_nth _ _ _ EI) as (c & Ec & Sc). pose proof Sc as (_ & BL & FF & _).
  pose proof (Z.div_mod pos AFS ltac:(unfold AFS; lia)) as DM.
  pose proof (Z.mod_pos_bound pos AFS ltac:(unfold AFS; lia)) as MB.
  assert (D0 : 0 <= pos / AFS) by (apply Z.div_pos; unfold AFS; lia).
  assert (DB : pos / AFS <= INT_MAX).
  { apply Z.div_le_upper_bound; [unfold AFS; lia|]. unfold AFS, INT_MAX in *; lia. }
  rewrite (w32 (pos / AFS)) by lia.
  destruct (splice_loops spliceFuel i L s (pos / AFS) (pos mod AFS) rem EI) as (reqs & Q1 & Q2 & Q3);
    try (unfold rem, spliceFuel, AFS in *; lia).
  unfold runFilter. rewrite Q1. cbn [obind]. rewrite (requests_ok cs reqs) by exact Q2. cbn [obind].
  destruct (Q3 reqs (AFS * n) 0 None) as (f & F1 & F2 & F3); try (unfold rem; lia).
  { apply incl_refl. } { reflexivity. }
  exists f; split; [exact F1|]. destruct f as [fl fb]. cbn [af_len af_buf] in *.
  replace (0 + rem) with rem in * by lia. subst fl. apply filled_holds; [reflexivity|exact F3].
Qed.

End Splice.

Lemma sum64_ok : forall l acc, Forall (fun x => 1 <= x) l -> 0 <= acc -> acc + total l <= INT64_MAX ->
  sum64 acc l = Ok (acc + total l).
Proof.
  induction l as [|x l IH]; intros acc P H1 H2; cbn [total sum64] in *; [f_equal; lia|].
  inversion P as [|? ? P0 P1]; subst. pose proof (total_nonneg _ P1).
  replace (in_int64b (acc + x)) with true.
  - rewrite IH; auto; try lia. f_equal; lia.
  - symmetry; apply in_int64b_spec. unfold in_int64, INT64_MIN, INT64_MAX in *; lia.
Qed.

Lemma sum64_overflow : forall l acc, Forall (fun x => 1 <= x) l -> 0 <= acc <= INT64_MAX ->
  INT64_MAX < acc + total l -> sum64 acc l = UB.
Proof.
  induction l as [|x l IH]; intros acc P H1 H2; cbn [total sum64] in *; [lia|].
  inversion P as [|? ? P0 P1]; subst.
  destruct (in_int64b (acc + x)) eqn:B; [|reflexivity].
  apply in_int64b_spec in B. apply IH; auto; unfold in_int64 in B; lia.
Qed.

Lemma cumLoop_ok : forall l back, Forall (fun x => 1 <= x <= INT_MAX * AFS) l -> 0 <= back <= INT_MAX * AFS ->
  cumLoop back l = if back + total l <=? INT_MAX * AFS then Ok (cumsOf back l) else Err.
Proof.
  induction l as [|x l IH]; intros back P H1; cbn [total cumLoop cumsOf].
  - destruct (Z.leb_spec (back + 0) (INT_MAX * AFS)); [reflexivity|lia].
  - inversion P as [|? ? P0 P1]; subst.
    assert (TN : 0 <= total l).
    { apply total_nonneg. eapply Forall_impl; [|exact P1]. cbn; intros; lia. }
    replace (in_int64b (back + x)) with true.
    2:{ symmetry; apply in_int64b_spec. rewrite AFS_max in *.
        unfold in_int64, INT64_MIN, INT64_MAX in *; lia. }
    cbn [negb]. destruct (Z.ltb_spec (INT_MAX * AFS) (back + x)) as [LT|GE].
    + destruct (Z.leb_spec (back + (x + total l)) (INT_MAX * AFS)); [lia|reflexivity].
    + rewrite IH by (auto; lia). replace (back + x + total l) with (back + (x + total l)) by lia.
      destruct (_ <=? _); reflexivity.
Qed.

Lemma sv_lens : forall cs (ls : list (Z * stream A)),
  allServe cs ls ->
  map c_samples cs = lens ls /\ Forall (fun x => 1 <= x <= INT_MAX * AFS) (lens ls).
Proof.
  intros cs ls H. induction H as [|c [L s] cs ls S1 _ [IH1 IH2]]; [split; constructor|].
  cbn [fst snd] in S1. destruct S1 as (E & B & _). unfold lens in *. cbn [map fst].
  split; [rewrite E, IH1; reflexivity|]. constructor; auto.
Qed.

Lemma splice_correct : forall clips ls, clips <> [] ->
  allServe (map snd clips) ls -> sameFmt clips ->
  total (map fst ls) <= INT64_MAX ->
  if total (map fst ls) <=? INT_MAX * AFS
  then exists c', audioSplice clips = Ok c' /\ serves c' (total (map fst ls)) (joined ls)
  else audioSplice clips = Err.
Proof.
  intros clips ls NE SV SF HT. destruct clips as [|[f0 c0] t]; [congruence|].
  destruct (sv_lens _ _ SV) as (EL & PL). fold (lens ls) in *.
  assert (PL1 : Forall (fun x => 1 <= x) (lens ls)).
  { eapply Forall_impl; [|exact PL]. cbn; intros; lia. }
  cbn [map snd] in SV, EL. destruct ls as [|[L0 s0] ls']; [inversion SV|].
  assert (S0 : serves c0 L0 s0) by (inversion SV; subst; assumption).
  assert (SV' : allServe (map snd t) ls') by (inversion SV; subst; assumption).
  cbn [fst snd] in S0. pose proof S0 as (E0 & B0 & _).
  destruct t as [|[f1 c1] t].
  - destruct ls' as [|y ls']; [|inversion SV']. cbn [lens map fst total] in *.
    destruct (Z.leb_spec (L0 + 0) (INT_MAX * AFS)); [|lia].
    exists c0. cbn [audioSplice]. split; [reflexivity|]. rewrite Z.add_0_r.
    eapply serves_ext; [exact S0|]. intros i Hi. cbn [joined].
    destruct (Z.ltb_spec i L0); [reflexivity|lia].
  - remember ((f1, c1) :: t) as T eqn:ET.
    assert (U : audioSplice ((f0, c0) :: T) =
      if negb (forallb (fun x => fst x =? f0) T) then Err
      else obind (sum64 0 (c_samples c0 :: map c_samples (map snd T))) (fun L =>
           obind (cumLoop (c_samples c0) (map c_samples (map snd T))) (fun cum =>
           newNode L (spliceGet (c0 :: map snd T) (c_samples c0 :: cum) L)))) by (subst T; reflexivity).
    rewrite U. clear U ET.
    assert (FA : forallb (fun x => fst x =? f0) T = true).
    { apply forallb_forall. intros x Hx. apply Z.eqb_eq.
      symmetry. apply (SF (f0, c0) x); [left; reflexivity|right; exact Hx]. }
    rewrite FA. cbn [negb].
    destruct (sv_lens _ _ SV') as (EL' & PL').
    change (lens ((L0, s0) :: ls')) with (L0 :: lens ls') in *.
    rewrite EL', E0. rewrite (sum64_ok _ 0 PL1) by lia. cbn [obind].
    rewrite cumLoop_ok by (auto; lia). cbn [total] in *.
    destruct (Z.leb_spec (L0 + total (lens ls')) (INT_MAX * AFS)) as [LE|GT]; [|reflexivity].
    cbn [obind]. rewrite Z.add_0_l.
    pose proof (splice_get (c0 :: map snd T) ((L0, s0) :: ls') SV) as SG.
    change (lens ((L0, s0) :: ls')) with (L0 :: lens ls') in SG. cbn [total cumsOf] in SG.
    rewrite Z.add_0_l in SG.
    apply newNode_serves.
    + assert (0 <= total (lens ls')); [|lia]. apply total_nonneg. inversion PL1; assumption.
    + intros n N1 N2. apply SG; auto.
Qed.

Lemma splice_mismatch : forall (f0 : Z) c0 t, (exists x, In x t /\ fst x <> f0) ->
  audioSplice ((f0, c0) :: t) = Err.
Proof.
  intros f0 c0 t (x & I & N). destruct t as [|y t]; [destruct I|]. unfold audioSplice.
  replace (forallb _ (y :: t)) with false; [reflexivity|].
  symmetry. apply not_true_iff_false. intros H. rewrite forallb_forall in H.
  specialize (H x I). apply Z.eqb_eq in H. contradiction.
Qed.

Lemma total_repeat : forall x n, total (repeat x n) = Z.of_nat n * x.
Proof. induction n; cbn [repeat total]; [lia|]. rewrite IHn. lia. Qed.

Lemma splice_overflow : forall c, c_samples c = INT_MAX * AFS ->
  exists clips, sameFmt clips /\ (forall x, In x clips -> snd x = c) /\ clips <> [] /\
    zlength clips <= INT_MAX /\ audioSplice clips = UB.
Proof.
  intros c E. exists (repeat (0, c) (Z.to_nat 1398103)).
  assert (IN : forall x : Z * clip A, In x (repeat (0, c) (Z.to_nat 1398103)) -> x = (0, c)).
  { intros x Hx. apply repeat_spec in Hx. exact Hx. }
  split. { intros x y Hx Hy. rewrite (IN x Hx), (IN y Hy). reflexivity. }
  split. { intros x Hx. rewrite (IN x Hx). reflexivity. }
  assert (NZ : exists k, Z.to_nat 1398103 = S (S k) /\ Z.of_nat k = 1398101).
  { exists (Z.to_nat 1398101). lia. }
  destruct NZ as (k & -> & EK).
  split. { cbn [repeat]. discriminate. }
  split. { unfold zlength. rewrite repeat_length. unfold INT_MAX. lia. }
  cbn [repeat]. unfold audioSplice.
  assert (FA : forallb (fun x => fst x =? 0) ((0, c) :: repeat (0, c) k) = true).
  { apply forallb_forall. intros x [<-|Hx]; [reflexivity|]. apply repeat_spec in Hx. subst x. reflexivity. }
  rewrite FA. cbn [negb]. rewrite sum64_overflow; [reflexivity| | |].
  - apply Forall_forall. intros x Hx. apply in_map_iff in Hx as (y & <- & Hy).
    apply in_map_iff in Hy as (z & <- & Hz).
    assert (z = (0, c)).
    { destruct Hz as [<-|[<-|Hz]]; auto. apply repeat_spec in Hz; exact Hz. }
    subst z. cbn [snd]. rewrite E, AFS_max. lia.
  - unfold INT64_MAX; lia.
  - cbn [map snd total]. rewrite !map_map.
    assert (EM : map (fun x : Z * clip A => c_samples (snd x)) (repeat (0, c) k) = repeat (INT_MAX * AFS) k).
    { rewrite <- E. clear. induction k; cbn [repeat map]; [reflexivity|]. rewrite IHk. reflexivity. }
    rewrite EM, total_repeat, EK, E, AFS_max. unfold INT64_MAX. lia.
Qed.

(** *** AudioLoop *)

Section Loop.
Variable c : clip A.
Variables (L : Z) (s : stream A).
Hypothesis SV : serves c L s.

Lemma nf_bound : 1 <= c_frames c <= INT_MAX.
Proof. destruct SV as (_ & B & FF & _). eapply framesFor_bound; eauto. Qed.

Lemma loop_step : forall fuel av reqFrame off rem base k dst,
  0 <= reqFrame -> 0 <= off < AFS -> AFS * reqFrame + off < L -> 0 < rem -> 0 <= k -> k + rem <= AFS ->
  (base + k) mod L = AFS * reqFrame + off ->
  dstOK dst k rem base (looped s L) -> In (O, reqFrame) av ->
  let m := Z.min (AFS - off) (L - (AFS * reqFrame + off)) in
  let rf' := if c_frames c - 1 <? reqFrame + 1 then 0 else reqFrame + 1 in
  0 < m /\
  exists d, af_len d = k + rem /\ filled (af_buf d) (k + Z.min m rem) base (looped s L) /\
    loopCopyLoop (S fuel) c av reqFrame off rem dst k =
      if 0 <? rem - m then loopCopyLoop fuel c av rf' 0 (rem - m) (Some d) (k + m) else Ok d.
Proof.
  intros fuel av reqFrame off rem base k dst H1 H2 H3 H4 H5 H6 H7 DK IN m rf'.
  destruct (serves_frame c L s reqFrame SV) as (RR & f & G & EF & BF & CF); [lia|unfold AFS in *; lia|].
  assert (M0 : 0 < m) by (unfold m, AFS in *; lia). split; [exact M0|].
  cbn [loopCopyLoop]. rewrite (getFilter_ok [c] av 0 reqFrame c) by (auto; reflexivity).
  rewrite G. cbn [obind].
  assert (EM : af_len f - off = m) by (rewrite EF; unfold m; lia). rewrite EM.
  destruct (dst_ready _ _ _ _ _ DK) as (d & ED & DL & DF); [lia|]. rewrite ED. cbn [obind].
  destruct (copyTo_fill (af_buf d) k base (looped s L) (af_buf f) off (Z.min m rem))
    as (b & EB & FB'); auto; try lia.
  { intros j Hj. destruct (CF (off + j)) as (a & X & Y); [rewrite EF; unfold m in *; lia|].
    exists a. split; [exact X|]. rewrite <- Y. unfold looped. f_equal.
    pose proof SV as (_ & BL & _).
    rewrite <- Z.add_mod_idemp_l by lia. rewrite H7.
    rewrite Z.mod_small; [lia|]. unfold m, AFS in *; lia. }
  rewrite EB. cbn [obind]. exists (mkAF (af_len d) b). cbn [af_len af_buf].
  split; [exact DL|]. split; [exact FB'|]. reflexivity.
Qed.

(** Where the next iteration continues. *)
Lemma loop_next : forall reqFrame off base k,
  0 <= reqFrame -> 0 <= off < AFS -> AFS * reqFrame + off < L ->
  (base + k) mod L = AFS * reqFrame + off ->
  let m := Z.min (AFS - off) (L - (AFS * reqFrame + off)) in
  let rf' := if c_frames c - 1 <? reqFrame + 1 then 0 else reqFrame + 1 in
  0 <= rf' < c_frames c /\ AFS * rf' + 0 < L /\ (base + (k + m)) mod L = AFS * rf' + 0 /\
  (reqFrame + 1 < c_frames c -> AFS * (reqFrame + 1) = AFS * reqFrame + off + m).
Proof.
  intros reqFrame off base k H1 H2 H3 H4 m rf'. pose proof SV as (_ & BL & FF & _).
  pose proof nf_bound as NB. unfold framesFor in FF.
  assert (EQ : (base + (k + m)) mod L = (AFS * reqFrame + off + m) mod L).
  { rewrite Z.add_assoc, <- Z.add_mod_idemp_l by lia. rewrite H4. reflexivity. }
  rewrite EQ. unfold rf'. destruct (Z.ltb_spec (c_frames c - 1) (reqFrame + 1)).
  - split; [lia|]. split; [unfold AFS; lia|]. split; [|lia].
    replace (AFS * reqFrame + off + m) with L by (unfold m, AFS in *; lia).
    rewrite Z.mod_same by lia. lia.
  - split; [lia|]. split; [unfold AFS in *; lia|].
    assert (AFS * reqFrame + off + m = AFS * (reqFrame + 1)) by (unfold m, AFS in *; lia).
    split; [|lia]. rewrite Z.mod_small; unfold AFS in *; lia.
Qed.

(** Everything available. *)
Lemma loop_all : forall fuel av reqFrame off rem base k dst,
  0 <= reqFrame -> 0 <= off < AFS -> AFS * reqFrame + off < L -> 0 < rem -> 0 <= k -> k + rem <= AFS ->
  rem <= Z.of_nat fuel -> (base + k) mod L = AFS * reqFrame + off ->
  dstOK dst k rem base (looped s L) -> (forall j, 0 <= j < c_frames c -> In (O, j) av) ->
  exists f, loopCopyLoop fuel c av reqFrame off rem dst k = Ok f /\
    af_len f = k + rem /\ filled (af_buf f) (k + rem) base (looped s L).
Proof.
  induction fuel as [|fuel IH]; intros av reqFrame off rem base k dst H1 H2 H3 H4 H5 H6 H7 H8 DK IN; [lia|].
  destruct (serves_frame c L s reqFrame SV) as (RR & _); [lia|unfold AFS in *; lia|].
  destruct (loop_step fuel av reqFrame off rem base k dst) as (M0 & d & DL & DF & E); auto.
  destruct (loop_next reqFrame off base k) as (N1 & N2 & N3 & _); auto.
  rewrite E. set (m := Z.min (AFS - off) (L - (AFS * reqFrame + off))) in *.
  destruct (Z.ltb_spec 0 (rem - m)) as [MORE|DONE].
  - rewrite Z.min_l in DF by lia.
    destruct (IH av (if c_frames c - 1 <? reqFrame + 1 then 0 else reqFrame + 1) 0 (rem - m) base (k + m) (Some d))
      as (f & F1 & F2 & F3); auto; try lia.
    { cbn [dstOK]. split; [lia|exact DF]. }
    exists f. replace (k + rem) with (k + m + (rem - m)) by lia. auto.
  - rewrite Z.min_r in DF by lia. exists d; auto.
Qed.

(** Request loop and copy loop in lockstep until the requests have gone all the way round. *)
Lemma loop_loops : forall fuel start reqFrame off rem acc,
  0 <= start < c_frames c ->
  0 <= reqFrame -> 0 <= off < AFS -> AFS * reqFrame + off < L -> 0 < rem <= AFS ->
  rem <= Z.of_nat fuel ->
  (forall j, 0 <= j < c_frames c ->
     (if start <=? reqFrame then start <= j < reqFrame else start <= j \/ j < reqFrame) -> In (O, j) acc) ->
  exists reqs, loopReqLoop fuel c start reqFrame off (AFS * reqFrame + off) rem = Ok reqs /\
    (forall j n, In (j, n) reqs -> exists c', nth_error [c] j = Some c' /\ 0 <= n < c_frames c') /\
    forall av base k dst, incl acc av -> incl reqs av -> 0 <= k -> k + rem <= AFS ->
      (base + k) mod L = AFS * reqFrame + off -> dstOK dst k rem base (looped s L) ->
      exists f, loopCopyLoop fuel c av reqFrame off rem dst k = Ok f /\
        af_len f = k + rem /\ filled (af_buf f) (k + rem) base (looped s L).
Proof.
  induction fuel as [|fuel IH]; intros start reqFrame off rem acc H0 H1 H2 H3 H4 H5 HA; [lia|].
  pose proof SV as (EL & BL & FF & _). unfold framesFor in FF. pose proof nf_bound as NB.
  assert (RR : 0 <= reqFrame < c_frames c) by (unfold AFS in *; lia).
  cbn [loopReqLoop]. rewrite EL.
  set (m := Z.min (AFS - off) (L - (AFS * reqFrame + off))).
  rewrite (w32 m) by (unfold m, AFS, INT_MAX in *; lia).
  set (rf' := if c_frames c - 1 <? reqFrame + 1 then 0 else reqFrame + 1).
  assert (PAIR : (if c_frames c - 1 <? reqFrame + 1 then (0, 0) else (reqFrame + 1, AFS * reqFrame + off + m))
    = (rf', AFS * rf' + 0)).
  { unfold rf'. destruct (Z.ltb_spec (c_frames c - 1) (reqFrame + 1)); [reflexivity|].
    f_equal. unfold m, AFS in *; lia. }
  rewrite PAIR.
  assert (ONE : In (O, reqFrame) ((O, reqFrame) :: acc)) by (left; reflexivity).
  destruct ((0 <? rem - m) && negb (rf' =? start)) eqn:CONT.
  - apply andb_prop in CONT as [C1 C2]. apply Z.ltb_lt in C1. apply negb_true_iff, Z.eqb_neq in C2.
    assert (M0 : 0 < m) by (unfold m, AFS in *; lia).
    assert (R' : 0 <= rf' /\ AFS * rf' + 0 < L).
    { unfold rf' in *. destruct (Z.ltb_spec (c_frames c - 1) (reqFrame + 1)); unfold AFS in *; lia. }
    destruct (IH start rf' 0 (rem - m) ((O, reqFrame) :: acc)) as (reqs & Q1 & Q2 & Q3);
      try (unfold AFS in *; lia).
    { intros j Hj HH. destruct (Z.eq_dec j reqFrame) as [->|NE]; [left; reflexivity|right].
      apply HA; [exact Hj|]. unfold rf' in *.
      destruct (Z.ltb_spec (c_frames c - 1) (reqFrame + 1));
      destruct (Z.leb_spec start reqFrame);
      match goal with |- context[start <=? ?x] => destruct (Z.leb_spec start x) | _ => idtac end;
      match type of HH with (if start <=? ?x then _ else _) => destruct (Z.leb_spec start x) | _ => idtac end;
      lia. }
    rewrite Q1. cbn [obind]. eexists; split; [reflexivity|]. split.
    { intros j n [X|X]; [injection X as <- <-; exists c; split; [reflexivity|exact RR]|apply Q2; exact X]. }
    intros av base k dst I1 I2 K1 K2 K3 DK.
    destruct (loop_step fuel av reqFrame off rem base k dst) as (_ & d & DL & DF & E); auto; try lia.
    { apply I2; left; reflexivity. }
    destruct (loop_next reqFrame off base k) as (N1 & N2 & N3 & _); auto.
    fold m in E, DF, N3. fold rf' in E, N3. rewrite E.
    destruct (Z.ltb_spec 0 (rem - m)); [|lia]. rewrite Z.min_l in DF by lia.
    destruct (Q3 av base (k + m) (Some d)) as (f & F1 & F2 & F3); auto; try lia.
    { intros x [<-|Hx]; [apply I2; left; reflexivity|apply I1; exact Hx]. }
    { intros x Hx; apply I2; right; exact Hx. }
    { cbn [dstOK]; split; [lia|exact DF]. }
    exists f. replace (k + rem) with (k + m + (rem - m)) by lia. auto.
  - exists [(O, reqFrame)]. split; [reflexivity|]. split.
    { intros j n [X|[]]; injection X as <- <-; exists c; split; [reflexivity|exact RR]. }
    intros av base k dst I1 I2 K1 K2 K3 DK.
    destruct (loop_step fuel av reqFrame off rem base k dst) as (M0 & d & DL & DF & E); auto; try lia.
    { apply I2; left; reflexivity. }
    destruct (loop_next reqFrame off base k) as (N1 & N2 & N3 & _); auto.
    fold m in M0, E, DF, N3. fold rf' in E, N1, N2, N3. rewrite E.
    destruct (Z.ltb_spec 0 (rem - m)) as [MORE|DONE].
    + cbn [andb] in CONT. apply negb_false_iff, Z.eqb_eq in CONT. rewrite Z.min_l in DF by lia.
      destruct (loop_all fuel av rf' 0 (rem - m) base (k + m) (Some d)) as (f & F1 & F2 & F3);
        auto; try (unfold AFS in *; lia).
      { cbn [dstOK]; split; [lia|exact DF]. }
      { intros j Hj. destruct (Z.eq_dec j reqFrame) as [->|NE]; [apply I2; left; reflexivity|].
        apply I1, HA; [exact Hj|]. unfold rf' in CONT.
        destruct (Z.ltb_spec (c_frames c - 1) (reqFrame + 1)); destruct (Z.leb_spec start reqFrame); lia. }
      exists f. replace (k + rem) with (k + m + (rem - m)) by lia. auto.
    + rewrite Z.min_r in DF by lia. exists d; auto.
Qed.

Lemma loop_get : forall L' n, L' <= INT_MAX * AFS -> 0 <= n -> AFS * n < L' ->
  exists f, loopGet c L' n = Ok f /\ holds L' (looped s L) n f.
Proof.
  intros L' n HL H1 H2. pose proof SV as (EL & BL & FF & _). unfold framesFor in FF.
  unfold loopGet. rewrite EL. rewrite Z.rem_mod_nonneg by (unfold AFS; lia).
  set (p := (n * AFS) mod L).
  pose proof (Z.mod_pos_bound (n * AFS) L ltac:(lia)) as PB. fold p in PB.
  rewrite Z.quot_div_nonneg, Z.rem_mod_nonneg by (unfold AFS; lia).
  pose proof (Z.div_mod p AFS ltac:(unfold AFS; lia)) as DM.
  pose proof (Z.mod_pos_bound p AFS ltac:(unfold AFS; lia)) as MB.
  assert (D0 : 0 <= p / AFS) by (apply Z.div_pos; unfold AFS; lia).
  assert (DB : p / AFS <= INT_MAX).
  { apply Z.div_le_upper_bound; [unfold AFS; lia|]. unfold AFS, INT_MAX in *; lia. }
  rewrite (w32 (p / AFS)) by lia. rewrite (w32 (p mod AFS)) by (unfold AFS, INT_MAX in *; lia).
  set (rem := Z.min AFS (L' - AFS * n)).
  replace (wrap32 (Z.min AFS (L' - n * AFS))) with rem.
  2:{ unfold rem. rewrite w32; unfold AFS, INT_MAX in *; lia. }
  destruct (loop_loops spliceFuel (p / AFS) (p / AFS) (p mod AFS) rem []) as (reqs & Q1 & Q2 & Q3);
    try (unfold rem, spliceFuel, AFS in *; lia).
  { intros j Hj. rewrite Z.leb_refl. lia. }
  rewrite <- DM in Q1. unfold runFilter. rewrite Q1. cbn [obind].
  rewrite (requests_ok [c] reqs) by exact Q2. cbn [obind].
  destruct (Q3 reqs (AFS * n) 0 None) as (f & F1 & F2 & F3); try (unfold rem; lia).
  { intros x []. } { apply incl_refl. }
  { rewrite <- DM. unfold p. f_equal; lia. } { reflexivity. }
  exists f; split; [exact F1|]. destruct f as [fl fb]. cbn [af_len af_buf] in *.
  replace (0 + rem) with rem in * by lia. subst fl. apply filled_holds; [reflexivity|exact F3].
Qed.

End Loop.

Lemma loop_correct : forall c L s times, serves c L s ->
  let t := match times with Some x => x | None => 0 end in
  let L' := if t =? 0 then INT_MAX * AFS else L * t in
  if (t <? 0) || (INT_MAX * AFS <? L') then audioLoop c times = Err
  else exists c', audioLoop c times = Ok c' /\ serves c' L' (looped s L).
Proof.
  intros c L s times SV t L'. pose proof SV as (EL & BL & _). unfold audioLoop. fold t. rewrite EL.
  destruct (Z.ltb_spec t 0) as [NEG|NN]; [reflexivity|]. cbn [orb]. unfold L'.
  destruct (Z.eqb_spec t 1) as [T1|T1].
  { subst t. rewrite T1 in *. change (1 =? 0) with false. cbv iota.
    destruct (Z.ltb_spec (INT_MAX * AFS) (L * 1)); [lia|].
    exists c; split; [reflexivity|]. rewrite Z.mul_1_r. eapply serves_ext; [exact SV|].
    intros i Hi. unfold looped. rewrite Z.mod_small by lia. reflexivity. }
  destruct (Z.ltb_spec 0 t) as [POS|ZE].
  - destruct (Z.eqb_spec t 0) as [?|_]; [lia|].
    rewrite Z.quot_div_nonneg by (try rewrite AFS_max; lia).
    assert (EQ : (INT_MAX * AFS / t <? L) = (INT_MAX * AFS <? L * t)).
    { rewrite AFS_max. destruct (Z.ltb_spec 6597069763584 (L * t)) as [X|X].
      - apply Z.ltb_lt. apply Z.div_lt_upper_bound; lia.
      - apply Z.ltb_ge. apply Z.div_le_lower_bound; lia. }
    rewrite EQ. destruct (Z.ltb_spec (INT_MAX * AFS) (L * t)) as [X|X]; [reflexivity|].
    apply newNode_serves; [nia|]. intros n H1 H2. apply loop_get; auto.
  - destruct (Z.eqb_spec t 0) as [_|?]; [|lia].
    destruct (Z.ltb_spec (INT_MAX * AFS) (INT_MAX * AFS)); [lia|].
    apply newNode_serves; [rewrite AFS_max; lia|]. intros n H1 H2. apply loop_get; auto; lia.
Qed.

(** *** Generators *)

Lemma generate_ok : forall k (value : Z -> A) step phase,
  zlength (generate k value phase step) = Z.of_nat k /\
  forall i, 0 <= i < Z.of_nat k ->
    nthz (generate k value (wrapu64 phase) step) i = Some (Some (value (wrapu64 (phase + i * step)))).
Proof.
  intros k value step. induction k as [|k IH]; intros phase; [split; [reflexivity|intros; lia]|].
  cbn [generate]. split.
  - rewrite zlength_cons. destruct (IH (wrapu64 (phase + step))) as (E & _). rewrite E. lia.
  - intros i Hi. destruct (Z.eqb_spec i 0) as [->|NE].
    + rewrite nthz_cons_0. replace (phase + 0 * step) with phase by lia. reflexivity.
    + rewrite nthz_cons_S by lia.
      destruct (IH (wrapu64 phase + step)) as (_ & E). rewrite E by lia. do 3 f_equal.
      unfold wrapu64. rewrite <- Z.add_assoc. rewrite Z.add_mod_idemp_l by lia. f_equal. lia.
Qed.

Lemma skipn_repeat : forall B (x : B) n m, skipn n (repeat x m) = repeat x (m - n).
Proof.
  induction n; intros m; cbn [skipn]; [f_equal; lia|]. destruct m; cbn [repeat]; [reflexivity|]. apply IHn.
Qed.

Lemma wave_correct : forall (value : Z -> A) step L, 1 <= L <= INT_MAX * AFS ->
  exists c, waveAudio value step L = Ok c /\
    serves c L (fun i => Some (value (wrapu64 (i * step)))).
Proof.
  intros value step L HL. apply newNode_serves; [exact HL|]. intros n H1 H2.
  unfold waveGet. set (len := Z.min AFS (L - AFS * n)).
  replace (wrap32 (Z.min AFS (L - n * AFS))) with len.
  2:{ unfold len. rewrite w32; unfold AFS, INT_MAX in *; lia. }
  assert (LB : 0 < len <= AFS) by (unfold len, AFS in *; lia).
  rewrite newFrame_ok by lia. cbn [obind af_buf]. destruct (Z.ltb_spec AFS len); [lia|].
  eexists; split; [reflexivity|]. apply filled_holds; [reflexivity|].
  assert (EP : wrapu64 (wrapu64 (n * AFS) * step) = wrapu64 (AFS * n * step)).
  { unfold wrapu64. rewrite Z.mul_mod_idemp_l by lia. f_equal. lia. }
  rewrite EP. destruct (generate_ok (Z.to_nat len) value step (wrapu64 (AFS * n * step))) as (G1 & _).
  destruct (generate_ok (Z.to_nat len) value step (AFS * n * step)) as (_ & G2).
  split.
  - rewrite zlength_app, G1. rewrite skipn_repeat. unfold zlength. rewrite repeat_length. lia.
  - intros i Hi. exists (value (wrapu64 ((AFS * n + i) * step))). split; [|reflexivity].
    rewrite nthz_app1 by lia. rewrite G2 by lia. do 4 f_equal. lia.
Qed.

Lemma silent_frame : forall (zero : A) L n, 1 <= L <= INT_MAX * AFS -> 0 <= n -> AFS * n < L ->
  exists f, silentFrame zero L n = Ok f /\ holds L (fun _ => Some zero) n f.
Proof.
  intros zero L n HL H1 H2. unfold silentFrame. set (len := Z.min AFS (L - AFS * n)).
  replace (wrap32 (Z.min AFS (L - n * AFS))) with len.
  2:{ unfold len. rewrite w32; unfold AFS, INT_MAX in *; lia. }
  assert (LB : 0 < len <= AFS) by (unfold len, AFS in *; lia).
  rewrite newFrame_ok by lia. cbn [obind af_buf]. destruct (Z.ltb_spec AFS len); [lia|].
  eexists; split; [reflexivity|]. apply filled_holds; [reflexivity|]. split.
  - rewrite zlength_app, skipn_repeat. unfold zlength. rewrite !repeat_length. lia.
  - intros i Hi. exists zero. split; [|reflexivity].
    rewrite nthz_app1 by (unfold zlength; rewrite repeat_length; lia).
    unfold nthz. destruct (Z.ltb_spec i 0); [lia|]. apply nth_error_repeat. lia.
Qed.

Lemma checkFrame_holds : forall L s n f k, 1 <= L -> framesFor L k -> 0 <= n < k -> holds L s n f ->
  checkFrame L k n f = Ok f.
Proof.
  intros L s n f k HL FF Hn (E & _). unfold checkFrame. rewrite Z.rem_mod_nonneg by (unfold AFS; lia).
  rewrite E. unfold framesFor in FF.
  assert (EX : Z.min AFS (L - AFS * n) = (if n <? k - 1 then AFS else if L mod AFS =? 0 then AFS else L mod AFS)).
  { destruct (Z.ltb_spec n (k - 1)); [unfold AFS in *; lia|].
    assert (n = k - 1) by lia. subst n.
    pose proof (Z.div_mod L AFS). pose proof (Z.mod_pos_bound L AFS).
    unfold AFS in *.
    destruct (Z.eqb_spec (L mod 3072) 0); lia. }
  rewrite EX, Z.eqb_refl. reflexivity.
Qed.

(** Keeping one frame is right exactly when all frames have the same length. *)
Lemma silent_run : forall (zero : A) keep L frames ns, 1 <= L <= INT_MAX * AFS -> framesFor L frames ->
  (keep = true -> uniform L) ->
  Forall (fun n => 0 <= n < frames) ns ->
  forall kept, match kept with
               | None => True
               | Some f => keep = true /\ forall n, 0 <= n < frames -> holds L (fun _ => Some zero) n f
               end ->
  Forall2 (fun n o => exists f, o = Ok f /\ holds L (fun _ => Some zero) n f) ns
    (silentRun zero keep L frames kept ns).
Proof.
  intros zero keep L frames ns HL FF HU HN.
  assert (ANY : keep = true -> forall n m f, 0 <= n < frames -> 0 <= m < frames ->
    holds L (fun _ => Some zero) n f -> holds L (fun _ => Some zero) m f).
  { intros K n m f Hn Hm (E1 & E2 & E3). unfold holds.
    assert (EQ : Z.min AFS (L - AFS * n) = Z.min AFS (L - AFS * m)).
    { destruct (HU K) as [U|U]; unfold framesFor in FF; unfold AFS in *.
      - assert (n = 0 /\ m = 0) by lia. lia.
      - pose proof (Z.div_mod L 3072). lia. }
    split; [rewrite E1; exact EQ|]. split; [exact E2|]. exact E3. }
  induction HN as [|n ns Hn HN IH]; intros kept HK; cbn [silentRun]; [constructor|].
  destruct kept as [f|]; cbn [silentGet].
  - destruct HK as (-> & HK). constructor.
    + exists f. split; [|apply HK; exact Hn]. eapply checkFrame_holds; eauto; lia.
    + apply IH. auto.
  - destruct (silent_frame zero L n HL) as (f & E & HF); [lia|unfold framesFor, AFS in *; lia|].
    rewrite E. cbn [obind]. constructor.
    + exists f. split; [|exact HF]. eapply checkFrame_holds; eauto; lia.
    + apply IH. destruct keep; [|exact I]. split; [reflexivity|]. intros m Hm. eapply ANY; eauto.
Qed.

Lemma silent_keep_bad : forall (zero : A) L frames, 1 <= L <= INT_MAX * AFS -> framesFor L frames ->
  ~ uniform L -> silentRun zero true L frames None [0; frames - 1] =
    [silentFrame zero L 0; Err].
Proof.
  intros zero L frames HL FF NU. unfold uniform in NU.
  assert (LN : AFS < L /\ L mod AFS <> 0) by lia.
  pose proof (Z.mod_pos_bound L AFS ltac:(unfold AFS; lia)) as MB.
  destruct (silent_frame zero L 0 HL) as (f & E & HF); [lia|unfold AFS; lia|].
  cbn [silentRun silentGet]. rewrite E. cbn [obind].
  rewrite (checkFrame_holds L (fun _ => Some zero) 0 f frames) by (auto; unfold framesFor, AFS in *; lia).
  cbn [silentRun silentGet]. f_equal. f_equal.
  unfold checkFrame. rewrite Z.ltb_irrefl. rewrite Z.rem_mod_nonneg by (unfold AFS; lia).
  destruct HF as (EL & _). rewrite EL. destruct (Z.eqb_spec (L mod AFS) 0); [lia|].
  destruct (Z.eqb_spec (Z.min AFS (L - AFS * 0)) (L mod AFS)); [unfold AFS in *; lia|reflexivity].
Qed.

End L.

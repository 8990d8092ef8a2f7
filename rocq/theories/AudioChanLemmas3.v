(** SplitChannels, AudioMix routing, integer quantisation, declared patterns, clip report. *)
From Coq Require Import ZArith List Bool Lia Permutation Sorted QArith Qround Qabs Lqa.
From Verif Require Import Common FormatSpec Format ReqPat AudioSpec Audio AudioLemmas AudioLemmas2
  AudioChanSpec AudioChan AudioChanLemmas AudioChanLemmas2.
Import ListNotations.
Open Scope Z_scope.

(** *** Channels of a layout *)

Lemma In_channelsOf : forall l c, In c (channelsOf l) <-> 0 <= c < 64 /\ Z.testbit l c = true.
Proof.
  intros l c. unfold channelsOf. rewrite filter_In. rewrite In_zseq. reflexivity.
Qed.

Lemma zseq_sorted : forall n, StronglySorted Z.lt (zseq n).
Proof.
  intros n. unfold zseq. generalize (Z.to_nat n). intros k. generalize 0%nat at 1.
  induction k as [|k IH]; intros a; cbn [seq map]; [constructor|]. constructor; [apply IH|].
  rewrite Forall_forall. intros x Hx. apply in_map_iff in Hx as (y & <- & I). apply in_seq in I. lia.
Qed.

Lemma filter_sorted : forall (f : Z -> bool) l, StronglySorted Z.lt l -> StronglySorted Z.lt (filter f l).
Proof.
  intros f l H. induction H as [|x l Hs IH Hx]; cbn [filter]; [constructor|].
  destruct (f x); [|exact IH]. constructor; [exact IH|]. rewrite Forall_forall in *.
  intros y Hy. apply filter_In in Hy. apply Hx, Hy.
Qed.

Lemma channelsOf_sorted : forall l, StronglySorted Z.lt (channelsOf l).
Proof. intros l. apply filter_sorted, zseq_sorted. Qed.

Lemma channelsOf_ok : forall l, Forall chanOk (channelsOf l).
Proof. intros l. rewrite Forall_forall. intros c I. apply In_channelsOf in I. exact (proj1 I). Qed.

Lemma layoutOf_channelsOf : forall l, 0 <= l < 2 ^ 64 -> layoutOf (channelsOf l) = l.
Proof.
  intros l H. apply Z.bits_inj'. intros k Hk.
  rewrite layoutOf_bit by (auto using chanOk_nonneg, channelsOf_ok).
  destruct (existsb (Z.eqb k) (channelsOf l)) eqn:E.
  - apply existsb_eqb_In, In_channelsOf in E. symmetry. exact (proj2 E).
  - destruct (Z.testbit l k) eqn:T; [|reflexivity].
    assert (k < 64).
    { destruct (Z.lt_ge_cases k 64); [assumption|]. destruct (Z.eq_dec l 0) as [->|NZ]; [rewrite Z.bits_0 in T; discriminate|].
      rewrite Z.bits_above_log2 in T; [discriminate|lia|].
      apply Z.lt_le_trans with 64; [apply Z.log2_lt_pow2; lia|lia]. }
    exfalso. rewrite <- not_true_iff_false, existsb_eqb_In, In_channelsOf in E. apply E. split; [lia|exact T].
Qed.

Lemma zlength_channelsOf : forall l, 0 <= l < 2 ^ 64 -> zlength (channelsOf l) = popcount 64 l.
Proof.
  intros l H. rewrite <- (layoutOf_channelsOf l H) at 2.
  symmetry. apply popcount_full; [apply channelsOf_ok|apply sorted_NoDup, channelsOf_sorted].
Qed.

Lemma channelsOf_plane : forall l i c, 0 <= l < 2 ^ 64 -> nth_error (channelsOf l) i = Some c ->
  planeOf l c = Z.of_nat i.
Proof.
  intros l i c H E. rewrite <- (layoutOf_channelsOf l H) at 1.
  apply sorted_plane; auto using channelsOf_ok, channelsOf_sorted.
Qed.

Lemma nextBit_ok : forall fuel l index c, 0 <= index <= c -> c < 64 -> c - index < Z.of_nat fuel ->
  Z.testbit l c = true -> (forall j, index <= j < c -> Z.testbit l j = false) ->
  nextBit fuel l index = Ok c.
Proof.
  induction fuel as [|fuel IH]; intros l index c H1 H2 H3 T N; [lia|]. cbn [nextBit].
  destruct (Z.leb_spec 64 index); [lia|]. rewrite Z.land_comm, land_bit by lia.
  destruct (Z.eq_dec index c) as [->|NE]; [rewrite T; reflexivity|].
  rewrite N by lia. cbn [negb]. apply IH; auto; try lia. intros; apply N; lia.
Qed.

Section S.
Context {B : Type}.
Variable zero : B.

Lemma picks_present : forall l c, 0 <= c < 64 -> Z.testbit l c = true -> picks l c = Some (planeOf l c).
Proof.
  intros l c H T. unfold picks. destruct (Z.ltb_spec c 0); [lia|]. destruct (Z.eqb_spec c 0) as [->|NZ]; [reflexivity|].
  rewrite T. reflexivity.
Qed.

Lemma padded_serves : forall (c : clip B) L s, serves c L (padded zero L s) -> serves c L s.
Proof.
  intros c L s H. eapply serves_ext; [exact H|]. intros i Hi. unfold padded.
  destruct (Z.leb_spec 0 i); [|lia]. destruct (Z.ltb_spec i L); [|lia]. reflexivity.
Qed.

Lemma one_channel : forall (nd : anode B) ch, goodNode nd -> 0 <= ch < 64 -> Z.testbit (an_layout nd) ch = true ->
  exists r, shuffleChannels zero [nd] [ch] [ch] = Ok r /\ isChannel nd ch r.
Proof.
  intros nd ch GN HC T.
  destruct (shuffle_dec zero [nd] [ch] [ch]) as [(_ & r & E & SH)|(NA & _)]; [discriminate|repeat constructor; exact GN| |].
  - exists r. split; [exact E|]. destruct SH as (S1 & S2 & S3 & S4 & (nd' & [<-|[]] & S5) & S6).
    assert (LO : layoutOf [ch] = 2 ^ ch) by (cbn [layoutOf]; apply Z.lor_0_r).
    split; [apply S3; left; reflexivity|]. split; [congruence|].
    intros L ss s NS ES.
    destruct (S6 0%nat ch ch nd (planeOf (an_layout nd) ch)) as (cl & EC & SV); try reflexivity.
    { apply picks_present; assumption. }
    specialize (SV L ss s NS ES).
    assert (SL : an_samples nd = L) by (destruct NS as (_ & _ & X & _); exact X).
    rewrite (sorted_plane [ch] 0 ch) in EC; [|repeat constructor; apply HC|repeat constructor|reflexivity].
    destruct S2 as (L' & ss' & R1 & R2 & R3 & R4 & R5).
    rewrite <- S5, SL in R3, SV. subst L'.
    split; [exact R1|].
    assert (P1 : popcount 64 (an_layout r) = 1).
    { rewrite S1. rewrite (popcount_full [ch]); [reflexivity|repeat constructor; apply HC|repeat constructor; intros []]. }
    split; [rewrite P1; reflexivity|]. split; [rewrite <- S5; exact SL|]. split; [exact R4|].
    rewrite P1 in R2. destruct R5 as [|c1 s1 cs ss1 X1 X2]; [change (zlength (@nil (stream B))) with 0 in R2; lia|].
    rewrite zlength_cons in R2. destruct X2; [|rewrite zlength_cons in R2; pose proof (zlength_nonneg _ l'); lia].
    change (nthz [c1] (Z.of_nat 0)) with (Some c1) in EC. injection EC as ->.
    constructor; [|constructor]. apply padded_serves; exact SV.
  - exfalso. apply NA. split; [reflexivity|]. split; [reflexivity|].
    split; [constructor; [unfold inRange; lia|constructor]|]. split; [repeat constructor; intros []|]. split.
    + intros n1 n2 [<-|[]] [<-|[]]. reflexivity.
    + intros k c nd' E1 E2. destruct k as [|[|k]]; try discriminate. injection E1 as <-. injection E2 as <-.
      rewrite picks_present by assumption. discriminate.
Qed.

Lemma splitLoop_ok : forall (nd : anode B) chs index, goodNode nd -> 0 <= index -> StronglySorted Z.lt chs ->
  (forall c, In c chs <-> (0 <= c < 64 /\ Z.testbit (an_layout nd) c = true) /\ index <= c) ->
  exists rs, splitLoop zero (length chs) nd index = Ok rs /\ Forall2 (isChannel nd) chs rs.
Proof.
  intros nd chs. induction chs as [|ch chs IH]; intros index GN H0 SS HI.
  - exists []. split; [reflexivity|constructor].
  - destruct (proj1 (HI ch) (or_introl eq_refl)) as ((C1 & C2) & C3).
    inversion SS as [|? ? SS' FA]; subst. rewrite Forall_forall in FA.
    cbn [length]. change (splitLoop zero (S (length chs)) nd index) with
      (obind (nextBit 65 (an_layout nd) index) (fun ch =>
       obind (shuffleChannels zero [nd] [ch] [ch]) (fun r =>
       obind (splitLoop zero (length chs) nd (ch + 1)) (fun rs => Ok (r :: rs))))).
    rewrite (nextBit_ok 65 _ index ch); auto; try lia.
    2:{ intros j Hj. destruct (Z.testbit (an_layout nd) j) eqn:T; [|reflexivity].
        assert (In j (ch :: chs)) as [->|I] by (apply HI; split; [split; [lia|exact T]|lia]); [lia|].
        specialize (FA j I). lia. }
    cbn [obind]. destruct (one_channel nd ch GN C1 C2) as (r & E & IC). rewrite E. cbn [obind].
    destruct (IH (ch + 1)) as (rs & ER & F); auto; try lia.
    { intros c. split.
      - intros I. destruct (proj1 (HI c) (or_intror I)) as (X & _). split; [exact X|]. specialize (FA c I). lia.
      - intros (X & Y). assert (In c (ch :: chs)) as [->|I] by (apply HI; split; [exact X|lia]); [lia|exact I]. }
    rewrite ER. cbn [obind]. exists (r :: rs). split; [reflexivity|]. constructor; assumption.
Qed.

Theorem split_correct : forall (nd : anode B), goodNode nd ->
  exists rs, splitChannels zero nd = Ok rs /\ Forall2 (isChannel nd) (channelsOf (an_layout nd)) rs.
Proof.
  intros nd GN. pose proof GN as (L & ss & NS). pose proof NS as (HL & HZ & _).
  pose proof (zlength_channelsOf (an_layout nd) ltac:(lia)) as ZC.
  unfold splitChannels. destruct (Z.eqb_spec (popcount 64 (an_layout nd)) 1) as [E1|N1].
  - exists [nd]. split; [reflexivity|]. rewrite E1 in ZC.
    pose proof (layoutOf_channelsOf (an_layout nd) ltac:(lia)) as LC.
    pose proof (channelsOf_plane (an_layout nd)) as CP.
    destruct (channelsOf (an_layout nd)) as [|c [|d t]];
      [change (zlength (@nil Z)) with 0 in ZC; lia| |
       rewrite !zlength_cons in ZC; pose proof (zlength_nonneg _ t); lia].
    constructor; [|constructor]. split; [reflexivity|]. split; [cbn [layoutOf] in LC; rewrite Z.lor_0_r in LC; congruence|].
    intros L1 ss1 s NS1 ES. rewrite (CP 0%nat c ltac:(lia) eq_refl) in ES.
    pose proof NS1 as (_ & HZ1 & _). rewrite E1 in HZ1.
    destruct ss1 as [|s1 [|s2 t]];
      [change (zlength (@nil (stream B))) with 0 in HZ1; lia| |
       rewrite !zlength_cons in HZ1; pose proof (zlength_nonneg _ t); lia].
    change (nthz [s1] (Z.of_nat 0)) with (Some s1) in ES. injection ES as ->. exact NS1.
  - rewrite <- ZC. unfold zlength. rewrite Nat2Z.id.
    apply splitLoop_ok; auto; [lia|apply channelsOf_sorted|]. intros c. rewrite In_channelsOf. intuition lia.
Qed.

Lemma Forall2_pointwise : forall A C (R : A -> C -> Prop) (l : list A) (l' : list C), length l = length l' ->
  (forall i x y, nth_error l i = Some x -> nth_error l' i = Some y -> R x y) -> Forall2 R l l'.
Proof.
  induction l as [|a l IH]; intros [|c l'] LE H; try discriminate; constructor.
  - apply (H 0%nat); reflexivity.
  - apply IH; [injection LE; auto|]. intros i x y E1 E2. apply (H (S i)); assumption.
Qed.

Theorem split_shuffle : forall (nd : anode B) rs, goodNode nd -> splitChannels zero nd = Ok rs ->
  exists r, shuffleChannels zero rs (channelsOf (an_layout nd)) (channelsOf (an_layout nd)) = Ok r /\
    an_fmt r = an_fmt nd /\ an_layout r = an_layout nd /\
    forall L ss, nodeServes nd L ss -> nodeServes r L ss.
Proof.
  intros nd rs GN ES. destruct (split_correct nd GN) as (rs' & ES' & F). assert (rs' = rs) by congruence. subst rs'.
  pose proof GN as (L0 & ss0 & NS0). pose proof NS0 as (HL & HZ0 & _).
  pose proof (zlength_channelsOf (an_layout nd) ltac:(lia)) as ZC.
  pose proof (layoutOf_channelsOf (an_layout nd) ltac:(lia)) as LO.
  assert (CP : forall i c, nth_error (channelsOf (an_layout nd)) i = Some c -> planeOf (an_layout nd) c = Z.of_nat i)
    by (intros i c; apply channelsOf_plane; lia).
  pose proof (channelsOf_sorted (an_layout nd)) as CS. pose proof (In_channelsOf (an_layout nd)) as CI.
  pose proof (channelsOf_ok (an_layout nd)) as OKC.
  generalize dependent (channelsOf (an_layout nd)). intros chs F ZC LO CP CS CI OKC.
  pose proof (popcount_pos _ HL) as PP. rewrite <- ZC in PP.
  pose proof (Forall2_zlen _ _ _ _ _ F) as ZR.
  assert (RNE : rs <> []).
  { intros ->. change (zlength (@nil (anode B))) with 0 in ZR. lia. }
  assert (STR : forall i c, nth_error chs i = Some c -> forall L ss, nodeServes nd L ss ->
            exists s, nth_error ss i = Some s /\ nthz ss (planeOf (an_layout nd) c) = Some s).
  { intros i c E L ss (_ & HZ & _). rewrite (CP i c E), nthz_nth.
    destruct (nth_error ss i) as [s|] eqn:X; [exists s; auto|].
    apply nth_error_None in X. assert (i < length chs)%nat by (apply nth_error_Some; congruence).
    unfold zlength in *. lia. }
  assert (GR : Forall goodNode rs).
  { rewrite Forall_forall. intros r I. apply In_nth_error in I as (i & Ei).
    destruct (Forall2_nth2 _ _ _ _ _ F i r Ei) as (c & Ec & (_ & _ & X)).
    destruct (STR i c Ec L0 ss0 NS0) as (s & _ & Y). exists L0, [s]. eapply X; eauto. }
  assert (NA : forall k, (k < length rs)%nat -> nodeAt rs (Z.of_nat k) = nth_error rs k).
  { intros k Hk. unfold nodeAt, zlength. rewrite Z.min_r by lia. apply nthz_nth. }
  assert (LEN : length rs = length chs) by (unfold zlength in ZR; lia).
  assert (PK : forall k c r, nth_error chs k = Some c -> nth_error rs k = Some r -> picks (an_layout r) c = Some 0).
  { intros k c r E1 E2. destruct (Forall2_nth _ _ _ _ _ F k c E1) as (r' & E2' & (_ & X & _)).
    assert (r' = r) by congruence. subst r'. pose proof (nth_error_In _ _ E1) as I.
    apply CI in I as (I1 & I2).
    replace (an_layout r) with (layoutOf [c]) by (cbn [layoutOf]; rewrite Z.lor_0_r; congruence).
    rewrite picks_present; [f_equal; apply (sorted_plane [c] 0 c)| exact I1|];
      [repeat constructor; apply I1|repeat constructor|reflexivity|].
    rewrite layoutOf_bit; [cbn [existsb]; rewrite Z.eqb_refl; reflexivity|repeat constructor; apply I1|lia]. }
  destruct (shuffle_dec zero rs chs chs RNE GR) as [(_ & r & E & SH)|(N & _)].
  - exists r. split; [exact E|]. destruct SH as (S1 & S2 & S3 & S4 & (nd' & I5 & S5) & S6).
    assert (SAMP : forall r', In r' rs -> an_samples r' = an_samples nd).
    { intros r' I. apply In_nth_error in I as (i & Ei).
      destruct (Forall2_nth2 _ _ _ _ _ F i r' Ei) as (c & Ec & (_ & _ & X)).
      destruct (STR i c Ec L0 ss0 NS0) as (s & _ & Y).
      destruct (X _ _ _ NS0 Y) as (_ & _ & Z1 & _). destruct NS0 as (_ & _ & Z2 & _). congruence. }
    split.
    { rewrite (S3 nd' I5). apply In_nth_error in I5 as (i & Ei).
      destruct (Forall2_nth2 _ _ _ _ _ F i nd' Ei) as (c & Ec & (X & _)). exact X. }
    split; [congruence|]. intros L ss NS.
    assert (SR : an_samples r = L) by (rewrite <- S5, (SAMP _ I5); destruct NS as (_ & _ & X & _); exact X).
    destruct S2 as (L' & ss' & R1 & R2 & R3 & R4 & R5). assert (L' = L) by congruence. subst L'.
    pose proof NS as (_ & HZ & _).
    split; [exact R1|]. split; [rewrite HZ; congruence|]. split; [exact SR|]. split; [rewrite <- SR; exact R4|].
    pose proof (Forall2_zlen _ _ _ _ _ R5) as ZL.
    apply Forall2_pointwise.
    + rewrite S1, LO, <- HZ in R2. unfold zlength in *. lia.
    + intros i cl s E1 E2.
      assert (i < length ss)%nat by (apply nth_error_Some; congruence).
      assert (i < length chs)%nat by (unfold zlength in *; lia).
      destruct (nth_error chs i) as [c|] eqn:EC; [|apply nth_error_None in EC; lia].
      destruct (Forall2_nth _ _ _ _ _ F i c EC) as (ri & ERi & (_ & _ & X)).
      destruct (STR i c EC L ss NS) as (s' & Y1 & Y2). assert (s' = s) by congruence. subst s'.
      destruct (S6 i c c ri 0 EC EC) as (cl' & EL' & SV).
      { rewrite NA by lia. exact ERi. } { eapply PK; eauto. }
      rewrite LO, (CP i c EC), nthz_nth in EL'.
      assert (cl' = cl) by congruence. subst cl'. rewrite SR in SV.
      specialize (SV L [s] s (X _ _ _ NS Y2) eq_refl). apply padded_serves; exact SV.
  - exfalso. apply N. split; [reflexivity|]. split; [rewrite ZR; apply Z.le_refl|]. split.
    + clear -OKC. induction OKC as [|c l H _ IH]; constructor; [unfold inRange, chanOk in *; lia|exact IH].
    + split; [apply sorted_NoDup, CS|]. split.
      * intros n1 n2 I1 I2.
        assert (FM : forall r', In r' rs -> an_fmt r' = an_fmt nd).
        { intros r' I. apply In_nth_error in I as (i & Ei).
          destruct (Forall2_nth2 _ _ _ _ _ F i r' Ei) as (c & Ec & (X & _)). exact X. }
        rewrite (FM n1 I1), (FM n2 I2). reflexivity.
      * intros k c r E1 E2. assert (k < length chs)%nat by (apply nth_error_Some; congruence).
        rewrite NA in E2 by lia. rewrite (PK k c r E1 E2). discriminate.
Qed.

(** *** Declared patterns *)

Lemma shuffle_pattern_honest : forall (nodes : list (anode B)) cin cout r nd0 nd,
  Forall goodNode nodes -> shuffled zero nodes cin cout r -> In nd0 nodes -> In nd nodes ->
  (forall x, In x nodes -> an_samples x <= an_samples nd0) ->
  honest (shufflePattern nd0 nd) (an_frames nd) (an_frames r) shuffleRequest.
Proof.
  intros nodes cin cout r nd0 nd GN (_ & S2 & _ & S4 & (x & I & S5) & _) I0 I1 HM.
  assert (ES : an_samples r = an_samples nd0) by (specialize (HM x I); specialize (S4 nd0 I0); lia).
  assert (EF : an_frames r = an_frames nd0).
  { rewrite Forall_forall in GN. destruct (GN _ I0) as (L1 & ss1 & _ & _ & E1 & F1 & _).
    destruct S2 as (L2 & ss2 & _ & _ & E2 & F2 & _). apply framesFor_val in F1, F2. congruence. }
  unfold shufflePattern, shuffleRequest. rewrite EF. destruct (Z.leb_spec (an_frames nd0) (an_frames nd)); cbn [honest].
  - intros n Hn. split; [lia|]. intros j; reflexivity.
  - split; [intros; lia|]. intros; lia.
Qed.

End S.

Section Splice.
Context {A : Type}.
Implicit Types (cs : list (clip A)) (ls : list (Z * stream A)).

Lemma spliceReq_mono : forall fuel cs i reqFrame off rem r, spliceReqLoop fuel cs i reqFrame off rem = Ok r ->
  forall k j, In (k, j) r -> (i <= k)%nat.
Proof.
  induction fuel as [|fuel IH]; intros cs i reqFrame off rem r H k j I; [discriminate|].
  cbn [spliceReqLoop] in H. destruct (nth_error cs i) as [c|]; [|discriminate]. cbv zeta in H.
  destruct (c_frames c - 1 <? reqFrame + 1).
  - match type of H with (if ?t then _ else _) = _ => destruct t end.
    + destruct (spliceReqLoop fuel cs (S i) 0 0 _) as [r'| |] eqn:E; try discriminate. injection H as <-.
      destruct I as [X|I]; [injection X; lia|]. specialize (IH _ _ _ _ _ _ E _ _ I). lia.
    + injection H as <-. destruct I as [X|[]]. injection X; lia.
  - match type of H with (if ?t then _ else _) = _ => destruct t end.
    + destruct (spliceReqLoop fuel cs i (reqFrame + 1) 0 _) as [r'| |] eqn:E; try discriminate. injection H as <-.
      destruct I as [X|I]; [injection X; lia|]. specialize (IH _ _ _ _ _ _ E _ _ I). lia.
    + injection H as <-. destruct I as [X|[]]. injection X; lia.
Qed.

Lemma spliceFind_mono : forall cum i prev start k pos, spliceFind i prev cum start = Some (k, pos) -> (i <= k)%nat.
Proof.
  induction cum as [|c cum IH]; intros i prev start k pos H; [discriminate|]. cbn [spliceFind] in H.
  destruct (start <? c); [injection H; lia|]. apply IH in H. lia.
Qed.

Lemma splice_first_requests : forall c0 cs L0 s0 cum L n r j,
  serves c0 L0 s0 -> 0 <= n -> n * AFS < L <= INT_MAX * AFS ->
  spliceRequests (c0 :: cs) (L0 :: cum) L n = Ok r -> In (0%nat, j) r -> j = n /\ n < c_frames c0.
Proof.
  intros c0 cs L0 s0 cum L n r j (EL & BL & FF & _) Hn HL H I. unfold spliceRequests in H.
  pose proof (framesFor_bound _ _ FF BL) as FB.
  cbn [spliceFind] in H. destruct (Z.ltb_spec (n * AFS) L0) as [LT|GE].
  - rewrite Z.sub_0_r in H. rewrite Z.rem_mul, Z.quot_mul in H by (unfold AFS; lia).
    assert (NB : n < c_frames c0) by (unfold framesFor, AFS in *; lia).
    rewrite (w32 n) in H by lia.
    rewrite (w32 (Z.min AFS (L - n * AFS))) in H by (unfold AFS, INT_MAX in *; lia).
    unfold spliceFuel in H. replace (Z.to_nat AFS) with (S (Z.to_nat (AFS - 1))) in H by (unfold AFS; lia).
    cbn [spliceReqLoop nth_error] in H. cbv zeta in H. rewrite !Z.sub_0_r, EL in H.
    rewrite (w32 (Z.min AFS (L0 - n * AFS))) in H by (unfold AFS, INT_MAX in *; lia).
    destruct (Z.ltb_spec (c_frames c0 - 1) (n + 1)) as [LAST|NL].
    + match type of H with (if ?t then _ else _) = _ => destruct t end.
      * destruct (spliceReqLoop _ (c0 :: cs) 1 0 0 _) as [r'| |] eqn:E; try discriminate. injection H as <-.
        destruct I as [X|I]; [injection X as <-; auto|]. pose proof (spliceReq_mono _ _ _ _ _ _ _ E _ _ I). lia.
      * injection H as <-. destruct I as [X|[]]. injection X as <-. auto.
    + match type of H with (if ?t then _ else _) = _ => destruct t eqn:T end.
      * apply Z.ltb_lt in T. exfalso. unfold framesFor, AFS in *. lia.
      * injection H as <-. destruct I as [X|[]]. injection X as <-. auto.
  - destruct (spliceFind 1 L0 cum (n * AFS)) as [[k pos]|] eqn:E; [|discriminate].
    apply spliceFind_mono in E. pose proof (spliceReq_mono _ _ _ _ _ _ _ H _ _ I). lia.
Qed.

Lemma splice_first_honest : forall c0 cs L0 s0 cum L M, serves c0 L0 s0 -> L <= INT_MAX * AFS -> framesFor L M ->
  honest rpNoFrameReuse (c_frames c0) M
    (fun n j => exists r, spliceRequests (c0 :: cs) (L0 :: cum) L n = Ok r /\ In (0%nat, j) r).
Proof.
  intros c0 cs L0 s0 cum L M SV HL FM.
  assert (K : forall n j, 0 <= n < M -> (exists r, spliceRequests (c0 :: cs) (L0 :: cum) L n = Ok r /\ In (0%nat, j) r) ->
    j = n /\ n < c_frames c0).
  { intros n j Hn (r & E & I). eapply splice_first_requests; eauto; [lia|].
    split; [unfold framesFor, AFS in *; lia|exact HL]. }
  split.
  - intros n j Hn X. destruct (K n j Hn X). lia.
  - intros n m j Hn Hm X Y. destruct (K n j Hn X), (K m j Hm Y). lia.
Qed.

End Splice.

(** *** AudioMix *)

Lemma setNth_ok : forall C (l : list C) i x, 0 <= i < zlength l -> exists l', setNth l i x = Ok l' /\
  zlength l' = zlength l /\ nthz l' i = Some x /\ forall j, j <> i -> nthz l' j = nthz l j.
Proof.
  intros C l i x H. unfold setNth. destruct (Z.ltb_spec i 0); [lia|]. destruct (Z.leb_spec (zlength l) i); [lia|].
  cbn [orb]. eexists; split; [reflexivity|].
  assert (Z1 : zlength (firstn (Z.to_nat i) l) = i) by (unfold zlength in *; rewrite firstn_length; lia).
  assert (Z2 : zlength (skipn (Z.to_nat (i + 1)) l) = zlength l - i - 1) by (unfold zlength in *; rewrite skipn_length; lia).
  split; [rewrite zlength_app, zlength_cons; lia|]. split.
  - rewrite nthz_app2 by lia. rewrite Z1, Z.sub_diag. reflexivity.
  - intros j NE. destruct (Z.lt_ge_cases j i) as [LT|GE].
    + rewrite nthz_app1 by lia. destruct (Z.lt_ge_cases j 0); [unfold nthz; destruct (Z.ltb_spec j 0); [reflexivity|lia]|].
      unfold nthz. destruct (Z.ltb_spec j 0); [lia|].
      rewrite <- (firstn_skipn (Z.to_nat i) l) at 2.
      rewrite nth_error_app1; [reflexivity|]. unfold zlength in *. lia.
    + rewrite nthz_app2 by lia. rewrite Z1, nthz_cons_S by lia.
      destruct (Z.lt_ge_cases j (zlength l)) as [IN|OUT].
      * unfold nthz. destruct (Z.ltb_spec (j - i - 1) 0); [lia|]. destruct (Z.ltb_spec j 0); [lia|].
        rewrite <- (firstn_skipn (Z.to_nat (i + 1)) l) at 2.
        rewrite nth_error_app2 by (rewrite firstn_length; lia). f_equal.
        rewrite firstn_length. unfold zlength in *. lia.
      * assert (X : nthz l j = None) by (apply nthz_None_iff; lia). rewrite X.
        apply nthz_None_iff. lia.
Qed.

Lemma mixStore_ok : forall C idx (rows ps : list C), NoDup idx -> length idx = length rows ->
  Forall (fun i => 0 <= i < zlength ps) idx ->
  exists ps', mixStore ps idx rows = Ok ps' /\ zlength ps' = zlength ps /\
    (forall k i r, nth_error idx k = Some i -> nth_error rows k = Some r -> nthz ps' i = Some r) /\
    (forall i, ~ In i idx -> nthz ps' i = nthz ps i).
Proof.
  intros C. induction idx as [|i idx IH]; intros [|r rows] ps ND LE F; try discriminate.
  - exists ps. split; [reflexivity|]. split; [reflexivity|]. split; [intros [|k]; discriminate|auto].
  - inversion ND as [|? ? NI ND']; subst. inversion F as [|? ? F1 F2]; subst.
    destruct (setNth_ok C ps i r F1) as (ps1 & E1 & L1 & N1 & O1).
    destruct (IH rows ps1 ND') as (ps2 & E2 & L2 & N2 & O2); [injection LE; auto|rewrite L1; exact F2|].
    cbn [mixStore]. rewrite E1. cbn [obind]. exists ps2. split; [exact E2|]. split; [lia|]. split.
    + intros [|k] i' r' K1 K2; cbn [nth_error] in *.
      * injection K1 as <-. injection K2 as <-. rewrite O2 by exact NI. exact N1.
      * eapply N2; eauto.
    + intros i' NI'. rewrite O2 by (intros X; apply NI'; right; exact X).
      apply O1. intros ->. apply NI'. left; reflexivity.
Qed.

Lemma planeOf_mono : forall l c d, 0 <= c < d -> Z.testbit l c = true -> planeOf l c < planeOf l d.
Proof.
  intros l c d H T. unfold planeOf.
  pose proof (popcount_mono (S (Z.to_nat c)) (Z.to_nat d) l ltac:(lia)) as M.
  rewrite popcount_S, Z2Nat.id, T in M by lia. lia.
Qed.

Theorem mix_correct : forall C (unset : C) cout rows, length cout = length rows -> cout <> [] ->
  (Forall chanOk cout /\ NoDup cout /\
   exists ps, mixPlanes unset cout rows = Ok ps /\ zlength ps = zlength cout /\
     forall k c r, nth_error cout k = Some c -> nth_error rows k = Some r ->
       nthz ps (planeOf (layoutOf cout) c) = Some r) \/
  (~ (Forall chanOk cout /\ NoDup cout) /\ mixPlanes unset cout rows = Err).
Proof.
  intros C unset cout rows LE NE. unfold mixPlanes.
  destruct (forallb (fun c => (0 <=? c) && (c <? 64)) cout) eqn:FB.
  2:{ right. split; [|reflexivity]. intros (F & _). rewrite <- not_true_iff_false in FB. apply FB.
      apply forallb_forall. intros c I. rewrite Forall_forall in F. specialize (F c I). unfold chanOk in F.
      apply andb_true_intro. lia. }
  cbn [negb].
  assert (F : Forall chanOk cout).
  { rewrite Forall_forall. intros c I. rewrite forallb_forall in FB. specialize (FB c I). unfold chanOk. lia. }
  rewrite orBits_layoutOf by (apply chanOk_nonneg; exact F).
  destruct (Z.eqb_spec (layoutOf cout) 0) as [E0|_]; [exfalso; revert E0; apply layoutOf_zero; auto|].
  destruct (Z.eqb_spec (popcount 64 (layoutOf cout)) (zlength cout)) as [EP|NP].
  2:{ right. split; [|reflexivity]. intros (_ & ND). apply NP, popcount_full; auto. }
  cbn [negb]. left. split; [exact F|]. assert (ND : NoDup cout) by (apply popcount_iff; auto). split; [exact ND|].
  unfold mixOutputIdx. rewrite orBits_layoutOf by (apply chanOk_nonneg; exact F).
  assert (BIT : forall c, In c cout -> 0 <= c < 64 /\ Z.testbit (layoutOf cout) c = true).
  { intros c I. rewrite Forall_forall in F. pose proof (F c I) as R. split; [exact R|].
    rewrite layoutOf_bit; [apply existsb_eqb_In; exact I|apply chanOk_nonneg; rewrite Forall_forall; exact F|unfold chanOk in R; lia]. }
  destruct (mixStore_ok C (map (rank (layoutOf cout)) cout) rows (repeat unset (length cout))) as (ps & E1 & E2 & E3 & _).
  - clear -BIT ND. revert BIT. generalize (layoutOf cout). intros lay BIT.
    induction ND as [|c l NI _ IH]; cbn [map]; [constructor|].
    constructor; [|apply IH; intros; apply BIT; right; assumption].
    intros I. apply in_map_iff in I as (d & E & Id). rewrite !rank_plane in E.
    destruct (BIT c (or_introl eq_refl)) as (C1 & C2). destruct (BIT d (or_intror Id)) as (D1 & D2).
    destruct (Z.lt_trichotomy c d) as [LT|[EQ|GT]].
    + pose proof (planeOf_mono lay c d ltac:(lia) C2). lia.
    + subst; contradiction.
    + pose proof (planeOf_mono lay d c ltac:(lia) D2). lia.
  - rewrite map_length. exact LE.
  - rewrite Forall_forall. intros i I. apply in_map_iff in I as (c & <- & Ic). rewrite rank_plane.
    destruct (BIT c Ic) as (C1 & C2). unfold zlength. rewrite repeat_length.
    pose proof (planeOf_lt _ _ C1 C2) as PL. rewrite EP in PL. unfold zlength in PL.
    split; [apply popcount_nonneg|exact PL].
  - exists ps. split; [exact E1|]. split; [rewrite E2; unfold zlength; rewrite repeat_length; reflexivity|].
    intros k c r K1 K2. apply (E3 k); [|exact K2]. rewrite nth_error_map, K1. cbn [option_map]. rewrite rank_plane. reflexivity.
Qed.

(** *** Clip report *)

Lemma clipReport_ok : forall n len, 0 <= n -> 1 <= len -> n * AFS + len <= INT_MAX ->
  clipReport n len = Ok (n * AFS, n * AFS + len - 1).
Proof.
  intros n len H1 H2 H3. unfold clipReport.
  assert (in_intb (n * AFS) = true) as -> by (unfold in_intb, INT_MIN, INT_MAX, AFS in *; lia).
  assert (in_intb (n * AFS + len) = true) as -> by (unfold in_intb, INT_MIN, INT_MAX, AFS in *; lia).
  reflexivity.
Qed.

Lemma clipReport_bad : forall n len, 699051 <= n -> 0 <= len -> clipReport n len = UB.
Proof.
  intros n len H1 H2. unfold clipReport.
  assert (in_intb (n * AFS) = false) as -> by (unfold in_intb, INT_MIN, INT_MAX, AFS in *; lia).
  reflexivity.
Qed.

(** ShuffleChannels, SplitChannels and AudioMix route every channel to its place. *)
From Coq Require Import ZArith List Bool Lia Permutation Sorted.
From Verif Require Import Common FormatSpec Format ReqPat AudioSpec Audio AudioLemmas AudioLemmas2
  AudioChanSpec AudioChan AudioChanLemmas.
Import ListNotations.
Open Scope Z_scope.

Lemma layoutOf_perm : forall l l', Permutation l l' -> layoutOf l = layoutOf l'.
Proof.
  induction 1; cbn [layoutOf]; try congruence. rewrite !Z.lor_assoc. f_equal. apply Z.lor_comm.
Qed.

Lemma Forall2_nth : forall A C (R : A -> C -> Prop) l l', Forall2 R l l' ->
  forall i x, nth_error l i = Some x -> exists y, nth_error l' i = Some y /\ R x y.
Proof.
  induction 1 as [|a c l l' H _ IH]; intros [|i] x E; try discriminate.
  - injection E as <-. exists c. auto.
  - apply IH; exact E.
Qed.

Lemma Forall2_nth2 : forall A C (R : A -> C -> Prop) l l', Forall2 R l l' ->
  forall i x, nth_error l' i = Some x -> exists y, nth_error l i = Some y /\ R y x.
Proof.
  induction 1 as [|a c l l' H _ IH]; intros [|i] x E; try discriminate.
  - injection E as <-. exists a. auto.
  - apply IH; exact E.
Qed.

Lemma nthz_nth : forall A (l : list A) i, nthz l (Z.of_nat i) = nth_error l i.
Proof. intros; unfold nthz. destruct (Z.ltb_spec (Z.of_nat i) 0); [lia|]. rewrite Nat2Z.id. reflexivity. Qed.

Lemma Forall2_zlen : forall A C (R : A -> C -> Prop) l l', Forall2 R l l' -> zlength l = zlength l'.
Proof. induction 1; [reflexivity|]. rewrite !zlength_cons. congruence. Qed.

Lemma nodeAt_In : forall B (nodes : list (anode B)) i nd, nodeAt nodes i = Some nd -> In nd nodes.
Proof. intros B nodes i nd. apply nthz_In. Qed.

(** Every node is used when there are at least as many channels as nodes. *)
Lemma node_used : forall B (nodes : list (anode B)) nd m, In nd nodes -> zlength nodes <= m ->
  exists k, (k < Z.to_nat m)%nat /\ nodeAt nodes (Z.of_nat k) = Some nd.
Proof.
  intros B nodes nd m I H. apply In_nth_error in I as (k & E).
  assert (k < length nodes)%nat by (apply nth_error_Some; congruence).
  exists k. unfold zlength in H. split; [lia|]. unfold nodeAt, zlength.
  replace (Z.min (Z.of_nat (length nodes) - 1) (Z.of_nat k)) with (Z.of_nat k) by lia.
  rewrite nthz_nth. exact E.
Qed.

Section S.
Context {B : Type}.
Variable zero : B.

Lemma goodNode_chan : forall (nd : anode B) c p, goodNode nd -> -64 <= c < 64 -> picks (an_layout nd) c = Some p ->
  exists L ss s, nodeServes nd L ss /\ nthz ss p = Some s.
Proof.
  intros nd c p (L & ss & NS) HC HP. exists L, ss.
  pose proof NS as (HL & HZ & _).
  pose proof (picks_range _ _ _ HL HC HP) as R. rewrite <- HZ in R. apply nthz_Some_iff in R as (s & E).
  exists s. auto.
Qed.

Lemma goodNode_len : forall (nd : anode B), goodNode nd -> 1 <= an_samples nd <= INT_MAX * AFS.
Proof.
  intros nd (L & ss & HL & HZ & HE & FF & F).
  pose proof (popcount_pos _ HL). rewrite <- HZ in H.
  destruct F as [|c s cs ss (_ & X & _) _]; [change (zlength (@nil (stream B))) with 0 in H; lia|]. rewrite HE. exact X.
Qed.

Lemma inRange_chan : forall cin cout, Forall2 inRange cin cout -> Forall chanOk cout.
Proof. induction 1 as [|c d cin cout (_ & H) _ IH]; constructor; auto. Qed.

Lemma inRange_src : forall cin cout, Forall2 inRange cin cout -> Forall (fun c => -64 <= c < 64) cin.
Proof. induction 1 as [|c d cin cout (H & _) _ IH]; constructor; auto. Qed.

Theorem shuffle_dec : forall (nodes : list (anode B)) cin cout, nodes <> [] -> Forall goodNode nodes ->
  (shuffleAsks nodes cin cout /\ exists r, shuffleChannels zero nodes cin cout = Ok r /\ shuffled zero nodes cin cout r) \/
  (~ shuffleAsks nodes cin cout /\ shuffleChannels zero nodes cin cout = Err).
Proof.
  intros nodes cin cout NE GN. unfold shuffleChannels.
  destruct (Z.eqb_spec (zlength cin) (zlength cout)) as [EL|NL]; cbn [negb].
  2:{ right. split; [|reflexivity]. intros (A1 & _). contradiction. }
  destruct (Z.ltb_spec (zlength cin) (zlength nodes)) as [LT|GE].
  { right. split; [|reflexivity]. intros (_ & A2 & _). lia. }
  destruct (shuffleEntries_spec nodes cin cout 0 NE ltac:(lia) EL) as [(FR & ->)|(NF & ->)].
  2:{ right. split; [|reflexivity]. intros (_ & _ & A3 & _). contradiction. }
  cbn [obind]. remember (mkEntries nodes 0 cin cout) as es0 eqn:EE0.
  assert (ES0 : map (fun e => snd e) es0 = cout) by (subst es0; apply mkEntries_len; auto; lia).
  pose proof (sortE_perm es0) as PE. pose proof (sortE_sorted es0) as SE.
  assert (PM : Permutation (map (fun e => snd e) (sortE es0)) cout).
  { rewrite <- ES0. apply Permutation_map. exact PE. }
  destruct (sortE es0) as [|[[nd0 c0] d0] es1] eqn:EES.
  { exfalso. cbn [map] in PM. apply Permutation_nil in PM. rewrite PM in EL.
    destruct nodes as [|x nodes]; [congruence|]. rewrite zlength_cons in GE.
    pose proof (zlength_nonneg _ nodes). change (zlength (@nil Z)) with 0 in EL. lia. }
  rewrite <- EES in *.
  assert (I0 : In (nd0, c0, d0) (sortE es0)) by (rewrite EES; left; reflexivity).
  clear EES. set (es := sortE es0) in *.
  assert (HE : forall e, In e es -> exists k, nth_error cin k = Some (snd (fst e)) /\
            nth_error cout k = Some (snd e) /\ nodeAt nodes (Z.of_nat k) = Some (fst (fst e))).
  { intros [[nd c] d] I. apply (Permutation_in _ PE) in I. rewrite EE0 in I. cbn [fst snd].
    destruct (mkEntries_In nodes cin cout 0 nd c d NE ltac:(lia) I) as (k & X). exists k. exact X. }
  assert (HC : forall e, In e es -> -64 <= snd (fst e) < 64 /\ In (fst (fst e)) nodes).
  { intros e I. destruct (HE e I) as (k & X1 & X2 & X3). split; [|eapply nodeAt_In; exact X3].
    pose proof (inRange_src _ _ FR) as Y. rewrite Forall_forall in Y. apply Y. eapply nth_error_In; exact X1. }
  assert (HCO : Forall chanOk cout) by (eapply inRange_chan; exact FR).
  assert (N0 : In nd0 nodes) by (apply (HC _ I0)).
  destruct (resolveAll_spec (an_fmt nd0) es (an_samples nd0)) as [(src & -> & F2)|(-> & e & I & X)].
  2:{ right. split; [|reflexivity]. intros (_ & _ & _ & _ & A5 & A6).
      destruct X as [X|X]; [apply X, A5; [apply (HC _ I)|exact N0]|].
      destruct (HE e I) as (k & X1 & X2 & X3). rewrite resolve_picks in X by apply (HC _ I).
      exact (A6 _ _ _ X1 X3 X). }
  set (L := maxLen es (an_samples nd0)).
  rewrite orBits_layoutOf.
  2:{ apply chanOk_nonneg. rewrite Forall_forall in *. intros x Ix. apply HCO. eapply Permutation_in; eauto. }
  rewrite (layoutOf_perm _ _ PM).
  assert (CN : cout <> []).
  { intros ->. apply Permutation_sym, Permutation_nil in PM. destruct es; [destruct I0|discriminate]. }
  destruct (Z.eqb_spec (layoutOf cout) 0) as [E0|_]; [exfalso; revert E0; apply layoutOf_zero; auto|].
  destruct (Z.eqb_spec (popcount 64 (layoutOf cout)) (zlength cout)) as [EPC|NPC].
  2:{ right. split; [|reflexivity]. intros (_ & _ & _ & A4 & _). apply NPC, popcount_full; auto. }
  apply popcount_iff in EPC; [|exact HCO]. cbn [negb].
  destruct (maxLen_spec es (an_samples nd0)) as (M1 & M2 & M3).
  fold L in M1, M2, M3. rewrite Forall_forall in GN.
  assert (LB : 1 <= L <= INT_MAX * AFS).
  { pose proof (goodNode_len _ (GN _ N0)). split; [lia|]. destruct M3 as [->|(e & I & <-)]; [lia|].
    apply goodNode_len, GN, (HC _ I). }
  assert (ALLE : forall nd, In nd nodes -> exists e, In e es /\ fst (fst e) = nd).
  { intros nd I. destruct (node_used _ nodes nd (zlength cin) I GE) as (k & KL & EN).
    unfold zlength in KL. rewrite Nat2Z.id in KL.
    destruct (nth_error cin k) as [c|] eqn:E1; [|apply nth_error_None in E1; lia].
    destruct (nth_error cout k) as [d|] eqn:E2; [|apply nth_error_None in E2; unfold zlength in EL; lia].
    destruct (mkEntries_nth nodes cin cout 0 k c d NE ltac:(lia) E1 E2) as (nd' & EN' & X). rewrite <- EE0 in X.
    rewrite Z.add_0_l in EN'. assert (nd' = nd) by congruence. subst nd'.
    exists (nd, c, d). split; [|reflexivity]. eapply Permutation_in; [apply Permutation_sym, PE|].
    eapply nth_error_In; exact X. }
  assert (FMT : forall nd, In nd nodes -> an_fmt nd = an_fmt nd0).
  { intros nd I. destruct (ALLE nd I) as (e & Ie & <-). apply In_nth_error in Ie as (j & Ej).
    destruct (Forall2_nth _ _ _ _ _ F2 j e Ej) as (x & _ & RF & _). exact RF. }
  assert (NODE : forall e x, In e es -> resolvesTo (an_fmt nd0) e x ->
            exists c, newNode L (shuffleChan zero (fst x) (snd x) L) = Ok c /\
              forall L0 ss s, nodeServes (fst x) L0 ss -> nthz ss (snd x) = Some s ->
                serves c L (padded zero L0 s)).
  { intros e [nd p] I (_ & R2 & R3). cbn [fst snd] in *. subst nd.
    destruct (HC e I) as (C1 & C2). rewrite resolve_picks in R3 by exact C1.
    destruct (goodNode_chan _ _ _ (GN _ C2) C1 R3) as (L0 & ss & s & NS & ES).
    assert (L0 <= L <= INT_MAX * AFS).
    { split; [|lia]. destruct NS as (_ & _ & <- & _). apply M2; exact I. }
    destruct (newNode_chan zero _ L0 ss p s L NS ES H) as (c & EC & _). exists c. split; [exact EC|].
    intros L1 ss1 s1 NS1 ES1.
    destruct (newNode_chan zero _ L1 ss1 p s1 L NS1 ES1) as (c' & EC' & SV').
    { split; [|lia]. destruct NS1 as (_ & _ & <- & _). apply M2; exact I. }
    congruence. }
  destruct (planes_ok zero src L) as (cs & EP & FP).
  { rewrite Forall_forall. intros x Ix. apply In_nth_error in Ix as (j & Ej).
    destruct (Forall2_nth2 _ _ _ _ _ F2 j x Ej) as (e & Ee & RX).
    destruct (NODE e x) as (c & EC & _); [eapply nth_error_In; exact Ee|exact RX|]. exists c; exact EC. }
  rewrite EP. cbn [obind].
  assert (KEY : forall j e, nth_error es j = Some e -> exists x c, resolvesTo (an_fmt nd0) e x /\
            nth_error cs j = Some c /\
            forall L0 ss s, nodeServes (fst x) L0 ss -> nthz ss (snd x) = Some s -> serves c L (padded zero L0 s)).
  { intros j e Ee. destruct (Forall2_nth _ _ _ _ _ F2 j e Ee) as (x & Ex & RX).
    destruct (Forall2_nth _ _ _ _ _ FP j x Ex) as (c & Ec & NN).
    destruct (NODE e x (nth_error_In _ _ Ee) RX) as (c' & EC' & SV).
    exists x, c. split; [exact RX|]. split; [exact Ec|]. assert (c = c') by congruence. subst; exact SV. }
  assert (ASKS : shuffleAsks nodes cin cout).
  { split; [exact EL|]. split; [exact GE|]. split; [exact FR|]. split; [exact EPC|]. split.
    - intros n1 n2 I1 I2. rewrite (FMT n1 I1), (FMT n2 I2). reflexivity.
    - intros k c nd E1 EN HP.
      assert (KL : (k < length cin)%nat) by (apply nth_error_Some; congruence).
      destruct (nth_error cout k) as [d|] eqn:E2; [|apply nth_error_None in E2; unfold zlength in EL; lia].
      destruct (mkEntries_nth nodes cin cout 0 k c d NE ltac:(lia) E1 E2) as (nd' & EN' & X). rewrite <- EE0 in X.
      rewrite Z.add_0_l in EN'. assert (nd' = nd) by congruence. subst nd'.
      assert (Ie : In (nd, c, d) es).
      { eapply Permutation_in; [apply Permutation_sym, PE|]. eapply nth_error_In; exact X. }
      apply In_nth_error in Ie as (j & Ej). destruct (KEY j _ Ej) as (x & c' & (_ & _ & R3) & _).
      cbn [fst snd] in R3. rewrite resolve_picks in R3; [congruence|].
      pose proof (inRange_src _ _ FR) as Y. rewrite Forall_forall in Y. apply Y. eapply nth_error_In; exact E1. }
  left. split; [exact ASKS|]. eexists; split; [reflexivity|].
  assert (SRT : StronglySorted Z.lt (map (fun e => snd e) es)).
  { apply sorted_strict; [exact SE|]. eapply Permutation_NoDup; [apply Permutation_sym, PM|exact EPC]. }
  split; [reflexivity|]. split; [|split; [|split; [|split]]]; cbn [an_fmt an_samples an_chans].
  - (* a proper node *)
    assert (EXS : exists ss, Forall2 (fun c s => serves c L s) cs ss).
    { assert (FA : Forall (fun c => exists s, serves c L s) cs).
      { rewrite Forall_forall. intros c Ic. apply In_nth_error in Ic as (j & Ej).
        destruct (Forall2_nth2 _ _ _ _ _ FP j c Ej) as (x & Ex & _).
        destruct (Forall2_nth2 _ _ _ _ _ F2 j x Ex) as (e & Ee & _).
        destruct (KEY j e Ee) as (x' & c' & (_ & R2 & R3) & Ec' & SV).
        assert (c' = c) by congruence. subst c'.
        pose proof (nth_error_In _ _ Ee) as Ie. destruct (HC e Ie) as (C1 & C2).
        rewrite resolve_picks in R3 by exact C1.
        destruct (goodNode_chan _ _ _ (GN _ C2) C1 R3) as (L0 & ss & s & NS & ES).
        rewrite <- R2 in NS. exists (padded zero L0 s). eapply SV; eauto. }
      clear -FA. induction FA as [|c cs (s & X) _ (ss & IH)]; [exists []; constructor|].
      exists (s :: ss). constructor; assumption. }
    destruct EXS as (ss & FS). exists L, ss. split; [|split; [|split; [|split]]]; cbn [an_layout an_samples an_frames an_chans].
    + pose proof (layoutOf_range cout HCO). pose proof (layoutOf_zero cout HCO CN). lia.
    + rewrite (popcount_full cout HCO EPC). rewrite <- (Forall2_zlen _ _ _ _ _ FS), <- (Forall2_zlen _ _ _ _ _ FP),
        <- (Forall2_zlen _ _ _ _ _ F2). unfold zlength.
      pose proof (Permutation_length PM) as PL. rewrite map_length in PL. f_equal. exact PL.
    + reflexivity.
    + rewrite Z.quot_div_nonneg by (unfold AFS; lia).
      pose proof (framesFor_div L (proj1 LB)) as FF. rewrite w32; [exact FF|].
      pose proof (framesFor_bound _ _ FF LB). lia.
    + exact FS.
  - intros nd I. rewrite (FMT nd I). reflexivity.
  - intros nd I. destruct (ALLE nd I) as (e & Ie & <-). apply M2; exact Ie.
  - destruct M3 as [E|(e & Ie & E)].
    + exists nd0. split; [exact N0|]. symmetry; exact E.
    + exists (fst (fst e)). split; [apply (HC _ Ie)|exact E].
  - intros k c d nd p E1 E2 EN EPK.
    destruct (mkEntries_nth nodes cin cout 0 k c d NE ltac:(lia) E1 E2) as (nd' & EN' & X). rewrite <- EE0 in X.
    rewrite Z.add_0_l in EN'. assert (nd' = nd) by congruence. subst nd'.
    assert (Ie : In (nd, c, d) es).
    { eapply Permutation_in; [apply Permutation_sym, PE|]. eapply nth_error_In; exact X. }
    destruct (HC _ Ie) as (C1 & C2). cbn [fst snd] in C1, C2.
    apply In_nth_error in Ie as (j & Ej). destruct (KEY j _ Ej) as (x & c' & (_ & R2 & R3) & Ec & SV).
    cbn [fst snd] in R2, R3. rewrite resolve_picks in R3 by exact C1.
    assert (snd x = p) by congruence.
    exists c'. split.
    + rewrite <- (layoutOf_perm _ _ PM). rewrite (sorted_plane _ j d).
      * rewrite nthz_nth. exact Ec.
      * rewrite Forall_forall in *. intros y Iy. apply HCO. eapply Permutation_in; eauto.
      * exact SRT.
      * rewrite nth_error_map, Ej. reflexivity.
    + intros L0 ss s NS ES. rewrite <- R2 in NS. eapply SV; [exact NS|]. congruence.
Qed.

End S.

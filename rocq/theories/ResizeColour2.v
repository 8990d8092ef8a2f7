(** Resize filters with nothing to do, refused properties, creation. *)
From Coq Require Import String.
From Coq Require Import ZArith List Lia Bool.
From Coq Require Import SpecFloat.
From Verif Require Import Common FormatSpec Format Frame SMap MapSpec MapAlias PropsSpec Props PropsLemmas ImageSpec PlaneMem Spatial Rational Soft ClipProp Blank ResizeSpec Resize ResizeColour.
Import ListNotations.
Local Open Scope string_scope.
Local Open Scope list_scope.
Open Scope Z_scope.

(** Every frame with meaningful properties of a format zimg knows is described. *)
Lemma describe_total : forall d src, legal (rf_props src) -> meaningful (rf_props src) -> fmt_valid (rf_fmt src) -> fmt_valid (dstFormat d src) ->
  pixelType (rf_fmt src) <> Err -> pixelType (dstFormat d src) <> Err ->
  (rd_bob d = true -> propOf (rf_props src) "_Field" <> None) -> exists s t i, describe d src = Ok (s, t, i).
Proof.
  intros d src L M VS VD PS PD B. unfold describe.
  destruct (translate_ok (rf_fmt src) (rf_w src) (rf_h src) (rd_region d) VS PS) as [s0 TS]. rewrite TS. cbn [obind].
  destruct (translate_ok (dstFormat d src) (if rd_w d =? 0 then rf_w src else wrapu32 (rd_w d)) (if rd_h d =? 0 then rf_h src else wrapu32 (rd_h d)) noRegion VD PD) as [d0 TD]. rewrite TD. cbn [obind].
  rewrite import_ok by auto. cbn [obind fst snd].
  destruct (rd_bob d); [|repeat eexists]. specialize (B eq_refl).
  destruct (imported_rest (rf_props src) (setParams (rd_in d) s0)) as (_ & _ & _ & _ & _ & _ & _ & A8 & _). rewrite A8. unfold interlacedFrame, parityOf.
  destruct (propOf (rf_props src) "_Field") as [z|]; [|congruence]. cbn [orb]. destruct (z =? 0); cbn; repeat eexists.
Qed.

Lemma eqb_pred : forall a b, (a - 1 =? b - 1) = (a =? b).
Proof. intros. destruct (Z.eqb_spec a b), (Z.eqb_spec (a - 1) (b - 1)); try reflexivity; lia. Qed.
Lemma wrapu32_id : forall a, 0 <= a < 2 ^ 32 -> wrapu32 a = a.
Proof. intros. unfold wrapu32. apply Z.mod_small. lia. Qed.
Lemma sameFormat_refl : forall f, sameFormat f f = true.
Proof. intros. unfold sameFormat. rewrite !Z.eqb_refl. reflexivity. Qed.

(** Nothing asked for that the frame does not have already. *)
Definition idle (d : rdata) (src : rframe) : Prop :=
  rd_out d = nothing /\ rd_region d = noRegion /\ rd_bob d = false /\ (rd_w d = 0 \/ rd_w d = rf_w src) /\ (rd_h d = 0 \/ rd_h d = rf_h src) /\ dstFormat d src = rf_fmt src.
Lemma idle_copy : forall build al g env d src c, legal (rf_props src) -> meaningful (rf_props src) -> fmt_valid (rf_fmt src) -> pixelType (rf_fmt src) <> Err ->
  0 <= rf_w src < 2 ^ 32 -> 0 <= rf_h src < 2 ^ 32 -> idle d src ->
  (isRGB (rf_fmt src) = true -> c_matrix (inputColour (rf_fmt src) (rd_in d) (rf_props src)) = 0) ->
  exists m, resizeFrame build al g env d src c = (Ok (mkRF (rf_fmt src) (rf_w src) (rf_h src) (rf_planes src) m), c) /\
    describes (rf_fmt src) (inputColour (rf_fmt src) (rd_in d) (rf_props src)) m /\
    forall k, ~ In k colourKeys -> entry m k = entry (rf_props src) k.
Proof.
  intros build al g env d src c L M VS PT BW BH (GO & RG & BB & DW & DH & DF) RM.
  destruct (describe_total d src L M VS ltac:(rewrite DF; exact VS) PT ltac:(rewrite DF; exact PT) ltac:(congruence)) as (s & t & i & D).
  destruct (describe_ok d src s t i L M VS ltac:(rewrite DF; exact VS) D) as (I & A1 & A2 & A3 & A4 & A5 & A6 & A7 & A8 & A9 & A10 & A11 & A12 & A13 & A14 & A15 & A16 & A17 & A18 & CS & CT & _).
  unfold resizeFrame. rewrite D. rewrite DF in *. rewrite sameFormat_refl. rewrite BB in *. rewrite RG in *.
  assert (RS : z_region s = noRegion) by (rewrite A17; destruct i; reflexivity).
  assert (ZE : zeqb s t = true).
  { unfold zeqb. rewrite A1, A2, A3, A4. unfold dstW, dstH. rewrite BB.
    replace (if rd_w d =? 0 then rf_w src else wrapu32 (rd_w d)) with (rf_w src) by (destruct DW as [->| ->]; [reflexivity|]; destruct (rf_w src =? 0); [reflexivity|rewrite wrapu32_id by exact BW; reflexivity]).
    replace (if rd_h d =? 0 then rf_h src else wrapu32 (rd_h d)) with (rf_h src) by (destruct DH as [->| ->]; [reflexivity|]; destruct (rf_h src =? 0); [reflexivity|rewrite wrapu32_id by exact BH; reflexivity]).
    rewrite A5, A6, A7, A8, A9, A10, A11, A12, A16, RS, A18.
    replace (z_type t) with (z_type s) by congruence.
    rewrite CT. unfold outputColour. rewrite GO. cbn [nothing g_matrix g_transfer g_primaries g_range g_chroma firstOf c_matrix c_transfer c_primaries c_range c_chroma].
    unfold sameFamily. rewrite !Z.eqb_refl. cbn [andb].
    replace ((zfamily (rf_fmt src) =? 0) || (c_matrix (z_col s) =? (if isRGB (rf_fmt src) then 0 else c_matrix (z_col s)))) with true.
    2:{ symmetry. apply orb_true_iff. right. destruct (isRGB (rf_fmt src)) eqn:ER; [rewrite CS, (RM eq_refl); reflexivity|apply Z.eqb_refl]. }
    assert (SU : ((zfamily (rf_fmt src) =? 2) && (negb (f_ssw (rf_fmt src) =? 0) || negb (f_ssh (rf_fmt src) =? 0))) = subsampled (rf_fmt src)).
    { rewrite <- (subz_fmt s (rf_fmt src) A5 A7 A8). unfold subz. rewrite A5, A7, A8. reflexivity. }
    rewrite SU. destruct (subsampled (rf_fmt src)); cbn; rewrite ?Z.eqb_refl; reflexivity. }
  assert (SH : isShifted s = false) by (unfold isShifted; rewrite RS; reflexivity).
  rewrite ZE, SH. cbn [andb negb].
  exists (exportProps t (rf_props src)). split; [reflexivity|]. split.
  - pose proof (export_describes t (rf_props src) (rf_fmt src) L (subz_fmt t (rf_fmt src) A6 A9 A10)) as X.
    destruct X as (X1 & X2 & X3 & X4 & X5). rewrite CT in X1, X2, X3, X4, X5. rewrite CS in X1, X2, X3, X4, X5.
    unfold outputColour in X1, X2, X3, X4, X5. rewrite GO in X1, X2, X3, X4, X5.
    unfold sameFamily in *. cbn [nothing g_matrix g_transfer g_primaries g_range g_chroma firstOf c_matrix c_transfer c_primaries c_range c_chroma] in X1, X2, X3, X4, X5.
    rewrite Z.eqb_refl in X4. unfold describes. rewrite X1, X2, X3, X4, X5. repeat split.
    + destruct (isRGB (rf_fmt src)) eqn:ER; [|reflexivity]. rewrite (RM eq_refl). reflexivity.
    + destruct (subsampled (rf_fmt src)); reflexivity.
  - intros k N. apply export_other; auto.
Qed.

(** Values that mean nothing are refused. *)
Lemma bad_range : forall build al g env d src c z l, legal (rf_props src) -> intProp in32 (rf_props src) "_ChromaLocation" -> fmt_valid (rf_fmt src) -> fmt_valid (dstFormat d src) ->
  entry (rf_props src) "_Range" = Some (ptInt, VInt z :: l) -> z <> 0 -> z <> 1 -> resizeFrame build al g env d src c = (Err, c).
Proof.
  intros build al g env d src c z l L I VS VD E N0 N1.
  assert (X : describe d src = Err).
  { unfold describe.
    destruct (translate (rf_fmt src) _ _ _) as [s0| |] eqn:TS; cbn [obind].
    2: reflexivity.
    2:{ exfalso. unfold translate, familyOf, pixelType in TS. repeat (destruct (_ =? _) in TS; cbn in TS; try discriminate). }
    destruct (translate (dstFormat d src) _ _ _) as [d0| |] eqn:TD; cbn [obind].
    2: reflexivity.
    2:{ exfalso. unfold translate, familyOf, pixelType in TD. repeat (destruct (_ =? _) in TD; cbn in TD; try discriminate). }
    unfold importProps. rewrite valid_ok by (auto; plain). cbn [obind].
    unfold importRange. rewrite (aNum_entry _ "_Range") by plain. rewrite E. rewrite zlength_pos. unfold getFatal. rewrite aGet_entry by (auto; plain). rewrite E. cbn [obind].
    destruct (Z.eqb_spec z 1); [contradiction|]. destruct (Z.eqb_spec z 0); [contradiction|]. reflexivity. }
  unfold resizeFrame. rewrite X. reflexivity.
Qed.
(** A property of another type ends the process. *)
Definition blackGray (m : pmap) : rframe := mkRF (mkV cfGray stInteger 8 1 0 0 1) 1 1 [mkPl 64 (mkB 64 (fun _ => 0))] m.
Definition same1 : rdata := mkRD undefFmt 0 0 nothing nothing noRegion false.
Lemma wrong_type : exists m, legal m /\ entry m "_Matrix" = Some (ptData, [VData 0 "709"]) /\
  forall build al g env c, resizeFrame build al g env same1 (blackGray m) c = (UB, c).
Proof.
  exists (one "_Matrix" (ptData, [VData 0 "709"])). split; [apply legal_one; [reflexivity|repeat constructor]|]. split; [reflexivity|]. reflexivity.
Qed.

(** ** Creation *)
Lemma size_arg : forall o d w, sizeArg o d = Ok w -> w = match o with Some x => wrap32 x | None => d end /\ forall x, o = Some x -> 0 <= x < 2 ^ 32.
Proof.
  intros [x|] d w E; cbn in E; [|injection E as <-; split; [reflexivity|discriminate]].
  destruct ((0 <=? x) && (x <? 4294967296)) eqn:B; [|discriminate]. injection E as <-. split; [reflexivity|]. intros y [= <-]. apply andb_true_iff in B. destruct B as [B1 B2]. apply Z.leb_le in B1. apply Z.ltb_lt in B2. lia.
Qed.
Lemma createVideoFilter_inv : forall A v (x y : A), createVideoFilter v x = Ok y -> y = x /\ 0 <= cv_w v /\ 0 <= cv_h v.
Proof.
  intros A v x y E. unfold createVideoFilter in E. destruct (isValidVideoInfo v) as [[]| |] eqn:V; cbn in E; try discriminate. injection E as <-. split; [reflexivity|].
  unfold isValidVideoInfo in V. destruct (negb (isValidVideoFormatS (cv_fmt v))); [discriminate|].
  destruct ((snd (cv_fps v) <? 0) || (fst (cv_fps v) <? 0) || (cv_h v <? 0) || (cv_w v <? 0) || (cv_n v <? 1)) eqn:B; [discriminate|].
  apply orb_false_iff in B. destruct B as [B _]. apply orb_false_iff in B. destruct B as [B B1]. apply orb_false_iff in B. destruct B as [_ B2].
  apply Z.ltb_ge in B1, B2. lia.
Qed.
Lemma wrap32_nonneg : forall x, 0 <= x < 2 ^ 32 -> 0 <= wrap32 x -> wrap32 x = x /\ x <= INT_MAX.
Proof.
  intros x B N. unfold wrap32 in *. unfold INT_MAX.
  destruct (Z.ltb_spec x (2 ^ 31)).
  - rewrite Z.mod_small by lia. lia.
  - exfalso. replace (x + 2147483648) with (x - 2147483648 + 1 * 4294967296) in N by lia. rewrite Z.mod_add in N by lia. rewrite Z.mod_small in N by lia. lia.
Qed.
Lemma create_inv : forall r bob node a d v, resizeCreate r bob node a = Ok (d, v) ->
  rd_bob d = bob /\ rd_region d = ra_region a /\ rd_fmt d = cv_fmt v /\ rd_w d = cv_w v /\ rd_h d = cv_h v /\
  cv_n v = cv_n node /\ cv_fps v = cv_fps node /\
  cv_w v = match ra_width a with Some x => x | None => cv_w node end /\
  cv_h v = (if bob then 2 * cv_h node else match ra_height a with Some x => x | None => cv_h node end) /\
  0 <= cv_w v /\ 0 <= cv_h v /\ lookupAll (ra_out a) = Ok (rd_out d) /\ lookupAll (ra_in a) = Ok (rd_in d) /\
  (fmt_valid (cv_fmt node) -> fmt_valid (cv_fmt v) -> constantInfo (cv_fmt node) (cv_w node) (cv_h node) = true -> constantInfo (cv_fmt v) (cv_w v) (cv_h v) = true ->
   isRGB (cv_fmt node) = true -> isRGB (cv_fmt v) = false -> g_matrix (rd_out d) <> None).
Proof.
  intros r bob node a d v E. unfold resizeCreate in E.
  destruct (sizeArg (ra_width a) (cv_w node)) as [w| |] eqn:EW; cbn [obind] in E; try discriminate.
  destruct (sizeArg (ra_height a) (cv_h node)) as [h0| |] eqn:EH; cbn [obind] in E; try discriminate.
  destruct (if bob then mulI (cv_h node) 2 else Ok h0) as [h| |] eqn:EB; cbn [obind] in E; try discriminate.
  match type of E with obind ?x _ = _ => destruct x as [f| |] eqn:EF end; cbn [obind] in E; try discriminate.
  destruct (lookupAll (ra_out a)) as [go| |] eqn:EO; cbn [obind] in E; try discriminate.
  destruct (lookupAll (ra_in a)) as [gi| |] eqn:EI; cbn [obind] in E; try discriminate.
  match type of E with obind ?x _ = _ => destruct x as [[]| |] eqn:EC end; cbn [obind] in E; try discriminate.
  apply createVideoFilter_inv in E. destruct E as (E & W & H). injection E as -> ->. cbn [cv_w cv_h cv_n cv_fps cv_fmt rd_bob rd_region rd_fmt rd_w rd_h rd_out rd_in] in *.
  destruct (size_arg _ _ _ EW) as [W1 W2]. destruct (size_arg _ _ _ EH) as [H1 H2].
  do 7 (split; [reflexivity|]). split; [|split; [|split; [exact W|split; [exact H|split; [reflexivity|split; [reflexivity|]]]]]].
  - rewrite W1 in W |- *. destruct (ra_width a) as [x|]; [|reflexivity]. apply wrap32_nonneg; [apply W2; reflexivity|exact W].
  - destruct bob.
    + unfold mulI in EB. destruct (in_intb (cv_h node * 2)); [|discriminate]. injection EB as <-. lia.
    + injection EB as <-. rewrite H1 in H |- *. destruct (ra_height a) as [x|]; [|reflexivity]. apply wrap32_nonneg; [apply H2; reflexivity|exact H].
  - intros VN VF CN CF RN RF. rewrite CN, CF in EC. cbn [andb] in EC.
    destruct (translate (cv_fmt node) _ _ _) as [s| |] eqn:TS; cbn [obind] in EC; try discriminate.
    destruct (translate f _ _ _) as [t| |] eqn:TD; cbn [obind] in EC; try discriminate.
    destruct (translate_inv _ _ _ _ _ VN TS) as (_ & _ & _ & _ & S5 & _).
    destruct (translate_inv _ _ _ _ _ VF TD) as (_ & _ & _ & _ & D5 & _ & _ & _ & _ & D10).
    rewrite S5, D5, D10 in EC. rewrite RF in EC. cbn [c_matrix] in EC.
    unfold isRGB, cfRGB in RN, RF. apply Z.eqb_eq in RN. unfold zfamily in EC. rewrite RN in EC. cbn in EC.
    destruct VF as ([C|[C|C]] & _); rewrite C in *; try discriminate; cbn in EC; destruct (g_matrix go); congruence.
Qed.

(** The names accepted for the codes. *)
Lemma find_in : forall t s v, NoDup (map fst t) -> (findName t s = Some v <-> In (s, v) t).
Proof.
  induction t as [|[k w] r IH]; intros s v N; cbn; [split; [discriminate|tauto]|]. inversion N; subst.
  destruct (String.eqb_spec s k) as [->|NE].
  - split; [intros [= ->]; auto|]. intros [[= ->]|I]; [reflexivity|]. exfalso. apply H1. apply (in_map fst) in I. exact I.
  - rewrite IH by assumption. split; [auto|]. intros [[= -> ->]|I]; [congruence|exact I].
Qed.
Definition sameNames (a b : list (string * Z)) : Prop := forall s v, findName a s = Some v <-> In (s, v) b.
Lemma same_names : forall a b, NoDup (map fst a) -> incl a b -> incl b a -> sameNames a b.
Proof. intros a b N I J s v. rewrite find_in by exact N. split; [apply I|apply J]. Qed.
Ltac nodup := repeat constructor; cbn; intuition discriminate.
Ltac inclu := let p := fresh in let H := fresh in intros p H; cbn in H; repeat (destruct H as [H|H]; [subst p; cbn; auto 20|]); contradiction.
Lemma names_ok : sameNames matrixTable matrixNames /\ sameNames transferTable transferNames /\ sameNames rangeTable rangeNames /\ sameNames chromaTable chromaNames /\
  (forall s v, findName primariesTable s = Some v -> s <> "ebu3213-e" -> In (s, v) primariesNames) /\
  (forall s v, In (s, v) primariesNames -> s <> "jedec-p22" -> findName primariesTable s = Some v).
Proof.
  split; [apply same_names; [nodup|inclu|inclu]|]. split; [apply same_names; [nodup|inclu|inclu]|]. split; [apply same_names; [nodup|inclu|inclu]|].
  split; [apply same_names; [nodup|inclu|inclu]|]. split.
  - intros s v F N. apply find_in in F; [|nodup]. cbn in F.
    repeat (destruct F as [F|F]; [injection F as <- <-; cbn; first [congruence | auto 20]|]). contradiction.
  - intros s v F N. cbn in F.
    repeat (destruct F as [F|F]; [injection F as <- <-; first [reflexivity | congruence]|]). contradiction.
Qed.
Lemma names_refuted : exists s v, In (s, v) primariesNames /\ findName primariesTable s = None.
Proof. exists "jedec-p22", 22. split; [cbn; auto 20|reflexivity]. Qed.

(** ** Numbers and names of options *)
Lemma lookup_ok : forall t a r, lookupEnum t a = Ok r ->
  match r with
  | Some v => (e_int a = Some v /\ INT_MIN <= v <= INT_MAX) \/ (e_int a = None /\ exists s, e_name a = Some s /\ findName t s = Some v)
  | None => e_int a = None /\ e_name a = None
  end.
Proof.
  intros t a r H. unfold lookupEnum in H. destruct (e_int a) as [x|].
  - destruct (in_intb x) eqn:B; [|discriminate]. injection H as <-. left. unfold in_intb in B. split; [reflexivity|lia].
  - destruct (e_name a) as [s|]; [|injection H as <-; auto]. destruct (findName t s) as [v|] eqn:F; [|discriminate]. injection H as <-. right. eauto.
Qed.

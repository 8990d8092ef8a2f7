(** Invert, Limiter, Binarize and Levels on frames. *)
From Coq Require Import ZArith List Lia Bool.
From Coq Require Import SpecFloat.
From Verif Require Import Common FormatSpec Format Frame FrameSpec FrameGeom ImageSpec PlaneMem Spatial SpatialLemmas SpatialStack FrameFacts.
From Verif Require Import PixelSpec Pixel PixelLemmas Lut LutLemmas LutFrames.
From Verif Require Import Soft SoftLemmas SoftBounds SoftRound SoftNum GenericSpec Generic GenericLemmas GenericOps GenericPlanes GenericFloat GenericFrames.
Import ListNotations.
Open Scope Z_scope.

(** An integer format of at most 16 bits. *)
Definition smallInt (f : vfmt) : Prop := fmt_valid f /\ f_st f = stInteger /\ f_bits f <= 16.

Lemma smallInt_facts : forall f, smallInt f -> smallk (f_bytes f) /\ 8 <= f_bits f <= 16 /\ 2 ^ f_bits f <= 256 ^ f_bytes f /\
  (f_bytes f = 1 -> f_bits f = 8) /\ 256 <= 2 ^ f_bits f <= 65536.
Proof.
  intros f (V & S & B). destruct (bytes_of f V) as (B1 & B2 & B3 & B4). specialize (B3 B).
  assert (K : smallk (f_bytes f)) by (unfold smallk; lia). split; [exact K|]. split; [lia|]. split.
  { change 256 with (2 ^ 8). rewrite <- Z.pow_mul_r by lia. apply Z.pow_le_mono_r; lia. }
  split; [lia|]. change 256 with (2 ^ 8). change 65536 with (2 ^ 16). split; apply Z.pow_le_mono_r; lia.
Qed.

Lemma single_frame : forall al g process op (T : Z -> Z -> Z) src, alignment al -> wfFrame al src -> byteFrame src -> smallInt (vf_fmt src) ->
  let f := vf_fmt src in
  (forall i v, 0 <= i < f_np f -> process i = true -> 0 <= v < 256 ^ f_bytes f -> op f i v = Ok (T i v) /\ 0 <= T i v < 256 ^ f_bytes f) ->
  exists r, singlePixel al g process op src = Ok r /\ wfFrame al r /\ vf_fmt r = f /\ vf_w r = vf_w src /\ vf_h r = vf_h src /\
    vf_props r = vf_props src /\ planesMap (fun i a => if process i then mapped (T i) a else a) src r.
Proof.
  intros al g process op T src AL WF BY SI f OP. destruct (smallInt_facts f SI) as (K & BI & _). destruct SI as (V & ST & BI2).
  unfold singlePixel. cbv zeta. rewrite ST. rewrite Z.eqb_refl. cbn [negb orb]. fold f in ST, BI2, V |- *.
  destruct (Z.ltb_spec 16 (f_bits f)); [lia|].
  apply (filterFrame_map al g f (vf_w src) (vf_h src) process src _ (fun i => mapped (T i)) (alignment_isAl _ AL) V WF); auto.
  intros i p q I PR NP WP SP WQ SQ. rewrite NP. rewrite getWidth_planeW, getHeight_planeH by exact V. fold f in SP.
  rewrite SP, <- SQ. assert (K1 : 1 <= f_bytes f) by (destruct K as [->| ->]; lia).
  set (w := planeW f (vf_w src) i) in *. set (h := planeH f (vf_h src) i) in *.
  replace (mkPl (p_stride q) (p_buf q)) with q by (destruct q; reflexivity).
  apply (drawPlane_spec (f_bytes f) w h (fun x y => T i (i_at (imageOf (f_bytes f) p w h) x y))); [exact K1 | exact WQ |].
  intros x y X Y. rewrite (sampleAt_spec _ p w h) by assumption. cbn [obind]. apply OP; [exact I | exact PR |].
  apply image_range; [lia | exact (BY i p NP)].
Qed.

(** ** Arguments *)

Lemma templateInit_inv : forall f planes process, templateInit f planes = Ok process -> Forall (fun o => in_int o) planes ->
  f_st f = stInteger /\ f_bits f <= 16 /\ forall i, 0 <= i < 3 -> process i = chosen planes i.
Proof.
  intros f planes process E P. unfold templateInit in E. destruct (f_cf f =? cfUndefined); cbn [orb] in E; [discriminate|].
  destruct (Z.eqb_spec (f_st f) stInteger) as [ST|]; cbn [negb orb] in E; [|discriminate].
  destruct (Z.ltb_spec 16 (f_bits f)); [discriminate|]. destruct (getPlanesArg planes) as [p|] eqn:GP; [|discriminate].
  apply Ok_inj in E. subst p. split; [exact ST|]. split; [lia|]. intros i I. apply getPlanesArg_chosen; assumption.
Qed.

(** The argument of plane [i]: the [i]-th given, or the last one given, or the default. *)
Definition spread {A : Type} (d : A) (l : list A) (i : Z) : A := nth (Z.to_nat (Z.min i (zlength l - 1))) l d.

Lemma rangeDefault_range : forall bits m, 8 <= bits <= 16 -> 0 <= rangeDefault bits m < 2 ^ bits.
Proof.
  intros bits m B. assert (P : 256 <= 2 ^ bits <= 65536).
  { change 256 with (2 ^ 8). change 65536 with (2 ^ 16). split; apply Z.pow_le_mono_r; lia. }
  destruct m; cbn [rangeDefault]; [lia| |].
  - rewrite Z.mod_small by lia. lia.
  - assert (0 <= 2 ^ bits / 2 < 2 ^ bits) by (split; [apply Z.div_pos; lia | apply Z.div_lt; lia]). rewrite Z.mod_small by lia. lia.
Qed.

Lemma rangeLoop_spec : forall bits m, 8 <= bits <= 16 -> forall n l prev r,
  (forall p, prev = Some p -> 0 <= p < 2 ^ bits) ->
  rangeLoop n bits m l prev = Ok r -> zlength r = Z.of_nat n /\
  forall i, 0 <= i < Z.of_nat n -> exists v, nthz r i = Some v /\ 0 <= v < 2 ^ bits /\
    match nthz l (Z.min i (zlength l - 1)) with
    | Some x => roundUp x = Ok v
    | None => v = match prev with Some p => p | None => rangeDefault bits m end
    end.
Proof.
  intros bits m B. assert (P : 256 <= 2 ^ bits <= 65536).
  { change 256 with (2 ^ 8). change 65536 with (2 ^ 16). split; apply Z.pow_le_mono_r; lia. }
  induction n as [|n IH]; intros l prev r PR E.
  { apply Ok_inj in E. subst r. split; [reflexivity|]. intros i I. lia. }
  cbn [rangeLoop] in E. rewrite Nat2Z.inj_succ. destruct l as [|x l].
  - set (v := match prev with Some p => p | None => rangeDefault bits m end) in *.
    destruct (rangeLoop n bits m [] prev) as [q| |] eqn:Q; cbn [obind] in E; try discriminate. apply Ok_inj in E. subst r.
    destruct (IH _ _ _ PR Q) as (L & S). rewrite zlength_cons. split; [lia|].
    intros i I. destruct (Z.eq_dec i 0) as [->|N].
    + exists v. split; [reflexivity|]. split; [|reflexivity]. unfold v. destruct prev as [p|]; [apply PR; reflexivity | apply rangeDefault_range; exact B].
    + destruct (S (i - 1) ltac:(lia)) as (u & U1 & U2 & U3). exists u. rewrite nthz_cons_S by lia. split; [exact U1|]. split; [exact U2|].
      change (zlength (@nil fl)) with 0 in *. replace (nthz (@nil fl) (Z.min i (0 - 1))) with (@None fl). 2:{ rewrite Z.min_r by lia. reflexivity. }
      replace (nthz (@nil fl) (Z.min (i - 1) (0 - 1))) with (@None fl) in U3. 2:{ rewrite Z.min_r by lia. reflexivity. } exact U3.
  - fold (roundUp x) in E. destruct (roundUp x) as [t| |] eqn:T; unfold obind in E at 1; try discriminate.
    destruct (Z.ltb_spec t 0); cbn [orb] in E; [discriminate|]. destruct (Z.ltb_spec (2 ^ bits - 1) t); [discriminate|].
    rewrite Z.mod_small in E by lia.
    destruct (rangeLoop n bits m l (Some t)) as [q| |] eqn:Q; unfold obind in E; try discriminate. apply Ok_inj in E. subst r.
    destruct (IH l (Some t) q ltac:(intros p [= <-]; lia) Q) as (L & S). rewrite !zlength_cons. split; [lia|].
    pose proof (zlength_nonneg _ l) as LN.
    intros i I. destruct (Z.eq_dec i 0) as [->|N].
    + exists t. split; [reflexivity|]. split; [lia|]. rewrite Z.min_l by lia. exact T.
    + destruct (S (i - 1) ltac:(lia)) as (u & U1 & U2 & U3). exists u. rewrite nthz_cons_S by lia. split; [exact U1|]. split; [exact U2|].
      destruct l as [|y l].
      * change (zlength (@nil fl)) with 0 in *. replace (nthz (@nil fl) (Z.min (i - 1) (0 - 1))) with (@None fl) in U3. 2:{ rewrite Z.min_r by lia. reflexivity. }
        rewrite Z.min_r by lia. change (1 + 0 - 1) with 0. cbn [nthz]. change (nthz [x] 0) with (Some x). subst u. exact T.
      * rewrite nthz_cons_S by (rewrite zlength_cons in LN; rewrite zlength_cons; pose proof (zlength_nonneg _ l); lia).
        replace (Z.min i (1 + zlength (y :: l) - 1) - 1) with (Z.min (i - 1) (zlength (y :: l) - 1)) by lia.
        destruct (nthz (y :: l) _) eqn:NN; [exact U3|]. exfalso. unfold nthz in NN. pose proof (zlength_nonneg _ l). rewrite zlength_cons in NN.
        destruct (Z.ltb_spec (Z.min (i - 1) (1 + zlength l - 1)) 0); [lia|]. apply nth_error_None in NN. unfold zlength in *. cbn [length] in NN. lia.
Qed.

(** [v] is the value of the argument of plane [i]. *)
Definition argIs (bits : Z) (m : rangeMode) (l : list fl) (i v : Z) : Prop :=
  match nthz l (Z.min i (zlength l - 1)) with Some x => roundUp x = Ok v | None => v = rangeDefault bits m end.

Lemma rangeArgs_spec : forall f m l r, smallInt f -> rangeArgs f m l = Ok r -> zlength r = 3 /\
  forall i, 0 <= i < 3 -> exists v, nthz r i = Some v /\ 0 <= v < 2 ^ f_bits f /\ argIs (f_bits f) m l i v.
Proof.
  intros f m l r SI E. destruct (smallInt_facts f SI) as (_ & B & _). unfold rangeArgs in E. destruct (f_np f <? zlength l); [discriminate|].
  exact (rangeLoop_spec (f_bits f) m B 3 l None r ltac:(discriminate) E).
Qed.

(** Integers are taken as they are, and accepted when in range. *)
Lemma argIs_num : forall bits m l i v, 0 <= i < 3 -> 8 <= bits <= 16 -> Forall (fun x => 0 <= x < 2 ^ bits) l ->
  argIs bits m (map num l) i v -> v = spread (rangeDefault bits m) l i.
Proof.
  intros bits m l i v I B F E. unfold argIs, spread in *. assert (P : 2 ^ bits <= 65536) by (change 65536 with (2 ^ 16); apply Z.pow_le_mono_r; lia).
  assert (ML : zlength (map num l) = zlength l) by (unfold zlength; rewrite map_length; reflexivity). rewrite ML in E.
  destruct l as [|x l0] eqn:L. { cbn [map] in E. change (zlength (@nil Z)) with 0 in *. rewrite Z.min_r in E by lia. rewrite Z.min_r by lia. exact E. }
  assert (J : 0 <= Z.min i (zlength (x :: l0) - 1) < zlength (x :: l0)) by (rewrite zlength_cons; pose proof (zlength_nonneg _ l0); lia).
  rewrite <- L in *. clear L. set (j := Z.min i (zlength l - 1)) in *. clearbody j. unfold zlength in J.
  unfold nthz in E. destruct (Z.ltb_spec j 0); [lia|]. rewrite nth_error_map in E.
  rewrite (nth_error_nth' l (rangeDefault bits m)) in E by lia. cbn [option_map] in E.
  set (u := nth (Z.to_nat j) l (rangeDefault bits m)) in *.
  assert (U : 0 <= u < 2 ^ bits). { rewrite Forall_forall in F. apply F. apply nth_In. lia. }
  rewrite num_exact in E by lia. congruence.
Qed.

Lemma rangeArgs_num : forall f m l, smallInt f -> zlength l <= f_np f -> Forall (fun x => 0 <= x < 2 ^ f_bits f) l ->
  rangeArgs f m (map num l) = Ok (map (spread (rangeDefault (f_bits f) m) l) [0; 1; 2]).
Proof.
  intros f m l SI L F. destruct (smallInt_facts f SI) as (_ & B & _ & _ & P). unfold rangeArgs.
  assert (ML : zlength (map num l) = zlength l) by (unfold zlength; rewrite map_length; reflexivity). rewrite ML.
  destruct (Z.ltb_spec (f_np f) (zlength l)); [lia|]. pose proof (valid_np f (proj1 SI)) as NP.
  assert (NU : forall x, In x l -> forall n l' prev, rangeLoop (S n) (f_bits f) m (num x :: l') prev =
     obind (rangeLoop n (f_bits f) m l' (Some x)) (fun r => Ok (x :: r))).
  { intros x X n l' prev. rewrite Forall_forall in F. specialize (F x X). cbn [rangeLoop]. fold (roundUp (num x)). rewrite num_exact by lia.
    unfold obind at 1. destruct (Z.ltb_spec x 0); [lia|]. destruct (Z.ltb_spec (2 ^ f_bits f - 1) x); [lia|]. cbn [orb].
    rewrite Z.mod_small by lia. reflexivity. }
  destruct l as [|a [|b [|c [|e l]]]]; cbn [map]; rewrite ?NU by (cbn; tauto); try reflexivity.
  rewrite !zlength_cons in L. pose proof (zlength_nonneg _ l). lia.
Qed.

(** ** The filters *)

Lemma inverted_involutive : forall bits v, 0 <= bits -> 0 <= v <= top bits -> inverted bits (inverted bits v) = v.
Proof. intros bits v B V. unfold inverted, legal. lia. Qed.
Lemma inverted_range : forall bits v, 0 <= v -> 0 <= inverted bits v <= top bits \/ top bits < 0.
Proof. intros bits v V. unfold inverted, legal. lia. Qed.

Lemma top_pos : forall bits, 0 <= bits -> 0 <= top bits.
Proof. intros bits B. unfold top. pose proof (Z.pow_pos_nonneg 2 bits). lia. Qed.

Theorem invert_frame : forall al g planes process src, alignment al -> wfFrame al src -> byteFrame src ->
  Forall (fun o => in_int o) planes -> templateInit (vf_fmt src) planes = Ok process ->
  exists r, invertGetFrame al g process src = Ok r /\ wfFrame al r /\ vf_fmt r = vf_fmt src /\ vf_w r = vf_w src /\ vf_h r = vf_h src /\
    vf_props r = vf_props src /\
    planesMap (fun i a => if chosen planes i then mapped (inverted (f_bits (vf_fmt src))) a else a) src r.
Proof.
  intros al g planes process src AL WF BY PI E. destruct (templateInit_inv _ _ _ E PI) as (ST & BI & PR).
  assert (SI : smallInt (vf_fmt src)) by (split; [exact (proj1 WF) | split; assumption]).
  destruct (smallInt_facts _ SI) as (K & B & P & _ & P2). pose proof (valid_np _ (proj1 WF)) as NP.
  destruct (single_frame al g process invertOp (fun _ => inverted (f_bits (vf_fmt src))) src AL WF BY SI) as (r & R1 & R2 & R3 & R4 & R5 & R6 & R7).
  - intros i v I _ V. unfold invertOp. cbv zeta. rewrite (Z.mod_small (2 ^ f_bits (vf_fmt src) - 1)) by lia.
    rewrite (Z.mod_small (2 ^ f_bits (vf_fmt src) - 1)) by lia. unfold inverted, legal, top.
    rewrite Z.mod_small by lia. split; [reflexivity|lia].
  - exists r. split; [exact R1|]. split; [exact R2|]. split; [exact R3|]. split; [exact R4|]. split; [exact R5|]. split; [exact R6|].
    intros i I. destruct (R7 i I) as (x & y & X & Y & S). exists x, y. split; [exact X|]. split; [exact Y|].
    rewrite <- PR by (rewrite R3 in I; lia). exact S.
Qed.

Lemma limited_idempotent : forall lo hi v, lo <= hi -> limited lo hi (limited lo hi v) = limited lo hi v.
Proof. intros. unfold limited. lia. Qed.
Lemma limited_range : forall lo hi v, lo <= hi -> lo <= limited lo hi v <= hi.
Proof. intros. unfold limited. lia. Qed.
Lemma limited_inside : forall lo hi v, lo <= v <= hi -> limited lo hi v = v.
Proof. intros. unfold limited. lia. Qed.

Lemma nthz_combine_lt : forall (a b : list Z) i x y, nthz a i = Some x -> nthz b i = Some y -> In (x, y) (combine a b).
Proof.
  intros a b i x y. unfold nthz. destruct (i <? 0); [discriminate|]. generalize (Z.to_nat i). revert b.
  induction a as [|u a IH]; intros [|v b] n A B; destruct n as [|n]; cbn [nth_error combine] in *; try discriminate.
  - injection A as ->. injection B as ->. left. reflexivity.
  - right. exact (IH b n A B).
Qed.

Theorem limit_created : forall f planes mins maxs d, fmt_valid f -> Forall (fun o => in_int o) planes -> limitCreate f planes mins maxs = Ok d ->
  smallInt f /\ (forall i, 0 <= i < 3 -> lim_process d i = chosen planes i) /\
  exists LO HI, forall i, 0 <= i < 3 -> nthz (lim_min d) i = Some (LO i) /\ nthz (lim_max d) i = Some (HI i) /\
    0 <= LO i <= HI i /\ HI i <= top (f_bits f) /\ argIs (f_bits f) RangeLower mins i (LO i) /\ argIs (f_bits f) RangeUpper maxs i (HI i).
Proof.
  intros f planes mins maxs d V PI E. unfold limitCreate in E. destruct (templateInit f planes) as [pr| |] eqn:TI; unfold obind in E at 1; try discriminate.
  destruct (templateInit_inv _ _ _ TI PI) as (ST & BI & PR). assert (SI : smallInt f) by (split; [exact V | split; assumption]).
  destruct (rangeArgs f RangeLower mins) as [lo| |] eqn:RL; unfold obind in E at 1; try discriminate.
  destruct (rangeArgs f RangeUpper maxs) as [hi| |] eqn:RU; unfold obind in E at 1; try discriminate.
  destruct (existsb _ _) eqn:EX; [discriminate|]. apply Ok_inj in E. subst d. cbn [lim_process lim_min lim_max].
  split; [exact SI|]. split; [exact PR|].
  destruct (rangeArgs_spec f _ _ _ SI RL) as (_ & S1). destruct (rangeArgs_spec f _ _ _ SI RU) as (_ & S2).
  exists (fun i => match nthz lo i with Some v => v | None => 0 end), (fun i => match nthz hi i with Some v => v | None => 0 end).
  intros i I. destruct (S1 i I) as (a & A1 & A2 & A3). destruct (S2 i I) as (b & B1 & B2 & B3). rewrite A1, B1.
  split; [reflexivity|]. split; [reflexivity|]. unfold top.
  assert (AB : a <= b).
  { destruct (Z.le_gt_cases a b) as [|G]; [assumption|]. exfalso. revert EX. apply not_false_iff_true. apply existsb_exists.
    exists (a, b). split; [apply (nthz_combine_lt lo hi i); assumption | cbn [fst snd]; apply Z.ltb_lt; lia]. }
  split; [lia|]. split; [lia|]. split; assumption.
Qed.

Theorem limit_frame : forall al g planes mins maxs d src, alignment al -> wfFrame al src -> byteFrame src ->
  Forall (fun o => in_int o) planes -> limitCreate (vf_fmt src) planes mins maxs = Ok d ->
  exists LO HI r, (forall i, 0 <= i < 3 -> 0 <= LO i <= HI i /\ HI i <= top (f_bits (vf_fmt src)) /\
      argIs (f_bits (vf_fmt src)) RangeLower mins i (LO i) /\ argIs (f_bits (vf_fmt src)) RangeUpper maxs i (HI i)) /\
    limitGetFrame al g d src = Ok r /\ wfFrame al r /\ vf_fmt r = vf_fmt src /\ vf_w r = vf_w src /\ vf_h r = vf_h src /\
    vf_props r = vf_props src /\ planesMap (fun i a => if chosen planes i then mapped (limited (LO i) (HI i)) a else a) src r.
Proof.
  intros al g planes mins maxs d src AL WF BY PI E.
  destruct (limit_created _ _ _ _ _ (proj1 WF) PI E) as (SI & PR & LO & HI & S). exists LO, HI.
  destruct (smallInt_facts _ SI) as (K & B & P & _ & P2). pose proof (valid_np _ (proj1 WF)) as NP.
  destruct (single_frame al g (lim_process d) (limitOp d) (fun i => limited (LO i) (HI i)) src AL WF BY SI) as (r & R1 & R2 & R3 & R4 & R5 & R6 & R7).
  - intros i v I _ V. destruct (S i ltac:(lia)) as (S1 & S2 & S3 & S4 & _). unfold limitOp. rewrite S1, S2. unfold top in S4.
    rewrite !Z.mod_small by lia. split; [reflexivity|]. unfold limited. lia.
  - exists r. split. { intros i I. destruct (S i I) as (_ & _ & S3). exact S3. }
    split; [exact R1|]. split; [exact R2|]. split; [exact R3|]. split; [exact R4|]. split; [exact R5|]. split; [exact R6|].
    intros i I. destruct (R7 i I) as (x & y & X & Y & Q). exists x, y. split; [exact X|]. split; [exact Y|].
    rewrite <- PR by (rewrite R3 in I; lia). exact Q.
Qed.

(** Integer limits are accepted exactly when no lower limit exceeds its upper limit. *)
Theorem limit_accepts : forall f planes process mins maxs, fmt_valid f -> templateInit f planes = Ok process -> Forall (fun o => in_int o) planes ->
  zlength mins <= f_np f -> zlength maxs <= f_np f ->
  Forall (fun x => 0 <= x < 2 ^ f_bits f) mins -> Forall (fun x => 0 <= x < 2 ^ f_bits f) maxs ->
  let lo := spread 0 mins in let hi := spread (top (f_bits f)) maxs in
  (forall i, 0 <= i < 3 -> lo i <= hi i) -> 
  limitCreate f planes (map num mins) (map num maxs) = Ok (mkLim process (map lo [0; 1; 2]) (map hi [0; 1; 2])).
Proof.
  intros f planes process mins maxs V TI PI L1 L2 F1 F2 lo hi LH. destruct (templateInit_inv _ _ _ TI PI) as (ST & BI & PR).
  assert (SI : smallInt f) by (split; [exact V | split; assumption]). destruct (smallInt_facts f SI) as (_ & B & _ & _ & P2).
  unfold limitCreate. rewrite TI. cbn [obind]. rewrite !rangeArgs_num by assumption. unfold obind.
  assert (D : rangeDefault (f_bits f) RangeUpper = top (f_bits f)) by (cbn [rangeDefault]; rewrite Z.mod_small by lia; reflexivity).
  rewrite D. change (rangeDefault (f_bits f) RangeLower) with 0. fold lo. fold hi. cbn [map combine existsb fst snd].
  pose proof (LH 0 ltac:(lia)). pose proof (LH 1 ltac:(lia)). pose proof (LH 2 ltac:(lia)).
  destruct (Z.ltb_spec (hi 0) (lo 0)); [lia|]. destruct (Z.ltb_spec (hi 1) (lo 1)); [lia|]. destruct (Z.ltb_spec (hi 2) (lo 2)); [lia|]. reflexivity.
Qed.

Lemma binarized_two : forall thr v0 v1 v, binarized thr v0 v1 v = v0 \/ binarized thr v0 v1 v = v1.
Proof. intros. unfold binarized. destruct (v <? thr); tauto. Qed.

Theorem binarize_frame : forall al g planes v0 v1 thr d src, alignment al -> wfFrame al src -> byteFrame src ->
  Forall (fun o => in_int o) planes -> binarizeCreate (vf_fmt src) planes v0 v1 thr = Ok d ->
  exists A B T r, (forall i, 0 <= i < 3 -> 0 <= A i <= top (f_bits (vf_fmt src)) /\ 0 <= B i <= top (f_bits (vf_fmt src)) /\
      argIs (f_bits (vf_fmt src)) RangeLower v0 i (A i) /\ argIs (f_bits (vf_fmt src)) RangeUpper v1 i (B i) /\
      argIs (f_bits (vf_fmt src)) RangeMiddle thr i (T i)) /\
    binarizeGetFrame al g d src = Ok r /\ wfFrame al r /\ vf_fmt r = vf_fmt src /\ vf_w r = vf_w src /\ vf_h r = vf_h src /\
    vf_props r = vf_props src /\ planesMap (fun i a => if chosen planes i then mapped (binarized (T i) (A i) (B i)) a else a) src r.
Proof.
  intros al g planes v0 v1 thr d src AL WF BY PI E. unfold binarizeCreate in E.
  destruct (templateInit (vf_fmt src) planes) as [pr| |] eqn:TI; unfold obind in E at 1; try discriminate.
  destruct (templateInit_inv _ _ _ TI PI) as (ST & BI & PR). assert (SI : smallInt (vf_fmt src)) by (split; [exact (proj1 WF) | split; assumption]).
  destruct (rangeArgs _ RangeLower v0) as [a| |] eqn:RA; unfold obind in E at 1; try discriminate.
  destruct (rangeArgs _ RangeUpper v1) as [b| |] eqn:RB; unfold obind in E at 1; try discriminate.
  destruct (rangeArgs _ RangeMiddle thr) as [c| |] eqn:RC; unfold obind in E at 1; try discriminate.
  apply Ok_inj in E. subst d.
  destruct (rangeArgs_spec _ _ _ _ SI RA) as (_ & S1). destruct (rangeArgs_spec _ _ _ _ SI RB) as (_ & S2). destruct (rangeArgs_spec _ _ _ _ SI RC) as (_ & S3).
  destruct (smallInt_facts _ SI) as (K & B & P & _ & P2). pose proof (valid_np _ (proj1 WF)) as NP.
  set (at_ := fun (l : list Z) (i : Z) => match nthz l i with Some v => v | None => 0 end).
  destruct (single_frame al g pr (binarizeOp (mkBin pr a b c)) (fun i => binarized (at_ c i) (at_ a i) (at_ b i)) src AL WF BY SI) as (r & R1 & R2 & R3 & R4 & R5 & R6 & R7).
  - intros i v I _ V. destruct (S1 i ltac:(lia)) as (x & X1 & X2 & _). destruct (S2 i ltac:(lia)) as (y & Y1 & Y2 & _). destruct (S3 i ltac:(lia)) as (t & T1 & _ & _).
    unfold binarizeOp, at_. cbn [bin_v0 bin_v1 bin_thr]. rewrite X1, Y1, T1. unfold binarized.
    destruct (v <? t); (rewrite Z.mod_small by lia; split; [reflexivity | lia]).
  - exists (at_ a), (at_ b), (at_ c), r. split.
    { intros i I. destruct (S1 i I) as (x & X1 & X2 & X3). destruct (S2 i I) as (y & Y1 & Y2 & Y3). destruct (S3 i I) as (t & T1 & _ & T3).
      unfold at_, top. rewrite X1, Y1, T1. split; [lia|]. split; [lia|]. split; [exact X3|]. split; [exact Y3 | exact T3]. }
    split; [exact R1|]. split; [exact R2|]. split; [exact R3|]. split; [exact R4|]. split; [exact R5|]. split; [exact R6|].
    intros i I. destruct (R7 i I) as (x & y & X & Y & Q). exists x, y. split; [exact X|]. split; [exact Y|].
    rewrite <- PR by (rewrite R3 in I; lia). exact Q.
Qed.

Theorem binarize_accepts : forall f planes process v0 v1 thr, fmt_valid f -> templateInit f planes = Ok process -> Forall (fun o => in_int o) planes ->
  zlength v0 <= f_np f -> zlength v1 <= f_np f -> zlength thr <= f_np f ->
  Forall (fun x => 0 <= x < 2 ^ f_bits f) v0 -> Forall (fun x => 0 <= x < 2 ^ f_bits f) v1 -> Forall (fun x => 0 <= x < 2 ^ f_bits f) thr ->
  binarizeCreate f planes (map num v0) (map num v1) (map num thr) =
  Ok (mkBin process (map (spread 0 v0) [0; 1; 2]) (map (spread (top (f_bits f)) v1) [0; 1; 2]) (map (spread (2 ^ f_bits f / 2) thr) [0; 1; 2])).
Proof.
  intros f planes process v0 v1 thr V TI PI L1 L2 L3 F1 F2 F3. destruct (templateInit_inv _ _ _ TI PI) as (ST & BI & PR).
  assert (SI : smallInt f) by (split; [exact V | split; assumption]). destruct (smallInt_facts f SI) as (_ & B & _ & _ & P2).
  unfold binarizeCreate. rewrite TI. cbn [obind]. rewrite !rangeArgs_num by assumption. unfold obind.
  assert (D : rangeDefault (f_bits f) RangeUpper = top (f_bits f)) by (cbn [rangeDefault]; rewrite Z.mod_small by lia; reflexivity).
  assert (D2 : rangeDefault (f_bits f) RangeMiddle = 2 ^ f_bits f / 2).
  { cbn [rangeDefault]. apply Z.mod_small. split; [apply Z.div_pos; lia | apply Z.div_lt_upper_bound; lia]. }
  rewrite D, D2. reflexivity.
Qed.

(** ** Float samples: a minimum no larger than the maximum clamps, except NaN *)

Lemma invertH_involutive : forall v, 0 <= v < 65536 -> invertH (invertH v) = v /\ 0 <= invertH v < 65536.
Proof.
  intros v V. unfold invertH. split; [rewrite Z.lxor_assoc, Z.lxor_nilpotent, Z.lxor_0_r; reflexivity|].
  assert (N : 0 <= Z.lxor v 32768) by (apply Z.lxor_nonneg; lia). split; [exact N|].
  destruct (Z.eq_dec (Z.lxor v 32768) 0) as [->|NZ]; [lia|]. change 65536 with (2 ^ 16). apply Z.log2_lt_pow2; [lia|].
  pose proof (Z.log2_lxor v 32768 ltac:(lia) ltac:(lia)) as L. change (Z.log2 32768) with 15 in L.
  pose proof (Z.log2_le_mono v 65535 ltac:(lia)) as L2. change (Z.log2 65535) with 15 in L2. lia.
Qed.
Lemma invertF_involutive : forall v, invertF (invertF v) = v.
Proof. intros [s|s| |s m e]; cbn; rewrite ?negb_involutive; reflexivity. Qed.
Lemma binarizeF_two : forall v0 v1 thr v, binarizeF v0 v1 thr v = v0 \/ binarizeF v0 v1 thr v = v1.
Proof. intros. unfold binarizeF. destruct (SFltb v thr); tauto. Qed.
Lemma limitF_one : forall lo hi v, limitF lo hi v = lo \/ limitF lo hi v = hi \/ limitF lo hi v = v.
Proof. intros. unfold limitF, fmin, fmax. repeat match goal with |- context [if ?b then _ else _] => destruct b end; tauto. Qed.
Lemma SFcompare_anti : forall x y, SFcompare y x = match SFcompare x y with Some c => Some (CompOpp c) | None => None end.
Proof.
  assert (PC : forall a b c, Pos.compare_cont Eq a b = c -> Pos.compare_cont Eq b a = CompOpp c).
  { intros a b c <-. change (Pos.compare b a = CompOpp (Pos.compare a b)). apply Pos.compare_antisym. }
  intros [[]|[]| |[] mx ex] [[]|[]| |[] my ey]; cbn [SFcompare CompOpp]; try reflexivity;
    rewrite (Z.compare_antisym ex ey); destruct (ex ?= ey); cbn [CompOpp]; try reflexivity;
    rewrite (PC mx my _ eq_refl); destruct (Pos.compare_cont Eq mx my); reflexivity.
Qed.
Lemma SFltb_asym : forall x y, SFltb x y = true -> SFltb y x = false.
Proof. intros x y. unfold SFltb. rewrite (SFcompare_anti x y). destruct (SFcompare x y) as [[]|]; cbn [CompOpp]; congruence. Qed.
Lemma SFltb_irrefl : forall x, SFltb x x = false.
Proof. intros x. destruct (SFltb x x) eqn:E; [|reflexivity]. pose proof (SFltb_asym x x E). congruence. Qed.

(** No result exceeds the upper limit or lies below the lower one, whatever the sample. *)
Lemma limitF_range : forall lo hi v, SFltb hi lo = false -> SFltb hi (limitF lo hi v) = false /\ SFltb (limitF lo hi v) lo = false.
Proof.
  intros lo hi v H. unfold limitF, fmin, fmax.
  destruct (SFltb lo v) eqn:A.
  - destruct (SFltb v hi) eqn:B; split; auto using SFltb_asym, SFltb_irrefl.
  - destruct (SFltb lo hi) eqn:B; split; auto using SFltb_asym, SFltb_irrefl.
Qed.
Lemma limitF_idempotent : forall lo hi v, SFltb hi lo = false -> limitF lo hi (limitF lo hi v) = limitF lo hi v.
Proof.
  intros lo hi v H. unfold limitF, fmin, fmax.
  destruct (SFltb lo v) eqn:A.
  - destruct (SFltb v hi) eqn:B; rewrite ?A, ?B, ?SFltb_irrefl; try reflexivity.
    destruct (SFltb lo hi) eqn:C; rewrite ?SFltb_irrefl, ?C; reflexivity.
  - destruct (SFltb lo hi) eqn:B; rewrite ?SFltb_irrefl, ?B, ?SFltb_irrefl; rewrite ?B; reflexivity.
Qed.

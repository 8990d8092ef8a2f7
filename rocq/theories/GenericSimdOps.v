(** What a lane of a vector kernel computes is what the scalar operation computes. *)
From Coq Require Import ZArith List Lia Bool.
From Coq Require Import SpecFloat.
From Verif Require Import Common ImageSpec PixelSpec PlaneMem Pixel Lut Soft SoftLemmas SoftBounds SoftErr SoftLe GenericSpec Generic GenericMedian GenericOps GenericPlanes GenericFloat Simd MergeSimdLemmas
  GenericSimd GenericSimdLanes GenericSimdFloat.
Import Soft ListNotations.
Open Scope Z_scope.

Definition upTo (maxval : Z) (l : list Z) : Prop := Forall (fun v => 0 <= v <= maxval) l.
Definition agrees (k maxval : Z) (L : list Z -> Z) (op : list Z -> outcome Z) (l : list Z) : Prop :=
  exists v, op l = Ok v /\ 0 <= v < 256 ^ k /\ L l = Z.min v maxval.

Ltac nineS L S := nine_of L; unfold upTo in S;
  repeat match goal with H : Forall _ (_ :: _) |- _ => apply Forall_cons_iff in H; destruct H end.

(** ** Median *)

Lemma minu_min : forall x y, minu x y = Z.min x y.
Proof. intros x y. unfold minu. destruct (Z.ltb_spec x y); lia. Qed.
Lemma maxu_max : forall x y, maxu x y = Z.max x y.
Proof. intros x y. unfold maxu. destruct (Z.ltb_spec x y); lia. Qed.

Lemma medianNet_rel : forall {T U} (R : T -> U -> Prop) mn mx mn' mx',
  (forall x y x' y', R x x' -> R y y' -> R (mn x y) (mn' x' y')) -> (forall x y x' y', R x x' -> R y y' -> R (mx x y) (mx' x' y')) ->
  forall a0 a1 a2 a3 a4 a5 a6 a7 a8 b0 b1 b2 b3 b4 b5 b6 b7 b8,
  R a0 b0 -> R a1 b1 -> R a2 b2 -> R a3 b3 -> R a4 b4 -> R a5 b5 -> R a6 b6 -> R a7 b7 -> R a8 b8 ->
  R (medianNet mn mx a0 a1 a2 a3 a4 a5 a6 a7 a8) (medianNet mn' mx' b0 b1 b2 b3 b4 b5 b6 b7 b8).
Proof. intros T U R mn mx mn' mx' MN MX. intros. unfold medianNet. repeat first [assumption | apply MN | apply MX]. Qed.
Lemma median9_rel : forall a0 a1 a2 a3 a4 a5 a6 a7 a8, median9 Z.ltb a0 a1 a2 a3 a4 a5 a6 a7 a8 = medianNet Z.min Z.max a0 a1 a2 a3 a4 a5 a6 a7 a8.
Proof.
  intros. change (median9 Z.ltb a0 a1 a2 a3 a4 a5 a6 a7 a8) with (medianNet (tmin Z.ltb) (tmax Z.ltb) a0 a1 a2 a3 a4 a5 a6 a7 a8).
  apply (medianNet_rel eq); try reflexivity; intros x y ? ? <- <-; [unfold tmin; destruct (Z.ltb_spec y x); lia | unfold tmax; destruct (Z.ltb_spec x y); lia].
Qed.

Lemma median_result : forall k maxval l, smallk k -> 0 <= maxval < 256 ^ k -> zlength l = 9 -> upTo maxval l ->
  exists v, medianOp l = Ok v /\ 0 <= v < 256 ^ k /\ v = Z.min v maxval.
Proof.
  intros k maxval l K M L S. exists (fifth l). split; [apply medianOp_spec; exact L|]. pose proof (fifth_in l L) as I.
  unfold upTo in S. rewrite Forall_forall in S. specialize (S _ I). lia.
Qed.
Lemma median_byte_op : forall l maxval, maxval = 255 -> zlength l = 9 -> upTo maxval l -> agrees 1 maxval medianByteL medianOp l.
Proof.
  intros l maxval M L S. destruct (median_result 1 maxval l ltac:(left; reflexivity) ltac:(change (256 ^ 1) with 256; lia) L S) as (v & E & V & Q).
  exists v. split; [exact E|]. split; [exact V|]. rewrite <- Q. clear Q V. nineS L S. cbn [medianOp] in E. injection E as <-. rewrite median9_rel.
  cbn [medianByteL]. apply (medianNet_rel eq); try reflexivity; intros x y ? ? <- <-; [apply minu_min | apply maxu_max].
Qed.
Lemma median_word_op : forall B l maxval, 0 <= maxval < 65536 -> zlength l = 9 -> upTo maxval l -> agrees 2 maxval (medianWordL B) medianOp l.
Proof.
  intros B l maxval M L S. destruct (median_result 2 maxval l ltac:(right; reflexivity) ltac:(change (256 ^ 2) with 65536; lia) L S) as (v & E & V & Q).
  exists v. split; [exact E|]. split; [exact V|]. rewrite <- Q. clear Q V. nineS L S. cbn [medianOp] in E. injection E as <-. rewrite median9_rel.
  unfold medianWordL. cbn [map].
  assert (R : forall a0 a1 a2 a3 a4 a5 a6 a7 a8, Forall (fun v => 0 <= v <= maxval) [a0; a1; a2; a3; a4; a5; a6; a7; a8] ->
    let x := medianNet (wminL B) (wmaxL B) (wsignL B a0) (wsignL B a1) (wsignL B a2) (wsignL B a3) (wsignL B a4) (wsignL B a5) (wsignL B a6) (wsignL B a7) (wsignL B a8) in
    let y := medianNet Z.min Z.max a0 a1 a2 a3 a4 a5 a6 a7 a8 in x = wsignL B y /\ 0 <= y < 65536).
  { intros a0 a1 a2 a3 a4 a5 a6 a7 a8 F. repeat match goal with H : Forall _ (_ :: _) |- _ => apply Forall_cons_iff in H; destruct H end.
    apply (medianNet_rel (fun x y => x = wsignL B y /\ 0 <= y < 65536)); try (split; [reflexivity | lia]).
    - intros x y x' y' (-> & X) (-> & Y). split; [apply wmin_sign; assumption | lia].
    - intros x y x' y' (-> & X) (-> & Y). split; [apply wmax_sign; assumption | lia]. }
  destruct (R a00 a01 a02 a10 a11 a12 a20 a21 a22 ltac:(repeat constructor; lia)) as (-> & Y). apply wunsign_sign. exact Y.
Qed.

(** ** Minimum and Maximum *)

Lemma fold_rel : forall {A} (f g : Z -> A -> Z) (h : Z -> Z) (P : Z -> Prop) l v, P v ->
  (forall v q, In q l -> P v -> f (h v) q = h (g v q) /\ P (g v q)) -> fold_left f l (h v) = h (fold_left g l v) /\ P (fold_left g l v).
Proof.
  induction l as [|q l IH]; intros v V H; cbn [fold_left]; [split; [reflexivity | exact V]|].
  destruct (H v q (or_introl eq_refl) V) as (-> & V'). apply IH; [exact V'|]. intros u r I U. apply H; [right; exact I | exact U].
Qed.

Lemma land_bit : forall st i, 0 <= i -> (Z.land st (2 ^ i) =? 0) = negb (Z.testbit st i).
Proof.
  intros st i I. destruct (Z.testbit st i) eqn:T; cbn [negb].
  - apply Z.eqb_neq. intros Q. assert (X : Z.testbit (Z.land st (2 ^ i)) i = true) by (rewrite Z.land_spec, T, Z.pow2_bits_true by exact I; reflexivity).
    rewrite Q, Z.testbit_0_l in X. discriminate.
  - apply Z.eqb_eq. apply Z.bits_inj'. intros n N. rewrite Z.land_spec, Z.testbit_0_l.
    destruct (Z.eq_dec n i) as [->|D]; [rewrite T; reflexivity | rewrite (Z.pow2_bits_false i n) by lia; apply andb_false_r].
Qed.

(** The scalar operation as a fold over the neighbours. *)
Definition stepS (mx : bool) (st : Z) (v : Z) (q : Z * Z) : Z := (if mx then Z.max else Z.min) v (if Z.land st (fst q) =? 0 then v else snd q).
Lemma minMax_fold : forall mx k g l maxval, smallk k -> 0 <= maxval < 256 ^ k -> 0 <= g_th g < 256 ^ k -> zlength l = 9 -> upTo maxval l ->
  let val := fold_left (stepS mx (g_stencil g)) (orderL l) (middleL l) in
  0 <= val <= maxval /\ 0 <= middleL l <= maxval /\
  minMaxOp mx k g l = Ok (if mx then Z.min val (middleL l + g_th g) else Z.max val (Z.max (middleL l - g_th g) 0)).
Proof.
  intros mx k g l maxval K M TH L S. pose proof (smallk_pow k K) as PK. cbv zeta. nineS L S. unfold middleL. cbn [nth].
  assert (V : 0 <= fold_left (stepS mx (g_stencil g)) (orderL [a00; a01; a02; a10; a11; a12; a20; a21; a22]) a11 <= maxval).
  { apply (fold_rel (stepS mx (g_stencil g)) (stepS mx (g_stencil g)) (fun z => z) (fun z => 0 <= z <= maxval)); [lia|].
    intros v q I V. split; [reflexivity|]. unfold stepS. cbn [orderL In] in I.
    assert (0 <= snd q <= maxval) by (repeat (destruct I as [<-|I]; [cbn [snd]; lia|]); contradiction).
    destruct (_ =? 0), mx; lia. }
  split; [exact V|]. split; [lia|]. revert V. cbn [orderL fold_left]. unfold stepS. cbn [fst snd].
  pose proof (land_bit (g_stencil g) 0 ltac:(lia)) as B0. pose proof (land_bit (g_stencil g) 1 ltac:(lia)) as B1.
  pose proof (land_bit (g_stencil g) 2 ltac:(lia)) as B2. pose proof (land_bit (g_stencil g) 3 ltac:(lia)) as B3.
  pose proof (land_bit (g_stencil g) 4 ltac:(lia)) as B4. pose proof (land_bit (g_stencil g) 5 ltac:(lia)) as B5.
  pose proof (land_bit (g_stencil g) 6 ltac:(lia)) as B6. pose proof (land_bit (g_stencil g) 7 ltac:(lia)) as B7.
  change (2 ^ 0) with 1 in B0. change (2 ^ 1) with 2 in B1. change (2 ^ 2) with 4 in B2. change (2 ^ 3) with 8 in B3.
  change (2 ^ 4) with 16 in B4. change (2 ^ 5) with 32 in B5. change (2 ^ 6) with 64 in B6. change (2 ^ 7) with 128 in B7.
  rewrite B0, B1, B2, B3, B4, B5, B6, B7. clear B0 B1 B2 B3 B4 B5 B6 B7.
  assert (SW : forall (b : bool) (x y : Z), (if negb b then x else y) = if b then y else x) by (intros []; reflexivity). rewrite !SW.
  unfold minMaxOp. cbv zeta. rewrite (Z.mod_small (g_th g)) by lia.
  destruct mx; cbv beta iota; match goal with |- 0 <= ?x <= _ -> _ => set (val := x) end; intros V; rewrite chk32_ok by lia; cbn [obind]; f_equal.
  - change (Z.min val (a11 + g_th g) mod 256 ^ k = Z.min val (a11 + g_th g)). apply Z.mod_small. lia.
  - change (Z.max val (Z.max (a11 - g_th g) 0) mod 256 ^ k = Z.max val (Z.max (a11 - g_th g) 0)). apply Z.mod_small. lia.
Qed.

Lemma order_in : forall maxval l q, zlength l = 9 -> upTo maxval l -> In q (orderL l) -> 0 <= snd q <= maxval.
Proof. intros maxval l q L S I. nineS L S. cbn [orderL In] in I. repeat (destruct I as [<-|I]; [cbn [snd]; lia|]); contradiction. Qed.

Lemma land_ones8 : forall x, 0 <= x < 256 -> Z.land 255 x = x.
Proof. intros x H. rewrite Z.land_comm. change 255 with (Z.ones 8). rewrite Z.land_ones by lia. apply Z.mod_small. change (2 ^ 8) with 256; lia. Qed.
Lemma lor_ones : forall n x, 0 < n -> 0 <= x < 2 ^ n -> Z.lor (Z.ones n) x = Z.ones n.
Proof.
  intros n x N X. rewrite Z.lor_comm. apply Z.lor_ones_low; [lia|]. destruct (Z.eq_dec x 0) as [->|D]; [exact N | apply Z.log2_lt_pow2; lia].
Qed.

Lemma minmax_byte_op : forall mx g l maxval, maxval = 255 -> 0 <= g_th g < 256 -> zlength l = 9 -> upTo maxval l ->
  agrees 1 maxval (minMaxByteL mx g) (minMaxOp mx 1 g) l.
Proof.
  intros mx g l maxval M TH L S.
  destruct (minMax_fold mx 1 g l maxval ltac:(left; reflexivity) ltac:(change (256 ^ 1) with 256; lia) TH L S) as (V & C & E).
  set (val := fold_left (stepS mx (g_stencil g)) (orderL l) (middleL l)) in *.
  eexists. split; [exact E|]. change (256 ^ 1) with 256. split; [destruct mx; lia|]. unfold minMaxByteL. cbv zeta.
  replace (wrapu8 (Z.min (g_th g) 255)) with (g_th g) by (unfold wrapu8; rewrite Z.mod_small; lia).
  assert (VE : (if isFixed (g_stencil g) then fixedL (if mx then maxu else minu) (g_stencil g) (middleL l) l
    else variableL (fun lhs rhs mask => if mx then maxu lhs (andL mask rhs) else minu lhs (orL mask rhs))
           (if mx then wrapu8 255 else wrapu8 0) (if mx then wrapu8 0 else wrapu8 255) (g_stencil g) (middleL l) l) = val).
  { unfold val, fixedL, variableL. destruct (isFixed (g_stencil g)).
    - apply (fold_rel _ _ (fun z => z) (fun z => 0 <= z <= maxval)); [lia|]. intros v q I W. pose proof (order_in _ _ _ L S I) as QB. unfold stepS.
      destruct (_ =? 0); destruct mx; rewrite ?minu_min, ?maxu_max; lia.
    - apply (fold_rel _ _ (fun z => z) (fun z => 0 <= z <= maxval)); [lia|]. intros v q I W. pose proof (order_in _ _ _ L S I) as QB. unfold stepS.
      change (wrapu8 255) with 255. change (wrapu8 0) with 0. unfold andL, orL.
      destruct (_ =? 0); destruct mx; rewrite ?minu_min, ?maxu_max, ?Z.land_0_l, ?Z.lor_0_l, ?land_ones8 by lia; try lia.
      change 255 with (Z.ones 8). rewrite lor_ones by (change (2 ^ 8) with 256; lia). change (Z.ones 8) with 255. lia. }
  rewrite VE. unfold addsu, subsu. destruct mx; rewrite ?minu_min, ?maxu_max, clampZ_minmax by lia; lia.
Qed.

Lemma minmax_word_op : forall B mx g l maxval, 0 <= maxval < 65536 -> 0 <= g_th g < 65536 -> zlength l = 9 -> upTo maxval l ->
  agrees 2 maxval (minMaxWordL B mx g) (minMaxOp mx 2 g) l.
Proof.
  intros B mx g l maxval M TH L S.
  destruct (minMax_fold mx 2 g l maxval ltac:(right; reflexivity) ltac:(change (256 ^ 2) with 65536; lia) TH L S) as (V & C & E).
  set (val := fold_left (stepS mx (g_stencil g)) (orderL l) (middleL l)) in *.
  eexists. split; [exact E|]. change (256 ^ 2) with 65536. split; [destruct mx; lia|]. unfold minMaxWordL. cbv zeta.
  replace (wrapu16 (g_th g)) with (g_th g) by (unfold wrapu16; rewrite Z.mod_small; lia).
  assert (VE : (if isFixed (g_stencil g) then fixedL (fun lhs rhs => (if mx then wmaxL B else wminL B) lhs (wsignL B rhs)) (g_stencil g) (wsignL B (middleL l)) l
    else variableL (fun lhs rhs mask => (if mx then wmaxL B else wminL B) lhs (wsignL B ((if mx then andL else orL) mask rhs)))
           (if mx then wrapu16 65535 else wrapu16 0) (if mx then wrapu16 0 else wrapu16 65535) (g_stencil g) (wsignL B (middleL l)) l) = wsignL B val).
  { unfold val, fixedL, variableL. destruct (isFixed (g_stencil g)).
    - apply (fold_rel _ _ (wsignL B) (fun z => 0 <= z <= maxval)); [lia|]. intros v q I W. pose proof (order_in _ _ _ L S I) as QB. unfold stepS.
      destruct (_ =? 0); destruct mx; rewrite ?wmin_sign, ?wmax_sign by lia; (split; [f_equal; lia | lia]).
    - apply (fold_rel _ _ (wsignL B) (fun z => 0 <= z <= maxval)); [lia|]. intros v q I W. pose proof (order_in _ _ _ L S I) as QB. unfold stepS.
      change (wrapu16 65535) with 65535. change (wrapu16 0) with 0. unfold andL, orL.
      assert (LO : Z.lor 65535 (snd q) = 65535) by (change 65535 with (Z.ones 16); apply lor_ones; change (2 ^ 16) with 65536; lia).
      destruct (_ =? 0); destruct mx; rewrite ?Z.land_0_l, ?Z.lor_0_l, ?LO, ?land_mask16 by lia; rewrite ?wmin_sign, ?wmax_sign by lia; (split; [f_equal; lia | lia]). }
  rewrite VE. unfold addsu, subsu. destruct mx; rewrite clampZ_minmax by lia; rewrite ?wmin_sign, ?wmax_sign by lia; rewrite wunsign_sign by lia; lia.
Qed.

(** ** Deflate and Inflate *)

Lemma wrap16_add : forall x y, wrapu16 (wrapu16 x + y) = wrapu16 (x + y).
Proof. intros. unfold wrapu16. apply Zplus_mod_idemp_l. Qed.
Lemma wrap32_add : forall x y, wrapu32 (wrapu32 x + y) = wrapu32 (x + y).
Proof. intros. unfold wrapu32. apply Zplus_mod_idemp_l. Qed.
Lemma wrap16_sub : forall x y, wrapu16 (wrapu16 x - y) = wrapu16 (x - y).
Proof. intros. unfold wrapu16. apply Zminus_mod_idemp_l. Qed.
Lemma wrap32_sub : forall x y, wrapu32 (wrapu32 x - y) = wrapu32 (x - y).
Proof. intros. unfold wrapu32. apply Zminus_mod_idemp_l. Qed.
Lemma wrap16_addr : forall x y, wrapu16 (x + wrapu16 y) = wrapu16 (x + y).
Proof. intros. unfold wrapu16. apply Zplus_mod_idemp_r. Qed.
Lemma wrap32_addr : forall x y, wrapu32 (x + wrapu32 y) = wrapu32 (x + y).
Proof. intros. unfold wrapu32. apply Zplus_mod_idemp_r. Qed.
Lemma wrap16_subr : forall x y, wrapu16 (x - wrapu16 y) = wrapu16 (x - y).
Proof. intros. unfold wrapu16. apply Zminus_mod_idemp_r. Qed.
Lemma wrap32_subr : forall x y, wrapu32 (x - wrapu32 y) = wrapu32 (x - y).
Proof. intros. unfold wrapu32. apply Zminus_mod_idemp_r. Qed.
(** Modular sums, innermost first. *)
Ltac gather w al ar sl sr := repeat match goal with
  | |- context [w (w ?x + ?y)] => lazymatch x with context [w] => fail | _ => rewrite (al x y) end
  | |- context [w (w ?x - ?y)] => lazymatch x with context [w] => fail | _ => rewrite (sl x y) end
  | |- context [w (?x + w ?y)] => lazymatch x with context [w] => fail | _ => rewrite (ar x y) end
  | |- context [w (?x - w ?y)] => lazymatch x with context [w] => fail | _ => rewrite (sr x y) end
  end.
Ltac gather16 := gather wrapu16 wrap16_add wrap16_addr wrap16_sub wrap16_subr.
Ltac gather32 := gather wrapu32 wrap32_add wrap32_addr wrap32_sub wrap32_subr.
Lemma wide8_id : forall x, wide8 x = x.
Proof. intros. unfold wide8. apply join8_0. Qed.
Lemma wide16_id : forall x, wide16 x = x.
Proof. intros. unfold wide16, join16. lia. Qed.

Lemma flate_result : forall inflate k g l maxval, smallk k -> 0 <= maxval < 256 ^ k -> 0 <= g_th g < 256 ^ k -> zlength l = 9 -> upTo maxval l ->
  match l with
  | [a00; a01; a02; a10; a11; a12; a20; a21; a22] =>
      let val := (a00 + a01 + a02 + a10 + a12 + a20 + a21 + a22 + 4) / 8 in
      0 <= val <= maxval /\ 0 <= a11 <= maxval /\
      flateOp inflate k g l = Ok (if inflate then Z.min (Z.max val a11) (a11 + g_th g) else Z.max (Z.min val a11) (Z.max (a11 - g_th g) 0))
  | _ => False
  end.
Proof.
  intros inflate k g l maxval K M TH L S. pose proof (smallk_pow k K) as PK. nineS L S. cbv zeta.
  set (sum := a00 + a01 + a02 + a10 + a12 + a20 + a21 + a22 + 4).
  assert (V : 0 <= sum / 8 <= maxval).
  { split; [apply Z.div_pos; unfold sum; lia|]. assert (sum / 8 < maxval + 1); [|lia]. apply Z.div_lt_upper_bound; unfold sum; lia. }
  split; [exact V|]. split; [lia|]. unfold flateOp. cbv zeta. fold sum. rewrite (Z.mod_small (g_th g)) by lia.
  replace (wrapu32 sum) with sum by (unfold wrapu32; rewrite Z.mod_small; unfold sum; lia).
  replace (wrap32 (sum / 8)) with (sum / 8) by (symmetry; apply wrap32_id; unfold in_int, INT_MIN, INT_MAX; lia).
  destruct inflate; rewrite chk32_ok by lia; cbn [obind]; f_equal; apply Z.mod_small; lia.
Qed.

Lemma flate_byte_op : forall inflate g l maxval, maxval = 255 -> 0 <= g_th g < 256 -> zlength l = 9 -> upTo maxval l ->
  agrees 1 maxval (flateByteL inflate g) (flateOp inflate 1 g) l.
Proof.
  intros inflate g l maxval M TH L S.
  pose proof (flate_result inflate 1 g l maxval ltac:(left; reflexivity) ltac:(change (256 ^ 1) with 256; lia) TH L S) as R.
  nineS L S. destruct R as (V & C & E). set (val := (_ + 4) / 8) in *.
  eexists. split; [exact E|]. change (256 ^ 1) with 256. split; [destruct inflate; lia|]. unfold flateByteL. cbv zeta.
  replace (wrapu8 (Z.min (g_th g) 255)) with (g_th g) by (unfold wrapu8; rewrite Z.mod_small; lia).
  replace (srli16 3 (flateSumL add16 (wrapu16 4) wide8 a00 a01 a02 a10 a12 a20 a21 a22)) with val.
  2:{ unfold srli16. change (2 ^ 3) with 8. unfold flateSumL. cbn [fold_left]. rewrite !wide8_id. unfold add16. change (wrapu16 4) with 4. gather16.
      unfold val. f_equal. unfold wrapu16. symmetry.
      apply Z.mod_small. lia. }
  unfold satu8of16. rewrite s16_small by lia. rewrite clampZ_id by lia.
  unfold addsu, subsu. destruct inflate; rewrite ?minu_min, ?maxu_max, clampZ_minmax by lia; lia.
Qed.

Lemma flate_word_op : forall B inflate g l maxval, 0 <= maxval < 65536 -> 0 <= g_th g < 65536 -> zlength l = 9 -> upTo maxval l ->
  agrees 2 maxval (flateWordL B inflate g) (flateOp inflate 2 g) l.
Proof.
  intros B inflate g l maxval M TH L S.
  pose proof (flate_result inflate 2 g l maxval ltac:(right; reflexivity) ltac:(change (256 ^ 2) with 65536; lia) TH L S) as R.
  nineS L S. destruct R as (V & C & E). set (val := (_ + 4) / 8) in *.
  eexists. split; [exact E|]. change (256 ^ 2) with 65536. split; [destruct inflate; lia|]. unfold flateWordL. cbv zeta.
  replace (wrapu16 (g_th g)) with (g_th g) by (unfold wrapu16; rewrite Z.mod_small; lia).
  replace (srl32 3 (flateSumL Simd.add32 (wrapu32 4) wide16 a00 a01 a02 a10 a12 a20 a21 a22)) with (wrapu32 val).
  2:{ unfold srl32. change (2 ^ 3) with 8. unfold flateSumL. cbn [fold_left]. rewrite !wide16_id. unfold Simd.add32. change (wrapu32 4) with 4. gather32.
      unfold val. replace (wrapu32 (a00 + a01 + a02 + a10 + a12 + a20 + a21 + a22 + 4)) with (a00 + a01 + a02 + a10 + a12 + a20 + a21 + a22 + 4).
      - unfold wrapu32. apply Z.mod_small. fold val. lia.
      - unfold wrapu32. rewrite Z.mod_small; lia. }
  rewrite packWord_sign by lia. replace (Z.min 65535 (Z.max 0 val)) with val by lia.
  unfold addsu, subsu. destruct inflate; rewrite clampZ_minmax by lia; rewrite ?wmin_sign, ?wmax_sign by lia; rewrite ?wmin_sign, ?wmax_sign by lia; rewrite wunsign_sign by lia; lia.
Qed.

(** ** Prewitt and Sobel *)

(** The float the kernels convert: the scaled length of the gradient. *)
Definition gradF (g : gparams) (gx gy : Z) : fl :=
  mul32 (SFsqrt 24 128 (add32 (mul32 (of32 gx 0) (of32 gx 0)) (mul32 (of32 gy 0) (of32 gy 0)))) (g_scale g).
Definition gradAt (sobel : bool) (g : gparams) (l : list Z) : fl :=
  let c := if sobel then 2 else 1 in gradF g (gradV c l) (gradH c l).

Lemma upTo_samples : forall k maxval l, maxval < 256 ^ k -> upTo maxval l -> samples k l.
Proof. intros k maxval l M. unfold upTo, samples. apply Forall_impl. intros; lia. Qed.

Lemma gradient_scalar : forall (sobel : bool) k g l v, smallk k -> isFin (g_scale g) = true -> zlength l = 9 -> samples k l ->
  canon (gradAt sobel g l) -> lrint (gradAt sobel g l) = Ok v -> gradientOp sobel k g l = Ok (Z.min (256 ^ k - 1) (Z.max 0 v)).
Proof.
  intros sobel k g l v K F L S C E. destruct (gradientOp_spec sobel k g l K F L S) as (-> & _ & _). unfold gradLen. cbv zeta.
  apply xrint_sat; assumption.
Qed.

Lemma grad_lanes8 : forall (sobel : bool) a00 a01 a02 a10 a11 a12 a20 a21 a22, let c := if sobel then 2 else 1 in let l := [a00; a01; a02; a10; a11; a12; a20; a21; a22] in
  gradients2L add16 sub16 (slli16 1) sobel wide8 a00 a01 a02 a10 a12 a20 a21 a22 = (wrapu16 (gradV c l), wrapu16 (gradH c l)).
Proof.
  intros. unfold gradients2L. cbv zeta. rewrite !wide8_id. unfold add16, sub16, slli16. change (2 ^ 1) with 2.
  subst c l. destruct sobel; gather16;
    (apply f_equal2; f_equal; unfold gradV, gradH, at3;
     change (Z.to_nat (3 * (-1 + 1) + (-1 + 1))) with 0%nat; change (Z.to_nat (3 * (-1 + 1) + (0 + 1))) with 1%nat; change (Z.to_nat (3 * (-1 + 1) + (1 + 1))) with 2%nat;
     change (Z.to_nat (3 * (0 + 1) + (-1 + 1))) with 3%nat; change (Z.to_nat (3 * (0 + 1) + (1 + 1))) with 5%nat;
     change (Z.to_nat (3 * (1 + 1) + (-1 + 1))) with 6%nat; change (Z.to_nat (3 * (1 + 1) + (0 + 1))) with 7%nat; change (Z.to_nat (3 * (1 + 1) + (1 + 1))) with 8%nat;
     cbn [nth]; lia).
Qed.
Lemma grad_lanes16 : forall (sobel : bool) a00 a01 a02 a10 a11 a12 a20 a21 a22, let c := if sobel then 2 else 1 in let l := [a00; a01; a02; a10; a11; a12; a20; a21; a22] in
  gradients2L Simd.add32 Simd.sub32 slli32 sobel wide16 a00 a01 a02 a10 a12 a20 a21 a22 = (wrapu32 (gradV c l), wrapu32 (gradH c l)).
Proof.
  intros. unfold gradients2L. cbv zeta. rewrite !wide16_id. unfold Simd.add32, Simd.sub32, slli32.
  subst c l. destruct sobel; gather32;
    (apply f_equal2; f_equal; unfold gradV, gradH, at3;
     change (Z.to_nat (3 * (-1 + 1) + (-1 + 1))) with 0%nat; change (Z.to_nat (3 * (-1 + 1) + (0 + 1))) with 1%nat; change (Z.to_nat (3 * (-1 + 1) + (1 + 1))) with 2%nat;
     change (Z.to_nat (3 * (0 + 1) + (-1 + 1))) with 3%nat; change (Z.to_nat (3 * (0 + 1) + (1 + 1))) with 5%nat;
     change (Z.to_nat (3 * (1 + 1) + (-1 + 1))) with 6%nat; change (Z.to_nat (3 * (1 + 1) + (0 + 1))) with 7%nat; change (Z.to_nat (3 * (1 + 1) + (1 + 1))) with 8%nat;
     cbn [nth]; lia).
Qed.

Lemma grad_bound : forall (sobel : bool) maxval l, 0 <= maxval -> zlength l = 9 -> upTo maxval l -> let c := if sobel then 2 else 1 in
  Z.abs (gradV c l) <= 4 * maxval /\ Z.abs (gradH c l) <= 4 * maxval.
Proof.
  intros sobel maxval l M L S c. nineS L S. unfold gradV, gradH, at3.
  change (Z.to_nat (3 * (-1 + 1) + (-1 + 1))) with 0%nat; change (Z.to_nat (3 * (-1 + 1) + (0 + 1))) with 1%nat; change (Z.to_nat (3 * (-1 + 1) + (1 + 1))) with 2%nat;
     change (Z.to_nat (3 * (0 + 1) + (-1 + 1))) with 3%nat; change (Z.to_nat (3 * (0 + 1) + (1 + 1))) with 5%nat;
     change (Z.to_nat (3 * (1 + 1) + (-1 + 1))) with 6%nat; change (Z.to_nat (3 * (1 + 1) + (0 + 1))) with 7%nat; change (Z.to_nat (3 * (1 + 1) + (1 + 1))) with 8%nat;
     cbn [nth]. subst c. destruct sobel; lia.
Qed.

Lemma grad_byte_op : forall sobel g l maxval, maxval = 255 -> isFin (g_scale g) = true -> zlength l = 9 -> upTo maxval l -> calm (gradAt sobel g l) ->
  agrees 1 maxval (gradByteL sobel g) (gradientOp sobel 1 g) l.
Proof.
  intros sobel g l maxval M F L S (C & v & E & V).
  eexists. split; [apply (gradient_scalar sobel 1 g l v); [left; reflexivity | exact F | exact L | | exact C | exact E]; apply (upTo_samples 1 maxval); [subst; reflexivity | exact S]|].
  change (256 ^ 1 - 1) with 255. change (256 ^ 1) with 256. split; [lia|].
  destruct (grad_bound sobel maxval l ltac:(lia) L S) as (BX & BY). rewrite (Z.min_l _ maxval) by lia. rewrite <- (finishByte _ v E) by lia. clear E C S.
  nine_of L. unfold gradByteL. cbv zeta. rewrite (grad_lanes8 sobel a00 a01 a02 a10 a11 a12 a20 a21 a22). cbn [fst snd].
  unfold gradAt, gradF. set (gx := gradV _ _) in *. set (gy := gradH _ _) in *.
  replace (cvtF (madd16 (join16 (wrapu16 gx) (wrapu16 gy)) (join16 (wrapu16 gx) (wrapu16 gy)))) with (of32 (gx * gx + gy * gy) 0).
  - rewrite <- squares_exact by nia. reflexivity.
  - unfold cvtF, madd16, join16. pose proof (wrapu16_range gx). pose proof (wrapu16_range gy).
    replace ((wrapu16 gx + 65536 * wrapu16 gy) mod 65536) with (wrapu16 gx) by (rewrite Z.mul_comm, Z.mod_add by lia; symmetry; apply Z.mod_small; lia).
    replace ((wrapu16 gx + 65536 * wrapu16 gy) / 65536) with (wrapu16 gy) by (rewrite Z.mul_comm, Z.div_add, Z.div_small by lia; lia).
    rewrite !s16_wrap16 by lia. rewrite s32_wrap32 by nia. reflexivity.
Qed.

Lemma grad_word_op : forall B sobel g l, 0 <= g_maxval g < 65536 -> isFin (g_scale g) = true -> zlength l = 9 -> upTo (g_maxval g) l -> calm (gradAt sobel g l) ->
  agrees 2 (g_maxval g) (gradWordL B sobel g) (gradientOp sobel 2 g) l.
Proof.
  intros B sobel g l M F L S (C & v & E & V).
  eexists. split; [apply (gradient_scalar sobel 2 g l v); [right; reflexivity | exact F | exact L | | exact C | exact E]; apply (upTo_samples 2 (g_maxval g)); [change (256 ^ 2) with 65536; lia | exact S]|].
  change (256 ^ 2 - 1) with 65535. change (256 ^ 2) with 65536. split; [lia|].
  destruct (grad_bound sobel (g_maxval g) l ltac:(lia) L S) as (BX & BY). rewrite <- (finishWord B _ v (g_maxval g) E V M). clear E C S.
  nine_of L. unfold gradWordL. cbv zeta. rewrite (grad_lanes16 sobel a00 a01 a02 a10 a11 a12 a20 a21 a22). cbn [fst snd].
  unfold gradAt, gradF. set (gx := gradV _ _) in *. set (gy := gradH _ _) in *. unfold cvtF. rewrite !s32_wrap32 by lia. reflexivity.
Qed.

(** Scales up to 2048 never leave the range of the conversion. *)
Lemma grad_calm : forall (sobel : bool) g maxval l, 0 <= maxval < 65536 -> zlength l = 9 -> upTo maxval l ->
  canon (g_scale g) -> magLe (2 ^ 23) (-12) (g_scale g) -> calm (gradAt sobel g l).
Proof.
  intros sobel g maxval l M L S C LE. destruct (grad_bound sobel maxval l ltac:(lia) L S) as (BX & BY). unfold gradAt, gradF. cbv zeta.
  set (gx := gradV _ _) in *. set (gy := gradH _ _) in *.
  assert (O : forall v, Z.abs v <= 2 ^ 18 -> canon (of32 v 0) /\ magLe (2 ^ 23) (-5) (of32 v 0)).
  { intros v B. assert (Q : Z.abs v < 2 ^ 24) by lia. rewrite of32_exact by exact Q.
    assert (G : forall s p, Z.pos p <= 2 ^ 18 -> canon (floatOf s p) /\ magLe (2 ^ 23) (-5) (floatOf s p)).
    { intros s p P. destruct (floatOf_spec p ltac:(lia)) as (D & MD & R). unfold floatOf. cbn [canon magLe].
      assert (D19 : Z.pos (digits2_pos p) <= 19). { apply (Zdigits2_le (Z.pos p) 19); lia. }
      split; [split; [lia|]; split; [lia | left; lia]|]. split; [lia|]. rewrite MD.
      replace (-5 - (Z.pos (digits2_pos p) - 24)) with (19 - Z.pos (digits2_pos p)) by lia.
      replace (24 - Z.pos (digits2_pos p)) with (5 + (19 - Z.pos (digits2_pos p))) by lia. rewrite Z.pow_add_r by lia.
      assert (0 < 2 ^ (19 - Z.pos (digits2_pos p))) by (apply Z.pow_pos_nonneg; lia). change (2 ^ 5) with 32. change (2 ^ 23) with (2 ^ 18 * 32). nia. }
    destruct v as [|p|p]; cbn [floatZ]; [split; exact I | apply G; lia | apply G; lia]. }
  destruct (O gx ltac:(lia)) as (C1 & L1). destruct (O gy ltac:(lia)) as (C2 & L2).
  destruct (mul_le _ _ _ _ _ _ (2 ^ 23) 13 C1 C1 L1 L1) as (C3 & L3); try lia.
  destruct (mul_le _ _ _ _ _ _ (2 ^ 23) 13 C2 C2 L2 L2) as (C4 & L4); try lia.
  pose proof (add_nonneg _ _ (mul_same_nonneg (of32 gx 0)) (mul_same_nonneg (of32 gy 0))) as NN.
  destruct (add_le _ _ _ _ _ (2 ^ 23) 14 C3 C4 L3 L4) as (C5 & L5); try lia.
  set (sum := add32 _ _) in *.
  assert (SG : match sum with S754_finite s _ _ => s = false | _ => True end) by (destruct sum; try exact I; exact NN).
  destruct (sqrt_le sum (2 ^ 23) 14 (2 ^ 23) (-4) C5 SG L5) as (C6 & L6); try lia.
  destruct (mul_le _ _ _ _ _ _ (2 ^ 23) 7 C6 C L6 LE) as (C7 & L7); try lia.
  apply (calm_le (2 ^ 23) 7); try assumption; lia.
Qed.

(** ** Convolution *)

Definition convF (g : gparams) (s : Z) : fl := let f := add32 (mul32 (of32 s 0) (g_div g)) (g_bias g) in if g_sat g then f else SFabs f.
Definition convAt (g : gparams) (l : list Z) : fl := convF g (sumL (map (fun cv : Z * Z => fst cv * snd cv) (combine (g_matrix g) l))).

Lemma conv_scalar : forall k g l v, smallk k -> zlength (g_matrix g) = 9 -> legalMatrix (g_matrix g) -> zlength l = 9 -> samples k l ->
  canon (convAt g l) -> lrint (convAt g l) = Ok v -> convOp k g l = Ok (Z.min (256 ^ k - 1) (Z.max 0 v)).
Proof.
  intros k g l v K N LM L S C E. pose proof (smallk_pow k K) as PK. unfold convOp.
  replace (firstn 9 (g_matrix g)) with (g_matrix g) by (symmetry; apply firstn_all2; unfold zlength in N; lia).
  assert (CL : cells (256 ^ k - 1) (combine (g_matrix g) l)).
  { unfold cells. rewrite Forall_forall. intros (c & u) I. pose proof (in_combine_l _ _ _ _ I) as I1. pose proof (in_combine_r _ _ _ _ I) as I2.
    unfold legalMatrix in LM. unfold samples in S. rewrite Forall_forall in LM, S. specialize (LM c I1). specialize (S u I2). cbn [fst snd]. lia. }
  destruct (dot_cells false (256 ^ k - 1) k (combine (g_matrix g) l) ltac:(lia) K ltac:(lia) CL) as (-> & _).
  - unfold zlength in *. rewrite combine_length. lia.
  - right. unfold zlength in *. rewrite combine_length. lia.
  - cbn [obind]. unfold finish. cbv zeta. apply xrint_sat; assumption.
Qed.

Lemma lor_join : forall a b, 0 <= a < 65536 -> 0 <= b -> Z.lor (b * 65536) a = join16 a b.
Proof.
  intros a b A B. unfold join16. change 65536 with (2 ^ 16) in *. rewrite <- Z.lxor_lor, <- Z.add_nocarry_lxor; [lia| |];
    (apply Z.bits_inj'; intros n N; rewrite Z.land_spec, Z.testbit_0_l; destruct (Z_lt_le_dec n 16) as [Q|Q];
     [rewrite Z.mul_pow2_bits_low by exact Q; reflexivity|]; rewrite (Z.testbit_eqb a n) by lia; rewrite (Z.div_small a);
     [apply andb_false_r | split; [lia|]; apply Z.lt_le_trans with (2 ^ 16); [lia | apply Z.pow_le_mono_r; lia]]).
Qed.
Lemma interleave_join : forall a b, interleave a b = join16 (wrapu16 a) (wrapu16 b).
Proof.
  intros a b. unfold interleave. rewrite <- lor_join; [|apply wrapu16_range | apply wrapu16_range]. f_equal.
  unfold wrapu32, wrapu16. rewrite Zmult_mod_idemp_l. change 4294967296 with (65536 * 65536). apply Z.mul_mod_distr_r; lia.
Qed.
Lemma join16_range : forall a b, 0 <= a < 65536 -> 0 <= b < 65536 -> 0 <= join16 a b < 4294967296.
Proof. intros a b A B. unfold join16. lia. Qed.
Lemma join16_halves : forall a b, 0 <= a < 65536 -> join16 a b mod 65536 = a /\ join16 a b / 65536 = b.
Proof.
  intros a b A. unfold join16. rewrite (Z.mul_comm 65536). split; [rewrite Z.mod_add by lia; apply Z.mod_small; exact A | rewrite Z.div_add, Z.div_small by lia; lia].
Qed.
Lemma madd_inter : forall a b x y, -32768 <= a < 32768 -> -32768 <= b < 32768 -> 0 <= x < 65536 -> 0 <= y < 65536 ->
  madd16 (wrapu32 (interleave a b)) (join16 x y) = wrapu32 (a * s16 x + b * s16 y).
Proof.
  intros a b x y A B X Y. rewrite interleave_join. pose proof (wrapu16_range a) as RA. pose proof (wrapu16_range b) as RB.
  replace (wrapu32 (join16 (wrapu16 a) (wrapu16 b))) with (join16 (wrapu16 a) (wrapu16 b)) by (unfold wrapu32; symmetry; apply Z.mod_small, join16_range; assumption).
  unfold madd16. rewrite (proj1 (join16_halves _ _ RA)), (proj2 (join16_halves _ _ RA)), (proj1 (join16_halves _ _ X)), (proj2 (join16_halves _ _ X)).
  rewrite !s16_wrap16 by assumption. reflexivity.
Qed.


Lemma convSum_lane : forall g last a00 a01 a02 a10 a11 a12 a20 a21 a22 axx c0 c1 c2 c3 c4 c5 c6 c7 c8, g_matrix g = [c0; c1; c2; c3; c4; c5; c6; c7; c8] ->
  legalMatrix (g_matrix g) -> -32768 <= last < 32768 -> Forall (fun v => 0 <= v < 65536) [a00; a01; a02; a10; a11; a12; a20; a21; a22; axx] ->
  convSumL g last a00 a01 a02 a10 a11 a12 a20 a21 a22 axx =
  wrapu32 (c0 * s16 a00 + c1 * s16 a01 + (c2 * s16 a02 + c3 * s16 a10) + (c4 * s16 a11 + c5 * s16 a12) + (c6 * s16 a20 + c7 * s16 a21) + (c8 * s16 a22 + last * s16 axx)).
Proof.
  intros g last a00 a01 a02 a10 a11 a12 a20 a21 a22 axx c0 c1 c2 c3 c4 c5 c6 c7 c8 G LM LA F. unfold legalMatrix in LM. rewrite G in LM.
  repeat match goal with H : Forall _ (_ :: _) |- _ => apply Forall_cons_iff in H; destruct H end.
  unfold convSumL, coef. rewrite G. cbv zeta.
  change (Z.to_nat 0) with 0%nat; change (Z.to_nat 1) with 1%nat; change (Z.to_nat 2) with 2%nat; change (Z.to_nat 3) with 3%nat; change (Z.to_nat 4) with 4%nat.
  change (Z.to_nat 5) with 5%nat; change (Z.to_nat 6) with 6%nat; change (Z.to_nat 7) with 7%nat; change (Z.to_nat 8) with 8%nat. cbn [nth].
  rewrite !madd_inter by lia. unfold Simd.add32. gather32. reflexivity.
Qed.

Lemma conv_bound : forall g l maxval, 0 <= maxval < 65536 -> zlength (g_matrix g) = 9 -> legalMatrix (g_matrix g) -> zlength l = 9 -> upTo maxval l ->
  Z.abs (sumL (map (fun cv : Z * Z => fst cv * snd cv) (combine (g_matrix g) l))) <= 9 * (1023 * maxval).
Proof.
  intros g l maxval M N LM L S. unfold legalMatrix in LM. destruct (g_matrix g) as [|c0 [|c1 [|c2 [|c3 [|c4 [|c5 [|c6 [|c7 [|c8 [|? ?]]]]]]]]]]; unfold zlength in N; cbn [length] in N; try lia.
  nineS L S. cbn [combine map sumL fold_right fst snd].
  assert (P : forall c v, -1023 <= c <= 1023 -> 0 <= v <= maxval -> Z.abs (c * v) <= 1023 * maxval) by (intros; nia).
  repeat match goal with A : -1023 <= ?c <= 1023, B : 0 <= ?v <= maxval |- context [?c * ?v] => pose proof (P c v A B); generalize dependent (c * v); intros end. lia.
Qed.

Lemma conv_byte_op : forall g l maxval, maxval = 255 -> zlength (g_matrix g) = 9 -> legalMatrix (g_matrix g) -> zlength l = 9 -> upTo maxval l -> calm (convAt g l) ->
  agrees 1 maxval (convByteL g) (convOp 1 g) l.
Proof.
  intros g l maxval M N LM L S (C & v & E & V).
  eexists. split; [apply (conv_scalar 1 g l v); [left; reflexivity | exact N | exact LM | exact L | | exact C | exact E]; apply (upTo_samples 1 maxval); [subst; reflexivity | exact S]|].
  change (256 ^ 1 - 1) with 255. change (256 ^ 1) with 256. split; [lia|].
  pose proof (conv_bound g l maxval ltac:(lia) N LM L S) as BS. rewrite (Z.min_l _ maxval) by lia. rewrite <- (finishByte _ v E) by lia. clear E C.
  destruct (g_matrix g) as [|c0 [|c1 [|c2 [|c3 [|c4 [|c5 [|c6 [|c7 [|c8 [|? ?]]]]]]]]]] eqn:G; unfold zlength in N; cbn [length] in N; try lia.
  nineS L S. unfold convByteL. cbv zeta. rewrite !wide8_id. change (wrapu16 0) with 0.
  rewrite (convSum_lane g 0 a00 a01 a02 a10 a11 a12 a20 a21 a22 0 c0 c1 c2 c3 c4 c5 c6 c7 c8 G); [| rewrite G; exact LM | lia | repeat constructor; lia].
  rewrite (s16_small a00), (s16_small a01), (s16_small a02), (s16_small a10), (s16_small a11), (s16_small a12), (s16_small a20), (s16_small a21), (s16_small a22) by lia.
  unfold convFinishL, convAt, convF. cbv zeta. rewrite G. cbn [combine map sumL fold_right fst snd] in *.
  match goal with |- context [wrapu32 ?x] => replace x with (c0 * a00 + (c1 * a01 + (c2 * a02 + (c3 * a10 + (c4 * a11 + (c5 * a12 + (c6 * a20 + (c7 * a21 + (c8 * a22 + 0))))))))) end.
  - unfold cvtF. rewrite s32_wrap32 by lia. reflexivity.
  - rewrite (s16_small 0) by lia. ring.
Qed.

Lemma conv_word_op : forall B g l, 0 <= g_maxval g < 65536 -> zlength (g_matrix g) = 9 -> legalMatrix (g_matrix g) -> zlength l = 9 -> upTo (g_maxval g) l -> calm (convAt g l) ->
  agrees 2 (g_maxval g) (convWordL B g) (convOp 2 g) l.
Proof.
  intros B g l M N LM L S (C & v & E & V).
  eexists. split; [apply (conv_scalar 2 g l v); [right; reflexivity | exact N | exact LM | exact L | | exact C | exact E]; apply (upTo_samples 2 (g_maxval g)); [change (256 ^ 2) with 65536; lia | exact S]|].
  change (256 ^ 2 - 1) with 65535. change (256 ^ 2) with 65536. split; [lia|].
  pose proof (conv_bound g l (g_maxval g) ltac:(lia) N LM L S) as BS. rewrite <- (finishWord B _ v (g_maxval g) E V M). clear E C.
  destruct (g_matrix g) as [|c0 [|c1 [|c2 [|c3 [|c4 [|c5 [|c6 [|c7 [|c8 [|? ?]]]]]]]]]] eqn:G; unfold zlength in N; cbn [length] in N; try lia.
  nineS L S. unfold convWordL. rewrite G. cbn [map firstn fold_left]. cbv zeta.
  assert (BA : forall x, 0 <= x < 65536 -> s16 (add16 x (wrapu16 (-32768))) = x - 32768).
  { intros x X. unfold add16, wrapu16. rewrite Zplus_mod_idemp_r. apply (s16_wrap16 (x + -32768)). lia. }
  assert (AR : forall x, 0 <= add16 x (wrapu16 (-32768)) < 65536) by (intros; apply wrapu16_range).
  assert (LMc : Forall (fun c => -1023 <= c <= 1023) [c0; c1; c2; c3; c4; c5; c6; c7; c8]) by exact LM.
  repeat match goal with H : Forall _ (_ :: _) |- _ => apply Forall_cons_iff in H; destruct H end.
  set (last := s16 (wrapu16 (- (0 + c0 + c1 + c2 + c3 + c4 + c5 + c6 + c7 + c8)))).
  assert (LE : last = - (c0 + c1 + c2 + c3 + c4 + c5 + c6 + c7 + c8)) by (unfold last; rewrite s16_wrap16; lia).
  rewrite (convSum_lane g last _ _ _ _ _ _ _ _ _ _ c0 c1 c2 c3 c4 c5 c6 c7 c8 G); [| unfold legalMatrix; rewrite G; repeat constructor; lia | lia | repeat constructor; try apply AR; vm_compute; discriminate].
  rewrite !BA by lia. change (s16 (wrapu16 (-32768))) with (-32768). unfold convFinishL, convAt, convF. cbv zeta. rewrite G. cbn [combine map sumL fold_right fst snd] in *.
  match goal with |- context [wrapu32 ?x] => replace x with (c0 * a00 + (c1 * a01 + (c2 * a02 + (c3 * a10 + (c4 * a11 + (c5 * a12 + (c6 * a20 + (c7 * a21 + (c8 * a22 + 0))))))))) by (rewrite LE; ring) end.
  unfold cvtF. rewrite s32_wrap32 by lia. reflexivity.
Qed.

(** Divisors of at least one and a bias of at most 2^29 never leave the range of the
    conversion. *)
Lemma conv_calm : forall g l maxval, 0 <= maxval < 65536 -> zlength (g_matrix g) = 9 -> legalMatrix (g_matrix g) -> zlength l = 9 -> upTo maxval l ->
  canon (g_div g) -> magLe (2 ^ 23) (-23) (g_div g) -> canon (g_bias g) -> magLe (2 ^ 23) 6 (g_bias g) -> calm (convAt g l).
Proof.
  intros g l maxval M N LM L S CD LD CB LB. pose proof (conv_bound g l maxval M N LM L S) as BS. unfold convAt.
  set (s := sumL _) in *. assert (O : canon (of32 s 0) /\ magLe (2 ^ 23) 7 (of32 s 0)).
  { unfold of32. apply normalize_le; [lia | lia | lia |]. change (2 ^ 23 * 2 ^ (7 - 0)) with 1073741824. lia. }
  destruct O as (C1 & L1).
  destruct (mul_le _ _ _ _ _ _ (2 ^ 23) 7 C1 CD L1 LD) as (C2 & L2); try lia.
  assert (LB' : magLe (2 ^ 22) 7 (g_bias g)) by (apply (magLe_mono (2 ^ 23) 6); [exact LB | lia | lia | vm_compute; discriminate]).
  destruct (add_le _ _ _ _ _ (2 ^ 23 + 2 ^ 22) 7 C2 CB L2 LB') as (C3 & L3); try lia.
  unfold convF. cbv zeta. destruct (g_sat g).
  - apply (calm_le (2 ^ 23 + 2 ^ 22) 7); try assumption; lia.
  - apply (calm_le (2 ^ 23 + 2 ^ 22) 7); try lia; [apply abs_canon; exact C3 | apply abs_magLe; exact L3].
Qed.

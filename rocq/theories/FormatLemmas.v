From Coq Require Import ZArith List Lia Bool String.
From Verif Require Import Common FormatSpec Format.
Import ListNotations.
Open Scope Z_scope.

Lemma bytesLoop_total : forall bits, 8 <= bits <= 32 ->
  exists b, bytesLoop 8 1 bits = Some b /\ storage bits b.
Proof.
  intros bits H. cbn [bytesLoop].
  change (1 * 8) with 8; change (Z.shiftl 1 1) with 2; change (2 * 8) with 16;
  change (Z.shiftl 2 1) with 4; change (4 * 8) with 32.
  destruct (Z.ltb_spec 8 bits).
  - destruct (Z.ltb_spec 16 bits).
    + exists 4. destruct (Z.ltb_spec 32 bits); [lia|]. split; [reflexivity|].
      unfold storage. split; [lia|]. split; [lia|]. intros; lia.
    + exists 2. split; [reflexivity|]. unfold storage. split; [lia|]. split; [lia|]. intros; lia.
  - exists 1. split; [reflexivity|]. unfold storage. split; [lia|]. split; [lia|]. intros; lia.
Qed.

Lemma storage_inj : forall bits a b, storage bits a -> storage bits b -> a = b.
Proof.
  unfold storage; intros bits a b (A1 & A2 & A3) (B1 & B2 & B3).
  pose proof (A3 b B1 B2). pose proof (B3 a A1 A2). lia.
Qed.

(** Case splitting of boolean comparisons. *)
Ltac bcase :=
  repeat match goal with
  | |- context [?a =? ?b] => destruct (Z.eqb_spec a b)
  | |- context [?a <? ?b] => destruct (Z.ltb_spec a b)
  | |- context [?a <=? ?b] => destruct (Z.leb_spec a b)
  end; cbn [negb andb orb].

Definition validP (cf st bits ssw ssh : Z) : Prop :=
  (cf = cfGray \/ cf = cfRGB \/ cf = cfYUV) /\
  (st = stInteger /\ 8 <= bits <= 32 \/ st = stFloat /\ (bits = 16 \/ bits = 32)) /\
  (cf = cfYUV /\ 0 <= ssw <= 4 /\ 0 <= ssh <= 4 \/ cf <> cfYUV /\ ssw = 0 /\ ssh = 0).

Ltac step1 := match goal with |- context [if ?b then _ else _] =>
                match b with context [if _ then _ else _] => fail 1 | _ => idtac end;
                let H := fresh "B" in destruct b eqn:H end.

Lemma isValid_iff : forall cf st bits ssw ssh, cf <> cfUndefined ->
  isValidVideoFormat cf st bits ssw ssh = true <-> validP cf st bits ssw ssh.
Proof.
  intros cf st bits ssw ssh Hu.
  unfold isValidVideoFormat, validP, cfUndefined, cfGray, cfRGB, cfYUV, stInteger, stFloat in *.
  repeat step1; repeat rewrite ?andb_true_iff, ?andb_false_iff, ?orb_true_iff, ?orb_false_iff,
    ?negb_true_iff, ?negb_false_iff, ?Z.eqb_eq, ?Z.eqb_neq, ?Z.ltb_lt, ?Z.ltb_ge in *;
  split; intros; try discriminate; try reflexivity; lia.
Qed.

Lemma query_valid : forall cf st bits ssw ssh, validP cf st bits ssw ssh ->
  exists f, queryVideoFormat cf st bits ssw ssh = Some (true, f) /\ fmt_valid f /\
    f_cf f = cf /\ f_st f = st /\ f_bits f = bits /\ f_ssw f = ssw /\ f_ssh f = ssh.
Proof.
  intros cf st bits ssw ssh V. pose proof V as V'.
  assert (Hu : cf <> cfUndefined) by (unfold validP, cfGray, cfRGB, cfYUV, cfUndefined in *; lia).
  apply isValid_iff in V'; [|exact Hu].
  unfold queryVideoFormat. rewrite V'. apply Z.eqb_neq in Hu; rewrite Hu. cbn [negb].
  destruct V as (V1 & V2 & V3).
  assert (HB : 8 <= bits <= 32) by lia.
  destruct (bytesLoop_total bits HB) as (b & Eb & Sb). rewrite Eb.
  eexists; split; [reflexivity|]. split; [|cbn; auto].
  unfold fmt_valid; cbn [f_cf f_st f_bits f_bytes f_ssw f_ssh f_np].
  split; [exact V1|]. split; [exact V2|]. split; [exact Sb|]. split; [exact V3|].
  destruct (Z.eqb_spec cf cfGray); [left|right]; auto.
Qed.

Lemma query_sound : forall cf st bits ssw ssh f,
  queryVideoFormat cf st bits ssw ssh = Some (true, f) ->
  cf = cfUndefined /\ f = undefFmt \/ validP cf st bits ssw ssh.
Proof.
  intros cf st bits ssw ssh f. unfold queryVideoFormat.
  destruct (Z.eqb_spec cf cfUndefined); [intro E; left; split; congruence|].
  destruct (isValidVideoFormat cf st bits ssw ssh) eqn:E; cbn [negb]; [|discriminate].
  intros _. right. apply isValid_iff in E; auto.
Qed.

Lemma query_never_none : forall cf st bits ssw ssh, queryVideoFormat cf st bits ssw ssh <> None.
Proof.
  intros cf st bits ssw ssh. unfold queryVideoFormat.
  destruct (Z.eqb_spec cf cfUndefined); [discriminate|].
  destruct (isValidVideoFormat cf st bits ssw ssh) eqn:E; cbn [negb]; [|discriminate].
  apply isValid_iff in E; auto. destruct E as (_ & E & _).
  assert (HB : 8 <= bits <= 32) by lia.
  destruct (bytesLoop_total bits HB) as (b & -> & _). discriminate.
Qed.

Lemma valid_validP : forall f, fmt_valid f ->
  validP (f_cf f) (f_st f) (f_bits f) (f_ssw f) (f_ssh f).
Proof. intros f (A & B & C & D & E). unfold validP. auto. Qed.

Lemma fmt_ext : forall f g, fmt_valid f -> fmt_valid g ->
  f_cf f = f_cf g -> f_st f = f_st g -> f_bits f = f_bits g -> f_ssw f = f_ssw g ->
  f_ssh f = f_ssh g -> f = g.
Proof.
  intros [a b c d e h i] [a' b' c' d' e' h' i'] (A & B & C & D & E) (A' & B' & C' & D' & E').
  cbn [f_cf f_st f_bits f_bytes f_ssw f_ssh f_np] in *. intros; subst.
  assert (d = d') by (eapply storage_inj; eauto). assert (i = i') by lia. subst. reflexivity.
Qed.

Lemma query_exact : forall f, fmt_valid f ->
  queryVideoFormat (f_cf f) (f_st f) (f_bits f) (f_ssw f) (f_ssh f) = Some (true, f).
Proof.
  intros f V. destruct (query_valid _ _ _ _ _ (valid_validP f V)) as (g & E & Vg & A & B & C & D & F).
  rewrite E. do 2 f_equal. apply fmt_ext; auto.
Qed.

(** *** Identifiers *)

Definition pack (cf st bits ssw ssh : Z) : Z :=
  cf * 268435456 + st * 16777216 + bits * 65536 + ssw * 256 + ssh.

Lemma lor_add : forall a b n, 0 <= n -> 0 <= b < 2 ^ n -> 0 <= a ->
  Z.lor (Z.shiftl a n) b = a * 2 ^ n + b.
Proof.
  intros a b n Hn Hb Ha. rewrite Z.shiftl_mul_pow2 by lia.
  symmetry. rewrite Z.add_nocarry_lxor; [|].
  2:{ apply Z.bits_inj'. intros k Hk. rewrite Z.land_spec, Z.bits_0.
      destruct (Z.ltb_spec k n).
      - rewrite Z.mul_pow2_bits_low by lia. reflexivity.
      - destruct (Z.eq_dec b 0) as [->|Hb0]; [rewrite Z.bits_0; apply andb_false_r|].
        rewrite (Z.bits_above_log2 b k); [apply andb_false_r|lia|].
        apply Z.lt_le_trans with n; [|lia]. apply Z.log2_lt_pow2; lia. }
  apply Z.bits_inj'. intros k Hk. rewrite Z.lxor_spec, Z.lor_spec.
  destruct (Z.ltb_spec k n).
  - rewrite Z.mul_pow2_bits_low by lia. destruct (Z.testbit b k); reflexivity.
  - destruct (Z.eq_dec b 0) as [->|Hb0].
    + rewrite Z.bits_0. destruct (Z.testbit (a * 2 ^ n) k); reflexivity.
    + rewrite (Z.bits_above_log2 b k).
      * destruct (Z.testbit (a * 2 ^ n) k); reflexivity.
      * lia.
      * apply Z.lt_le_trans with n; [|lia]. apply Z.log2_lt_pow2; lia.
Qed.

Lemma land15 : forall x, 0 <= x < 16 -> Z.land x 15 = x.
Proof. intros. change 15 with (Z.ones 4). rewrite Z.land_ones by lia. apply Z.mod_small. lia. Qed.

Lemma land255 : forall x, 0 <= x < 256 -> Z.land x 255 = x.
Proof. intros. change 255 with (Z.ones 8). rewrite Z.land_ones by lia. apply Z.mod_small. lia. Qed.

Definition fields (cf st bits ssw ssh : Z) : Prop :=
  0 <= cf < 16 /\ 0 <= st < 16 /\ 0 <= bits < 256 /\ 0 <= ssw < 256 /\ 0 <= ssh < 256.

Lemma pack_lor : forall cf st bits ssw ssh, fields cf st bits ssw ssh ->
  Z.lor (Z.lor (Z.lor (Z.lor (Z.shiftl (Z.land cf 15) 28) (Z.shiftl (Z.land st 15) 24))
                           (Z.shiftl (Z.land bits 255) 16))
                    (Z.shiftl (Z.land ssw 255) 8))
             (Z.shiftl (Z.land ssh 255) 0) = pack cf st bits ssw ssh.
Proof.
  intros cf st bits ssw ssh (A & B & C & D & E).
  rewrite !land15, !land255 by lia. rewrite Z.shiftl_0_r.
  rewrite <- !Z.lor_assoc.
  rewrite (lor_add ssw ssh 8) by lia.
  rewrite (lor_add bits _ 16) by lia.
  rewrite (lor_add st _ 24) by lia.
  rewrite (lor_add cf _ 28) by lia.
  unfold pack. change (2^28) with 268435456. change (2^24) with 16777216.
  change (2^16) with 65536. change (2^8) with 256. ring.
Qed.

Lemma unpack : forall cf st bits ssw ssh, fields cf st bits ssw ssh ->
  let id := pack cf st bits ssw ssh in
  Z.land (Z.shiftr id 28) 15 = cf /\ Z.land (Z.shiftr id 24) 15 = st /\
  Z.land (Z.shiftr id 16) 255 = bits /\ Z.land (Z.shiftr id 8) 255 = ssw /\
  Z.land (Z.shiftr id 0) 255 = ssh.
Proof.
  intros cf st bits ssw ssh (A & B & C & D & E). cbv zeta.
  change 15 with (Z.ones 4). change 255 with (Z.ones 8).
  rewrite !Z.land_ones by lia. rewrite !Z.shiftr_div_pow2 by lia. unfold pack.
  change (2^28) with 268435456. change (2^24) with 16777216.
  change (2^16) with 65536. change (2^8) with 256. change (2^0) with 1. change (2^4) with 16.
  repeat split; Z.to_euclidean_division_equations; lia.
Qed.

Lemma pack_unpack : forall id, 0 <= id < 2 ^ 32 ->
  let cf := Z.land (Z.shiftr id 28) 15 in let st := Z.land (Z.shiftr id 24) 15 in
  let bits := Z.land (Z.shiftr id 16) 255 in let ssw := Z.land (Z.shiftr id 8) 255 in
  let ssh := Z.land (Z.shiftr id 0) 255 in
  fields cf st bits ssw ssh /\ pack cf st bits ssw ssh = id.
Proof.
  intros id H. cbv zeta. unfold fields, pack.
  change 15 with (Z.ones 4). change 255 with (Z.ones 8).
  rewrite !Z.land_ones by lia. rewrite !Z.shiftr_div_pow2 by lia.
  change (2^28) with 268435456. change (2^24) with 16777216.
  change (2^16) with 65536. change (2^8) with 256. change (2^0) with 1. change (2^4) with 16.
  change (2^32) with 4294967296 in H.
  split; Z.to_euclidean_division_equations; lia.
Qed.

Lemma isV3ID_iff : forall id, 0 <= id < 2 ^ 32 ->
  isV3ID id = true <-> 0 < id < 2 ^ 24.
Proof.
  intros id H. unfold isV3ID.
  replace (Z.land id 16777215) with (id mod 2 ^ 24)
    by (change 16777215 with (Z.ones 24); rewrite Z.land_ones; lia).
  assert (E : Z.land id 4278190080 = id / 2 ^ 24 * 2 ^ 24).
  { apply Z.bits_inj'. intros k Hk. rewrite Z.land_spec.
    change 4278190080 with (Z.shiftl (Z.ones 8) 24).
    rewrite <- Z.shiftr_div_pow2, <- Z.shiftl_mul_pow2 by lia.
    destruct (Z.ltb_spec k 24).
    - rewrite !Z.shiftl_spec_low by lia. apply andb_false_r.
    - rewrite !Z.shiftl_spec by lia. rewrite Z.shiftr_spec by lia.
      replace (k - 24 + 24) with k by lia.
      destruct (Z.ltb_spec (k - 24) 8).
      + rewrite Z.ones_spec_low by lia. apply andb_true_r.
      + rewrite Z.ones_spec_high by lia.
        destruct (Z.eq_dec id 0) as [->|]; [rewrite Z.bits_0; reflexivity|].
        rewrite (Z.bits_above_log2 id k); [reflexivity|lia|].
        apply Z.lt_le_trans with 32; [|lia]. apply Z.log2_lt_pow2; lia. }
  rewrite E. change (2^24) with 16777216 in *. change (2^32) with 4294967296 in *.
  rewrite andb_true_iff, negb_true_iff, Z.eqb_eq, Z.eqb_neq.
  Z.to_euclidean_division_equations. lia.
Qed.

Lemma validP_fields : forall cf st bits ssw ssh, validP cf st bits ssw ssh ->
  fields cf st bits ssw ssh.
Proof.
  unfold validP, fields, cfGray, cfRGB, cfYUV, stInteger, stFloat. lia.
Qed.

Lemma queryID_pack : forall cf st bits ssw ssh, validP cf st bits ssw ssh ->
  queryVideoFormatID cf st bits ssw ssh = pack cf st bits ssw ssh.
Proof.
  intros cf st bits ssw ssh V. unfold queryVideoFormatID.
  assert (Hu : cf <> cfUndefined) by (unfold validP, cfGray, cfRGB, cfYUV, cfUndefined in *; lia).
  pose proof V as V'. apply isValid_iff in V'; [|exact Hu]. rewrite V'.
  apply Z.eqb_neq in Hu. rewrite Hu. cbn [negb orb].
  apply pack_lor. apply validP_fields; exact V.
Qed.

Definition fmtID (f : vfmt) : Z :=
  queryVideoFormatID (f_cf f) (f_st f) (f_bits f) (f_ssw f) (f_ssh f).

Lemma pack_range : forall cf st bits ssw ssh, fields cf st bits ssw ssh ->
  0 <= pack cf st bits ssw ssh < 2 ^ 32.
Proof. unfold fields, pack. intros. change (2^32) with 4294967296. lia. Qed.

Lemma id_roundtrip : forall r f, fmt_valid f ->
  0 < fmtID f < 2 ^ 32 /\ getVideoFormatByID r (fmtID f) = Some (true, f).
Proof.
  intros r f V. pose proof (valid_validP f V) as VP. unfold fmtID. rewrite queryID_pack by exact VP.
  pose proof (validP_fields _ _ _ _ _ VP) as F. pose proof (pack_range _ _ _ _ _ F) as R.
  assert (P : 2 ^ 28 <= pack (f_cf f) (f_st f) (f_bits f) (f_ssw f) (f_ssh f)).
  { destruct VP as (VP & _). unfold fields, pack, cfGray, cfRGB, cfYUV in *.
    change (2^28) with 268435456. lia. }
  split; [lia|].
  unfold getVideoFormatByID. destruct (isV3ID _) eqn:E3.
  - apply isV3ID_iff in E3; [|lia]. change (2^28) with (16 * 2^24) in P. lia.
  - destruct (unpack _ _ _ _ _ F) as (-> & -> & -> & -> & ->). apply query_exact. exact V.
Qed.

Lemma id_injective : forall f g, fmt_valid f -> fmt_valid g -> fmtID f = fmtID g -> f = g.
Proof.
  intros f g Vf Vg E.
  destruct (id_roundtrip reg0 f Vf) as (_ & A). destruct (id_roundtrip reg0 g Vg) as (_ & B).
  rewrite E in A. congruence.
Qed.

Lemma from_v3_sound : forall t f, VideoFormatFromV3 t = Some (true, f) ->
  f = undefFmt \/ fmt_valid f.
Proof.
  intros t f. unfold VideoFormatFromV3.
  assert (U : queryVideoFormat cfUndefined stInteger 0 0 0 = Some (true, f) -> f = undefFmt \/ fmt_valid f).
  { cbn. intro E; left; congruence. }
  destruct t as [t|]; [|exact U].
  destruct ((t_id t =? pfCompatBGR32) || (t_id t =? pfCompatYUY2)); [exact U|].
  destruct (ColorFamilyFromV3 (t_cf t)) as [cf|]; [|discriminate].
  intro E. destruct (query_sound _ _ _ _ _ _ E) as [(_ & ->)|V]; [left; reflexivity|right].
  destruct (query_valid _ _ _ _ _ V) as (g & Eg & Vg & _). congruence.
Qed.

Lemma accepted_sound : forall r id f, getVideoFormatByID r id = Some (true, f) ->
  f = undefFmt \/ fmt_valid f.
Proof.
  intros r id f. unfold getVideoFormatByID. destruct (isV3ID id); [apply from_v3_sound|].
  intro E. destruct (query_sound _ _ _ _ _ _ E) as [(_ & ->)|V]; [left; reflexivity|right].
  destruct (query_valid _ _ _ _ _ V) as (g & Eg & Vg & _). congruence.
Qed.

(** An identifier that is not an API 3 one is exactly reproduced. *)
Lemma accepted_id : forall r id f, 0 <= id < 2 ^ 32 -> isV3ID id = false ->
  getVideoFormatByID r id = Some (true, f) -> f <> undefFmt -> fmtID f = id.
Proof.
  intros r id f R N E Hu. unfold getVideoFormatByID in E. rewrite N in E.
  destruct (query_sound _ _ _ _ _ _ E) as [(_ & Q)|V]; [contradiction|].
  destruct (query_valid _ _ _ _ _ V) as (g & Eg & Vg & A & B & C & D & F).
  assert (g = f) by congruence. subst g.
  unfold fmtID. rewrite A, B, C, D, F. rewrite queryID_pack by exact V.
  apply (pack_unpack id R).
Qed.

(** Struct validity check. *)
Lemma isValidS_iff : forall f,
  isValidVideoFormatS f = true <-> fmt_valid f \/ f_cf f = cfUndefined /\ f_bytes f = 0 /\ f_np f = 0 /\
     isValidVideoFormat (f_cf f) (f_st f) (f_bits f) (f_ssw f) (f_ssh f) = true.
Proof.
  intros f. unfold isValidVideoFormatS.
  destruct (isValidVideoFormat (f_cf f) (f_st f) (f_bits f) (f_ssw f) (f_ssh f)) eqn:E; cbn [negb].
  2:{ split; [discriminate|]. intros [V|(_ & _ & _ & V)]; [|discriminate].
      pose proof (valid_validP f V) as VP. apply isValid_iff in VP; [congruence|].
      unfold validP, cfGray, cfRGB, cfYUV, cfUndefined in *. lia. }
  destruct (Z.eqb_spec (f_cf f) cfUndefined) as [U|U].
  - rewrite andb_true_iff, !Z.eqb_eq. split.
    + intros (A & B). right. auto.
    + intros [V|(_ & A & B & _)]; [|auto]. destruct V as (V & _).
      unfold cfGray, cfRGB, cfYUV, cfUndefined in *. lia.
  - apply isValid_iff in E; [|exact U].
    split.
    + intro H. left. destruct E as (E1 & E2 & E3). unfold fmt_valid, storage.
      unfold cfGray, cfRGB, cfYUV, cfUndefined, stInteger, stFloat in *.
      revert H. repeat step1; intro H; try discriminate H;
      repeat rewrite ?andb_true_iff, ?andb_false_iff, ?orb_true_iff, ?orb_false_iff,
        ?negb_true_iff, ?negb_false_iff, ?Z.eqb_eq, ?Z.eqb_neq, ?Z.ltb_lt, ?Z.ltb_ge,
        ?Z.leb_le, ?Z.leb_gt in *;
      (split; [lia|split; [lia|split; [split; [lia|split; [lia|intros; lia]]|split; lia]]]).
    + intros [(V1 & V2 & (V3 & V4 & V5) & V6 & V7)|(A & _)]; [|contradiction].
      pose proof (V5 1). pose proof (V5 2). pose proof (V5 4).
      unfold cfGray, cfRGB, cfYUV, cfUndefined, stInteger, stFloat in *.
      repeat step1; try reflexivity; exfalso;
      repeat rewrite ?andb_true_iff, ?andb_false_iff, ?orb_true_iff, ?orb_false_iff,
        ?negb_true_iff, ?negb_false_iff, ?Z.eqb_eq, ?Z.eqb_neq, ?Z.ltb_lt, ?Z.ltb_ge,
        ?Z.leb_le, ?Z.leb_gt in *; lia.
Qed.

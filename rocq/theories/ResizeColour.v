(** The colour descriptions of the resize filters. *)
From Coq Require Import String.
From Coq Require Import ZArith List Lia Bool.
From Coq Require Import SpecFloat.
From Verif Require Import Common FormatSpec Format Frame SMap MapSpec MapAlias PropsSpec Props PropsLemmas ImageSpec PlaneMem Spatial Rational Soft ClipProp Blank ResizeSpec Resize.
Import ListNotations.
Local Open Scope string_scope.
Local Open Scope list_scope.
Open Scope Z_scope.

(** ** Reading properties *)

Definition plainKey (k : string) : Prop := remapColorRange k = k /\ isCR k = false.
Ltac plain := split; reflexivity.

Lemma aNum_entry : forall m k, plainKey k -> aNum m k = match entry m k with Some (_, l) => zlength l | None => -1 end.
Proof. intros m k [R _]. unfold aNum. rewrite R. reflexivity. Qed.
Lemma aGet_entry : forall m k, legal m -> plainKey k ->
  aGetInt m k 0 = match entry m k with Some (ptInt, VInt z :: _) => Some z | _ => None end.
Proof.
  intros m k (_ & E & L) [_ R]. unfold aGetInt, lookup_at. rewrite R, E. unfold entry. destruct (mget k (pm m)) as [[t l]|] eqn:G; [|reflexivity].
  apply mget_in in G. destruct (L k t l G) as [_ F]. destruct l as [|v r]; [destruct t; reflexivity|].
  cbn. inversion F; subst. destruct v as [| | | |a|a]; try destruct a; cbn; reflexivity.
Qed.
Lemma zlength_pos : forall A (x : A) l, 0 <? zlength (x :: l) = true.
Proof. intros. unfold zlength. apply Z.ltb_lt. cbn. lia. Qed.

Lemma read_int : forall P m k, legal m -> plainKey k -> intProp P m k ->
  (0 <? aNum m k) = false /\ propOf m k = None \/
  (0 <? aNum m k) = true /\ exists z, propOf m k = Some z /\ getFatal m k = Ok z /\ P z.
Proof.
  intros P m k L K I. unfold getFatal. rewrite (aNum_entry m k K), (aGet_entry m k L K). unfold propOf.
  destruct (entry m k) as [[t l]|] eqn:E; [|left; split; reflexivity].
  destruct (I _ E) as (zs & Q & Pz). injection Q as -> ->. destruct zs as [|z r]; [left; split; reflexivity|].
  right. split; [apply zlength_pos|]. exists z. cbn. repeat split; auto. exact (Pz z r eq_refl).
Qed.

Lemma valid_ok : forall m k pred old, legal m -> plainKey k -> intProp in32 m k ->
  propGetIfValid m k pred old = Ok (firstOf [keepIf pred (propOf m k)] old).
Proof.
  intros m k pred old L K I. unfold propGetIfValid. destruct (read_int in32 m k L K I) as [[-> ->]|[-> (z & -> & -> & B)]]; [reflexivity|].
  cbn [obind]. replace (in_intb z) with true by (symmetry; apply in_intb_spec; exact B). cbn. destruct (pred z); reflexivity.
Qed.
Lemma range_ok : forall m old, legal m -> intProp (fun z => z = 0 \/ z = 1) m "_Range" -> importRange m old = Ok (firstOf [propOf m "_Range"] old).
Proof.
  intros m old L I. unfold importRange. destruct (read_int _ m "_Range" L ltac:(plain) I) as [[-> ->]|[-> (z & -> & -> & [B|B])]]; try reflexivity; subst; reflexivity.
Qed.
Definition parityOf (m : pmap) (old : Z) : Z := match propOf m "_Field" with Some z => if z =? 0 then 2 else 1 | None => old end.
Lemma field_ok : forall m old, legal m -> intProp (fun z => z = 0 \/ z = 1) m "_Field" -> intProp (fun z => z = 0 \/ z = 1 \/ z = 2) m "_FieldBased" ->
  importField m old = Ok (parityOf m old, interlacedFrame m).
Proof.
  intros m old L I J. unfold importField, parityOf, interlacedFrame.
  destruct (read_int _ m "_Field" L ltac:(plain) I) as [[-> ->]|[-> (z & -> & -> & [B|B])]]; try (subst; reflexivity).
  destruct (read_int _ m "_FieldBased" L ltac:(plain) J) as [[-> ->]|[-> (z & -> & -> & [B|[B|B]])]]; try reflexivity; subst; reflexivity.
Qed.

Definition imported (m : pmap) (z : zfmt) : zfmt :=
  let c := z_col z in
  let z1 := setParity (setCol z (mkCol (firstOf [specified (propOf m "_Matrix")] (c_matrix c)) (firstOf [specified (propOf m "_Transfer")] (c_transfer c))
     (firstOf [specified (propOf m "_Primaries")] (c_primaries c)) (firstOf [propOf m "_Range"] (c_range c))
     (firstOf [keepIf (fun z => 0 <=? z) (propOf m "_ChromaLocation")] (c_chroma c)))) (parityOf m (z_parity z)) in
  if interlacedFrame m then setRegion z1 (mkReg (r_left (z_region z)) (half (r_top (z_region z))) (r_width (z_region z)) (half (r_height (z_region z)))) else z1.
Lemma import_ok : forall m z, legal m -> meaningful m -> importProps m z = Ok (imported m z, interlacedFrame m).
Proof.
  intros m z L (I1 & I2 & I3 & I4 & I5 & I6 & I7 & _). unfold importProps.
  rewrite valid_ok by (auto; plain). cbn [obind]. rewrite range_ok by auto. cbn [obind].
  rewrite !valid_ok by (auto; plain). cbn [obind].
  rewrite field_ok by auto. cbn [obind fst snd]. unfold imported, specified. reflexivity.
Qed.

(** ** Descriptions of a frame *)

Definition zfamily (f : vfmt) : Z := f_cf f - 1.
Lemma translate_inv : forall f w h r z, fmt_valid f -> translate f w h r = Ok z ->
  z_w z = w /\ z_h z = h /\ z_ssw z = f_ssw f /\ z_ssh z = f_ssh f /\ z_cf z = zfamily f /\ z_parity z = 0 /\ z_region z = r /\ z_depth z = f_bits f /\ pixelType f = Ok (z_type z) /\
  z_col z = mkCol (if isRGB f then 0 else 2) 2 2 (if isRGB f then 1 else 0) (if subsampled f then 0 else 1).
Proof.
  intros f w h r z (C & _ & _ & SS & _) T. unfold translate, familyOf in T. unfold isRGB, subsampled, zfamily.
  unfold cfGray, cfRGB, cfYUV in *.
  destruct (pixelType f) as [t| |] eqn:PT; [| |].
  2,3: destruct C as [C|[C|C]]; rewrite C in T; cbn in T; rewrite ?PT in T; discriminate.
  destruct C as [C|[C|C]]; rewrite C in *; cbn in T; injection T as <-; cbn; repeat split; try reflexivity.
  - destruct SS as [(X & _)|(_ & X & Y)]; [discriminate|]. rewrite X, Y. reflexivity.
  - destruct SS as [(X & _)|(_ & X & Y)]; [discriminate|]. rewrite X, Y. reflexivity.
  - destruct (f_ssw f =? 0), (f_ssh f =? 0); reflexivity.
Qed.
Lemma translate_ok : forall f w h r, fmt_valid f -> pixelType f <> Err -> exists z, translate f w h r = Ok z.
Proof.
  intros f w h r (C & _) P. unfold translate, familyOf. unfold cfGray, cfRGB, cfYUV in *.
  destruct (pixelType f) as [t| |] eqn:PT; [| contradiction |].
  - destruct C as [C|[C|C]]; rewrite C; cbn; eexists; reflexivity.
  - unfold pixelType in PT. destruct (_ && _); [discriminate|]. destruct (_ && _); [discriminate|]. destruct (_ && _); [discriminate|]. destruct (_ && _); discriminate.
Qed.

Definition dstW (d : rdata) (src : rframe) : Z := if rd_w d =? 0 then rf_w src else wrapu32 (rd_w d).
Definition dstH (d : rdata) (src : rframe) : Z := if rd_bob d then wrapu32 (rf_h src * 2) else if rd_h d =? 0 then rf_h src else wrapu32 (rd_h d).

Lemma region_of : forall m z, z_region (imported m z) = if interlacedFrame m then mkReg (r_left (z_region z)) (half (r_top (z_region z))) (r_width (z_region z)) (half (r_height (z_region z))) else z_region z.
Proof. intros. unfold imported. destruct (interlacedFrame m); reflexivity. Qed.
Lemma imported_rest : forall m z, z_w (imported m z) = z_w z /\ z_h (imported m z) = z_h z /\ z_type (imported m z) = z_type z /\ z_ssw (imported m z) = z_ssw z /\ z_ssh (imported m z) = z_ssh z /\
  z_cf (imported m z) = z_cf z /\ z_depth (imported m z) = z_depth z /\ z_parity (imported m z) = parityOf m (z_parity z) /\
  z_col (imported m z) = mkCol (firstOf [specified (propOf m "_Matrix")] (c_matrix (z_col z))) (firstOf [specified (propOf m "_Transfer")] (c_transfer (z_col z)))
     (firstOf [specified (propOf m "_Primaries")] (c_primaries (z_col z))) (firstOf [propOf m "_Range"] (c_range (z_col z)))
     (firstOf [keepIf (fun z => 0 <=? z) (propOf m "_ChromaLocation")] (c_chroma (z_col z))).
Proof. intros. unfold imported. destruct (interlacedFrame m); cbn; repeat split; reflexivity. Qed.

Lemma first_or : forall a b d, firstOf [a] (orGiven b d) = firstOf [a; b] d.
Proof. intros [a|] [b|] d; reflexivity. Qed.
Lemma or_first : forall b d, orGiven b d = firstOf [b] d.
Proof. intros [b|] d; reflexivity. Qed.

(** The two descriptions are those of the documentation. *)
Lemma describe_ok : forall d src s t i, legal (rf_props src) -> meaningful (rf_props src) -> fmt_valid (rf_fmt src) -> fmt_valid (dstFormat d src) ->
  describe d src = Ok (s, t, i) ->
  i = interlacedFrame (rf_props src) /\
  z_w s = rf_w src /\ z_h s = rf_h src /\ z_w t = dstW d src /\ z_h t = dstH d src /\
  z_cf s = zfamily (rf_fmt src) /\ z_cf t = zfamily (dstFormat d src) /\
  z_ssw s = f_ssw (rf_fmt src) /\ z_ssh s = f_ssh (rf_fmt src) /\ z_ssw t = f_ssw (dstFormat d src) /\ z_ssh t = f_ssh (dstFormat d src) /\
  z_depth s = f_bits (rf_fmt src) /\ z_depth t = f_bits (dstFormat d src) /\ pixelType (rf_fmt src) = Ok (z_type s) /\ pixelType (dstFormat d src) = Ok (z_type t) /\
  z_parity s = parityOf (rf_props src) 0 /\ z_parity t = (if rd_bob d then 0 else z_parity s) /\
  z_region s = (if i then mkReg (r_left (rd_region d)) (half (r_top (rd_region d))) (r_width (rd_region d)) (half (r_height (rd_region d))) else rd_region d) /\ z_region t = noRegion /\
  z_col s = inputColour (rf_fmt src) (rd_in d) (rf_props src) /\
  z_col t = outputColour (dstFormat d src) (rd_out d) (rf_fmt src) (z_col s) /\
  (rd_bob d = true -> i = false /\ z_parity s <> 0).
Proof.
  intros d src s t i L M VS VD D. unfold describe in D.
  destruct (translate (rf_fmt src) (rf_w src) (rf_h src) (rd_region d)) as [s0| |] eqn:TS; cbn [obind] in D; try discriminate.
  destruct (translate (dstFormat d src) _ _ noRegion) as [d0| |] eqn:TD; cbn [obind] in D; try discriminate.
  rewrite import_ok in D by auto. cbn [obind fst snd] in D.
  destruct (translate_inv _ _ _ _ _ VS TS) as (S1 & S2 & S3 & S4 & S5 & S6 & S7 & S8 & S9 & S10).
  destruct (translate_inv _ _ _ _ _ VD TD) as (D1 & D2 & D3 & D4 & D5 & D6 & D7 & D8 & D9 & D10).
  set (si := imported (rf_props src) (setParams (rd_in d) s0)) in *.
  destruct (imported_rest (rf_props src) (setParams (rd_in d) s0)) as (A1 & A2 & A3 & A4 & A5 & A6 & A7 & A8 & A9). fold si in A1, A2, A3, A4, A5, A6, A7, A8, A9.
  pose proof (region_of (rf_props src) (setParams (rd_in d) s0)) as AR. fold si in AR.
  cbn in A1, A2, A3, A4, A5, A6, A7, A8, AR. cbn [setParams setCol z_col] in A9. rewrite S10 in A9. cbn in A9.
  assert (CS : z_col si = inputColour (rf_fmt src) (rd_in d) (rf_props src)).
  { rewrite A9. unfold inputColour. rewrite !or_first.
    reflexivity. }
  assert (CT : z_col (setDst (rd_out d) si d0) = outputColour (dstFormat d src) (rd_out d) (rf_fmt src) (z_col si)).
  { unfold setDst, outputColour. cbn. rewrite !or_first, D10, D5, A6, S5. cbn. unfold hasSub. rewrite D3, D4, A4, A5, S3, S4.
    unfold sameFamily, isRGB, subsampled, zfamily.
    replace (f_cf (dstFormat d src) - 1 =? f_cf (rf_fmt src) - 1) with (f_cf (dstFormat d src) =? f_cf (rf_fmt src)) by (destruct (Z.eqb_spec (f_cf (dstFormat d src)) (f_cf (rf_fmt src))), (Z.eqb_spec (f_cf (dstFormat d src) - 1) (f_cf (rf_fmt src) - 1)); try reflexivity; lia).
    replace (f_cf (dstFormat d src) - 1 =? 2) with (f_cf (dstFormat d src) =? cfYUV) by (unfold cfYUV; destruct (Z.eqb_spec (f_cf (dstFormat d src)) 3), (Z.eqb_spec (f_cf (dstFormat d src) - 1) 2); try reflexivity; lia).
    f_equal.
    - destruct (f_cf (dstFormat d src) =? cfRGB); reflexivity.
    - f_equal. destruct (Z.eqb_spec (f_cf (dstFormat d src)) cfYUV) as [EY|NY]; cbn.
      + destruct (negb ((f_ssw (dstFormat d src) =? 0) && (f_ssh (dstFormat d src) =? 0))) eqn:SD; cbn.
        * destruct (Z.eqb_spec (f_cf (dstFormat d src)) (f_cf (rf_fmt src))) as [ES|NS]; cbn.
          -- rewrite <- ES, EY. rewrite Z.eqb_refl. cbn.
             replace (negb (f_ssw (dstFormat d src) =? 0) || negb (f_ssh (dstFormat d src) =? 0)) with true by (symmetry; rewrite <- negb_andb; exact SD).
             cbn. rewrite <- negb_andb. destruct (negb ((f_ssw (rf_fmt src) =? 0) && (f_ssh (rf_fmt src) =? 0))); reflexivity.
          -- destruct (Z.eqb_spec (f_cf (rf_fmt src)) cfYUV); [congruence|reflexivity].
        * rewrite <- negb_andb, SD. cbn. rewrite andb_false_r. reflexivity.
      + rewrite andb_false_r. reflexivity. }
  unfold dstW, dstH.
  destruct (rd_bob d) eqn:BB.
  - destruct (interlacedFrame (rf_props src) || (z_parity si =? 0)) eqn:FF; [discriminate|]. injection D as <- <- <-.
    apply orb_false_iff in FF. destruct FF as [FF1 FF2].
    split; [reflexivity|]. split; [congruence|]. split; [congruence|]. split; [exact D1|].
    split; [cbn; rewrite A2, S2; reflexivity|]. split; [congruence|]. split; [exact D5|].
    split; [congruence|]. split; [congruence|]. split; [exact D3|]. split; [exact D4|]. split; [congruence|]. split; [exact D8|]. split; [rewrite A3; exact S9|]. split; [exact D9|].
    split; [rewrite A8, S6; reflexivity|]. split; [reflexivity|]. split; [rewrite AR, S7, FF1; reflexivity|]. split; [exact D7|].
    split; [exact CS|]. split; [exact CT|]. intros _. split; [exact FF1|]. apply Z.eqb_neq. exact FF2.
  - injection D as <- <- <-.
    split; [reflexivity|]. split; [congruence|]. split; [congruence|]. split; [exact D1|].
    split; [exact D2|]. split; [congruence|]. split; [exact D5|].
    split; [congruence|]. split; [congruence|]. split; [exact D3|]. split; [exact D4|]. split; [congruence|]. split; [exact D8|]. split; [rewrite A3; exact S9|]. split; [exact D9|].
    split; [rewrite A8, S6; reflexivity|]. split; [reflexivity|]. split; [rewrite AR, S7; reflexivity|]. split; [exact D7|].
    split; [exact CS|]. split; [exact CT|]. discriminate.
Qed.

(** ** Writing properties *)

Definition identOk (k : string) : Prop := identifier k = true /\ isCR k = false /\ String.eqb k "_ColorRange" = false.
Ltac ident := repeat split; reflexivity.
Lemma set_entry : forall m k z k', legal m -> identOk k -> legal (aSetInt m k z MReplace) /\ entry (aSetInt m k z MReplace) k' = if String.eqb k' k then Some (ptInt, [VInt z]) else entry m k'.
Proof.
  intros m k z k' L (I & C & _). unfold aSetInt. rewrite C. unfold set_value. rewrite I. cbn [negb keepOr]. split.
  - apply legal_put; auto.
  - apply entry_put.
Qed.
Lemma del_entry : forall m k k', legal m -> identOk k -> legal (aDelete m k) /\ entry (aDelete m k) k' = if String.eqb k' k then None else entry m k'.
Proof.
  intros m k k' L (I & C & E). split; [apply legal_aDelete; exact L|]. rewrite entry_aDelete by exact L. rewrite E. cbn. rewrite orb_false_r. reflexivity.
Qed.
Lemma cond_entry : forall (b : bool) m k z k', legal m -> identOk k ->
  legal (if b then aSetInt m k z MReplace else aDelete m k) /\ entry (if b then aSetInt m k z MReplace else aDelete m k) k' = if String.eqb k' k then recorded b z else entry m k'.
Proof. intros [] m k z k' L I; [apply set_entry|apply del_entry]; auto. Qed.

Definition subz (z : zfmt) : bool := (z_cf z =? 2) && (negb (z_ssw z =? 0) || negb (z_ssh z =? 0)).
Definition rangeOk (r : Z) : bool := (r =? 0) || (r =? 1).
Lemma export_entries : forall z m, legal m -> legal (exportProps z m) /\ forall k,
  entry (exportProps z m) k =
    if String.eqb k "_Primaries" then recorded (0 <=? c_primaries (z_col z)) (c_primaries (z_col z))
    else if String.eqb k "_Transfer" then recorded (0 <=? c_transfer (z_col z)) (c_transfer (z_col z))
    else if String.eqb k "_Matrix" then recorded (0 <=? c_matrix (z_col z)) (c_matrix (z_col z))
    else if String.eqb k "_Range" then recorded (rangeOk (c_range (z_col z))) (c_range (z_col z))
    else if String.eqb k "_ChromaLocation" then recorded (subz z) (c_chroma (z_col z))
    else entry m k.
Proof.
  intros z m L. unfold exportProps, setIntIfPositive. cbv zeta. fold (subz z).
  assert (E1 : forall k, legal (if subz z then aSetInt m "_ChromaLocation" (c_chroma (z_col z)) MReplace else aDelete m "_ChromaLocation") /\
     entry (if subz z then aSetInt m "_ChromaLocation" (c_chroma (z_col z)) MReplace else aDelete m "_ChromaLocation") k = if String.eqb k "_ChromaLocation" then recorded (subz z) (c_chroma (z_col z)) else entry m k).
  { intros k. apply cond_entry; [exact L|ident]. }
  destruct (E1 "") as [L1 _].
  set (m1 := if subz z then aSetInt m "_ChromaLocation" (c_chroma (z_col z)) MReplace else aDelete m "_ChromaLocation") in *.
  assert (E2 : forall k, legal (if c_range (z_col z) =? 1 then aSetInt m1 "_Range" 1 MReplace else if c_range (z_col z) =? 0 then aSetInt m1 "_Range" 0 MReplace else aDelete m1 "_Range") /\
     entry (if c_range (z_col z) =? 1 then aSetInt m1 "_Range" 1 MReplace else if c_range (z_col z) =? 0 then aSetInt m1 "_Range" 0 MReplace else aDelete m1 "_Range") k = if String.eqb k "_Range" then recorded (rangeOk (c_range (z_col z))) (c_range (z_col z)) else entry m1 k).
  { intros k. unfold rangeOk. destruct (Z.eqb_spec (c_range (z_col z)) 1) as [->|N1]; [apply set_entry; [exact L1|ident]|].
    destruct (Z.eqb_spec (c_range (z_col z)) 0) as [->|N0]; [apply set_entry; [exact L1|ident]|]. cbn [orb]. apply del_entry; [exact L1|ident]. }
  destruct (E2 "") as [L2 _].
  set (m2 := if c_range (z_col z) =? 1 then aSetInt m1 "_Range" 1 MReplace else if c_range (z_col z) =? 0 then aSetInt m1 "_Range" 0 MReplace else aDelete m1 "_Range") in *.
  assert (E3 : forall k, _) by (intros k; exact (cond_entry (0 <=? c_matrix (z_col z)) m2 "_Matrix" (c_matrix (z_col z)) k L2 ltac:(ident))).
  destruct (E3 "") as [L3 _]. set (m3 := if 0 <=? c_matrix (z_col z) then aSetInt m2 "_Matrix" (c_matrix (z_col z)) MReplace else aDelete m2 "_Matrix") in *.
  assert (E4 : forall k, _) by (intros k; exact (cond_entry (0 <=? c_transfer (z_col z)) m3 "_Transfer" (c_transfer (z_col z)) k L3 ltac:(ident))).
  destruct (E4 "") as [L4 _]. set (m4 := if 0 <=? c_transfer (z_col z) then aSetInt m3 "_Transfer" (c_transfer (z_col z)) MReplace else aDelete m3 "_Transfer") in *.
  assert (E5 : forall k, _) by (intros k; exact (cond_entry (0 <=? c_primaries (z_col z)) m4 "_Primaries" (c_primaries (z_col z)) k L4 ltac:(ident))).
  split; [exact (proj1 (E5 ""))|]. intros k. rewrite (proj2 (E5 k)), (proj2 (E4 k)), (proj2 (E3 k)), (proj2 (E2 k)), (proj2 (E1 k)). reflexivity.
Qed.

Lemma export_describes : forall z m f, legal m -> subz z = subsampled f -> describes f (z_col z) (exportProps z m).
Proof.
  intros z m f L S. destruct (export_entries z m L) as [_ E]. unfold describes. rewrite !E. rewrite <- S. cbn. repeat split; reflexivity.
Qed.
Lemma export_other : forall z m k, legal m -> ~ In k colourKeys -> entry (exportProps z m) k = entry m k.
Proof.
  intros z m k L N. destruct (export_entries z m L) as [_ E]. rewrite E. unfold colourKeys in N. cbn in N.
  destruct (String.eqb_spec k "_Primaries"); [subst; tauto|]. destruct (String.eqb_spec k "_Transfer"); [subst; tauto|].
  destruct (String.eqb_spec k "_Matrix"); [subst; tauto|]. destruct (String.eqb_spec k "_Range"); [subst; tauto|].
  destruct (String.eqb_spec k "_ChromaLocation"); [subst; tauto|]. reflexivity.
Qed.
Lemma subz_fmt : forall z f, z_cf z = zfamily f -> z_ssw z = f_ssw f -> z_ssh z = f_ssh f -> subz z = subsampled f.
Proof.
  intros z f A B C. unfold subz, subsampled. rewrite A, B, C, negb_andb. f_equal. unfold zfamily, cfYUV.
  destruct (Z.eqb_spec (f_cf f) 3), (Z.eqb_spec (f_cf f - 1) 2); try reflexivity; lia.
Qed.

Lemma sar_other : forall sm dm s d m, legal dm -> propagateSar sm dm s d = Ok m -> legal m /\ forall k, ~ In k sarKeys -> entry m k = entry dm k.
Proof.
  intros sm dm s d m L P. unfold propagateSar in P.
  destruct (readSar sm "_SARNum") as [n| |]; cbn [obind] in P; try discriminate.
  destruct (readSar sm "_SARDen") as [e| |]; cbn [obind] in P; try discriminate.
  destruct ((n <=? 0) || (e <=? 0)).
  - injection P as <-. destruct (del_entry dm "_SARNum" "" L ltac:(ident)) as [L1 _]. split; [exact (proj1 (del_entry _ "_SARDen" "" L1 ltac:(ident)))|].
    intros k N. rewrite (proj2 (del_entry _ "_SARDen" k L1 ltac:(ident))), (proj2 (del_entry dm "_SARNum" k L ltac:(ident))).
    cbn in N. destruct (String.eqb_spec k "_SARDen"); [subst; tauto|]. destruct (String.eqb_spec k "_SARNum"); [subst; tauto|]. reflexivity.
  - destruct (sarWidth s d (n, e)) as [q| |]; cbn [obind] in P; try discriminate.
    destruct (sarHeight s d q) as [q'| |]; cbn [obind] in P; try discriminate. injection P as <-.
    destruct (set_entry dm "_SARNum" (fst q') "" L ltac:(ident)) as [L1 _]. split; [exact (proj1 (set_entry _ "_SARDen" (snd q') "" L1 ltac:(ident)))|].
    intros k N. rewrite (proj2 (set_entry _ "_SARDen" (snd q') k L1 ltac:(ident))), (proj2 (set_entry dm "_SARNum" (fst q') k L ltac:(ident))).
    cbn in N. destruct (String.eqb_spec k "_SARDen"); [subst; tauto|]. destruct (String.eqb_spec k "_SARNum"); [subst; tauto|]. reflexivity.
Qed.

(** The properties of a resized frame. *)
Lemma resize_describes : forall build al g env d src c r c', legal (rf_props src) -> meaningful (rf_props src) -> fmt_valid (rf_fmt src) -> fmt_valid (dstFormat d src) ->
  resizeFrame build al g env d src c = (Ok r, c') ->
  legal (rf_props r) /\
  describes (dstFormat d src) (outputColour (dstFormat d src) (rd_out d) (rf_fmt src) (inputColour (rf_fmt src) (rd_in d) (rf_props src))) (rf_props r) /\
  (forall k, ~ In k colourKeys -> ~ In k sarKeys -> entry (rf_props r) k = entry (rf_props src) k).
Proof.
  intros build al g env d src c r c' L M VS VD R. unfold resizeFrame in R.
  destruct (describe d src) as [[[s t] i]| |] eqn:D; try discriminate.
  destruct (describe_ok d src s t i L M VS VD D) as (_ & _ & _ & _ & _ & _ & TC & _ & _ & TW & TH & _ & _ & _ & _ & _ & _ & _ & _ & CS & CT & _).
  rewrite CS in CT. assert (SU := subz_fmt t (dstFormat d src) TC TW TH).
  destruct (zeqb s t && sameFormat (rf_fmt src) (dstFormat d src) && negb (isShifted s)).
  - injection R as <- <-. cbn [rf_props]. split; [exact (proj1 (export_entries t _ L))|]. split.
    + rewrite <- CT. apply export_describes; auto.
    + intros k N _. apply export_other; auto.
  - destruct (convert build al g env src (dstFormat d src) s t i c) as [[pl| |] c1]; try discriminate.
    destruct (propagateSar (rf_props src) (rf_props src) s t) as [m| |] eqn:PS; cbn [obind] in R; try discriminate.
    injection R as <- <-. destruct (sar_other _ _ _ _ _ L PS) as [L1 O]. cbn [rf_props].
    split; [exact (proj1 (export_entries t _ L1))|]. split.
    + rewrite <- CT. apply export_describes; auto.
    + intros k N N2. rewrite export_other by auto. apply O; auto.
Qed.

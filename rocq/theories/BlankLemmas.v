(** BlankClip and AssumeFPS. *)
From Coq Require Import String.
From Coq Require Import ZArith List Lia Bool.
From Coq Require Import SpecFloat.
From Verif Require Import Common FormatSpec Format FormatLemmas FrameSpec FrameGeom Frame ImageSpec PlaneMem Spatial SpatialLemmas SpatialFrames Rational Soft SoftNum Half HalfLemmas ClipProp BlankSpec Blank BlankNum.
Import ListNotations.
Local Open Scope list_scope.
Open Scope Z_scope.

(** Reduced fractions. *)
Lemma reduce_ok : forall n d, 0 < n <= INT64_MAX -> 0 < d <= INT64_MAX -> exists n' d', reduceRational n d = Ok (n', d') /\ goodRate n' d' /\ sameRate n d n' d' /\ 0 < n' <= n /\ 0 < d' <= d.
Proof.
  intros n d N D. destruct (muldivRational_spec n d 1 1) as (n' & d' & E & P & G & S & NZ); try (unfold INT64_MIN, INT64_MAX in *; lia).
  exists n', d'. split; [exact E|]. rewrite !Z.mul_1_r in *. assert (0 < d') by (apply Z.sgn_pos_iff; rewrite S; apply Z.sgn_pos; lia). assert (0 < n') by (apply Z.mul_pos_cancel_r with d; [lia|]; rewrite P; apply Z.mul_pos_pos; lia).
  split; [right; auto|]. split; [unfold sameRate; lia|].
  assert (DN : (n' | n)). { apply Z.gauss with d'; [|exact G]. exists d. lia. }
  assert (DD : (d' | d)). { apply Z.gauss with n'; [|rewrite Z.gcd_comm; exact G]. exists n. lia. }
  apply Z.divide_pos_le in DN; [|lia]. apply Z.divide_pos_le in DD; [|lia]. lia.
Qed.
Lemma reduce_id : forall n d, 0 < n <= INT64_MAX -> 0 < d <= INT64_MAX -> Z.gcd n d = 1 -> reduceRational n d = Ok (n, d).
Proof.
  intros n d N D G. destruct (reduce_ok n d N D) as (n' & d' & E & GR & S & N' & D'). rewrite E. unfold sameRate in S. destruct GR as [GR|(_ & _ & G')]; [lia|].
  assert (DN : (n | n')). { apply Z.gauss with d; [|exact G]. exists d'. lia. } assert (DD : (d | d')). { apply Z.gauss with n; [|rewrite Z.gcd_comm; exact G]. exists n'. lia. }
  apply Z.divide_pos_le in DN; [|lia]. apply Z.divide_pos_le in DD; [|lia]. replace n' with n by lia. replace d' with d by lia. reflexivity.
Qed.
Lemma reduce_zero : forall n, reduceRational n 0 = Ok (n, 0).
Proof. reflexivity. Qed.

(** Descriptions. *)
Lemma info_sound : forall v, INT64_MIN < fst (cv_fps v) <= INT64_MAX -> INT64_MIN < snd (cv_fps v) <= INT64_MAX -> isValidVideoInfo v = Ok true ->
  goodFormat (cv_fmt v) /\ goodSize (cv_w v) (cv_h v) /\ 1 <= cv_n v /\ 0 <= fst (cv_fps v) /\ 0 <= snd (cv_fps v) /\ (0 < fst (cv_fps v) -> 0 < snd (cv_fps v) -> goodRate (fst (cv_fps v)) (snd (cv_fps v))).
Proof.
  intros [f w h n (a & b)] A B. unfold isValidVideoInfo. cbn [cv_fmt cv_w cv_h cv_n cv_fps fst snd] in *. destruct (isValidVideoFormatS f) eqn:F; cbn [negb]; [|discriminate].
  destruct (Z.ltb_spec b 0); [discriminate|]. destruct (Z.ltb_spec a 0); [discriminate|]. destruct (Z.ltb_spec h 0); [discriminate|]. destruct (Z.ltb_spec w 0); [discriminate|]. destruct (Z.ltb_spec n 1); [discriminate|]. cbn [orb]. intros E.
  destruct (reduceRational a b) as [q| |] eqn:R; try discriminate. cbn [obind] in E. destruct (Z.eqb_spec (fst q) a) as [Q1|]; [|discriminate]. destruct (Z.eqb_spec (snd q) b) as [Q2|]; [|discriminate]. cbn [negb orb] in E.
  split; [apply isValidS_iff in F; unfold goodFormat; tauto|]. split.
  { unfold goodSize. destruct (Z.eqb_spec h 0), (Z.eqb_spec w 0); try discriminate E; lia. }
  repeat (split; [lia|]). intros P1 P2. destruct (reduce_ok a b ltac:(lia) ltac:(lia)) as (n' & d' & R' & GR & _). rewrite R in R'. assert (QE : q = (n', d')) by congruence. rewrite QE in Q1, Q2. cbn [fst snd] in Q1, Q2. rewrite <- Q1, <- Q2. exact GR.
Qed.
Lemma undef_ok : isValidVideoFormatS undefFmt = true.
Proof. reflexivity. Qed.
Lemma info_complete : forall v, fst (cv_fps v) <= INT64_MAX -> snd (cv_fps v) <= INT64_MAX -> cv_fmt v = undefFmt \/ fmt_valid (cv_fmt v) -> goodSize (cv_w v) (cv_h v) -> 1 <= cv_n v -> goodRate (fst (cv_fps v)) (snd (cv_fps v)) -> isValidVideoInfo v = Ok true.
Proof.
  intros [f w h n (a & b)] A B F S N R. unfold isValidVideoInfo. cbn [cv_fmt cv_w cv_h cv_n cv_fps fst snd] in *.
  replace (isValidVideoFormatS f) with true; [cbn [negb]|destruct F as [->|F]; [reflexivity|symmetry; apply isValidS_iff; left; exact F]].
  assert (0 <= a /\ 0 <= b) by (destruct R as [|]; lia). assert (0 <= w /\ 0 <= h) by (destruct S as [|]; lia).
  destruct (Z.ltb_spec b 0); [lia|]. destruct (Z.ltb_spec a 0); [lia|]. destruct (Z.ltb_spec h 0); [lia|]. destruct (Z.ltb_spec w 0); [lia|]. destruct (Z.ltb_spec n 1); [lia|]. cbn [orb].
  assert (RR : reduceRational a b = Ok (a, b)). { destruct R as [(-> & ->)|(P1 & P2 & G)]; [reflexivity|apply reduce_id; auto]. }
  rewrite RR. cbn [obind fst snd]. rewrite !Z.eqb_refl. cbn [negb orb]. f_equal. destruct S as [(-> & ->)|S]; [reflexivity|]. destruct (Z.eqb_spec h 0), (Z.eqb_spec w 0); try lia. reflexivity.
Qed.
Lemma info_rate_refuted : exists v, isValidVideoInfo v = Ok true /\ ~ goodRate (fst (cv_fps v)) (snd (cv_fps v)).
Proof. exists (mkCV rgb24 640 480 10 (24, 0)). split; [vm_compute; reflexivity|]. cbn. unfold goodRate. lia. Qed.
Lemma info_rate_refuted2 : isValidVideoInfo (mkCV rgb24 640 480 10 (0, 1)) = Ok true /\ ~ goodRate 0 1.
Proof. split; [vm_compute; reflexivity|]. unfold goodRate. lia. Qed.

(** AssumeFPS. *)
Lemma assume_created : forall v fpsnum fpsden src r, (forall s, src = Some s -> fst (cv_fps s) <= INT64_MAX /\ snd (cv_fps s) <= INT64_MAX) ->
  (forall x, fpsnum = Some x -> x <= INT64_MAX) -> (forall x, fpsden = Some x -> x <= INT64_MAX) -> assumeFPSCreate v fpsnum fpsden src = Ok r ->
  cv_fmt r = cv_fmt v /\ cv_w r = cv_w v /\ cv_h r = cv_h v /\ cv_n r = cv_n v /\
  exists num den, 0 < num /\ 0 < den /\ (match src, fpsnum with Some s, None => num = fst (cv_fps s) /\ den = snd (cv_fps s) | None, Some x => num = x /\ (den = 1 /\ fpsden = None \/ fpsden = Some den) | _, _ => False end) /\
    0 < fst (cv_fps r) /\ goodRate (fst (cv_fps r)) (snd (cv_fps r)) /\ sameRate num den (fst (cv_fps r)) (snd (cv_fps r)).
Proof.
  intros v fpsnum fpsden src r A B C. unfold assumeFPSCreate.
  assert (H : forall num den, num <= INT64_MAX -> den <= INT64_MAX -> (if (den <? 1) || (num <? 1) then Err
    else obind (reduceRational num den) (fun q => let r := mkCV (cv_fmt v) (cv_w v) (cv_h v) (cv_n v) q in createVideoFilter r r)) = Ok r ->
    cv_fmt r = cv_fmt v /\ cv_w r = cv_w v /\ cv_h r = cv_h v /\ cv_n r = cv_n v /\ 0 < num /\ 0 < den /\ 0 < fst (cv_fps r) /\ goodRate (fst (cv_fps r)) (snd (cv_fps r)) /\ sameRate num den (fst (cv_fps r)) (snd (cv_fps r))).
  { intros num den N D. destruct (Z.ltb_spec den 1); [discriminate|]. destruct (Z.ltb_spec num 1); [discriminate|]. cbn [orb]. destruct (reduce_ok num den ltac:(lia) ltac:(lia)) as (n' & d' & -> & G & S & N' & D'). cbn [obind]. unfold createVideoFilter.
    destruct (isValidVideoInfo _) as [[|]| |]; cbn [obind]; intros E; try discriminate. assert (r = mkCV (cv_fmt v) (cv_w v) (cv_h v) (cv_n v) (n', d')) by congruence. subst r. cbn [cv_fmt cv_w cv_h cv_n cv_fps fst snd]. repeat (split; [reflexivity || lia|]). split; [exact G|exact S]. }
  destruct src as [s|], fpsnum as [x|]; cbn [andb orb negb orElse]; try discriminate.
  - destruct (A s eq_refl) as (A1 & A2). intros E. destruct (H _ _ A1 A2 E) as (H1 & H2 & H3 & H4 & H5 & H6 & H7). repeat (split; [assumption|]). exists (fst (cv_fps s)), (snd (cv_fps s)). auto.
  - intros E. destruct (H x (orElse fpsden 1) (B x eq_refl)) as (H1 & H2 & H3 & H4 & H5 & H6 & H7); [destruct fpsden as [y|]; cbn [orElse]; [apply C; reflexivity|unfold INT64_MAX; lia]|exact E|]. repeat (split; [assumption|]). exists x, (orElse fpsden 1). repeat (split; [assumption|]). split; [|exact H7]. split; [reflexivity|]. destruct fpsden; cbn; auto.
Qed.
Lemma assume_accepts : forall v x y, isValidVideoInfo v = Ok true -> 0 < x <= INT64_MAX -> 0 < y <= INT64_MAX -> exists r, assumeFPSCreate v (Some x) (Some y) None = Ok r.
Proof.
  intros v x y V X Y. unfold assumeFPSCreate. cbn [andb orb negb orElse]. destruct (Z.ltb_spec y 1); [lia|]. destruct (Z.ltb_spec x 1); [lia|]. cbn [orb]. destruct (reduce_ok x y X Y) as (n' & d' & -> & G & S & N' & D'). cbn [obind]. unfold createVideoFilter.
  assert (W : isValidVideoInfo (mkCV (cv_fmt v) (cv_w v) (cv_h v) (cv_n v) (n', d')) = Ok true).
  { unfold isValidVideoInfo in *. cbn [cv_fmt cv_w cv_h cv_n cv_fps fst snd]. destruct (negb (isValidVideoFormatS (cv_fmt v))); [discriminate|].
    destruct (Z.ltb_spec d' 0); [lia|]. destruct (Z.ltb_spec n' 0); [lia|]. destruct (Z.ltb_spec (snd (cv_fps v)) 0); [discriminate|]. destruct (Z.ltb_spec (fst (cv_fps v)) 0); [discriminate|]. cbn [orb] in *. destruct ((cv_h v <? 0) || (cv_w v <? 0) || (cv_n v <? 1)); [discriminate|].
    destruct G as [G|(_ & _ & G)]; [lia|]. rewrite reduce_id by (auto; lia). cbn [obind fst snd]. rewrite !Z.eqb_refl. cbn [negb orb]. destruct (reduceRational (fst (cv_fps v)) (snd (cv_fps v))) as [q| |]; try discriminate V. cbn [obind] in V. destruct (negb (fst q =? fst (cv_fps v)) || negb (snd q =? snd (cv_fps v))); [discriminate|exact V]. }
  rewrite W. cbn [obind]. eexists. reflexivity.
Qed.
Lemma assume_frame : forall v src, let r := assumeFPSGetFrame v src in vf_planes r = vf_planes src /\ vf_fmt r = vf_fmt src /\ vf_w r = vf_w src /\ vf_h r = vf_h src /\
  vf_props r "_DurationNum"%string = Some (snd (cv_fps v)) /\ vf_props r "_DurationDen"%string = Some (fst (cv_fps v)) /\
  forall k, k <> "_DurationNum"%string -> k <> "_DurationDen"%string -> vf_props r k = vf_props src k.
Proof.
  intros v src r. repeat (split; [reflexivity|]). intros k K1 K2. unfold r, assumeFPSGetFrame, durations, setProp. cbn [vf_props]. destruct (String.eqb_spec k "_DurationDen"); [contradiction|]. destruct (String.eqb_spec k "_DurationNum"); [contradiction|]. reflexivity.
Qed.

(** BlankClip. *)
Definition in64 (o : option Z) : Prop := forall z, o = Some z -> INT64_MIN <= z <= INT64_MAX.
Definition argsOk (a : blankArgs) : Prop :=
  (forall v, ba_clip a = Some v -> isValidVideoInfo v = Ok true /\ INT64_MIN < fst (cv_fps v) <= INT64_MAX /\ INT64_MIN < snd (cv_fps v) <= INT64_MAX) /\
  in64 (ba_fpsnum a) /\ in64 (ba_fpsden a) /\ Forall valid64 (ba_color a).
Definition baseOf (a : blankArgs) : cvi := match ba_clip a with Some v => v | None => blankDefault end.
Definition rateOf (a : blankArgs) : Z * Z := let num := orElse (ba_fpsnum a) (fst (cv_fps (baseOf a))) in let den := orElse (ba_fpsden a) (snd (cv_fps (baseOf a))) in if (den =? 0) || (num =? 0) then (0, 0) else (num, den).

Lemma rgb24_valid : fmt_valid rgb24.
Proof. unfold fmt_valid, rgb24, storage, cfGray, cfRGB, cfYUV, stInteger, stFloat. cbn. repeat split; intros; lia. Qed.
Lemma base_fmt : forall a, argsOk a -> f_cf (cv_fmt (baseOf a)) <> cfUndefined -> fmt_valid (cv_fmt (baseOf a)).
Proof.
  intros a (A & _) U. unfold baseOf in *. destruct (ba_clip a) as [v|]; [|exact rgb24_valid]. destruct (A v eq_refl) as (V & N & D). destruct (info_sound v N D V) as ([(F & _)|F] & _); [contradiction|exact F].
Qed.
Lemma lookup_valid : forall r id b f, getVideoFormatByID r id = Some (b, f) -> f = undefFmt \/ fmt_valid f.
Proof.
  intros r id b f. destruct b; [apply accepted_sound|]. unfold getVideoFormatByID. assert (Q : forall cf st bits ssw ssh, queryVideoFormat cf st bits ssw ssh = Some (false, f) -> f = undefFmt).
  { intros cf st bits ssw ssh. unfold queryVideoFormat. destruct (cf =? cfUndefined); [discriminate|]. destruct (negb (isValidVideoFormat cf st bits ssw ssh)); [congruence|]. destruct (bytesLoop 8 1 bits); discriminate. }
  destruct (isV3ID id); [|intros E; left; exact (Q _ _ _ _ _ E)]. unfold VideoFormatFromV3. destruct (getV3VideoFormat r id) as [t|]; [|intros E; left; exact (Q _ _ _ _ _ E)].
  destruct ((t_id t =? pfCompatBGR32) || (t_id t =? pfCompatYUY2)); [intros E; left; exact (Q _ _ _ _ _ E)|]. destruct (ColorFamilyFromV3 (t_cf t)); [|discriminate]. intros E; left; exact (Q _ _ _ _ _ E).
Qed.
Lemma rate_reduced : forall num den, 0 <= num <= INT64_MAX -> 0 <= den <= INT64_MAX -> let q := if (den =? 0) || (num =? 0) then (0, 0) else (num, den) in
  exists n d, reduceRational (fst q) (snd q) = Ok (n, d) /\ goodRate n d /\ sameRate (fst q) (snd q) n d /\ 0 <= n <= fst q /\ 0 <= d <= snd q.
Proof.
  intros num den N D q. unfold q. destruct (Z.eqb_spec den 0); [exists 0, 0; cbn; unfold goodRate, sameRate; repeat split; try lia; reflexivity|]. destruct (Z.eqb_spec num 0); [exists 0, 0; cbn; unfold goodRate, sameRate; repeat split; try lia; reflexivity|].
  cbn [orb fst snd]. destruct (reduce_ok num den ltac:(lia) ltac:(lia)) as (n' & d' & E & G & S & N' & D'). exists n', d'. split; [exact E|]. split; [exact G|]. split; [exact S|]. lia.
Qed.
Definition legalColour (f : vfmt) (c : Z) : Prop := 0 <= c < 256 ^ f_bytes f /\ (f_st f = stInteger -> c < 2 ^ f_bits f).
Lemma colour_int : forall v bits, valid64 v -> 0 <= bits -> match doubleToIntPixelValue v bits with Ok c => 0 <= c < 2 ^ 32 /\ c < 2 ^ bits | Err => True | UB => False end.
Proof.
  intros v bits V B. unfold doubleToIntPixelValue. destruct (isFin v) eqn:F; cbn [negb orb]; [|exact I]. destruct (SFltb v (S754_zero false)) eqn:N; [exact I|]. destruct (uint32_total v V F N) as (i & -> & R). cbn [obind]. destruct (Z.leb_spec (Z.shiftl 1 bits) i) as [|L]; [exact I|]. rewrite Z.shiftl_mul_pow2, Z.mul_1_l in L by lia. lia.
Qed.
Lemma bytes_bits : forall f, fmt_valid f -> 2 ^ f_bits f <= 256 ^ f_bytes f.
Proof.
  intros f V. destruct V as (_ & S & (K & L & _) & _). assert (0 <= f_bits f) by (destruct S as [(_ & S)|(_ & S)]; lia). replace (256 ^ f_bytes f) with (2 ^ (8 * f_bytes f)) by (rewrite Z.pow_mul_r by lia; reflexivity). apply Z.pow_le_mono_r; lia.
Qed.
Lemma colour_legal : forall f v, fmt_valid f -> valid64 v -> match colourValue f v with Ok c => legalColour f c | Err => True | UB => False end.
Proof.
  intros f v V D. pose proof (bytes_bits f V) as BB. unfold colourValue, legalColour. destruct (Z.eqb_spec (f_st f) stInteger) as [I|I].
  - assert (0 <= f_bits f) by (destruct V as (_ & [(_ & S)|(_ & S)] & _); lia). pose proof (colour_int v (f_bits f) D H). destruct (doubleToIntPixelValue v (f_bits f)); [|exact Logic.I|assumption]. split; [lia|]. intros _. lia.
  - destruct V as (_ & [(S & _)|(_ & S)] & (K & L & M) & _); [contradiction|]. pose proof (to32_bits v) as TB. destruct (Z.eqb_spec (f_bits f) 16) as [B|B].
    + assert (f_bytes f = 2) by (specialize (M 2); lia). unfold doubleToHalfPixelValue. destruct (negb (isFin (to32 v))); [exact Logic.I|]. destruct (isInfHalf _); [exact Logic.I|]. rewrite H. split; [|contradiction]. pose proof (half_bits _ TB). change (256 ^ 2) with (2 ^ 16). assumption.
    + assert (f_bytes f = 4) by lia. unfold doubleToFloatPixelValue. destruct (negb (isFin (to32 v))); [exact Logic.I|]. rewrite H. split; [|contradiction]. exact TB.
Qed.
Lemma colours_legal : forall f l, fmt_valid f -> Forall valid64 l -> match colourValues f l with Ok cs => zlength cs = zlength l /\ Forall (legalColour f) cs | Err => True | UB => False end.
Proof.
  intros f l V L. induction L as [|v l D L IH]; cbn [colourValues]; [split; [reflexivity|constructor]|]. pose proof (colour_legal f v V D) as C. destruct (colourValue f v) as [c| |]; cbn [obind]; [|exact I|exact C].
  destruct (colourValues f l) as [cs| |]; cbn [obind]; [|exact I|exact IH]. destruct IH as (I1 & I2). split; [unfold zlength in *; cbn [length]; lia|constructor; assumption].
Qed.
Lemma black_legal : forall f, fmt_valid f -> Forall (legalColour f) (setBlack f).
Proof.
  intros f V. pose proof (bytes_bits f V) as BB. unfold setBlack, legalColour. assert (P : 0 < 2 ^ f_bits f) by (apply Z.pow_pos_nonneg; [lia|destruct V as (_ & [(_ & S)|(_ & S)] & _); lia]).
  destruct (Z.eqb_spec (f_st f) stInteger) as [I|I]; cbn [andb]; [|repeat constructor; try lia; intros; lia]. destruct (f_cf f =? cfYUV); cbn [andb]; [|repeat constructor; try lia; intros; lia].
  assert (B : 8 <= f_bits f <= 32) by (destruct V as (_ & [(_ & S)|(S & _)] & _); [assumption|rewrite I in S; discriminate]). assert (E : 2 ^ f_bits f = 2 * 2 ^ (f_bits f - 1)) by (rewrite <- Z.pow_succ_r by lia; f_equal; lia).
  assert (Q : 0 < 2 ^ (f_bits f - 1)) by (apply Z.pow_pos_nonneg; lia). assert (M : 2 ^ (f_bits f - 1) <= 2 ^ 31) by (apply Z.pow_le_mono_r; lia).
  rewrite Z.shiftl_mul_pow2, Z.mul_1_l by lia. unfold wrapu32. rewrite Z.mod_small by (change (2 ^ 31) with 2147483648 in M; change (2 ^ 32) with 4294967296; lia). repeat constructor; try lia; intros; lia.
Qed.
Definition coloursOf (a : blankArgs) (f : vfmt) : outcome (list Z) :=
  if zlength (ba_color a) =? f_np f then obind (colourValues f (ba_color a)) (fun l => Ok (l ++ skipn (Z.to_nat (f_np f)) (setBlack f)))
  else if 0 <? zlength (ba_color a) then Err else Ok (setBlack f).
Lemma coloursOf_legal : forall a f, fmt_valid f -> Forall valid64 (ba_color a) -> match coloursOf a f with Ok cs => zlength cs = 3 /\ Forall (legalColour f) cs | Err => True | UB => False end.
Proof.
  intros a f V D. unfold coloursOf. pose proof (black_legal f V) as B. destruct (Z.eqb_spec (zlength (ba_color a)) (f_np f)) as [E|E].
  - pose proof (colours_legal f _ V D) as C. destruct (colourValues f (ba_color a)) as [l| |]; cbn [obind]; [|exact I|exact C]. destruct C as (C1 & C2). assert (L3 : length (setBlack f) = 3%nat) by (unfold setBlack; destruct (_ && _); reflexivity). pose proof (valid_np f V). split.
    + unfold zlength in *. rewrite app_length, skipn_length, L3. lia.
    + apply Forall_app. split; [exact C2|]. rewrite <- (firstn_skipn (Z.to_nat (f_np f)) (setBlack f)) in B. apply Forall_app in B. tauto.
  - destruct (0 <? zlength (ba_color a)); [exact I|]. split; [|exact B]. unfold setBlack. destruct (_ && _); reflexivity.
Qed.

(** What [create] does after the rate and the format are known. *)
Definition lengthOf (a : blankArgs) (q : Z * Z) : outcome Z :=
  match satO (ba_length a) with
  | Some n => Ok n
  | None => match ba_clip a with
            | Some v => Ok (cv_n v)
            | None => if (0 <? fst q) && (0 <? snd q) then (if in_int64b (fst q * 10) then Ok (sat32 (Z.quot (fst q * 10) (snd q))) else UB) else Ok 300
            end
  end.
Definition formatOf (r : reg) (a : blankArgs) : outcome vfmt :=
  match satO (ba_format a) with None => Ok (cv_fmt (baseOf a)) | Some id => match getVideoFormatByID r (wrapu32 id) with Some x => Ok (snd x) | None => UB end end.
Definition widthOf (a : blankArgs) : Z := orElse (satO (ba_width a)) (cv_w (baseOf a)).
Definition heightOf (a : blankArgs) : Z := orElse (satO (ba_height a)) (cv_h (baseOf a)).
Definition delivered (a : blankArgs) (v : cvi) : cvi := mkCV (if nonzero (ba_varformat a) then undefFmt else cv_fmt v) (if nonzero (ba_varsize a) then 0 else cv_w v) (if nonzero (ba_varsize a) then 0 else cv_h v) (cv_n v) (cv_fps v).
Definition negative (a : blankArgs) : bool := (orElse (ba_fpsden a) (snd (cv_fps (baseOf a))) <? 0) || (orElse (ba_fpsnum a) (fst (cv_fps (baseOf a))) <? 0).
Lemma create_eq : forall r a, blankClipCreate r a = if negative a then Err else
  obind (reduceRational (fst (rateOf a)) (snd (rateOf a))) (fun q => obind (formatOf r a) (fun f => if f_cf f =? cfUndefined then Err else obind (lengthOf a q) (fun n =>
    if (widthOf a <=? 0) || negb (Z.rem (widthOf a) (Z.shiftl 1 (f_ssw f)) =? 0) then Err
    else if (heightOf a <=? 0) || negb (Z.rem (heightOf a) (Z.shiftl 1 (f_ssh f)) =? 0) then Err
    else if n <=? 0 then Err
    else obind (coloursOf a f) (fun cs => createVideoFilter (delivered a (mkCV f (widthOf a) (heightOf a) n q)) (mkCV f (widthOf a) (heightOf a) n q, cs, delivered a (mkCV f (widthOf a) (heightOf a) n q)))))).
Proof.
  intros r a. unfold blankClipCreate, negative, rateOf. fold (baseOf a). destruct (_ || _); [reflexivity|]. destruct ((orElse (ba_fpsden a) (snd (cv_fps (baseOf a))) =? 0) || (orElse (ba_fpsnum a) (fst (cv_fps (baseOf a))) =? 0)); reflexivity.
Qed.
Lemma rates_in : forall a, argsOk a -> negative a = false -> let num := orElse (ba_fpsnum a) (fst (cv_fps (baseOf a))) in let den := orElse (ba_fpsden a) (snd (cv_fps (baseOf a))) in 0 <= num <= INT64_MAX /\ 0 <= den <= INT64_MAX.
Proof.
  intros a (A & N & D & _) G num den. unfold negative in G. fold num den in G. apply orb_false_iff in G. destruct G as (G1 & G2). apply Z.ltb_ge in G1, G2.
  assert (B : fst (cv_fps (baseOf a)) <= INT64_MAX /\ snd (cv_fps (baseOf a)) <= INT64_MAX). { unfold baseOf. destruct (ba_clip a) as [v|]; [destruct (A v eq_refl); lia|cbn; unfold INT64_MAX; lia]. }
  assert (num <= INT64_MAX). { unfold num. destruct (ba_fpsnum a) as [z|]; cbn [orElse]; [apply N; reflexivity|lia]. }
  assert (den <= INT64_MAX). { unfold den. destruct (ba_fpsden a) as [z|]; cbn [orElse]; [apply D; reflexivity|lia]. }
  lia.
Qed.
Lemma rem_shift : forall w s, 0 <= s -> Z.rem w (Z.shiftl 1 s) = 0 -> (2 ^ s | w).
Proof. intros w s S R. rewrite Z.shiftl_mul_pow2, Z.mul_1_l in R by lia. apply Z.rem_divide; [apply Z.pow_nonzero; lia|exact R]. Qed.
Lemma format_valid : forall r a f, argsOk a -> formatOf r a = Ok f -> f_cf f <> cfUndefined -> fmt_valid f.
Proof.
  intros r a f A E U. unfold formatOf in E. destruct (satO (ba_format a)) as [id|].
  - destruct (getVideoFormatByID r (wrapu32 id)) as [(b & g)|] eqn:L; [|discriminate]. cbn [snd] in E. assert (g = f) by congruence. subst g. destruct (lookup_valid r _ b f L) as [->|V]; [contradiction U; reflexivity|exact V].
  - assert (cv_fmt (baseOf a) = f) by congruence. subst f. apply base_fmt; assumption.
Qed.
Lemma delivered_ok : forall a v, fmt_valid (cv_fmt v) -> 0 < cv_w v -> 0 < cv_h v -> 0 < cv_n v -> goodRate (fst (cv_fps v)) (snd (cv_fps v)) -> fst (cv_fps v) <= INT64_MAX -> snd (cv_fps v) <= INT64_MAX -> isValidVideoInfo (delivered a v) = Ok true.
Proof.
  intros a v F W H N R A B. apply info_complete; unfold delivered; cbn [cv_fmt cv_w cv_h cv_n cv_fps]; try assumption; [destruct (nonzero (ba_varformat a)); auto| |lia]. unfold goodSize. destruct (nonzero (ba_varsize a)); auto.
Qed.
Lemma blank_created : forall r a v cs dv, argsOk a -> blankClipCreate r a = Ok (v, cs, dv) ->
  fmt_valid (cv_fmt v) /\ formatOf r a = Ok (cv_fmt v) /\ cv_w v = widthOf a /\ cv_h v = heightOf a /\ 0 < cv_w v /\ 0 < cv_h v /\ (2 ^ f_ssw (cv_fmt v) | cv_w v) /\ (2 ^ f_ssh (cv_fmt v) | cv_h v) /\
  0 < cv_n v /\ lengthOf a (cv_fps v) = Ok (cv_n v) /\ goodRate (fst (cv_fps v)) (snd (cv_fps v)) /\ sameRate (fst (rateOf a)) (snd (rateOf a)) (fst (cv_fps v)) (snd (cv_fps v)) /\
  coloursOf a (cv_fmt v) = Ok cs /\ zlength cs = 3 /\ Forall (legalColour (cv_fmt v)) cs /\ dv = delivered a v /\ isValidVideoInfo dv = Ok true.
Proof.
  intros r a v cs dv A. rewrite create_eq. destruct (negative a) eqn:G; [discriminate|]. destruct (rates_in a A G) as (N & D). destruct (rate_reduced _ _ N D) as (n & d & E & GR & SR & _). fold (rateOf a) in E, SR. rewrite E. cbn [obind].
  destruct (formatOf r a) as [f| |] eqn:F; try discriminate. cbn [obind]. destruct (Z.eqb_spec (f_cf f) cfUndefined) as [|U]; [discriminate|]. pose proof (format_valid r a f A F U) as V. pose proof (valid_ss f V) as SS.
  destruct (lengthOf a (n, d)) as [l| |] eqn:L; try discriminate. cbn [obind].
  destruct (Z.leb_spec (widthOf a) 0); [discriminate|]. destruct (Z.eqb_spec (Z.rem (widthOf a) (Z.shiftl 1 (f_ssw f))) 0) as [RW|]; [|discriminate]. destruct (Z.leb_spec (heightOf a) 0); [discriminate|]. destruct (Z.eqb_spec (Z.rem (heightOf a) (Z.shiftl 1 (f_ssh f))) 0) as [RH|]; [|discriminate]. cbn [orb negb]. destruct (Z.leb_spec l 0); [discriminate|].
  destruct (coloursOf a f) as [c| |] eqn:C; try discriminate. cbn [obind]. intros X. unfold createVideoFilter in X. destruct (isValidVideoInfo _) as [[|]| |] eqn:VI; try discriminate X. cbn [obind] in X.
  assert (v = mkCV f (widthOf a) (heightOf a) l (n, d)) by congruence. assert (cs = c) by congruence. assert (dv = delivered a v) by congruence. subst v cs dv. cbn [cv_fmt cv_w cv_h cv_n cv_fps fst snd] in *.
  pose proof (coloursOf_legal a f V ltac:(apply A)) as CL. rewrite C in CL. destruct CL as (C1 & C2). repeat (split; [first [assumption|reflexivity]|]). split; [apply rem_shift; [lia|exact RW]|]. split; [apply rem_shift; [lia|exact RH]|]. repeat (split; [first [assumption|reflexivity]|]). exact VI.
Qed.
(** No undefined behaviour when the length need not be computed, or the rate is sensible. *)
Lemma blank_no_ub : forall r a, argsOk a -> (forall id, ba_format a = Some id -> getVideoFormatByID r (wrapu32 (sat32 id)) <> None) ->
  ba_length a <> None \/ ba_clip a <> None \/ (forall z, ba_fpsnum a = Some z -> z * 10 <= INT64_MAX) -> blankClipCreate r a <> UB.
Proof.
  intros r a A FM LN. rewrite create_eq. destruct (negative a) eqn:G; [discriminate|]. destruct (rates_in a A G) as (N & D). destruct (rate_reduced _ _ N D) as (n & d & E & GR & SR & NB & DB). fold (rateOf a) in E, SR, NB, DB. rewrite E. cbn [obind].
  assert (RB : fst (rateOf a) <= orElse (ba_fpsnum a) (fst (cv_fps (baseOf a))) /\ fst (rateOf a) <= INT64_MAX /\ snd (rateOf a) <= INT64_MAX).
  { unfold rateOf. destruct (_ || _); cbn [fst snd]; lia. }
  destruct (formatOf r a) as [f| |] eqn:F; cbn [obind]; [|discriminate|].
  2:{ exfalso. unfold formatOf, satO in F. destruct (ba_format a) as [id|]; cbn [option_map] in F; [|discriminate]. specialize (FM id eq_refl). destruct (getVideoFormatByID r (wrapu32 (sat32 id))); [discriminate|contradiction FM; reflexivity]. }
  destruct (Z.eqb_spec (f_cf f) cfUndefined) as [|U]; [discriminate|]. pose proof (format_valid r a f A F U) as V.
  destruct (lengthOf a (n, d)) as [l| |] eqn:L; cbn [obind]; [|discriminate|].
  2:{ exfalso. unfold lengthOf, satO in L. destruct (ba_length a) as [x|]; [discriminate|]. cbn [option_map] in L. destruct (ba_clip a) as [v|] eqn:CL; [discriminate|]. destruct ((0 <? fst (n, d)) && (0 <? snd (n, d))); [|discriminate]. cbn [fst] in L.
      assert (NM : n * 10 <= INT64_MAX). { unfold baseOf in RB. rewrite CL in RB. destruct LN as [LN|[LN|LN]]; try congruence. destruct (ba_fpsnum a) as [z|]; cbn [orElse] in RB; [specialize (LN z eq_refl); lia|cbn in RB; unfold INT64_MAX; lia]. }
      replace (in_int64b (n * 10)) with true in L; [discriminate|]. symmetry. apply in_int64b_spec. unfold in_int64. unfold INT64_MIN. lia. }
  destruct (_ || _) eqn:T1; [discriminate|]. apply orb_false_iff in T1. destruct T1 as (T1 & _). apply Z.leb_gt in T1. destruct ((heightOf a <=? 0) || _) eqn:T2; [discriminate|]. apply orb_false_iff in T2. destruct T2 as (T2 & _). apply Z.leb_gt in T2. destruct (Z.leb_spec l 0); [discriminate|].
  pose proof (coloursOf_legal a f V ltac:(apply A)) as CL. destruct (coloursOf a f) as [cs| |]; cbn [obind]; [|discriminate|contradiction]. unfold createVideoFilter. rewrite delivered_ok; cbn [cv_fmt cv_w cv_h cv_n cv_fps fst snd]; try assumption; try lia. discriminate.
Qed.
Lemma blank_overflow_refuted : exists a, argsOk a /\ forall r, blankClipCreate r a = UB.
Proof.
  exists (mkBA None None None None None (Some (10 ^ 18)) None [] None None). split.
  - split; [intros v V; discriminate V|]. split; [intros z Z; cbn [ba_fpsnum] in Z; assert (z = 10 ^ 18) by congruence; subst z; unfold INT64_MIN, INT64_MAX; lia|]. split; [intros z Z; discriminate Z|constructor].
  - intros r. vm_compute. reflexivity.
Qed.

(** Frames. *)
Lemma blank_plane : forall f h c i p w, fmt_valid f -> 0 <= c i < 256 ^ f_bytes f -> wfPlane (f_bytes f) p w (planeH f h i) -> (f_bytes f | p_stride p) ->
  exists b, blankPlane f h c i p p = Ok b /\ b_size b = b_size (p_buf p) /\ same (imageOf (f_bytes f) (mkPl (p_stride p) b) w (planeH f h i)) (mkI w (planeH f h i) (fun _ _ => c i)).
Proof.
  intros f h c i p w V C (W0 & H0 & WS & BS) (k & DV). unfold blankPlane. rewrite (getHeight_planeH f h i V). set (H := planeH f h i) in *. pose proof (bytes_cases f V) as BC. set (B := f_bytes f) in *.
  replace ((B =? 1) || (B =? 2) || (B =? 4)) with true by (destruct BC as [->|[->| ->]]; reflexivity).
  assert (Q : Z.quot (p_stride p * H) B = k * H). { rewrite DV. replace (k * B * H) with (k * H * B) by ring. apply Z.quot_mul. lia. }
  rewrite Q. assert (K0 : 0 <= k) by nia. destruct (fill_spec (p_buf p) 0 B (c i) (k * H)) as (b & E & S & I & _); [lia|apply Z.mul_nonneg_nonneg; lia|lia|rewrite BS, DV; nia|].
  exists b. split; [exact E|]. split; [exact S|]. split; [reflexivity|]. split; [reflexivity|]. cbn [i_w i_h i_at imageOf p_buf p_stride]. intros x y X Y. apply leval_bytes; [rewrite Z2Nat.id by lia; exact C|]. rewrite Z2Nat.id by lia. intros j J.
  replace (y * p_stride p + x * B + j) with (0 + (y * k + x) * B + j) by (rewrite DV; ring). apply I; [|exact J].
  assert (x < k) by nia. assert (y * k <= (H - 1) * k) by (apply Z.mul_le_mono_nonneg_r; lia). assert (0 <= y * k) by (apply Z.mul_nonneg_nonneg; lia). lia.
Qed.
Lemma blank_frame : forall al g v colour, isAl al -> 4 <= al -> fmt_valid (cv_fmt v) -> 0 < cv_w v -> 0 < cv_h v -> (forall i, 0 <= i < f_np (cv_fmt v) -> 0 <= colour i < 256 ^ f_bytes (cv_fmt v)) ->
  exists fr, blankClipGetFrame al g v colour = Ok fr /\ wfFrame al fr /\ vf_fmt fr = cv_fmt v /\ vf_w fr = cv_w v /\ vf_h fr = cv_h v /\
    (forall k, vf_props fr k = if 0 <? fst (cv_fps v) then (if String.eqb k "_DurationDen" then Some (fst (cv_fps v)) else if String.eqb k "_DurationNum" then Some (snd (cv_fps v)) else None) else None) /\
    forall i, 0 <= i < f_np (cv_fmt v) -> exists img, planeImg fr i = Some img /\ i_w img = planeW (cv_fmt v) (cv_w v) i /\ i_h img = planeH (cv_fmt v) (cv_h v) i /\ forall x y, 0 <= x < i_w img -> 0 <= y < i_h img -> i_at img x y = colour i.
Proof.
  intros al g v colour AL A4 V W H C. unfold blankClipGetFrame. set (p := if 0 <? fst (cv_fps v) then _ else _). destruct (newFrame_spec al g (cv_fmt v) (cv_w v) (cv_h v) p AL V ltac:(lia) ltac:(lia)) as (d & -> & WF & F & DW & DH & P). cbn [obind].
  rewrite <- F. destruct (onPlanes_spec al d d (blankPlane (vf_fmt d) (cv_h v) colour) (fun i im => mkI (i_w im) (i_h im) (fun _ _ => colour i)) AL WF WF eq_refl eq_refl) as (fr & E & WF' & F' & W' & H' & P' & PM).
  { intros i q q' I Q Q' S S'. destruct (blank_plane (vf_fmt d) (vf_h d) colour i q' (planeW (vf_fmt d) (vf_w d) i)) as (b & E & Z & SM).
    - rewrite F; exact V. 
    - rewrite F in *. apply C. exact I.
    - exact Q'.
    - rewrite S', F. apply stride_mult; assumption.
    - exists b. split; [|split; [exact Z|exact SM]]. rewrite <- DH. exact E. }
  exists fr. split; [exact E|]. split; [exact WF'|]. rewrite F', W', H', P'. split; [reflexivity|]. split; [exact DW|]. split; [exact DH|]. split.
  - intros k. rewrite P. unfold p. destruct (0 <? fst (cv_fps v)); reflexivity.
  - intros i I. destruct (PM i ltac:(rewrite F'; exact I)) as (a & b & PA & PB & (S1 & S2 & S3)). exists b. split; [exact PB|]. cbn [i_w i_h i_at] in *.
    assert (AW : i_w a = planeW (vf_fmt d) (cv_w v) i /\ i_h a = planeH (vf_fmt d) (cv_h v) i). { unfold planeImg in PA. destruct (nthz (vf_planes d) i) as [pl|]; [|discriminate]. assert (QQ : a = imageOf (f_bytes (vf_fmt d)) pl (planeW (vf_fmt d) (vf_w d) i) (planeH (vf_fmt d) (vf_h d) i)) by congruence. rewrite QQ, DW, DH. split; reflexivity. }
    destruct AW as (AW & AH). split; [rewrite S1; exact AW|]. split; [rewrite S2; exact AH|]. intros x y X Y. rewrite S3 by assumption. reflexivity.
Qed.

(** Colours. *)
Lemma colour_refused : forall v bits, isFin v = false \/ SFltb v (S754_zero false) = true -> doubleToIntPixelValue v bits = Err.
Proof. intros v bits [H|H]; unfold doubleToIntPixelValue; rewrite H; [reflexivity|destruct (isFin v); reflexivity]. Qed.
(** A number below one half, and one above all 32 bit values. *)
Definition belowHalf : fl := S754_finite false 9007199254740991 (-54).
Lemma colour_nearest_refuted : valid64 belowHalf /\ SFltb belowHalf (of64 1 (-1)) = true /\ doubleToIntPixelValue belowHalf 8 = Ok 1.
Proof. repeat split; vm_compute; reflexivity. Qed.
Lemma colour_limit_refuted : exists v, valid64 v /\ SFltb (num (2 ^ 32)) v = true /\ doubleToIntPixelValue v 32 = Ok (2 ^ 32 - 1).
Proof. exists (num (10 ^ 12)). repeat split; vm_compute; reflexivity. Qed.
Lemma blank_default : forall r, blankClipCreate r (mkBA None None None None None None None [] None None) = Ok (mkCV rgb24 640 480 240 (24, 1), [0; 0; 0], mkCV rgb24 640 480 240 (24, 1)).
Proof. intros r. vm_compute. reflexivity. Qed.

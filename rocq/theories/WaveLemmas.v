(** Wave files are read back. *)
From Coq Require Import ZArith List Bool Lia.
From Verif Require Import Common FormatSpec WaveSpec Wave.
Import ListNotations.
Open Scope Z_scope.

Lemma some_inj : forall {A} (a b : A), Some a = Some b -> a = b. Proof. intros A a b E. injection E. auto. Qed.
Lemma store_le : forall n v, store n v = le n v.
Proof.
  induction n as [|n IH]; intros v; [reflexivity |]. cbn [store le]. rewrite IH. f_equal.
  - change 255 with (Z.ones 8). rewrite Z.land_ones by lia. reflexivity.
  - f_equal. rewrite Z.shiftr_div_pow2 by lia. reflexivity.
Qed.
Lemma le_length : forall n v, length (le n v) = n.
Proof. induction n as [|n IH]; intros v; [reflexivity |]. cbn [le length]. rewrite IH. reflexivity. Qed.
Lemma unle_le : forall n v, unle (le n v) = v mod 256 ^ Z.of_nat n.
Proof.
  induction n as [|n IH]; intros v; [rewrite Z.mod_1_r; reflexivity |]. cbn [le unle]. rewrite IH, Nat2Z.inj_succ, Z.pow_succ_r by lia.
  pose proof (Z.pow_pos_nonneg 256 (Z.of_nat n) ltac:(lia) ltac:(lia)). rewrite Z.rem_mul_r by lia. reflexivity.
Qed.
Lemma unle_small : forall n v, 0 <= v < 256 ^ Z.of_nat n -> unle (le n v) = v.
Proof. intros n v B. rewrite unle_le. apply Z.mod_small. exact B. Qed.
Lemma take_app : forall a r, take (length a) (a ++ r) = Some (a, r).
Proof.
  intros a r. unfold take. rewrite app_length. destruct (Nat.ltb_spec (length a + length r) (length a)); [lia |]. rewrite firstn_app, Nat.sub_diag, firstn_all, skipn_app, Nat.sub_diag, skipn_all. cbn [firstn skipn app]. rewrite app_nil_r. reflexivity.
Qed.
Lemma same_refl : forall a, same a a = true.
Proof. intros a. unfold same. destruct (list_eq_dec Z.eq_dec a a); congruence. Qed.
Lemma expect_app : forall w r, expect w (w ++ r) = Some r.
Proof. intros w r. unfold expect. rewrite take_app, same_refl. reflexivity. Qed.
Lemma num_app : forall n v r, 0 <= v < 256 ^ Z.of_nat n -> num n (le n v ++ r) = Some (v, r).
Proof. intros n v r B. unfold num. rewrite <- (le_length n v) at 1. rewrite take_app, unle_small by exact B. reflexivity. Qed.
Lemma popcount_bounds : forall n x, 0 <= popcount n x <= Z.of_nat n.
Proof. induction n as [|n IH]; intros x; [cbn; lia |]. cbn [popcount]. specialize (IH x). destruct (Z.testbit x (Z.of_nat n)); lia. Qed.
Local Opaque popcount.
Section Clip.
Variable c : clip.
Hypothesis P : properClip c.
Lemma chan_bounds : 0 <= channels c <= 64.
Proof. unfold channels. pose proof (popcount_bounds 64 (c_mask c)). lia. Qed.
Lemma width_bounds : 2 <= width c <= 4.
Proof. destruct P as (B & _). unfold width. pose proof (Z.div_mod (c_bits c + 7) 8 ltac:(lia)). pose proof (Z.mod_pos_bound (c_bits c + 7) 8 ltac:(lia)). lia. Qed.
Lemma align_bounds : 0 <= channels c * width c <= 256.
Proof. pose proof chan_bounds. pose proof width_bounds. nia. Qed.
Lemma data_bounds : 0 <= dataBytes c <= 256 * (2 ^ 31 * 3072).
Proof. pose proof align_bounds. destruct P as (_ & _ & _ & S1 & S2). unfold dataBytes. nia. Qed.
Lemma dataSize_ok : dataSize c = dataBytes c.
Proof. unfold dataSize. fold (channels c). fold (width c). fold (dataBytes c). unfold wrapu64. apply Z.mod_small. pose proof data_bounds. change (2 ^ 64) with 18446744073709551616. lia. Qed.
Lemma fmt_length : forall f, fmtExtensible c = Some f -> length f = 40%nat.
Proof.
  intros f E. unfold fmtExtensible in E. destruct (negb (c_mask c =? wrapu32 (c_mask c))); [discriminate |]. cbv zeta in E. apply some_inj in E. rewrite <- E. rewrite !store_le. rewrite !app_length, !le_length. destruct (c_float c); reflexivity.
Qed.
Lemma fmt_read : c_mask c < 2 ^ 32 -> rateFits c -> exists f, fmtExtensible c = Some f /\ forall r, readFmt (f ++ r) = Some (infoOf c, r).
Proof.
  intros M R. pose proof chan_bounds as CB. pose proof width_bounds as WB. pose proof align_bounds as AB. destruct P as (B & Rt & Mk & S). unfold rateFits in R.
  assert (A0 : 0 <= channels c * width c * c_rate c) by nia.
  unfold fmtExtensible. unfold wrapu32 at 1. rewrite Z.mod_small by lia. rewrite Z.eqb_refl. cbv [negb]. cbv zeta. eexists. split; [reflexivity |]. intros r.
  fold (channels c). fold (width c). unfold wrapu16, wrapu32, wrapu64.
  change (2 ^ 32) with 4294967296 in *. change (2 ^ 64) with 18446744073709551616 in *. change (2 ^ 16) with 65536 in *. change (2 ^ 31) with 2147483648 in *.
  rewrite (Z.mod_small (channels c)) by lia. rewrite (Z.mod_small (c_rate c)) by lia. rewrite (Z.mod_small (channels c * width c * c_rate c) 18446744073709551616) by lia. rewrite (Z.mod_small (channels c * width c * c_rate c) 4294967296) by lia.
  rewrite (Z.mod_small (channels c * width c)) by lia. rewrite (Z.mod_small (width c * 8)) by lia. rewrite (Z.mod_small (c_bits c)) by lia. rewrite (Z.mod_small (c_mask c)) by lia.
  rewrite !store_le, <- !app_assoc. unfold readFmt.
  assert (U2 : forall v r, 0 <= v < 65536 -> num 2 (le 2 v ++ r) = Some (v, r)) by (intros v q Bv; apply num_app; exact Bv).
  assert (U4 : forall v r, 0 <= v < 4294967296 -> num 4 (le 4 v ++ r) = Some (v, r)) by (intros v q Bv; apply num_app; exact Bv).
  rewrite expect_app. rewrite U2 by lia. rewrite U4 by lia. rewrite U4 by lia. rewrite U2 by lia. rewrite U2 by lia. rewrite U2 by lia. rewrite U2 by lia. rewrite U4 by lia.
  change (40 - 18) with 22. rewrite Z.eqb_refl. cbv [negb]. unfold infoOf. rewrite (Z.mul_comm 8 (width c)). 
  destruct (c_float c).
  - change 16%nat with (length subtypeFloat). rewrite take_app. reflexivity.
  - change 16%nat with (length subtypePCM). rewrite take_app. reflexivity.
Qed.
Lemma wave_read : forall d, c_mask c < 2 ^ 32 -> rateFits c -> 68 + dataBytes c <= maxWaveFileSize -> Z.of_nat (length d) = dataBytes c -> exists h, waveHeader c = Some h /\ length h = 68%nat /\ readWave false (h ++ d) = Some (infoOf c, d).
Proof.
  intros d M R L D. destruct (fmt_read M R) as (f & Ef & Rf). pose proof (fmt_length f Ef) as Lf. pose proof data_bounds as DB. unfold maxWaveFileSize in L.
  unfold waveHeader. rewrite dataSize_ok. unfold wrapu64. change (2 ^ 64) with 18446744073709551616. rewrite Z.mod_small by (change (2 ^ 31) with 2147483648 in DB; lia). unfold maxWaveFileSize. destruct (Z.ltb_spec 0xFFFFFFFE (68 + dataBytes c)); [lia |]. rewrite Ef. eexists. split; [reflexivity |].
  unfold wrapu32. change (2 ^ 32) with 4294967296. rewrite !Z.mod_small by lia. rewrite !store_le. split; [rewrite !app_length, !le_length, Lf; reflexivity |].
  rewrite <- !app_assoc. unfold readWave. assert (U4 : forall v r, 0 <= v < 4294967296 -> num 4 (le 4 v ++ r) = Some (v, r)) by (intros v q Bv; apply num_app; exact Bv).
  rewrite expect_app. rewrite U4 by lia. rewrite !app_length, !le_length, Lf. cbn [length].
  assert (S : (68 - 4 - 4 + dataBytes c =? Z.of_nat (4 + (4 + (4 + (40 + (4 + (4 + length d))))))) = true) by (apply Z.eqb_eq; lia). rewrite S. cbv [negb]. rewrite !expect_app. rewrite U4 by lia. change (40 =? 40) with true. cbv iota beta.
  rewrite Rf, expect_app. rewrite U4 by lia. rewrite Z.add_0_r, D, Z.eqb_refl. rewrite <- D, Nat2Z.id, firstn_all. reflexivity.
Qed.
Lemma wave64_read : forall d, c_mask c < 2 ^ 32 -> rateFits c -> Z.of_nat (length d) = dataBytes c -> exists h, wave64Header c = Some h /\ length h = 128%nat /\ readWave64 (h ++ d) = Some (infoOf c, d).
Proof.
  intros d M R D. destruct (fmt_read M R) as (f & Ef & Rf). pose proof (fmt_length f Ef) as Lf. pose proof data_bounds as DB. change (2 ^ 31) with 2147483648 in DB.
  unfold wave64Header. rewrite Ef, dataSize_ok. eexists. split; [reflexivity |]. unfold wrapu64. change (2 ^ 64) with 18446744073709551616. rewrite !Z.mod_small by lia. rewrite !store_le. split; [rewrite !app_length, !le_length, Lf; reflexivity |].
  set (q1 := [0x77; 0x61; 0x76; 0x65] ++ uuidTail ++ _).
  assert (U8 : forall v r, 0 <= v < 18446744073709551616 -> num 8 (le 8 v ++ r) = Some (v, r)) by (intros v q Bv; apply num_app; exact Bv).
  unfold readWave64. cbv zeta.
  assert (Len : Z.of_nat (length (([0x72; 0x69; 0x66; 0x66; 0x2E; 0x91; 0xCF; 0x11; 0xA5; 0xD6; 0x28; 0xDB; 0x04; 0xC1; 0x00; 0x00] ++ le 8 (128 + dataBytes c) ++ q1) ++ d)) = 128 + dataBytes c).
  { unfold q1. rewrite !app_length, !le_length, Lf. cbn [length uuidTail]. lia. }
  rewrite Len. rewrite <- !app_assoc. change [0x72; 0x69; 0x66; 0x66; 0x2E; 0x91; 0xCF; 0x11; 0xA5; 0xD6; 0x28; 0xDB; 0x04; 0xC1; 0x00; 0x00] with riff64. rewrite expect_app. rewrite U8 by lia. rewrite Z.eqb_refl. cbv [negb].
  unfold q1. rewrite <- !app_assoc. rewrite (app_assoc [0x77; 0x61; 0x76; 0x65] uuidTail). change ([0x77; 0x61; 0x76; 0x65] ++ uuidTail) with (id64 119 97 118 101). rewrite expect_app.
  rewrite (app_assoc [0x66; 0x6D; 0x74; 0x20] uuidTail). change ([0x66; 0x6D; 0x74; 0x20] ++ uuidTail) with (id64 102 109 116 32). rewrite expect_app. rewrite U8 by lia. change (40 + 16 + 8) with 64. rewrite Z.eqb_refl. rewrite Rf.
  rewrite (app_assoc [0x64; 0x61; 0x74; 0x61] uuidTail). change ([0x64; 0x61; 0x74; 0x61] ++ uuidTail) with (id64 100 97 116 97). rewrite expect_app. rewrite U8 by lia.
  destruct (Z.eqb_spec (dataBytes c + 16 + 8 - 24) (Z.of_nat (length d))); [reflexivity | lia].
Qed.
Lemma wave_refused : maxWaveFileSize < 68 + dataBytes c \/ 2 ^ 32 <= c_mask c -> waveHeader c = None.
Proof.
  intros H. pose proof data_bounds as DB. change (2 ^ 31) with 2147483648 in DB. unfold waveHeader. rewrite dataSize_ok. unfold wrapu64. change (2 ^ 64) with 18446744073709551616. rewrite Z.mod_small by lia. destruct (Z.ltb_spec maxWaveFileSize (68 + dataBytes c)); [reflexivity |]. destruct H as [H | H]; [lia |].
  unfold fmtExtensible. destruct (Z.eqb_spec (c_mask c) (wrapu32 (c_mask c))) as [E | E]; [| reflexivity]. unfold wrapu32 in E. change (2 ^ 32) with 4294967296 in *. pose proof (Z.mod_pos_bound (c_mask c) 4294967296 ltac:(lia)). lia.
Qed.
Lemma wave64_refused : 2 ^ 32 <= c_mask c <-> wave64Header c = None.
Proof.
  unfold wave64Header, fmtExtensible. destruct P as (_ & _ & Mk & _). unfold wrapu32 at 1. change (2 ^ 32) with 4294967296. destruct (Z.eqb_spec (c_mask c) (c_mask c mod 4294967296)) as [E | E]; cbv [negb]; cbv zeta.
  - pose proof (Z.mod_pos_bound (c_mask c) 4294967296 ltac:(lia)). split; [lia | discriminate].
  - split; [reflexivity |]. intros _. destruct (Z.ltb_spec (c_mask c) 4294967296); [| assumption]. exfalso. apply E. symmetry. apply Z.mod_small. lia.
Qed.
End Clip.
(** ** What the headers do not manage *)
Lemma no_pad : exists c h d, properClip c /\ waveHeader c = Some h /\ Z.of_nat (length d) = dataBytes c /\ readWave false (h ++ d) = Some (infoOf c, d) /\ readWave true (h ++ d) = None.
Proof. exists (mkC false 24 48000 4 1), (match waveHeader (mkC false 24 48000 4 1) with Some h => h | None => [] end), [1; 2; 3]. unfold properClip. cbn [c_bits c_rate c_mask c_samples]. repeat split; try lia; vm_compute; reflexivity. Qed.
Lemma rate_wraps : exists c h i, properClip c /\ waveHeader c = Some h /\ readWave false (h ++ [0; 0; 0; 0]) = Some (i, [0; 0; 0; 0]) /\ i_align i * i_rate i <> i_avg i.
Proof. exists (mkC true 32 2000000000 4 1), (match waveHeader (mkC true 32 2000000000 4 1) with Some h => h | None => [] end), (mkI true 1 2000000000 3705032704 4 32 32 4). unfold properClip. cbn [c_bits c_rate c_mask c_samples]. repeat split; try lia; try (vm_compute; reflexivity). vm_compute. discriminate. Qed.
(** ** Interleaving *)
Definition okW (w : Z) : Prop := w = 2 \/ w = 3 \/ w = 4.
Lemma enc_length : forall w v, okW w -> length (enc w v) = Z.to_nat w.
Proof. intros w v [-> | [-> | ->]]; reflexivity. Qed.
Lemma enc_value : forall w v, okW w -> fitsW w v -> unle (enc w v) = valueOf w v.
Proof.
  intros w v [-> | [-> | ->]] F; unfold fitsW in F; unfold enc, valueOf; rewrite !store_le.
  - apply (unle_small 2). exact F.
  - apply (unle_small 3). change (3 =? 2) with false in F. cbv iota in F. change (256 ^ Z.of_nat 3) with (2 ^ 24). change (2 ^ 32) with (256 * 2 ^ 24) in F. split; [apply Z.div_pos; lia | apply Z.div_lt_upper_bound; lia].
  - apply (unle_small 4). exact F.
Qed.
Lemma skipn_plus : forall {A} n m (l : list A), skipn (n + m) l = skipn m (skipn n l).
Proof. intros A n. induction n as [|n IH]; intros m l; [reflexivity |]. destruct l as [|x l]; [cbn [Nat.add]; rewrite !skipn_nil; reflexivity |]. cbn [Nat.add skipn]. apply IH. Qed.
Lemma flat_at : forall {A} (f : A -> bytes) w l j x, (forall a, length (f a) = w) -> nth_error l j = Some x -> firstn w (skipn (w * j) (flat_map f l)) = f x.
Proof.
  intros A f w l j x L. revert j. induction l as [|a l IH]; intros j E; [destruct j; discriminate |]. destruct j as [|j].
  - injection E as ->. rewrite Nat.mul_0_r. cbn [skipn flat_map]. rewrite firstn_app, L, Nat.sub_diag. cbn [firstn]. rewrite app_nil_r. rewrite <- (L x). apply firstn_all.
  - cbn [flat_map]. replace (w * S j)%nat with (w + w * j)%nat by lia. rewrite skipn_plus, skipn_app, L, Nat.sub_diag. assert (S0 : skipn w (f a) = []) by (rewrite <- (L a); apply skipn_all). rewrite S0. cbn [app skipn]. apply IH. exact E.
Qed.
Lemma concat_at : forall (rows : list (list Z)) n i k row, Forall (fun r => length r = n) rows -> nth_error rows i = Some row -> (k < n)%nat -> nth_error (concat rows) (i * n + k) = nth_error row k.
Proof.
  intros rows n i k row F. revert i. induction F as [|r rows Lr F IH]; intros i E Bk; [destruct i; discriminate |]. cbn [concat]. destruct i as [|i].
  - injection E as ->. cbn [Nat.mul Nat.add]. apply nth_error_app1. lia.
  - rewrite nth_error_app2 by (cbn [Nat.mul]; lia). replace (S i * n + k - length r)%nat with (i * n + k)%nat by (rewrite Lr; cbn [Nat.mul]; lia). apply IH; assumption.
Qed.
Lemma unpack_rows : forall w n rows, okW w -> Forall (fun r => length r = n) rows -> Forall (Forall (fitsW w)) rows ->
  unpack (Z.to_nat w) n (length rows) (flat_map (enc w) (concat rows)) = map (fun k => map (fun row => valueOf w (nth k row 0)) rows) (seq 0 n).
Proof.
  intros w n rows W F V. unfold unpack. apply map_ext_in. intros k Ik. apply in_seq in Ik.
  assert (X : forall i row, nth_error rows i = Some row -> sampleAt (Z.to_nat w) n (flat_map (enc w) (concat rows)) i k = valueOf w (nth k row 0)).
  { intros i row E. unfold sampleAt. pose proof (nth_error_In _ _ E) as I. rewrite Forall_forall in F, V. pose proof (F row I) as Lr. pose proof (V row I) as Vr.
    assert (Ek : nth_error row k = Some (nth k row 0)) by (apply nth_error_nth'; lia).
    rewrite (flat_at (enc w) (Z.to_nat w) (concat rows) (i * n + k) (nth k row 0)).
    - apply enc_value; [exact W |]. rewrite Forall_forall in Vr. apply Vr. apply (nth_error_In _ _ Ek).
    - intros a. apply enc_length. exact W.
    - rewrite (concat_at rows n i k row); [exact Ek | apply Forall_forall; exact F | exact E | lia]. }
  clear F V Ik. set (g := sampleAt (Z.to_nat w) n (flat_map (enc w) (concat rows))) in *. clearbody g. 
  assert (Y : forall l s, (forall i row, nth_error l i = Some row -> g (s + i)%nat k = valueOf w (nth k row 0)) -> map (fun i => g i k) (seq s (length l)) = map (fun row => valueOf w (nth k row 0)) l).
  { induction l as [|r l IH]; intros s H; [reflexivity |]. cbn [length seq map]. f_equal.
    - specialize (H 0%nat r eq_refl). rewrite Nat.add_0_r in H. exact H.
    - apply IH. intros i row E. specialize (H (S i) row E). rewrite Nat.add_succ_r in H. exact H. }
  apply Y. intros i row E. apply X. exact E.
Qed.
Definition rowsOf (f : list (list Z) * nat) : list (list Z) := map (fun i => map (fun s => nth i s 0) (fst f)) (seq 0 (snd f)).
Lemma packRow_ok : forall w src i, Forall (fun s => (i < length s)%nat) src -> packRow w src i = Ok (flat_map (enc w) (map (fun s => nth i s 0) src)).
Proof.
  intros w src i. induction 1 as [|s src L F IH]; [reflexivity |]. cbn [packRow map flat_map]. rewrite (nth_error_nth' s 0 L), IH. reflexivity.
Qed.
Lemma packFrom_ok : forall w src len i, Forall (fun s => (i + len <= length s)%nat) src -> packFrom w src i len = Ok (flat_map (enc w) (concat (map (fun i => map (fun s => nth i s 0) src) (seq i len)))).
Proof.
  intros w src len. induction len as [|len IH]; intros i F; [reflexivity |]. cbn [packFrom seq map concat]. rewrite packRow_ok by (eapply Forall_impl; [| exact F]; intros s L; cbv beta in *; lia). cbn [obind]. rewrite IH by (eapply Forall_impl; [| exact F]; intros s L; cbv beta in *; lia). cbn [obind]. rewrite flat_map_app. reflexivity.
Qed.
Lemma frames_ok : forall w n fs, Forall (properFrame w n) fs -> outputFrames w fs = Ok (flat_map (enc w) (concat (flat_map rowsOf fs))).
Proof.
  intros w n fs. induction 1 as [|(f, len) fs (Lf & Fc) F IH]; [reflexivity |]. cbn [fst snd] in *. cbn [outputFrames]. unfold packChannels. rewrite packFrom_ok by (eapply Forall_impl; [| exact Fc]; intros s (L & _); cbv beta in *; lia). cbn [obind]. rewrite IH. cbn [obind flat_map].
  rewrite concat_app, flat_map_app. reflexivity.
Qed.
Lemma rows_proper : forall w n fs, Forall (properFrame w n) fs -> Forall (fun r => length r = n) (flat_map rowsOf fs) /\ Forall (Forall (fitsW w)) (flat_map rowsOf fs).
Proof.
  intros w n fs F. split; apply Forall_forall; intros r I; apply in_flat_map in I; destruct I as (f & If & I); rewrite Forall_forall in F; specialize (F f If); destruct F as (Lf & Fc); unfold rowsOf in I; apply in_map_iff in I; destruct I as (i & <- & I); apply in_seq in I.
  - rewrite map_length. exact Lf.
  - apply Forall_forall. intros v Iv. apply in_map_iff in Iv. destruct Iv as (s & <- & Is). rewrite Forall_forall in Fc. specialize (Fc s Is). destruct Fc as (Ls & Vs). rewrite Forall_forall in Vs. apply Vs, nth_In. lia.
Qed.
Lemma rows_length : forall fs, length (flat_map rowsOf fs) = total fs.
Proof. induction fs as [|f fs IH]; [reflexivity |]. cbn [flat_map total fold_right]. rewrite app_length, IH. unfold rowsOf. rewrite map_length, seq_length. reflexivity. Qed.
Lemma map_seq_nth : forall (s : list Z) (g : Z -> Z) len, length s = len -> map (fun i => g (nth i s 0)) (seq 0 len) = map g s.
Proof.
  intros s g len <-. rewrite <- (map_map (fun i => nth i s 0) g). f_equal. induction s as [|x s IH]; [reflexivity |]. cbn [length seq map]. f_equal. rewrite <- seq_shift, map_map. exact IH.
Qed.
Lemma rows_channel : forall w n fs k, Forall (properFrame w n) fs -> (k < n)%nat -> map (fun row => valueOf w (nth k row 0)) (flat_map rowsOf fs) = joined w fs k.
Proof.
  intros w n fs k F Bk. unfold joined. induction F as [|f fs (Lf & Fc) F IH]; [reflexivity |]. cbn [flat_map]. rewrite map_app, IH. f_equal. unfold rowsOf. rewrite map_map.
  assert (E : nth_error (fst f) k = Some (nth k (fst f) [])) by (apply nth_error_nth'; lia). pose proof (nth_error_In _ _ E) as I. rewrite Forall_forall in Fc. destruct (Fc _ I) as (L & _).
  rewrite <- (map_seq_nth (nth k (fst f) []) (valueOf w) (snd f) L). apply map_ext. intros i. f_equal. rewrite (nth_indep _ 0 ((fun s => nth i s 0) [])) by (rewrite map_length; lia). rewrite (map_nth (fun s => nth i s 0)). reflexivity.
Qed.
Lemma concat_length_n : forall (rows : list (list Z)) n, Forall (fun r => length r = n) rows -> length (concat rows) = (length rows * n)%nat.
Proof. intros rows n. induction 1 as [|r rows L F IH]; [reflexivity |]. cbn [concat length Nat.mul]. rewrite app_length, IH, L. reflexivity. Qed.
Lemma flat_length : forall w l, okW w -> length (flat_map (enc w) l) = (Z.to_nat w * length l)%nat.
Proof. intros w l W. induction l as [|x l IH]; [cbn; lia |]. cbn [flat_map length]. rewrite app_length, IH, enc_length by exact W. lia. Qed.
Lemma round_trip : forall w n fs, okW w -> Forall (properFrame w n) fs -> exists d, outputFrames w fs = Ok d /\ length d = (Z.to_nat w * n * total fs)%nat /\ unpack (Z.to_nat w) n (total fs) d = map (joined w fs) (seq 0 n).
Proof.
  intros w n fs W F. destruct (rows_proper w n fs F) as (R1 & R2). eexists. split; [apply (frames_ok w n fs F) |]. split.
  - rewrite flat_length by exact W. rewrite (concat_length_n _ n R1), rows_length. lia.
  - rewrite <- rows_length. rewrite (unpack_rows w n _ W R1 R2). apply map_ext_in. intros k I. apply in_seq in I. apply (rows_channel w n); [exact F | lia].
Qed.
Lemma width_ok : forall c, properClip c -> okW (width c).
Proof. intros c P. pose proof (width_bounds c P). unfold okW. lia. Qed.
Lemma wave_file : forall c fs, properClip c -> rateFits c -> c_mask c < 2 ^ 32 -> 68 + dataBytes c <= maxWaveFileSize -> Forall (properFrame (width c) (Z.to_nat (channels c))) fs -> Z.of_nat (total fs) = c_samples c ->
  exists h d, waveHeader c = Some h /\ outputFrames (width c) fs = Ok d /\ readWave false (h ++ d) = Some (infoOf c, d) /\ unpack (Z.to_nat (width c)) (Z.to_nat (channels c)) (total fs) d = map (joined (width c) fs) (seq 0 (Z.to_nat (channels c))).
Proof.
  intros c fs P R M L F T. destruct (round_trip (width c) _ fs (width_ok c P) F) as (d & E & Ld & U). pose proof (width_bounds c P). pose proof (chan_bounds c).
  assert (D : Z.of_nat (length d) = dataBytes c) by (rewrite Ld; unfold dataBytes; rewrite <- T; rewrite !Nat2Z.inj_mul, !Z2Nat.id by lia; ring).
  destruct (wave_read c P d M R L D) as (h & Eh & _ & Rh). exists h, d. auto.
Qed.
Lemma wave64_file : forall c fs, properClip c -> rateFits c -> c_mask c < 2 ^ 32 -> Forall (properFrame (width c) (Z.to_nat (channels c))) fs -> Z.of_nat (total fs) = c_samples c ->
  exists h d, wave64Header c = Some h /\ outputFrames (width c) fs = Ok d /\ readWave64 (h ++ d) = Some (infoOf c, d) /\ unpack (Z.to_nat (width c)) (Z.to_nat (channels c)) (total fs) d = map (joined (width c) fs) (seq 0 (Z.to_nat (channels c))).
Proof.
  intros c fs P R M F T. destruct (round_trip (width c) _ fs (width_ok c P) F) as (d & E & Ld & U). pose proof (width_bounds c P). pose proof (chan_bounds c).
  assert (D : Z.of_nat (length d) = dataBytes c) by (rewrite Ld; unfold dataBytes; rewrite <- T; rewrite !Nat2Z.inj_mul, !Z2Nat.id by lia; ring).
  destruct (wave64_read c P d M R D) as (h & Eh & _ & Rh). exists h, d. auto.
Qed.

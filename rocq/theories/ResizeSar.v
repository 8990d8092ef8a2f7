(** The sample aspect ratio of resized frames. *)
From Coq Require Import String.
From Coq Require Import ZArith List Lia Bool.
From Coq Require Import SpecFloat.
From Verif Require Import Common FormatSpec Format Frame SMap MapSpec MapAlias PropsSpec Props PropsLemmas ImageSpec PlaneMem Spatial Rational Soft ClipProp Blank ResizeSpec Resize ResizeColour ResizeColour2.
Import ListNotations.
Local Open Scope string_scope.
Local Open Scope list_scope.
Open Scope Z_scope.

(** The length of the used part in sixteenths of a sample. *)
Definition usedPart (x : fl) (n a : Z) : Prop :=
  (isNan x = true \/ SFeqb x (of64 n 0) = true) /\ a = 16 * n \/ sixteen x = Ok a /\ isNan x = false /\ SFeqb x (of64 n 0) = false.
Lemma usedPart_cases : forall x n a, usedPart x n a -> partOf x n = false /\ a = 16 * n \/ partOf x n = true /\ sixteen x = Ok a.
Proof.
  intros x n a [[[H|H] A]|(H & N & E)]; unfold partOf.
  - left. rewrite H. auto.
  - left. rewrite H. rewrite andb_false_r. auto.
  - right. rewrite N, E. auto.
Qed.

Lemma mul_step : forall n e a b, 0 < n -> 0 < e -> 0 < a -> 0 < b -> n * a <= INT64_MAX -> e * b <= INT64_MAX ->
  exists n' e', muldivRational n e a b = Ok (n', e') /\ 0 < n' /\ 0 < e' /\ Z.gcd n' e' = 1 /\ n' * (e * b) = n * a * e' /\ n' <= n * a /\ e' <= e * b.
Proof.
  intros n e a b N E A B X Y.
  destruct (muldivRational_spec n e a b ltac:(lia) ltac:(lia)) as (n' & e' & M & Q & G & S & Z0); [unfold INT64_MIN; split; [nia|exact X]|unfold INT64_MIN; split; [nia|exact Y]|].
  assert (P : 0 < e * b) by nia. assert (P2 : 0 < n * a) by nia.
  rewrite (Z.sgn_pos (e * b)) in S by exact P. apply Z.sgn_pos_iff in S.
  assert (N' : 0 < n') by nia.
  exists n', e'. repeat split; auto.
  - assert (D : (n' | n * a)). { apply Z.gauss with e'; [|exact G]. exists (e * b). rewrite Z.mul_comm, <- Q. ring. } apply Z.divide_pos_le; [exact P2|exact D].
  - assert (D : (e' | e * b)). { apply Z.gauss with n'; [|rewrite Z.gcd_comm; exact G]. exists (n * a). rewrite Q. ring. } apply Z.divide_pos_le; [exact P|exact D].
Qed.

Lemma sar_steps : forall s d n e aw ah, 0 < n -> 0 < e -> 0 < z_w s -> 0 < z_h s -> 0 < z_w d -> 0 < z_h d -> 0 < aw -> 0 < ah ->
  usedPart (r_width (z_region s)) (z_w s) aw -> usedPart (r_height (z_region s)) (z_h s) ah ->
  n * aw * (16 * z_h d) <= INT64_MAX -> e * (16 * z_w d) * ah <= INT64_MAX ->
  exists n' e', obind (sarWidth s d (n, e)) (sarHeight s d) = Ok (n', e') /\ 0 < n' /\ 0 < e' /\ Z.gcd n' e' = 1 /\ sameShape n e aw ah n' e' (16 * z_w d) (16 * z_h d).
Proof.
  intros s d n e aw ah N E SW SH DW DH AW AH UW UH X Y.
  assert (W : exists n1 e1, sarWidth s d (n, e) = Ok (n1, e1) /\ 0 < n1 /\ 0 < e1 /\ n1 * (e * (16 * z_w d)) = n * aw * e1 /\ n1 <= n * aw /\ e1 <= e * (16 * z_w d)).
  { unfold sarWidth. cbn [fst snd]. destruct (usedPart_cases _ _ _ UW) as [[-> ->]|[-> SX]].
    - destruct (mul_step n e (z_w s) (z_w d) N E SW DW ltac:(nia) ltac:(nia)) as (n1 & e1 & M & A1 & A2 & _ & A3 & A4 & A5).
      exists n1, e1. rewrite M. repeat split; auto; nia.
    - rewrite SX. cbn [obind]. destruct (mul_step n e aw (z_w d * 16) N E AW ltac:(lia) ltac:(nia) ltac:(nia)) as (n1 & e1 & M & A1 & A2 & _ & A3 & A4 & A5).
      exists n1, e1. rewrite M. repeat split; auto; nia. }
  destruct W as (n1 & e1 & M1 & P1 & P2 & Q1 & B1 & B2). rewrite M1. cbn [obind].
  assert (X1 : n1 * (16 * z_h d) <= INT64_MAX).
  { apply Z.le_trans with (n * aw * (16 * z_h d)); [apply Z.mul_le_mono_nonneg_r; lia|exact X]. }
  assert (Y1 : e1 * ah <= INT64_MAX).
  { apply Z.le_trans with (e * (16 * z_w d) * ah); [apply Z.mul_le_mono_nonneg_r; lia|exact Y]. }
  assert (H : exists n2 e2, sarHeight s d (n1, e1) = Ok (n2, e2) /\ 0 < n2 /\ 0 < e2 /\ Z.gcd n2 e2 = 1 /\ n2 * (e1 * ah) = n1 * (16 * z_h d) * e2).
  { unfold sarHeight. cbn [fst snd]. destruct (usedPart_cases _ _ _ UH) as [[-> ->]|[-> SX]].
    - destruct (mul_step n1 e1 (z_h d) (z_h s) P1 P2 DH SH ltac:(nia) ltac:(nia)) as (n2 & e2 & M & A1 & A2 & A2' & A3 & _).
      exists n2, e2. rewrite M. repeat split; auto. nia.
    - rewrite SX. cbn [obind]. destruct (mul_step n1 e1 (z_h d * 16) ah P1 P2 ltac:(lia) AH ltac:(nia) ltac:(nia)) as (n2 & e2 & M & A1 & A2 & A2' & A3 & _).
      exists n2, e2. rewrite M. repeat split; auto. nia. }
  destruct H as (n2 & e2 & M2 & P3 & P4 & G & Q2). exists n2, e2. rewrite M2. repeat split; auto.
  unfold sameShape. apply (Z.mul_reg_r _ _ (e1 * n1)); [nia|].
  transitivity ((n * aw * e1) * (n1 * (16 * z_h d) * e2)); [ring|]. rewrite <- Q1, <- Q2. ring.
Qed.

(** The ratio a frame carries. *)
Definition sarOf (m : pmap) (n e : Z) : Prop := propOf m "_SARNum" = Some n /\ propOf m "_SARDen" = Some e.
Lemma read_sar : forall m k, legal m -> plainKey k -> intProp (fun _ => True) m k -> readSar m k = Ok (match propOf m k with Some z => z | None => 0 end).
Proof. intros m k L K I. unfold readSar. destruct (read_int _ m k L K I) as [[-> ->]|[-> (z & -> & -> & _)]]; reflexivity. Qed.

Lemma resize_sar : forall build al g env d src c r c' n e aw ah,
  legal (rf_props src) -> meaningful (rf_props src) -> fmt_valid (rf_fmt src) -> fmt_valid (dstFormat d src) ->
  resizeFrame build al g env d src c = (Ok r, c') -> rd_bob d = false ->
  (interlacedFrame (rf_props src) = true -> isNan (r_height (rd_region d)) = true) ->
  sarOf (rf_props src) n e -> 0 < n -> 0 < e -> Z.gcd n e = 1 ->
  0 < rf_w src -> 0 < rf_h src -> 0 < aw -> 0 < ah ->
  usedPart (r_width (rd_region d)) (rf_w src) aw -> usedPart (r_height (rd_region d)) (rf_h src) ah ->
  n * aw * (16 * rf_h r) <= INT64_MAX -> e * (16 * rf_w r) * ah <= INT64_MAX ->
  exists n' e', sarOf (rf_props r) n' e' /\ 0 < n' /\ 0 < e' /\ Z.gcd n' e' = 1 /\ sameShape n e aw ah n' e' (16 * rf_w r) (16 * rf_h r).
Proof.
  intros build al g env d src c r c' n e aw ah L M VS VD R BB IR [SN SE] N E GG SW SH AW AH UW UH X Y.
  pose proof M as (_ & _ & _ & _ & _ & _ & _ & IN & IE).
  unfold resizeFrame in R. destruct (describe d src) as [[[s t] i]| |] eqn:D; try discriminate.
  destruct (describe_ok d src s t i L M VS VD D) as (I & A1 & A2 & A3 & A4 & _ & _ & _ & _ & _ & _ & _ & _ & _ & _ & _ & _ & RG & RT & _).
  assert (RW : r_width (z_region s) = r_width (rd_region d)) by (rewrite RG; destruct i; reflexivity).
  assert (UH' : usedPart (r_height (z_region s)) (z_h s) ah).
  { rewrite A2. rewrite RG. destruct i; [|exact UH]. cbn [r_height]. specialize (IR (eq_sym I)).
    destruct UH as [[_ HA]|(_ & NN & _)]; [|congruence]. left. split; [|exact HA]. left. destruct (r_height (rd_region d)); try discriminate. reflexivity. }
  assert (UW' : usedPart (r_width (z_region s)) (z_w s) aw) by (rewrite RW, A1; exact UW).
  destruct (zeqb s t && sameFormat (rf_fmt src) (dstFormat d src) && negb (isShifted s)) eqn:ZE.
  - injection R as <- <-. cbn [rf_props rf_w rf_h] in *. exists n, e.
    split; [|split; [exact N|split; [exact E|split; [exact GG|]]]].
    + unfold sarOf, propOf in *. rewrite !export_other by (auto; unfold colourKeys; cbn; intuition discriminate). split; assumption.
    + apply andb_true_iff in ZE. destruct ZE as [_ SHF]. apply negb_true_iff in SHF. unfold isShifted in SHF.
      apply orb_false_iff in SHF. destruct SHF as [SHF S4]. apply orb_false_iff in SHF. destruct SHF as [_ S3].
      destruct (usedPart_cases _ _ _ UW') as [[_ ->]|[C _]]; [|congruence]. destruct (usedPart_cases _ _ _ UH') as [[_ ->]|[C _]]; [|congruence].
      unfold sameShape. rewrite A1, A2. ring.
  - destruct (convert build al g env src (dstFormat d src) s t i c) as [[pl| |] c1] eqn:CV; try discriminate.
    destruct (propagateSar (rf_props src) (rf_props src) s t) as [m| |] eqn:PS; cbn [obind] in R; try discriminate.
    injection R as <- <-. cbn [rf_props rf_w rf_h] in *.
    assert (DP : 0 < z_w t /\ 0 < z_h t).
    { unfold convert, newPlanes, newFrame in CV. destruct (Z.leb_spec (z_w t) 0); [discriminate|]. destruct (Z.leb_spec (z_h t) 0); [discriminate|]. lia. }
    destruct (sar_steps s t n e aw ah N E ltac:(lia) ltac:(lia) (proj1 DP) (proj2 DP) AW AH UW' UH' X Y) as (n' & e' & SS & P1 & P2 & G & SHP).
    unfold propagateSar in PS. rewrite (read_sar _ "_SARNum" L ltac:(plain) IN), (read_sar _ "_SARDen" L ltac:(plain) IE), SN, SE in PS. cbn [obind] in PS.
    destruct (Z.leb_spec n 0); [lia|]. destruct (Z.leb_spec e 0); [lia|]. cbn [orb] in PS.
    destruct (sarWidth s t (n, e)) as [q| |]; cbn [obind] in PS, SS; try discriminate. rewrite SS in PS. cbn [obind fst snd] in PS. injection PS as <-.
    destruct (set_entry (rf_props src) "_SARNum" n' "_SARNum" L ltac:(ident)) as [L1 E1].
    destruct (set_entry (aSetInt (rf_props src) "_SARNum" n' MReplace) "_SARDen" e' "_SARNum" L1 ltac:(ident)) as [L2 E2].
    destruct (set_entry (aSetInt (rf_props src) "_SARNum" n' MReplace) "_SARDen" e' "_SARDen" L1 ltac:(ident)) as [_ E3].
    exists n', e'. split; [|repeat split; auto].
    unfold sarOf, propOf. rewrite !export_other by (auto; unfold colourKeys; cbn; intuition discriminate). rewrite E2, E3, E1. split; reflexivity.
Qed.

(** ** Counterexamples *)

Definition square : pmap := {| pm := [("_SARDen", (ptInt, [VInt 1])); ("_SARNum", (ptInt, [VInt 1]))]; pe := false |}.
Lemma legal_square : legal square.
Proof.
  split; [|split; [reflexivity|]].
  - repeat constructor.
  - intros k t l [[= <- <- <-]|[[= <- <- <-]|[]]]; split; try reflexivity; repeat constructor.
Qed.
Lemma square_sar : sarOf square 1 1.
Proof. split; reflexivity. Qed.
(** A grey picture of one column and four rows. *)
Definition gray8 : vfmt := mkV cfGray stInteger 8 1 0 0 1.
Definition column (h : Z) (m : pmap) : rframe := mkRF gray8 1 h [mkPl 64 (mkB (64 * h) (fun _ => 0))] m.
Definition bobbing : rdata := mkRD gray8 1 4 nothing nothing noRegion true.
Lemma bob_sar : forall build al g env c r c', resizeFrame build al g env bobbing (column 2 (fieldProps 1 square)) c = (Ok r, c') ->
  rf_w r = 1 /\ rf_h r = 4 /\ sarOf (rf_props r) 2 1 /\ propOf (rf_props r) "_Field" = Some 1.
Proof.
  intros build al g env c r c' R. unfold resizeFrame in R. cbn [describe] in R.
  match type of R with match ?x with _ => _ end = _ => let y := eval vm_compute in x in change x with y in R end. cbv iota beta in R.
  match type of R with (if ?x then _ else _) = _ => let y := eval vm_compute in x in change x with y in R end. cbv iota beta in R.
  match type of R with match ?x with _ => _ end = _ => destruct x as [[pl| |] c1]; try discriminate end.
  match type of R with (obind ?x _, _) = _ => let y := eval vm_compute in x in change x with y in R end. cbn [obind] in R.
  injection R as <- <-. repeat split; reflexivity.
Qed.
(** The same picture marked as interlaced, all of it asked for. *)
Definition interlaced (m : pmap) : pmap := aSetInt m "_FieldBased" 2 MReplace.
Definition wholeHeight : rdata := mkRD gray8 1 4 nothing nothing (mkReg S754_nan S754_nan S754_nan (of64 4 0)) false.
Lemma interlaced_sar : forall build al g env c r c', resizeFrame build al g env wholeHeight (column 4 (interlaced square)) c = (Ok r, c') ->
  rf_w r = 1 /\ rf_h r = 4 /\ sarOf (rf_props r) 2 1.
Proof.
  intros build al g env c r c' R. unfold resizeFrame in R.
  match type of R with match ?x with _ => _ end = _ => let y := eval vm_compute in x in change x with y in R end. cbv iota beta in R.
  match type of R with (if ?x then _ else _) = _ => let y := eval vm_compute in x in change x with y in R end. cbv iota beta in R.
  match type of R with match ?x with _ => _ end = _ => destruct x as [[pl| |] c1]; try discriminate end.
  match type of R with (obind ?x _, _) = _ => let y := eval vm_compute in x in change x with y in R end. cbn [obind] in R.
  injection R as <- <-. repeat split; reflexivity.
Qed.
(** A converter that makes black pictures. *)
Definition blackImage (w h : Z) : image := mkI w h (fun _ _ => 0).
Definition blackZimg (s d : zfmt) : option (list image -> list image) := Some (fun _ => [blackImage (z_w d) (z_h d)]).
(** Ratios that do not fit, and parts too small to count in sixteenths. *)
Definition huge : pmap := {| pm := [("_SARDen", (ptInt, [VInt 1])); ("_SARNum", (ptInt, [VInt (2 ^ 62)]))]; pe := false |}.
Definition thinner : rdata := mkRD gray8 1 8 nothing nothing noRegion false.
Definition sliver : rdata := mkRD gray8 1 4 nothing nothing (mkReg S754_nan S754_nan S754_nan (of64 1 (-6))) false.
Lemma sar_overflow : fst (resizeFrame blackZimg 64 (fun _ _ => 0) (fun c => c) thinner (column 4 huge) noGraphs) = UB.
Proof. vm_compute. reflexivity. Qed.
Lemma sar_sliver : fst (resizeFrame blackZimg 64 (fun _ _ => 0) (fun c => c) sliver (column 4 square) noGraphs) = UB.
Proof. vm_compute. reflexivity. Qed.

(** Drawing text: whole frames. *)
From Coq Require Import ZArith List Bool Lia.
From Verif Require Import Common FormatSpec Format FrameSpec Frame FrameLemmas FrameGeom FrameFacts ImageSpec PlaneMem Spatial SpatialLemmas SpatialFrames Pixel PixelLemmas TextSpec Text TextLemmas TextDraw.
Import ListNotations.
Open Scope Z_scope.

(** Places. *)
Lemma place_in : forall w size extent, 0 <= extent <= size - 32 -> 16 <= place w size extent /\ place w size extent + extent <= size - 16.
Proof.
  intros w size extent E. destruct w; cbn [place]; try lia.
  pose proof (Z.div_mod (size - extent) 2 ltac:(lia)). pose proof (Z.mod_pos_bound (size - extent) 2 ltac:(lia)). lia.
Qed.
Lemma startX_ok : forall a s W (l : list Z), 1 <= a <= 9 -> 1 <= s -> Z.of_nat (length l) * (8 * s) <= W - 32 -> startXOf a s W (map adjust l) = originX a W s l.
Proof.
  intros a s W l A S L. unfold startXOf, originX, zlength, characterWidth, margin. rewrite map_length.
  replace (Z.of_nat (length l) * 8 * s) with (Z.of_nat (length l) * (8 * s)) by lia.
  rewrite Z.quot_div_nonneg by lia.
  assert (C : a = 1 \/ a = 2 \/ a = 3 \/ a = 4 \/ a = 5 \/ a = 6 \/ a = 7 \/ a = 8 \/ a = 9) by lia.
  repeat (destruct C as [->|C]; [reflexivity|]). subst a. reflexivity.
Qed.
Lemma startY_ok : forall a s H (ls : list (list Z)), 1 <= a <= 9 -> 1 <= s -> Z.of_nat (length ls) * (16 * s) <= H - 32 -> startYOf a s H (zlength (map (map adjust) ls)) = originY a H s ls.
Proof.
  intros a s H ls A S L. unfold startYOf, originY, zlength, characterHeight, margin. rewrite map_length.
  replace (Z.of_nat (length ls) * 16 * s) with (Z.of_nat (length ls) * (16 * s)) by lia.
  rewrite Z.quot_div_nonneg by lia.
  assert (C : a = 1 \/ a = 2 \/ a = 3 \/ a = 4 \/ a = 5 \/ a = 6 \/ a = 7 \/ a = 8 \/ a = 9) by lia.
  repeat (destruct C as [->|C]; [reflexivity|]). subst a. reflexivity.
Qed.

(** Values. *)
Lemma supported : forall f, fmt_valid f -> is8to16orFloat f = true ->
  elemInk f = f_bytes f /\ elemChroma f = f_bytes f /\ whiteOf f = whiteS f /\ blackOf f = blackS f /\ neutralOf f = neutralS f /\
  0 <= whiteS f < 256 ^ f_bytes f /\ 0 <= blackS f < 256 ^ f_bytes f /\ 0 <= neutralS f < 256 ^ f_bytes f.
Proof.
  intros [cf st bits bytes a b np] (_ & T & (B1 & B2 & B3) & _) Q. cbn [f_cf f_st f_bits f_bytes f_ssw f_ssh f_np] in *. unfold is8to16orFloat in Q.
  unfold elemInk, elemChroma, whiteOf, blackOf, neutralOf, whiteS, blackS, neutralS. cbn [f_cf f_st f_bits f_bytes f_ssw f_ssh f_np] in *.
  assert (B4 := B3 1 (or_introl eq_refl)). assert (B5 := B3 2 (or_intror (or_introl eq_refl))). clear B3. destruct T as [(-> & R)|(-> & R)].
  - change (stInteger =? stInteger) with true in *. change (stInteger =? stFloat) with false in *. cbn [andb orb negb] in *. rewrite orb_false_r in Q. apply negb_true_iff, Z.ltb_ge in Q.
    assert (C : bits = 8 \/ bits = 9 \/ bits = 10 \/ bits = 11 \/ bits = 12 \/ bits = 13 \/ bits = 14 \/ bits = 15 \/ bits = 16) by lia.
    assert (C2 : bytes = if bits =? 8 then 1 else 2) by (destruct (Z.eqb_spec bits 8); lia). subst bytes.
    repeat (destruct C as [->|C]; [repeat split; (reflexivity || (vm_compute; discriminate))|]). subst bits. repeat split; (reflexivity || (vm_compute; discriminate)).
  - change (stFloat =? stInteger) with false in *. change (stFloat =? stFloat) with true in *. cbn [andb orb negb] in *.
    assert (C2 : bytes = if bits =? 16 then 2 else 4) by (destruct (Z.eqb_spec bits 16); lia). subst bytes.
    destruct R as [->| ->]; repeat split; (reflexivity || (vm_compute; discriminate)).
Qed.

(** The loops of the model are those of TextDraw. *)
Lemma drawLine_go : forall font f i stride X Y s l j m,
  drawLine font f i stride X Y s j l m =
  (fix go (j : Z) (l : list Z) (m : pbuf) := match l with [] => Ok m | c :: r => obind ((fun c dx dy m => drawChar font f c i stride dx dy s m) c (X + j * 8 * s) Y m) (fun m => go (j + 1) r m) end) j l m.
Proof.
  intros font f i stride X Y s l. induction l as [|c l IH]; intros j m; [reflexivity|]. cbn [drawLine]. unfold characterWidth. destruct (drawChar font f c i stride (X + j * 8 * s) Y s m); [|reflexivity|reflexivity].
  cbn [obind]. apply IH.
Qed.
Lemma drawLines_go : forall font f i stride a s W ls Y m,
  drawLines font f i stride a s W Y ls m =
  (fix go (Y : Z) (ls : list (list Z)) (m : pbuf) := match ls with [] => Ok m | l :: r => obind ((fun Y l m => drawLine font f i stride (startXOf a s W l) Y s 0 l m) Y l m) (fun m => go (Y + 16 * s) r m) end) Y ls m.
Proof.
  intros font f i stride a s W ls. induction ls as [|l ls IH]; intros Y m; [reflexivity|]. cbn [drawLines]. unfold characterHeight. destruct (drawLine font f i stride (startXOf a s W l) Y s 0 l m); [|reflexivity|reflexivity].
  cbn [obind]. apply IH.
Qed.

Section Text.
Variables (font : list Z) (f : vfmt) (a s W H : Z) (ls : list (list Z)).
Hypothesis FL : zlength font = 4016.
Hypothesis V : fmt_valid f.
Hypothesis SU : is8to16orFloat f = true.
Hypothesis A : 1 <= a <= 9.
Hypothesis S1 : 1 <= s.
Hypothesis WB : 32 <= W.
Hypothesis RW : Z.of_nat (length ls) * (16 * s) <= H - 32.
Hypothesis CL : forall l, In l ls -> Z.of_nat (length l) * (8 * s) <= W - 32.
Hypothesis CD : forall l c, In l ls -> In c l -> 0 <= c < 256.

Lemma ink_plane : forall i stride m, (f_cf f =? cfRGB) || (i =? 0) = true -> W * f_bytes f <= stride -> (f_bytes f | stride) -> b_size m = stride * H ->
  exists m', drawLines font f i stride a s W (startYOf a s H (zlength (map (map adjust) ls))) (map (map adjust) ls) m = Ok m' /\
    shown (f_bytes f) W H stride m' (withText (fontAt font) ls a W H s (whiteS f) (blackS f) (at_ (f_bytes f) stride m)).
Proof.
  intros i stride m I ST DV SZ. destruct (supported f V SU) as (E1 & _ & E3 & E4 & _ & R1 & R2 & _).
  assert (K : 1 <= f_bytes f) by (destruct (bytes_cases f V) as [->|[->| ->]]; lia).
  assert (H32 : 0 <= H - 32) by nia.
  rewrite startY_ok by assumption. rewrite drawLines_go.
  destruct (place_in (vSide a) H (Z.of_nat (length ls) * (16 * s)) ltac:(nia)) as (PY1 & PY2). fold (originY a H s ls) in PY1, PY2.
  destruct (lines_drawn (f_bytes f) W H stride K ltac:(lia) font s (whiteS f) (blackS f) S1
    (fun Y l m => drawLine font f i stride (startXOf a s W l) Y s 0 l m) (startXOf a s W) (map (map adjust) ls) (originY a H s ls) m (at_ (f_bytes f) stride m)) as (m' & F & G).
  - intros l0 m0 g Y Sh In0 Y1 Y2. apply in_map_iff in In0. destruct In0 as (l & <- & In0).
    rewrite drawLine_go. rewrite startX_ok by (auto using CL).
    destruct (place_in (hSide a) W (Z.of_nat (length l) * (8 * s)) ltac:(specialize (CL l In0); nia)) as (PX1 & PX2). fold (originX a W s l) in PX1, PX2.
    refine (line_drawn (f_bytes f) W H stride K ltac:(lia) font s (whiteS f) (blackS f) S1 (fun c dx dy m => drawChar font f c i stride dx dy s m) _ Y _ 0 _ g _ Sh _ _ _ _ _ _); try assumption; try lia.
    + intros c m1 g1 dx dy Sh1 C X1 X2 Y3 Y4. unfold drawChar. rewrite I, E1, E3, E4. apply (character_drawn (f_bytes f) W H stride); assumption || lia.
    + intros c C. apply in_map_iff in C. destruct C as (d & <- & D). destruct (adjust_index d (CD l d In0 D)) as (-> & Q). exact Q.
    + unfold zlength. rewrite map_length. lia.
  - split; [exact SZ|reflexivity].
  - lia.
  - unfold zlength. rewrite map_length. lia.
  - exists m'. split; [exact F|]. apply (shown_ext _ _ _ _ _ _ _ G). intros x y X Y. unfold linesImg, withText, charAt.
    destruct (Z.leb_spec (originY a H s ls) y) as [L|L]; destruct (Z.ltb_spec (y - originY a H s ls) 0); try lia; try reflexivity.
    rewrite nth_error_map. destruct (nth_error ls (Z.to_nat ((y - originY a H s ls) / (16 * s)))) as [l|] eqn:NL; [|reflexivity]. cbn [option_map].
    assert (In0 : In l ls) by (apply nth_error_In in NL; exact NL). rewrite startX_ok by (auto using CL).
    destruct (Z.leb_spec (originX a W s l) x); destruct (Z.ltb_spec (x - originX a W s l) 0); try lia; try reflexivity.
    rewrite nth_error_map. destruct (nth_error l (Z.to_nat ((x - originX a W s l) / (8 * s)))) as [c|] eqn:NC; [|reflexivity]. cbn [option_map].
    apply nth_error_In in NC. unfold dot, inked. destruct (adjust_index c (CD l c In0 NC)) as (-> & _). reflexivity.
Qed.
Lemma blank_plane : forall i stride m, (f_cf f =? cfRGB) || (i =? 0) = false -> W / 2 ^ f_ssw f * f_bytes f <= stride -> (f_bytes f | stride) -> b_size m = stride * (H / 2 ^ f_ssh f) -> 1 <= H -> 1 <= W ->
  exists m', drawLines font f i stride a s W (startYOf a s H (zlength (map (map adjust) ls))) (map (map adjust) ls) m = Ok m' /\
    shown (f_bytes f) (W / 2 ^ f_ssw f) (H / 2 ^ f_ssh f) stride m' (withoutColour (f_ssw f) (f_ssh f) s (neutralS f) (spots ls a W H s) (at_ (f_bytes f) stride m)).
Proof.
  intros i stride m I ST DV SZ HH WW. destruct (supported f V SU) as (_ & E1 & _ & _ & E3 & _ & _ & R1).
  assert (K : 1 <= f_bytes f) by (destruct (bytes_cases f V) as [->|[->| ->]]; lia).
  assert (SS : 0 <= f_ssw f /\ 0 <= f_ssh f) by (destruct V as (_ & _ & _ & [(_ & ? & ?)|(_ & -> & ->)] & _); lia). destruct SS as (SS1 & SS2).
  assert (P1 : 0 < 2 ^ f_ssw f) by (apply Z.pow_pos_nonneg; lia). assert (P2 : 0 < 2 ^ f_ssh f) by (apply Z.pow_pos_nonneg; lia).
  assert (W0 : 0 <= W / 2 ^ f_ssw f) by (apply Z.div_pos; lia). assert (H0 : 0 <= H / 2 ^ f_ssh f) by (apply Z.div_pos; lia).
  assert (ST0 : 0 <= stride) by nia.
  rewrite startY_ok by assumption. rewrite drawLines_go.
  destruct (place_in (vSide a) H (Z.of_nat (length ls) * (16 * s)) ltac:(nia)) as (PY1 & PY2). fold (originY a H s ls) in PY1, PY2.
  destruct (lines_blanked (f_bytes f) (W / 2 ^ f_ssw f) (H / 2 ^ f_ssh f) stride K s S1 (f_ssw f) (f_ssh f) (neutralS f)
    (fun Y l m => drawLine font f i stride (startXOf a s W l) Y s 0 l m) (startXOf a s W) (map (map adjust) ls) (originY a H s ls) m (at_ (f_bytes f) stride m) H) as (m' & F & G).
  - intros l0 m0 g Y Sh In0 Y1 Y2. apply in_map_iff in In0. destruct In0 as (l & <- & In0).
    rewrite drawLine_go. rewrite startX_ok by (auto using CL).
    destruct (place_in (hSide a) W (Z.of_nat (length l) * (8 * s)) ltac:(specialize (CL l In0); nia)) as (PX1 & PX2). fold (originX a W s l) in PX1, PX2.
    refine (line_blanked (f_bytes f) (W / 2 ^ f_ssw f) (H / 2 ^ f_ssh f) stride K font s S1 (f_ssw f) (f_ssh f) (neutralS f) (fun c dx dy m => drawChar font f c i stride dx dy s m) _ Y _ 0 _ g _ Sh ltac:(lia)).
    intros c m1 g1 dx dy Sh1 (X1 & X2) ->. unfold drawChar. rewrite I, E1, E3. unfold characterWidth, characterHeight.
    rewrite (Z.mul_comm s 8), (Z.mul_comm s 16). rewrite !Z.shiftr_div_pow2 by lia.
    unfold zlength in X2. rewrite map_length in X2.
    assert (D1 : dx / 2 ^ f_ssw f + 8 * s / 2 ^ f_ssw f <= W / 2 ^ f_ssw f).
    { apply Z.div_le_lower_bound; [lia|]. pose proof (Z.mul_div_le dx (2 ^ f_ssw f) P1). pose proof (Z.mul_div_le (8 * s) (2 ^ f_ssw f) P1). lia. }
    assert (D2 : Y / 2 ^ f_ssh f + 16 * s / 2 ^ f_ssh f <= H / 2 ^ f_ssh f).
    { apply Z.div_le_lower_bound; [lia|]. pose proof (Z.mul_div_le Y (2 ^ f_ssh f) P2). pose proof (Z.mul_div_le (16 * s) (2 ^ f_ssh f) P2). lia. }
    assert (D3 : 0 <= dx / 2 ^ f_ssw f) by (apply Z.div_pos; lia). assert (D4 : 0 <= Y / 2 ^ f_ssh f) by (apply Z.div_pos; lia).
    assert (D5 : 0 <= 8 * s / 2 ^ f_ssw f) by (apply Z.div_pos; lia). assert (D6 : 0 <= 16 * s / 2 ^ f_ssh f) by (apply Z.div_pos; lia).
    destruct (rect_filled (f_bytes f) (W / 2 ^ f_ssw f) (H / 2 ^ f_ssh f) stride) with (m := m1) (g := g1) (dx := dx / 2 ^ f_ssw f) (dy := Y / 2 ^ f_ssh f) (rw := 8 * s / 2 ^ f_ssw f) (rh := 16 * s / 2 ^ f_ssh f) (v := neutralS f)
      (f := fun y m => fill m ((Z.quot ((y + Y / 2 ^ f_ssh f) * stride) (f_bytes f) + dx / 2 ^ f_ssw f) * f_bytes f) (f_bytes f) (neutralS f) (8 * s / 2 ^ f_ssw f)) as (m2 & F2 & G2); try assumption.
    + intros y m2 Y3. rewrite (Z.add_comm y). rewrite <- (Z.add_0_r (dx / 2 ^ f_ssw f)) at 1. rewrite Z.add_assoc.
      rewrite (offset_ok (f_bytes f) (W / 2 ^ f_ssw f) stride K ST DV) by lia. rewrite Z.add_0_r. reflexivity.
    + exists m2. split; [exact F2|]. apply (shown_ext _ _ _ _ _ _ _ G2). intros x y _ _. unfold rect, blankImg, blanked. cbn [existsb fst snd]. rewrite orb_false_r. reflexivity.
  - split; [exact SZ|reflexivity].
  - lia.
  - unfold zlength. rewrite map_length. lia.
  - exists m'. split; [exact F|]. apply (shown_ext _ _ _ _ _ _ _ G). intros x y X Y. unfold blankImg, withoutColour.
    match goal with |- (if blanked _ _ _ ?l _ _ then _ else _) = _ => assert (E : l = spots ls a W H s) end; [|rewrite E; reflexivity].
    unfold spots, spotsL. rewrite map_length. rewrite !flat_map_concat_map. f_equal. apply map_ext_in. intros r R. apply in_seq in R.
    assert (N : nth r (map (map adjust) ls) [] = map adjust (nth r ls [])) by exact (map_nth (map adjust) ls [] r).
    rewrite N, map_length. rewrite startX_ok; [|assumption|assumption|apply CL, nth_In; lia]. reflexivity.
Qed.
End Text.

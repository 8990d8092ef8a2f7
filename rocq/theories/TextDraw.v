(** Drawing text: characters, lines and planes. *)
From Coq Require Import ZArith List Bool Lia.
From Verif Require Import Common FormatSpec Format Frame ImageSpec PlaneMem Spatial SpatialLemmas Pixel PixelLemmas TextSpec Text TextLemmas.
Import ListNotations.
Open Scope Z_scope.

Section Plane.
Variables (k w h stride : Z).
Hypothesis K : 1 <= k.
Hypothesis S : w * k <= stride.
Hypothesis W0 : 0 <= w.
Hypothesis H0 : 0 <= h.
Definition at_ (m : pbuf) (x y : Z) : Z := leval (Z.to_nat k) (b_data m) (y * stride + x * k).
Definition shown (m : pbuf) (g : Z -> Z -> Z) : Prop := b_size m = stride * h /\ forall x y, 0 <= x < w -> 0 <= y < h -> at_ m x y = g x y.
Lemma shown_ext : forall m g g', shown m g -> (forall x y, 0 <= x < w -> 0 <= y < h -> g x y = g' x y) -> shown m g'.
Proof. intros m g g' (A & B) E. split; [exact A|]. intros x y X Y. rewrite B by assumption. now apply E. Qed.
Lemma inside_row : forall x y n, 0 <= x -> x + n <= w -> 0 <= y < h -> 0 <= n -> 0 <= y * stride + x * k /\ y * stride + x * k + n * k <= stride * h.
Proof. intros x y n X Y N Q. assert (0 <= stride) by nia. assert ((x + n) * k <= w * k) by (apply Z.mul_le_mono_nonneg_r; lia). assert (y * stride + stride <= stride * h) by nia. nia. Qed.
(** A run of equal samples. *)
Lemma fill_shown : forall m g x y n v, shown m g -> 0 <= x -> x + n <= w -> 0 <= y < h -> 0 <= n -> 0 <= v < 256 ^ k ->
  exists m', fill m (y * stride + x * k) k v n = Ok m' /\ shown m' (fun x' y' => if within x n x' && (y' =? y) then v else g x' y').
Proof.
  intros m g x y n v (A & B) X XW Y N V. destruct (inside_row x y n X XW Y N) as (I1 & I2).
  destruct (fill_spec m (y * stride + x * k) k v n ltac:(lia) N I1 ltac:(lia)) as (m' & F & Sz & P & Q).
  exists m'. split; [exact F|]. split; [congruence|]. intros x' y' X' Y'. unfold at_, within.
  destruct (Z.eqb_spec y' y) as [->|E].
  - destruct (Z.leb_spec x x') as [L|L]; [destruct (Z.ltb_spec x' (x + n)) as [L'|L']|]; cbn [andb].
    + apply leval_stored; [exact K|exact V|]. intros j J. replace (y * stride + x' * k + j) with (y * stride + x * k + (x' - x) * k + j) by lia. apply P; lia.
    + rewrite <- B by assumption. unfold at_. apply sample_ext; [lia|]. intros j J. apply Q. right. nia.
    + rewrite <- B by assumption. unfold at_. apply sample_ext; [lia|]. intros j J. apply Q. left. nia.
  - rewrite andb_false_r. rewrite <- B by assumption. unfold at_. apply sample_ext; [lia|]. intros j J. apply Q.
    destruct (inside_row x' y' 1 ltac:(lia) ltac:(lia) Y' ltac:(lia)) as (I3 & I4).
    assert (x' * k + k <= stride) by nia. assert (0 <= x' * k) by nia. assert (0 <= x * k) by nia. assert ((x + n) * k <= stride) by nia.
    destruct (Z.lt_ge_cases y' y); [left|right]; nia.
Qed.
Lemma store_shown : forall m g x y v, shown m g -> 0 <= x < w -> 0 <= y < h -> 0 <= v < 256 ^ k ->
  exists m', storeS k m (y * stride + x * k) v = Ok m' /\ shown m' (fun x' y' => if (x' =? x) && (y' =? y) then v else g x' y').
Proof.
  intros m g x y v Sh X Y V. unfold storeS. destruct (fill_shown m g x y 1 v Sh ltac:(lia) ltac:(lia) Y ltac:(lia) V) as (m' & F & G). exists m'. split; [exact F|].
  apply (shown_ext _ _ _ G). intros x' y' _ _. unfold within. replace ((x <=? x') && (x' <? x + 1)) with (x' =? x); [reflexivity|].
  destruct (Z.eqb_spec x' x); destruct (Z.leb_spec x x'); destruct (Z.ltb_spec x' (x + 1)); cbn [andb]; lia.
Qed.
(** A rectangle of samples. *)
Definition rect (dx dy rw rh : Z) (v g : Z -> Z -> Z) (x y : Z) : Z := if within dx rw x && within dy rh y then v (x - dx) (y - dy) else g x y.
Lemma rect_drawn : forall m g dx dy rw rh f v, shown m g -> 0 <= dx -> dx + rw <= w -> 0 <= dy -> dy + rh <= h -> 0 <= rw -> 0 <= rh ->
  (forall x y m, 0 <= x < rw -> 0 <= y < rh -> f y x m = storeS k m ((dy + y) * stride + (dx + x) * k) (v x y)) -> (forall x y, 0 <= x < rw -> 0 <= y < rh -> 0 <= v x y < 256 ^ k) ->
  exists m', forZ rh (fun y m => forZ rw (fun x m' => f y x m') m) m = Ok m' /\ shown m' (rect dx dy rw rh v g).
Proof.
  intros m g dx dy rw rh f v Sh X1 X2 Y1 Y2 R1 R2 E V.
  destruct (forZ_inv (fun j m => shown m (rect dx dy rw j v g)) (fun y m => forZ rw (fun x m' => f y x m') m) rh m R2) as (m' & F & G).
  - apply (shown_ext _ _ _ Sh). intros x y _ _. unfold rect, within. destruct (Z.leb_spec dy y); destruct (Z.ltb_spec y (dy + 0)); try lia; cbn [andb]; now rewrite ?andb_false_r.
  - intros j t J T.
    destruct (forZ_inv (fun i m => shown m (fun x y => if within dx i x && (y =? dy + j) then v (x - dx) j else rect dx dy rw j v g x y)) (fun x m' => f j x m') rw t R1) as (m' & F & G).
    + apply (shown_ext _ _ _ T). intros x y _ _. unfold within at 1. destruct (Z.leb_spec dx x); destruct (Z.ltb_spec x (dx + 0)); try lia; reflexivity.
    + intros i t' I T'. rewrite (E i j t' I J). destruct (store_shown t' _ (dx + i) (dy + j) (v i j) T' ltac:(lia) ltac:(lia) (V i j I J)) as (m' & F & G). exists m'. split; [exact F|].
      apply (shown_ext _ _ _ G). intros x y _ _. unfold within at 1 2. destruct (Z.eqb_spec y (dy + j)) as [->|N]; [|rewrite !andb_false_r; reflexivity]. rewrite !andb_true_r.
      destruct (Z.eqb_spec x (dx + i)) as [->|N].
      * replace ((dx <=? dx + i) && (dx + i <? dx + (i + 1))) with true; [replace (dx + i - dx) with i by lia; reflexivity|]. symmetry. rewrite andb_true_iff, Z.leb_le, Z.ltb_lt. lia.
      * replace (x <? dx + (i + 1)) with (x <? dx + i); [reflexivity|]. destruct (Z.ltb_spec x (dx + i)); destruct (Z.ltb_spec x (dx + (i + 1))); lia.
    + exists m'. split; [exact F|]. apply (shown_ext _ _ _ G). intros x y _ _. unfold rect, within.
      destruct ((dx <=? x) && (x <? dx + rw)); cbn [andb]; [|destruct (y =? dy + j); reflexivity].
      destruct (Z.eqb_spec y (dy + j)) as [->|N].
      * replace ((dy <=? dy + j) && (dy + j <? dy + (j + 1))) with true; [replace (dy + j - dy) with j by lia; reflexivity|]. symmetry. rewrite andb_true_iff, Z.leb_le, Z.ltb_lt. lia.
      * replace (y <? dy + (j + 1)) with (y <? dy + j); [reflexivity|]. destruct (Z.ltb_spec y (dy + j)); destruct (Z.ltb_spec y (dy + (j + 1))); lia.
  - exists m'. split; [exact F|exact G].
Qed.
Lemma rect_filled : forall m g dx dy rw rh f v, shown m g -> 0 <= dx -> dx + rw <= w -> 0 <= dy -> dy + rh <= h -> 0 <= rw -> 0 <= rh -> 0 <= v < 256 ^ k ->
  (forall y m, 0 <= y < rh -> f y m = fill m ((dy + y) * stride + dx * k) k v rw) ->
  exists m', forZ rh f m = Ok m' /\ shown m' (rect dx dy rw rh (fun _ _ => v) g).
Proof.
  intros m g dx dy rw rh f v Sh X1 X2 Y1 Y2 R1 R2 V E.
  destruct (forZ_inv (fun j m => shown m (rect dx dy rw j (fun _ _ => v) g)) f rh m R2) as (m' & F & G).
  - apply (shown_ext _ _ _ Sh). intros x y _ _. unfold rect, within. destruct (Z.leb_spec dy y); destruct (Z.ltb_spec y (dy + 0)); try lia; cbn [andb]; now rewrite ?andb_false_r.
  - intros j t J T. rewrite (E j t J). destruct (fill_shown t _ dx (dy + j) rw v T X1 X2 ltac:(lia) R1 V) as (m' & F & G). exists m'. split; [exact F|].
    apply (shown_ext _ _ _ G). intros x y _ _. unfold rect. destruct (within dx rw x); cbn [andb]; [|reflexivity]. unfold within.
    destruct (Z.eqb_spec y (dy + j)) as [->|N].
    + replace ((dy <=? dy + j) && (dy + j <? dy + (j + 1))) with true; [reflexivity|]. symmetry. rewrite andb_true_iff, Z.leb_le, Z.ltb_lt. lia.
    + replace (y <? dy + (j + 1)) with (y <? dy + j); [reflexivity|]. destruct (Z.ltb_spec y (dy + j)); destruct (Z.ltb_spec y (dy + (j + 1))); lia.
  - exists m'. split; [exact F|exact G].
Qed.
Hypothesis DV : (k | stride).
Lemma offset_ok : forall dx x y, 0 <= stride -> 0 <= y -> (Z.quot (y * stride) k + dx + x) * k = y * stride + (dx + x) * k.
Proof. intros dx x y S0 Y. destruct DV as (q & ->). rewrite Z.mul_assoc, Z.quot_mul by lia. lia. Qed.

(** Glyphs. *)
Variables (font : list Z) (s : Z) (white black : Z).
Hypothesis FL : zlength font = 4016.
Hypothesis S1 : 1 <= s.
Hypothesis V1 : 0 <= white < 256 ^ k.
Hypothesis V2 : 0 <= black < 256 ^ k.
Definition fontAt (i : Z) : Z := match nthz font i with Some b => b | None => 0 end.
Definition dot (c u v : Z) : Z := if Z.testbit (fontAt (16 * c + v / s)) (7 - u / s) then white else black.
Lemma dot_range : forall c u v, 0 <= dot c u v < 256 ^ k.
Proof. intros. unfold dot. destruct (Z.testbit _ _); assumption. Qed.
Lemma nthz_in : forall (l : list Z) i, 0 <= i < zlength l -> nthz l i = Some (match nthz l i with Some b => b | None => 0 end).
Proof.
  intros l i I. unfold nthz, zlength in *. destruct (Z.ltb_spec i 0); [lia|]. destruct (nth_error l (Z.to_nat i)) eqn:E; [reflexivity|]. apply nth_error_None in E. lia.
Qed.
Lemma character_drawn : forall c m g dx dy, shown m g -> 0 <= c < 251 -> 0 <= dx -> dx + 8 * s <= w -> 0 <= dy -> dy + 16 * s <= h ->
  exists m', scrawlCharacter font c k stride dx dy s white black m = Ok m' /\ shown m' (rect dx dy (8 * s) (16 * s) (dot c) g).
Proof.
  intros c m g dx dy Sh C X1 X2 Y1 Y2. unfold scrawlCharacter, characterHeight, characterWidth.
  apply rect_drawn with (f := fun y x m' => match nthz font (c * 16 + Z.quot y s) with None => UB | Some b => storeS k m' ((Z.quot ((dy + y) * stride) k + dx + x) * k) (if Z.testbit b (7 - Z.quot x s) then white else black) end) (v := dot c); try assumption; try lia.
  - intros x y m' X Y. rewrite (Z.quot_div_nonneg y s) by lia. assert (Q : 0 <= y / s < 16) by (split; [apply Z.div_pos; lia|apply Z.div_lt_upper_bound; lia]).
    assert (E : nthz font (c * 16 + y / s) = Some (fontAt (16 * c + y / s))) by (unfold fontAt; rewrite (Z.mul_comm 16 c); apply nthz_in; lia).
    rewrite E, offset_ok by nia. unfold dot. rewrite !Z.quot_div_nonneg by lia. reflexivity.
  - intros. apply dot_range.
Qed.
(** A line of glyphs starting at its [j]th one. *)
Definition lineImg (X Y j : Z) (l : list Z) (g : Z -> Z -> Z) (x y : Z) : Z :=
  if within Y (16 * s) y && (X + j * (8 * s) <=? x)
  then match nth_error l (Z.to_nat ((x - X) / (8 * s) - j)) with Some c => dot c ((x - X) mod (8 * s)) (y - Y) | None => g x y end
  else g x y.
Lemma line_drawn : forall (draw : Z -> Z -> Z -> pbuf -> outcome pbuf) X Y l j m g,
  (forall c m g dx dy, shown m g -> 0 <= c < 251 -> 0 <= dx -> dx + 8 * s <= w -> 0 <= dy -> dy + 16 * s <= h -> exists m', draw c dx dy m = Ok m' /\ shown m' (rect dx dy (8 * s) (16 * s) (dot c) g)) ->
  shown m g -> (forall c, In c l -> 0 <= c < 251) -> 0 <= X -> 0 <= j -> X + (j + zlength l) * (8 * s) <= w -> 0 <= Y -> Y + 16 * s <= h ->
  exists m', (fix go (j : Z) (l : list Z) (m : pbuf) := match l with [] => Ok m | c :: r => obind (draw c (X + j * 8 * s) Y m) (fun m => go (j + 1) r m) end) j l m = Ok m' /\ shown m' (lineImg X Y j l g).
Proof.
  intros draw X Y l. induction l as [|c l IH]; intros j m g D Sh C X1 J X2 Y1 Y2.
  - exists m. split; [reflexivity|]. apply (shown_ext _ _ _ Sh). intros x y _ _. unfold lineImg. destruct (within Y (16 * s) y && (X + j * (8 * s) <=? x)); [|reflexivity]. destruct (Z.to_nat ((x - X) / (8 * s) - j)); reflexivity.
  - unfold zlength in X2. cbn [length] in X2. assert (Ln : 0 <= Z.of_nat (length l)) by lia.
    assert (EJ : X + j * 8 * s = X + j * (8 * s)) by lia. rewrite EJ.
    destruct (D c m g (X + j * (8 * s)) Y Sh (C c (or_introl eq_refl)) ltac:(nia) ltac:(nia) Y1 Y2) as (m1 & F & G). rewrite F. cbn [obind].
    destruct (IH (j + 1) m1 _ D G) as (m' & F' & G'); [intros; apply C; right; assumption|exact X1|lia|unfold zlength; nia|exact Y1|exact Y2|].
    exists m'. split; [exact F'|]. apply (shown_ext _ _ _ G'). intros x y _ _. unfold lineImg, rect.
    destruct (within Y (16 * s) y) eqn:EY; cbn [andb]; [|rewrite andb_false_r; reflexivity]. rewrite andb_true_r.
    unfold within at 1. destruct (Z.leb_spec (X + j * (8 * s)) x) as [L|L].
    + destruct (Z.leb_spec (X + (j + 1) * (8 * s)) x) as [L'|L'].
      * assert (Q : j + 1 <= (x - X) / (8 * s)) by (apply Z.div_le_lower_bound; nia).
        replace (Z.to_nat ((x - X) / (8 * s) - j)) with (Datatypes.S (Z.to_nat ((x - X) / (8 * s) - (j + 1)))) by lia. cbn [nth_error].
        destruct (nth_error l (Z.to_nat ((x - X) / (8 * s) - (j + 1)))); [reflexivity|]. unfold within. destruct (Z.leb_spec (X + j * (8 * s)) x); [|lia]. destruct (Z.ltb_spec x (X + j * (8 * s) + 8 * s)); [lia|]. reflexivity.
      * assert (Q : (x - X) / (8 * s) = j) by (symmetry; apply (Z.div_unique_pos _ _ j (x - X - j * (8 * s))); nia).
        assert (Q2 : (x - X) mod (8 * s) = x - X - j * (8 * s)) by (rewrite Z.mod_eq by lia; rewrite Q; lia).
        rewrite Q, Z.sub_diag. change (nth_error (c :: l) (Z.to_nat 0)) with (Some c). cbv iota. unfold within. destruct (Z.leb_spec (X + j * (8 * s)) x); [|lia]. destruct (Z.ltb_spec x (X + j * (8 * s) + 8 * s)); [|lia]. cbn [andb]. rewrite Q2. replace (x - (X + j * (8 * s))) with (x - X - j * (8 * s)) by lia. reflexivity.
    + destruct (Z.leb_spec (X + (j + 1) * (8 * s)) x); [nia|]. unfold within. destruct (Z.leb_spec (X + j * (8 * s)) x); [lia|]. reflexivity.
Qed.
Definition linesImg (X : list Z -> Z) (Y : Z) (ls : list (list Z)) (g : Z -> Z -> Z) (x y : Z) : Z :=
  if Y <=? y then
    match nth_error ls (Z.to_nat ((y - Y) / (16 * s))) with
    | Some l => if X l <=? x then match nth_error l (Z.to_nat ((x - X l) / (8 * s))) with Some c => dot c ((x - X l) mod (8 * s)) ((y - Y) mod (16 * s)) | None => g x y end else g x y
    | None => g x y
    end
  else g x y.
Lemma lines_drawn : forall (drawL : Z -> list Z -> pbuf -> outcome pbuf) X ls Y m g,
  (forall l m g Y, shown m g -> In l ls -> 0 <= Y -> Y + 16 * s <= h -> exists m', drawL Y l m = Ok m' /\ shown m' (lineImg (X l) Y 0 l g)) ->
  shown m g -> 0 <= Y -> Y + zlength ls * (16 * s) <= h ->
  exists m', (fix go (Y : Z) (ls : list (list Z)) (m : pbuf) := match ls with [] => Ok m | l :: r => obind (drawL Y l m) (fun m => go (Y + 16 * s) r m) end) Y ls m = Ok m' /\ shown m' (linesImg X Y ls g).
Proof.
  intros drawL X ls. induction ls as [|l ls IH]; intros Y m g D Sh Y1 Y2.
  - exists m. split; [reflexivity|]. apply (shown_ext _ _ _ Sh). intros x y _ _. unfold linesImg. destruct (Y <=? y); [|reflexivity]. destruct (Z.to_nat ((y - Y) / (16 * s))); reflexivity.
  - unfold zlength in Y2. cbn [length] in Y2. destruct (D l m g Y Sh (or_introl eq_refl) Y1 ltac:(nia)) as (m1 & F & G). rewrite F. cbn [obind].
    destruct (IH (Y + 16 * s) m1 _ ltac:(intros l' m' g' Y' A B; apply D; [exact A|right; exact B]) G) as (m' & F' & G'); [nia|unfold zlength; nia|].
    exists m'. split; [exact F'|]. apply (shown_ext _ _ _ G'). intros x y _ _. unfold linesImg, lineImg, within. rewrite Z.mul_0_l, Z.add_0_r, Z.sub_0_r.
    destruct (Z.leb_spec Y y) as [L|L].
    + destruct (Z.leb_spec (Y + 16 * s) y) as [L'|L'].
      * assert (Q : (y - Y) / (16 * s) = (y - (Y + 16 * s)) / (16 * s) + 1) by (replace (y - Y) with (y - (Y + 16 * s) + 1 * (16 * s)) by lia; rewrite Z.div_add by lia; reflexivity).
        assert (Q0 : 0 <= (y - (Y + 16 * s)) / (16 * s)) by (apply Z.div_pos; lia).
        assert (Q2 : (y - Y) mod (16 * s) = (y - (Y + 16 * s)) mod (16 * s)) by (replace (y - Y) with (y - (Y + 16 * s) + 1 * (16 * s)) by lia; apply Z_mod_plus_full).
        rewrite Q, Q2. replace (Z.to_nat ((y - (Y + 16 * s)) / (16 * s) + 1)) with (Datatypes.S (Z.to_nat ((y - (Y + 16 * s)) / (16 * s)))) by lia. cbn [nth_error].
        destruct (Z.ltb_spec y (Y + 16 * s)); [lia|]. cbn [andb]. reflexivity.
      * rewrite (Z.div_small (y - Y)), (Z.mod_small (y - Y)) by lia. cbn [Z.to_nat nth_error]. destruct (Z.ltb_spec y (Y + 16 * s)); [|lia]. cbn [andb]. reflexivity.
    + destruct (Z.leb_spec (Y + 16 * s) y); [lia|]. cbn [andb]. reflexivity.
Qed.
(** Chroma. *)
Variables (ssw_ ssh_ neutral : Z).
Hypothesis V3 : 0 <= neutral < 256 ^ k.
Definition blankImg (sp : list (Z * Z)) (g : Z -> Z -> Z) (x y : Z) : Z := if blanked ssw_ ssh_ s sp x y then neutral else g x y.
Lemma blank_app : forall a b g x y, blankImg (a ++ b) g x y = blankImg b (blankImg a g) x y.
Proof. intros. unfold blankImg, blanked. rewrite existsb_app. destruct (existsb _ a); destruct (existsb _ b); reflexivity. Qed.
Definition spotsL (X Y j : Z) (n : nat) : list (Z * Z) := map (fun c => (X + (j + Z.of_nat c) * (8 * s), Y)) (seq 0 n).
Lemma line_blanked : forall (draw : Z -> Z -> Z -> pbuf -> outcome pbuf) X Y l j m g,
  (forall c m g dx dy, shown m g -> (X <= dx /\ dx + 8 * s <= X + (j + zlength l) * (8 * s)) -> dy = Y -> exists m', draw c dx dy m = Ok m' /\ shown m' (blankImg [(dx, dy)] g)) ->
  shown m g -> 0 <= j ->
  exists m', (fix go (j : Z) (l : list Z) (m : pbuf) := match l with [] => Ok m | c :: r => obind (draw c (X + j * 8 * s) Y m) (fun m => go (j + 1) r m) end) j l m = Ok m' /\ shown m' (blankImg (spotsL X Y j (length l)) g).
Proof.
  intros draw X Y l. induction l as [|c l IH]; intros j m g D Sh J.
  - exists m. split; [reflexivity|]. exact Sh.
  - assert (EJ : X + j * 8 * s = X + j * (8 * s)) by lia. rewrite EJ.
    destruct (D c m g (X + j * (8 * s)) Y Sh) as (m1 & F & G); [unfold zlength; cbn [length]; nia|reflexivity|]. rewrite F. cbn [obind].
    assert (D' : forall c m g dx dy, shown m g -> (X <= dx /\ dx + 8 * s <= X + (j + 1 + zlength l) * (8 * s)) -> dy = Y -> exists m', draw c dx dy m = Ok m' /\ shown m' (blankImg [(dx, dy)] g)).
    { intros c' m2 g2 dx dy A B E. apply D; [exact A| |exact E]. unfold zlength in *. cbn [length]. replace (j + Z.of_nat (Datatypes.S (length l))) with (j + 1 + Z.of_nat (length l)) by lia. exact B. }
    destruct (IH (j + 1) m1 _ D' G ltac:(lia)) as (m' & F' & G').
    exists m'. split; [exact F'|]. apply (shown_ext _ _ _ G'). intros x y _ _. rewrite <- blank_app. f_equal. unfold spotsL. cbn [length seq map app]. rewrite Z.add_0_r. f_equal.
      rewrite <- seq_shift, map_map. apply map_ext. intros a. f_equal. lia.
Qed.
Lemma lines_blanked : forall (drawL : Z -> list Z -> pbuf -> outcome pbuf) X ls Y m g (Ymax : Z),
  (forall l m g Y, shown m g -> In l ls -> 0 <= Y -> Y + 16 * s <= Ymax -> exists m', drawL Y l m = Ok m' /\ shown m' (blankImg (spotsL (X l) Y 0 (length l)) g)) ->
  shown m g -> 0 <= Y -> Y + zlength ls * (16 * s) <= Ymax ->
  exists m', (fix go (Y : Z) (ls : list (list Z)) (m : pbuf) := match ls with [] => Ok m | l :: r => obind (drawL Y l m) (fun m => go (Y + 16 * s) r m) end) Y ls m = Ok m' /\
    shown m' (blankImg (flat_map (fun r => spotsL (X (nth r ls [])) (Y + Z.of_nat r * (16 * s)) 0 (length (nth r ls []))) (seq 0 (length ls))) g).
Proof.
  intros drawL X ls. induction ls as [|l ls IH]; intros Y m g Ymax D Sh Y1 Y2.
  - exists m. split; [reflexivity|exact Sh].
  - unfold zlength in Y2. cbn [length] in Y2. destruct (D l m g Y Sh (or_introl eq_refl) Y1 ltac:(nia)) as (m1 & F & G). rewrite F. cbn [obind].
    destruct (IH (Y + 16 * s) m1 _ Ymax ltac:(intros l' m' g' Y' A B; apply D; [exact A|right; exact B]) G) as (m' & F' & G'); [nia|unfold zlength; nia|].
    exists m'. split; [exact F'|]. apply (shown_ext _ _ _ G'). intros x y _ _. rewrite <- blank_app. f_equal. cbn [length seq flat_map nth]. rewrite Z.mul_0_l, Z.add_0_r. f_equal.
    rewrite <- seq_shift. rewrite !flat_map_concat_map, map_map. f_equal. apply map_ext. intros r. cbn [nth]. f_equal. lia.
Qed.
End Plane.

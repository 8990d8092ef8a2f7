(** Facts about pictures for Video for Windows. *)
From Coq Require Import String ZArith List Bool Lia.
From Verif Require Import Common FormatSpec Fourcc FourccSpec.
Import ListNotations.
Open Scope Z_scope.

(** ---- The table ---- *)

Lemma find_in : forall f alt t, findTraits f alt = Some t -> In t table /\ hasKey f alt t = true.
Proof. intros f alt t H. apply find_some in H. exact H. Qed.

Lemma key_eq : forall f alt t, hasKey f alt t = true ->
  t_cf t = f_cf f /\ t_st t = f_st f /\ t_bits t = f_bits f /\ t_ssw t = f_ssw f /\ t_ssh t = f_ssh f /\ t_alt t = alt.
Proof. intros f alt t H. unfold hasKey in H. rewrite !andb_true_iff, !Z.eqb_eq in H. tauto. Qed.

Definition sameKey (a b : traits) : bool :=
  (t_cf a =? t_cf b) && (t_st a =? t_st b) && (t_bits a =? t_bits b) && (t_ssw a =? t_ssw b) &&
  (t_ssh a =? t_ssh b) && (t_alt a =? t_alt b).
Fixpoint distinctKeys (l : list traits) : bool :=
  match l with [] => true | t :: tl => forallb (fun u => negb (sameKey t u)) tl && distinctKeys tl end.

Lemma distinct_find : forall l f alt t, distinctKeys l = true -> In t l -> hasKey f alt t = true ->
  find (hasKey f alt) l = Some t.
Proof.
  induction l as [|u l IH]; intros f alt t D Hin K; [destruct Hin|].
  cbn [distinctKeys] in D. apply andb_true_iff in D. destruct D as [Du D]. cbn [find].
  destruct Hin as [<- | Hin]; [rewrite K; reflexivity|].
  destruct (hasKey f alt u) eqn:E; [|apply IH; assumption].
  exfalso. rewrite forallb_forall in Du. specialize (Du _ Hin). apply negb_true_iff in Du.
  apply key_eq in E. apply key_eq in K. unfold sameKey in Du.
  destruct E as (A1 & A2 & A3 & A4 & A5 & A6). destruct K as (B1 & B2 & B3 & B4 & B5 & B6).
  rewrite A1, A2, A3, A4, A5, A6, B1, B2, B3, B4, B5, B6, !Z.eqb_refl in Du. discriminate.
Qed.

(** No format has two codes for one mode: the entry found is the only one. *)
Lemma table_unique : forall f alt t, In t table -> (hasKey f alt t = true <-> findTraits f alt = Some t).
Proof.
  intros f alt t Hin. split.
  - intros K. apply distinct_find; [vm_compute; reflexivity|exact Hin|exact K].
  - intros E. apply find_in in E. apply E.
Qed.

(** What the proofs need of an entry for clips. *)
Definition entryOk (t : traits) : bool :=
  if isPlanar (t_pack t) then negb (t_ud t) && negb (t_nv t) && (t_align t =? 1)
  else if t_nv t then negb (t_ud t) && (t_align t =? 1) && (9 <=? t_bits t) && (t_bits t <=? 16) && (t_cf t =? cfYUV)
  else negb (t_cf t =? cfGray).
Lemma entries_ok : forall t, In t table -> 0 < t_cf t -> entryOk t = true.
Proof.
  assert (forallb (fun t => negb (0 <? t_cf t) || entryOk t) table = true) as H by (vm_compute; reflexivity).
  rewrite forallb_forall in H. intros t Hin Hcf. specialize (H t Hin).
  destruct (Z.ltb_spec 0 (t_cf t)); [exact H|lia].
Qed.

(** ---- Sizes ---- *)

Lemma i32_ok : forall x, 0 <= x <= INT_MAX -> i32 x = Ok x.
Proof.
  intros. unfold i32. assert (in_intb x = true) as ->; [|reflexivity].
  apply in_intb_spec. unfold in_int, INT_MIN, INT_MAX in *. lia.
Qed.

Lemma rowAligned_1 : forall r, rowAligned r 1 = Ok r.
Proof. intros. unfold rowAligned. rewrite Z.mod_1_r. reflexivity. Qed.

Definition plainAlign (t : option traits) : Prop := match t with Some t => t_align t = 1 | None => True end.
Lemma rowPlanar_1 : forall w b t, plainAlign t -> 0 <= w * b <= INT_MAX -> rowPlanar w b t = Ok (w * b).
Proof.
  intros w b t Ht H. unfold rowPlanar. rewrite i32_ok by exact H. cbn [obind].
  destruct t as [t|]; cbn in Ht; [rewrite Ht|]; apply rowAligned_1.
Qed.

Lemma rowAligned_up : forall r m, 0 < m -> 0 <= r -> r + m <= INT_MAX -> rowAligned r m = Ok (roundUp r m).
Proof.
  intros r m Hm Hr Hi. unfold rowAligned, roundUp.
  pose proof (Z.div_mod r m ltac:(lia)) as D. pose proof (Z.mod_pos_bound r m Hm) as B.
  destruct (Z.eqb_spec (r mod m) 0) as [E | E].
  - f_equal. replace (r + m - 1) with (m - 1 + (r / m) * m) by lia.
    rewrite Z.div_add, (Z.div_small (m - 1) m) by lia. lia.
  - rewrite i32_ok by lia. f_equal.
    replace (r + m - 1) with (r mod m - 1 + (r / m + 1) * m) by lia.
    rewrite Z.div_add, (Z.div_small (r mod m - 1) m) by lia. lia.
Qed.

Lemma shiftr_div : forall x s, 0 <= s -> Z.shiftr x s = x / 2 ^ s.
Proof. intros. apply Z.shiftr_div_pow2. exact H. Qed.

(** ---- Blocks one after the other ---- *)

Fixpoint tile (off : Z) (bs : list block) : Prop :=
  match bs with
  | [] => True
  | b :: tl => b_off b = off /\ b_stride b = b_len b /\ 0 <= b_len b /\ 0 <= b_rows b /\ tile (off + b_len b * b_rows b) tl
  end.

Lemma tile_inside : forall bs off b y, tile off bs -> In b bs -> 0 <= y < b_rows b ->
  off <= rowFrom b y /\ rowTo b y <= off + written bs.
Proof.
  assert (W : forall bs off, tile off bs -> 0 <= written bs).
  { induction bs; intros off T; cbn; [lia|]. destruct T as (_ & _ & A & B & T). specialize (IHbs _ T). fold (written bs). nia. }
  induction bs as [|c bs IH]; intros off b y T Hin Hy; [destruct Hin|].
  destruct T as (T1 & T2 & T3 & T4 & T). cbn [written fold_right]. fold (written bs).
  pose proof (W _ _ T).
  destruct Hin as [<- | Hin].
  - unfold rowTo, rowFrom. rewrite T1, T2.
    assert (y * b_len c + b_len c <= b_len c * b_rows c) by nia. split; nia.
  - pose proof (IH _ _ _ T Hin Hy) as [A B].
    assert (0 <= b_len c * b_rows c) by nia. lia.
Qed.

Lemma tile_disjoint : forall bs off, tile off bs -> noOverlap bs.
Proof.
  induction bs as [|d bs IH]; intros off T i j b c y z Hi Hj Hy Hz Hne.
  - destruct i; discriminate.
  - destruct T as (T1 & T2 & T3 & T4 & T).
    destruct i as [|i], j as [|j]; cbn [nth_error] in *.
    + injection Hi as <-. injection Hj as <-. unfold rowTo, rowFrom. rewrite T2.
      assert (y <> z) by congruence.
      destruct (Z.lt_total y z) as [L | [L | L]]; [left; nia|lia|right; nia].
    + injection Hi as <-. pose proof (tile_inside _ _ _ _ T (nth_error_In _ _ Hj) Hz) as [A _].
      left. unfold rowTo. unfold rowFrom at 1. rewrite T1, T2. nia.
    + injection Hj as <-. pose proof (tile_inside _ _ _ _ T (nth_error_In _ _ Hi) Hy) as [A _].
      right. unfold rowTo. unfold rowFrom at 1. rewrite T1, T2. nia.
    + apply (IH _ T i j b c y z Hi Hj Hy Hz). congruence.
Qed.

(** One block of rows that may have padding and may go upwards. *)
Lemma single_ok : forall (ud : bool) s len h from, 0 < h -> 0 <= len <= s ->
  let b := if ud then mkB ((h - 1) * s) (- s) len h from else mkB 0 s len h from in
  insideBuffer (s * h) [b] /\ noOverlap [b].
Proof.
  intros ud s len h from Hh Hl b. split.
  - intros c y [<- | []] Hy. unfold b, rowTo, rowFrom in *. destruct ud; cbn [b_off b_stride b_len b_rows] in *; split; nia.
  - intros i j c d y z Hi Hj Hy Hz Hne.
    destruct i as [|[|i]]; cbn in Hi; try discriminate. destruct j as [|[|j]]; cbn in Hj; try discriminate.
    injection Hi as <-. injection Hj as <-. assert (y <> z) by congruence.
    unfold b, rowTo, rowFrom in *. destruct ud; cbn [b_off b_stride b_len b_rows] in *;
      (destruct (Z.lt_total y z) as [L | [L | L]]; [|lia|]); [right|left|left|right]; nia.
Qed.

(** ---- The three ways to pack ---- *)

Section Pack.
Variables (f : vfmt) (w h alt : Z).
Hypothesis FV : fmt_valid f.
Hypothesis DO : dimsOk f w h.

Definition cw : Z := w / 2 ^ f_ssw f.
Definition ch : Z := h / 2 ^ f_ssh f.

Lemma fmt_facts : 0 <= f_ssw f /\ 0 <= f_ssh f /\ 1 <= f_bytes f <= 4 /\ 0 < f_cf f <= 3 /\
  (f_cf f = cfGray /\ f_np f = 1 \/ f_cf f <> cfGray /\ f_np f = 3).
Proof.
  destruct FV as (A & B & C & D & E). unfold storage, cfGray, cfRGB, cfYUV in *. lia.
Qed.

Lemma dims_facts : 0 < w /\ 0 < h /\ 0 <= cw <= w /\ 0 <= ch <= h.
Proof.
  destruct DO as (A & B & _). destruct fmt_facts as (S1 & S2 & _). unfold cw, ch.
  assert (1 <= 2 ^ f_ssw f) by (apply (Z.pow_le_mono_r 2 0); lia).
  assert (1 <= 2 ^ f_ssh f) by (apply (Z.pow_le_mono_r 2 0); lia).
  repeat split; try lia; try (apply Z.div_pos; lia); apply Z.div_le_upper_bound; nia.
Qed.

Definition layout (order : list Z) : list block :=
  match order with
  | [p] => [mkB 0 (w * f_bytes f) (w * f_bytes f) h [p]]
  | [p; q; r] =>
      [mkB 0 (w * f_bytes f) (w * f_bytes f) h [p];
       mkB (w * f_bytes f * h) (cw * f_bytes f) (cw * f_bytes f) ch [q];
       mkB (w * f_bytes f * h + cw * f_bytes f * ch) (cw * f_bytes f) (cw * f_bytes f) ch [r]]
  | _ => []
  end.

Lemma shift_0 : forall x, Z.shiftr x 0 = x.
Proof. intros. apply Z.shiftr_0_r. Qed.

Hypothesis FIT : planesBytes f w h <= INT_MAX.

Lemma fits : f_np f = 3 ->
  0 <= w * f_bytes f <= INT_MAX /\ 0 <= w * f_bytes f * h <= INT_MAX /\
  0 <= cw * f_bytes f <= INT_MAX /\ 0 <= cw * f_bytes f * ch /\
  w * f_bytes f * h + cw * f_bytes f * ch * 2 = planesBytes f w h.
Proof.
  intros N. destruct fmt_facts as (_ & _ & B & _). destruct dims_facts as (W & H & CW & CH).
  pose proof FIT as F. unfold planesBytes in *. rewrite N in *. fold cw ch in *.
  assert (0 <= cw * ch) by nia.
  assert (0 <= w * f_bytes f) by nia. assert (0 <= cw * f_bytes f <= w * f_bytes f) by nia.
  assert (w * f_bytes f <= w * f_bytes f * h) by nia.
  assert (0 <= cw * f_bytes f * ch) by nia.
  assert (w * f_bytes f * h + cw * f_bytes f * ch * 2 = f_bytes f * (w * h + (3 - 1) * (cw * ch))) by ring.
  lia.
Qed.

Lemma fits_gray : f_np f = 1 -> 0 <= w * f_bytes f <= INT_MAX /\ w * f_bytes f * h = planesBytes f w h /\ 0 <= w * f_bytes f * h.
Proof.
  intros N. destruct fmt_facts as (_ & _ & B & _). destruct dims_facts as (W & H & _ & _).
  pose proof FIT as F. unfold planesBytes in *. rewrite N in *.
  assert (0 <= w * f_bytes f) by nia. assert (w * f_bytes f <= w * f_bytes f * h) by nia.
  assert (w * f_bytes f * h = f_bytes f * (w * h + (1 - 1) * ((w / 2 ^ f_ssw f) * (h / 2 ^ f_ssh f)))) by ring.
  lia.
Qed.

Lemma planar_blocks : forall t p q r, plainAlign t -> match t with Some t => t_ud t | None => false end = false ->
  p = 0 -> q <> 0 -> r <> 0 ->
  planarBlocks f w h t (firstn (Z.to_nat (f_np f)) [p; q; r]) 0 = Ok (layout (firstn (Z.to_nat (f_np f)) [p; q; r])).
Proof.
  intros t p q r PA UD -> Q R. destruct fmt_facts as (S1 & S2 & B & _ & N).
  destruct N as [[_ N] | [_ N]].
  - rewrite N. change (firstn (Z.to_nat 1) [0; q; r]) with [0]. destruct (fits_gray N) as (A1 & A2 & A3).
    cbn [planarBlocks layout Z.eqb]. rewrite UD, !shift_0.
    rewrite rowPlanar_1 by assumption. cbn [obind]. rewrite !i32_ok by lia. cbn [obind]. rewrite ?Z.add_0_l. reflexivity.
  - rewrite N. change (firstn (Z.to_nat 3) [0; q; r]) with [0; q; r]. destruct (fits N) as (A1 & A2 & A3 & A4 & A5).
    cbn [planarBlocks layout]. rewrite UD. change (0 =? 0) with true. cbn iota.
    destruct (Z.eqb_spec q 0); [contradiction|]. destruct (Z.eqb_spec r 0); [contradiction|].
    rewrite !shift_0, !shiftr_div by assumption. fold cw ch.
    rewrite !rowPlanar_1 by assumption. cbn [obind].
    rewrite (i32_ok (w * f_bytes f)) by assumption. cbn [obind].
    rewrite (i32_ok (w * f_bytes f * h)) by assumption. cbn [obind].
    rewrite (i32_ok (cw * f_bytes f)) by assumption. cbn [obind].
    rewrite (i32_ok (cw * f_bytes f * ch)) by lia. cbn [obind].
    rewrite ?Z.add_0_l, ?Z.add_0_r. reflexivity.
Qed.

Lemma layout_tile : forall order, tile 0 (layout order).
Proof.
  destruct fmt_facts as (_ & _ & B & _). destruct dims_facts as (W & H & CW & CH).
  intros [|p [|q [|r [|? ?]]]]; cbn [layout tile b_off b_stride b_len b_rows]; repeat split; try lia; try nia.
Qed.
End Pack.

(** The size of a picture and what is written, for each kind of entry. *)
Lemma order_first : forall f n, f_np f = n -> (n = 1 \/ n = 3) -> forall p q r : Z,
  firstn (Z.to_nat (f_np f)) [p; q; r] = if n =? 1 then [p] else [p; q; r].
Proof. intros f n -> [-> | ->] p q r; reflexivity. Qed.

Lemma planar_size : forall f w h t, fmt_valid f -> dimsOk f w h -> planesBytes f w h <= INT_MAX -> plainAlign t ->
  obind (rowPlanar w (f_bytes f) t) (fun r => obind (i32 (r * h)) (fun luma =>
    if (f_cf f =? cfGray) || (f_cf f =? cfPackedRGB) || (f_cf f =? cfPackedYUV) then Ok luma
    else obind (rowPlanar (Z.shiftr w (f_ssw f)) (f_bytes f) t) (fun c =>
         obind (i32 (c * Z.shiftr h (f_ssh f))) (fun chroma =>
         obind (i32 (chroma * 2)) (fun c2 => i32 (luma + c2)))))) = Ok (planesBytes f w h).
Proof.
  intros f w h t FV DO FIT PA. destruct (fmt_facts f FV) as (S1 & S2 & B & CF & N).
  destruct (Z.eqb_spec (f_cf f) cfPackedRGB) as [E | _]; [unfold cfPackedRGB, cfRGB in E; lia|].
  destruct (Z.eqb_spec (f_cf f) cfPackedYUV) as [E | _]; [unfold cfPackedYUV, cfYUV in E; lia|].
  destruct N as [[G N] | [G N]].
  - destruct (fits_gray f w h FV DO FIT N) as (A1 & A2 & A3). rewrite rowPlanar_1 by assumption. cbn [obind].
    rewrite i32_ok by lia. cbn [obind]. rewrite G, Z.eqb_refl. cbn [orb]. congruence.
  - destruct (fits f w h FV DO FIT N) as (A1 & A2 & A3 & A4 & A5). rewrite rowPlanar_1 by assumption. cbn [obind].
    rewrite i32_ok by lia. cbn [obind]. destruct (Z.eqb_spec (f_cf f) cfGray); [contradiction|]. cbn [orb].
    rewrite !shiftr_div by assumption. fold (cw f w) (ch f h).
    rewrite rowPlanar_1 by assumption. cbn [obind]. rewrite i32_ok by lia. cbn [obind].
    rewrite i32_ok by lia. cbn [obind]. rewrite i32_ok by lia. f_equal. lia.
Qed.

Definition planarOf (f : vfmt) (alt : Z) : bool :=
  match findTraits f alt with Some t => isPlanar (t_pack t) | None => true end.
Definition nvOf (f : vfmt) (alt : Z) : bool :=
  match findTraits f alt with Some t => negb (isPlanar (t_pack t)) && t_nv t | None => false end.

Lemma entry_of : forall f alt t, fmt_valid f -> findTraits f alt = Some t -> entryOk t = true /\ In t table /\
  t_cf t = f_cf f /\ t_bits t = f_bits f /\ t_ssw t = f_ssw f /\ t_ssh t = f_ssh f /\ t_alt t = alt.
Proof.
  intros f alt t FV E. destruct (find_in _ _ _ E) as [Hin K]. apply key_eq in K.
  destruct K as (K1 & K2 & K3 & K4 & K5 & K6). repeat split; auto.
  apply entries_ok; [exact Hin|]. pose proof (fmt_facts f FV). lia.
Qed.

Definition swapOf (f : vfmt) (alt : Z) : bool := match findTraits f alt with Some t => t_swap t | None => false end.

Lemma planar_pack : forall f w h alt, fmt_valid f -> dimsOk f w h -> planarOf f alt = true -> planesBytes f w h <= INT_MAX ->
  bmpSize f w h alt = Ok (planesBytes f w h) /\
  packBlocks f w h alt = Ok (layout f w h (firstn (Z.to_nat (f_np f)) (if swapOf f alt then [0; 1; 2] else [0; 2; 1]))).
Proof.
  intros f w h alt FV DO P FIT. unfold planarOf in P. unfold bmpSize, packBlocks, swapOf.
  destruct (findTraits f alt) as [t|] eqn:E.
  - rewrite P. destruct (entry_of _ _ _ FV E) as [K _]. unfold entryOk in K. rewrite P in K.
    rewrite !andb_true_iff, !negb_true_iff, Z.eqb_eq in K. destruct K as [[K1 K2] K3].
    split; [apply planar_size; assumption|].
    destruct (t_swap t); apply planar_blocks; try assumption; try reflexivity; lia.
  - split; [apply planar_size; try assumption; exact I|]. apply planar_blocks; try assumption; try reflexivity; try lia; exact I.
Qed.

Definition nvLayout (f : vfmt) (w h : Z) : list block :=
  [mkB 0 (2 * w) (2 * w) h [0]; mkB (2 * w * h) (4 * cw f w) (4 * cw f w) (ch f h) [1; 2]].

Lemma nv_pack : forall f w h alt, fmt_valid f -> dimsOk f w h -> nvOf f alt = true -> planesBytes f w h <= INT_MAX ->
  bmpSize f w h alt = Ok (planesBytes f w h) /\ packBlocks f w h alt = Ok (nvLayout f w h) /\ f_bytes f = 2 /\ f_np f = 3.
Proof.
  intros f w h alt FV DO P FIT. unfold nvOf in P. unfold bmpSize, packBlocks.
  destruct (findTraits f alt) as [t|] eqn:E; [|discriminate].
  apply andb_true_iff in P. destruct P as [P1 P2]. apply negb_true_iff in P1. rewrite P1, P2.
  destruct (entry_of _ _ _ FV E) as (K & _ & Kcf & Kb & _). unfold entryOk in K. rewrite P1, P2 in K.
  rewrite !andb_true_iff, !negb_true_iff, !Z.eqb_eq, !Z.leb_le in K. destruct K as [[[[K1 K2] K3] K4] K5].
  assert (B2 : f_bytes f = 2).
  { destruct FV as (_ & _ & C & _). rewrite Kb in K3, K4. destruct C as (C1 & C2 & C3). specialize (C3 2). lia. }
  destruct (fmt_facts f FV) as (S1 & S2 & _ & _ & N).
  destruct N as [[N _] | [_ N]]; [unfold cfGray, cfYUV in *; lia|].
  destruct (fits f w h FV DO FIT N) as (A1 & A2 & A3 & A4 & A5).
  destruct (dims_facts f w h FV DO) as (W & H & CW & CH).
  rewrite !shiftr_div by assumption. fold (cw f w) (ch f h). rewrite B2 in *.
  assert (C2 : 0 <= cw f w * 2 * 2 <= INT_MAX /\ cw f w * 2 * 2 * ch f h = cw f w * 2 * ch f h * 2).
  { split; [|lia]. destruct (Z.eq_dec (ch f h) 0) as [Z0 | Z0].
    - destruct DO as (_ & _ & _ & M). exfalso. unfold ch in Z0.
      pose proof (Z.div_mod h (2 ^ f_ssh f) ltac:(pose proof (Z.pow_pos_nonneg 2 (f_ssh f)); lia)). lia.
    - assert (cw f w * 2 * 2 <= cw f w * 2 * ch f h * 2) by nia. lia. }
  assert (PA : plainAlign (Some t)) by exact K2.
  rewrite !rowPlanar_1 by assumption. cbn [obind].
  rewrite (i32_ok (w * 2 * h)) by assumption. cbn [obind].
  rewrite (i32_ok (cw f w * 2)) by assumption. cbn [obind].
  rewrite !rowPlanar_1 by tauto. cbn [obind].
  rewrite (i32_ok (cw f w * 2 * 2 * ch f h)) by lia. cbn [obind].
  rewrite i32_ok by lia. split; [f_equal; lia|]. split; [|auto].
  unfold nvLayout. replace (w * 2) with (2 * w) by lia. replace (cw f w * 2 * 2) with (4 * cw f w) by lia. reflexivity.
Qed.

Lemma nv_tile : forall f w h, fmt_valid f -> dimsOk f w h -> tile 0 (nvLayout f w h).
Proof.
  intros f w h FV DO. destruct (dims_facts f w h FV DO) as (W & H & CW & CH).
  cbn [nvLayout tile b_off b_stride b_len b_rows]. repeat split; lia.
Qed.

(** The interleaved layouts: a row has the documented size, and the library writes within it. *)
Lemma inter_row : forall t w, In t table -> isPlanar (t_pack t) = false -> t_nv t = false -> 0 < w < 2 ^ 28 ->
  docRow (t_pack t) w + 256 <= INT_MAX ->
  rowInterleaved w t = Ok (docRow (t_pack t) w) /\ 0 <= p2pRow (t_pack t) w <= docRow (t_pack t) w.
Proof.
  intros t w Hin P NV W FIT. unfold INT_MAX in FIT.
  cbn [table In] in Hin.
  repeat (destruct Hin as [<- | Hin]; [try discriminate P; try discriminate NV|]); [..|destruct Hin];
    unfold rowInterleaved; cbn [t_pack t_num t_den t_align docRow p2pRow] in *;
    (split; [|unfold roundUp; try lia; Z.to_euclidean_division_equations; lia]).
  all: try (rewrite Z.mod_small by (Z.to_euclidean_division_equations; lia)).
  all: try (rewrite Z.div_1_r).
  all: try (rewrite wrap32_id by (unfold in_int, INT_MIN, INT_MAX; Z.to_euclidean_division_equations; lia)).
  all: try (rewrite rowAligned_1; f_equal; lia).
  - unfold roundUp in FIT. rewrite rowAligned_up by (unfold INT_MAX; Z.to_euclidean_division_equations; lia).
    f_equal. f_equal. lia.
  - rewrite rowAligned_up by (unfold INT_MAX; Z.to_euclidean_division_equations; lia).
    f_equal. unfold roundUp. Z.to_euclidean_division_equations. lia.
Qed.

Lemma inter_pack : forall f w h alt, fmt_valid f -> dimsOk f w h -> planarOf f alt = false -> nvOf f alt = false ->
  w < 2 ^ 28 -> docSize f w h alt + 256 <= INT_MAX ->
  exists (ud : bool) s len, 0 <= len <= s /\ docSize f w h alt = s * h /\
    bmpSize f w h alt = Ok (s * h) /\
    packBlocks f w h alt = Ok [if ud then mkB ((h - 1) * s) (- s) len h [0; 1; 2] else mkB 0 s len h [0; 1; 2]].
Proof.
  intros f w h alt FV DO P NV W28 FIT. unfold planarOf, nvOf, docSize, bmpSize, packBlocks in *.
  destruct (findTraits f alt) as [t|] eqn:E; [|discriminate]. rewrite P in *. cbn [negb andb orb] in NV, FIT |- *. rewrite NV in *.
  destruct (entry_of _ _ _ FV E) as (_ & Hin & _). destruct (dims_facts f w h FV DO) as (W & H & _).
  assert (D0 : 0 <= docRow (t_pack t) w).
  { destruct (t_pack t); cbn [docRow]; unfold roundUp; try lia; Z.to_euclidean_division_equations; lia. }
  assert (docRow (t_pack t) w <= docRow (t_pack t) w * h) by nia.
  destruct (inter_row t w Hin P NV) as [R L]; [lia|lia|].
  exists (t_ud t), (docRow (t_pack t) w), (p2pRow (t_pack t) w). rewrite R. cbn [obind].
  rewrite i32_ok by (unfold INT_MAX in *; lia). auto.
Qed.

(** ---- Together ---- *)

Definition fitsInt (f : vfmt) (w h alt : Z) : Prop := w < 2 ^ 28 /\ docSize f w h alt + 256 <= INT_MAX.

Lemma kinds : forall f alt, planarOf f alt = true \/ nvOf f alt = true \/ (planarOf f alt = false /\ nvOf f alt = false).
Proof. intros. destruct (planarOf f alt); auto. destruct (nvOf f alt); auto. Qed.
Lemma doc_planes : forall f w h alt, planarOf f alt = true \/ nvOf f alt = true -> docSize f w h alt = planesBytes f w h.
Proof.
  intros f w h alt H. unfold planarOf, nvOf, docSize in *. destruct (findTraits f alt) as [t|]; [|reflexivity].
  destruct (isPlanar (t_pack t)); [reflexivity|]. destruct (t_nv t); [reflexivity|]. cbn in H. destruct H; discriminate.
Qed.

Lemma size_right : forall f w h alt, fmt_valid f -> dimsOk f w h -> fitsInt f w h alt ->
  bmpSize f w h alt = Ok (docSize f w h alt).
Proof.
  intros f w h alt FV DO [W28 FIT]. destruct (kinds f alt) as [P | [P | [P1 P2]]].
  - rewrite (doc_planes f w h alt) in * by auto. apply planar_pack; try assumption. lia.
  - rewrite (doc_planes f w h alt) in * by auto. apply nv_pack; try assumption. lia.
  - destruct (inter_pack f w h alt FV DO P1 P2 W28 FIT) as (ud & s & len & _ & E & B & _). rewrite E. exact B.
Qed.

Lemma layout_written : forall f w h l, fmt_valid f -> dimsOk f w h -> planesBytes f w h <= INT_MAX ->
  (f_np f = 1 /\ exists p, l = [p]) \/ (f_np f = 3 /\ exists p q r, l = [p; q; r]) ->
  written (layout f w h l) = planesBytes f w h.
Proof.
  intros f w h l FV DO FIT [(N & p & ->) | (N & p & q & r & ->)].
  - destruct (fits_gray f w h FV DO FIT N) as (_ & A & _). cbn. lia.
  - destruct (fits f w h FV DO FIT N) as (_ & _ & _ & _ & A). cbn. lia.
Qed.

Lemma pack_right : forall f w h alt, fmt_valid f -> dimsOk f w h -> fitsInt f w h alt ->
  exists bs, packBlocks f w h alt = Ok bs /\ insideBuffer (docSize f w h alt) bs /\ noOverlap bs /\
    (planarOf f alt = true \/ nvOf f alt = true -> written bs = docSize f w h alt).
Proof.
  intros f w h alt FV DO [W28 FIT]. destruct (kinds f alt) as [P | [P | [P1 P2]]].
  - rewrite (doc_planes f w h alt) in * by auto. destruct (planar_pack f w h alt FV DO P) as [_ E]; [lia|].
    rewrite E. eexists. split; [reflexivity|].
    pose proof (layout_tile f w h FV DO (firstn (Z.to_nat (f_np f)) (if swapOf f alt then [0; 1; 2] else [0; 2; 1]))) as T.
    assert (WR : written (layout f w h (firstn (Z.to_nat (f_np f)) (if swapOf f alt then [0; 1; 2] else [0; 2; 1]))) = planesBytes f w h).
    { apply layout_written; try assumption; [lia|]. destruct (fmt_facts f FV) as (_ & _ & _ & _ & [[_ N] | [_ N]]); rewrite N.
      - left. split; [reflexivity|]. exists 0. destruct (swapOf f alt); reflexivity.
      - right. split; [reflexivity|]. exists 0, (if swapOf f alt then 1 else 2), (if swapOf f alt then 2 else 1). destruct (swapOf f alt); reflexivity. }
    split; [|split; [apply (tile_disjoint _ _ T)|intros _; exact WR]].
    intros b y Hb Hy. pose proof (tile_inside _ _ _ _ T Hb Hy). lia.
  - rewrite (doc_planes f w h alt) in * by auto. destruct (nv_pack f w h alt FV DO P) as (_ & E & B & N); [lia|].
    rewrite E. eexists. split; [reflexivity|].
    pose proof (nv_tile f w h FV DO) as T.
    assert (WR : written (nvLayout f w h) = planesBytes f w h).
    { unfold planesBytes. rewrite B, N. fold (cw f w) (ch f h). unfold nvLayout, written. cbn [fold_right b_len b_rows]. ring. }
    split; [|split; [apply (tile_disjoint _ _ T)|intros _; exact WR]].
    intros b y Hb Hy. pose proof (tile_inside _ _ _ _ T Hb Hy). lia.
  - destruct (inter_pack f w h alt FV DO P1 P2 W28 FIT) as (ud & s & len & L & E & _ & B).
    rewrite B, E. eexists. split; [reflexivity|]. destruct DO as (_ & H & _).
    destruct (single_ok ud s len h [0; 1; 2] H L) as [A1 A2]. split; [exact A1|]. split; [exact A2|].
    intros [X | X]; congruence.
Qed.

Lemma order_right : forall f w h alt, fmt_valid f -> dimsOk f w h -> fitsInt f w h alt -> planarOf f alt = true ->
  packBlocks f w h alt = Ok (layout f w h (planeOrder f alt)).
Proof.
  intros f w h alt FV DO [W28 FIT] P. rewrite (doc_planes f w h alt) in * by auto.
  destruct (planar_pack f w h alt FV DO P) as [_ E]; [lia|]. rewrite E. do 2 f_equal.
  assert (S : swapOf f alt = match findTraits f alt with
       | Some t => String.eqb (t_fcc t) "I420" || String.eqb (t_fcc t) "IYUV" | None => false end).
  { unfold swapOf. destruct (findTraits f alt) as [t|] eqn:Ef; [|reflexivity].
    destruct (find_in _ _ _ Ef) as [Hin _].
    assert (forallb (fun t => Bool.eqb (t_swap t) (String.eqb (t_fcc t) "I420" || String.eqb (t_fcc t) "IYUV")) table = true) as H by (vm_compute; reflexivity).
    rewrite forallb_forall in H. apply Bool.eqb_prop. apply H. exact Hin. }
  unfold planeOrder. rewrite S.
  destruct (fmt_facts f FV) as (_ & _ & _ & _ & [[_ N] | [_ N]]); rewrite N; cbn [Z.eqb].
  - destruct (findTraits f alt) as [t|]; [|reflexivity]. destruct (_ || _); reflexivity.
  - destruct (findTraits f alt) as [t|]; [|reflexivity]. destruct (_ || _); reflexivity.
Qed.

(** The number of bits per pixel announced. *)
Lemma bits_right : forall f w h alt t, fmt_valid f -> dimsOk f w h -> findTraits f alt = Some t ->
  t_fcc t <> "Y800"%string -> t_fcc t <> "r210"%string -> t_fcc t <> "v210"%string ->
  bitsPerPixel f alt * (w * h) = 8 * docSize f w h alt.
Proof.
  intros f w h alt t FV DO E N1 N2 N3. destruct (entry_of _ _ _ FV E) as (_ & Hin & K1 & K2 & K3 & K4 & _).
  unfold bitsPerPixel, docSize. rewrite E. unfold planesBytes.
  destruct (fmt_facts f FV) as (_ & _ & _ & CF & NP).
  destruct FV as (_ & _ & (C1 & C2 & C3) & _). pose proof (C3 1) as C31. pose proof (C3 2) as C32. clear C3.
  destruct DO as (W & H & M1 & M2). rewrite <- K3 in M1. rewrite <- K4 in M2. rewrite <- K1 in *. rewrite <- K2 in *. rewrite <- K3, <- K4.
  assert (Hw : w = 2 ^ t_ssw t * (w / 2 ^ t_ssw t)).
  { destruct (Z.eq_dec (2 ^ t_ssw t) 0) as [Z0|Z0]; [rewrite Z0, Zmod_0_r in M1; lia|].
    pose proof (Z.div_mod w (2 ^ t_ssw t) Z0). lia. }
  assert (Hh : h = 2 ^ t_ssh t * (h / 2 ^ t_ssh t)).
  { destruct (Z.eq_dec (2 ^ t_ssh t) 0) as [Z0|Z0]; [rewrite Z0, Zmod_0_r in M2; lia|].
    pose proof (Z.div_mod h (2 ^ t_ssh t) Z0). lia. }
  remember (w / 2 ^ t_ssw t) as a eqn:Ea. remember (h / 2 ^ t_ssh t) as b eqn:Eb. clear Ea Eb M1 M2.
  cbn [table In] in Hin.
  repeat (destruct Hin as [<- | Hin]; [try (exfalso; cbn in N1, N2, N3; congruence);
    cbn [t_cf t_bits t_ssw t_ssh t_fcc t_pack t_nv t_bib isPlanar orb docRow] in *; unfold cfPackedRGB, cfPackedYUV, cfRGB, cfYUV, cfGray in *; try lia;
    try change (0 =? 0) with true; try change (32 =? 0) with false; try change (64 =? 0) with false; cbn iota;
    try (assert (f_bytes f = 1) as -> by lia); try (assert (f_bytes f = 2) as -> by lia);
    try (replace (f_np f) with 3 by lia); subst w h;
    repeat match goal with |- context [Z.shiftr ?x ?y] => let v := eval vm_compute in (Z.shiftr x y) in change (Z.shiftr x y) with v end;
    repeat match goal with |- context [2 ^ ?k] => let v := eval vm_compute in (2 ^ k) in change (2 ^ k) with v end;
    ring|]).
  destruct Hin.
Qed.

(** ---- Examples and counterexamples ---- *)

Definition rgb24 : vfmt := mkV cfRGB stInteger 8 1 0 0 3.
Definition gray8f : vfmt := mkV cfGray stInteger 8 1 0 0 1.
Definition yuv420p8 : vfmt := mkV cfYUV stInteger 8 1 1 1 3.
Definition yuv420p10 : vfmt := mkV cfYUV stInteger 10 2 1 1 3.
Definition yuv422p10 : vfmt := mkV cfYUV stInteger 10 2 1 0 3.
Lemma rgb24_ok : fmt_valid rgb24.
Proof. unfold fmt_valid, storage, rgb24, cfGray, cfRGB, cfYUV, stInteger, stFloat; cbn. repeat split; lia. Qed.
Lemma gray8f_ok : fmt_valid gray8f.
Proof. unfold fmt_valid, storage, gray8f, cfGray, cfRGB, cfYUV, stInteger, stFloat; cbn. repeat split; lia. Qed.
Lemma yuv420p8_ok : fmt_valid yuv420p8.
Proof. unfold fmt_valid, storage, yuv420p8, cfGray, cfRGB, cfYUV, stInteger, stFloat; cbn. repeat split; lia. Qed.

Lemma gray_bits : fmt_valid gray8f /\ hasSupportedFourCC gray8f = true /\
  forall w h, bitsPerPixel gray8f 0 * (w * h) = 24 * docSize gray8f w h 0.
Proof.
  split; [exact gray8f_ok|]. split; [reflexivity|]. intros w h.
  change (bitsPerPixel gray8f 0) with 24. change (docSize gray8f w h 0) with (planesBytes gray8f w h).
  unfold planesBytes. cbn [gray8f f_bytes f_np]. ring.
Qed.

Lemma alt_lost : exists f alt, fmt_valid f /\ hasSupportedFourCC f = true /\ fst (getFourCC f alt) = false.
Proof. exists rgb24, 1. split; [exact rgb24_ok|]. split; reflexivity. Qed.

Lemma size_overflows : exists f w h, fmt_valid f /\ dimsOk f w h /\ hasSupportedFourCC f = true /\
  bmpSize f w h 0 = UB /\ exists bs, packBlocks f w h 0 = Ok bs /\ written bs = 2 ^ 32.
Proof.
  exists rgb24, 32768, 32768. split; [exact rgb24_ok|]. split; [unfold dimsOk; repeat split; lia|].
  split; [reflexivity|]. split; [vm_compute; reflexivity|]. eexists. split; vm_compute; reflexivity.
Qed.

(** Interleaved rows go down, those of DIB up. *)
Lemma inter_rows : forall f w h alt t, fmt_valid f -> dimsOk f w h -> fitsInt f w h alt -> findTraits f alt = Some t ->
  planarOf f alt = false -> nvOf f alt = false ->
  exists b, packBlocks f w h alt = Ok [b] /\ b_rows b = h /\ b_len b = p2pRow (t_pack t) w /\ b_from b = [0; 1; 2] /\
    forall y, rowFrom b y = (if String.eqb (t_fcc t) "DIB " then h - 1 - y else y) * docRow (t_pack t) w.
Proof.
  intros f w h alt t FV DO [W28 FIT] E P NV. unfold planarOf, nvOf, docSize, packBlocks in *. rewrite E in *.
  rewrite P in *. cbn [negb andb orb] in NV, FIT |- *. rewrite NV in *.
  destruct (entry_of _ _ _ FV E) as (_ & Hin & Hcf & _). destruct (dims_facts f w h FV DO) as (W & H & _).
  assert (D0 : 0 <= docRow (t_pack t) w).
  { destruct (t_pack t); cbn [docRow]; unfold roundUp; try lia; Z.to_euclidean_division_equations; lia. }
  assert (docRow (t_pack t) w <= docRow (t_pack t) w * h) by nia.
  destruct (inter_row t w Hin P NV) as [R L]; [lia|lia|]. rewrite R. cbn [obind].
  assert (U : t_ud t = String.eqb (t_fcc t) "DIB ").
  { assert (forallb (fun t => isPlanar (t_pack t) || Bool.eqb (t_ud t) (String.eqb (t_fcc t) "DIB ")) table = true) as F by (vm_compute; reflexivity).
    rewrite forallb_forall in F. specialize (F t Hin). rewrite P in F. apply Bool.eqb_prop. exact F. }
  rewrite <- U. eexists. split; [reflexivity|]. unfold rowFrom.
  destruct (t_ud t); cbn [b_off b_stride b_len b_rows b_from]; repeat split; intros; ring.
Qed.

Lemma nv_rows : forall f w h alt, fmt_valid f -> dimsOk f w h -> fitsInt f w h alt -> nvOf f alt = true ->
  packBlocks f w h alt = Ok (nvLayout f w h).
Proof.
  intros f w h alt FV DO [W28 FIT] P. rewrite (doc_planes f w h alt) in FIT by auto.
  apply nv_pack; try assumption. lia.
Qed.

(** The transposition kernels move every sample to its place. *)
From Coq Require Import String.
From Coq Require Import ZArith List Lia Bool.
From Verif Require Import Common FormatSpec Format FormatLemmas FrameSpec Frame FrameLemmas FrameGeom ImageSpec PlaneMem Spatial
  SpatialLemmas SpatialFrames SpatialStack SpatialShuffle Transpose.
Import ListNotations.
Open Scope Z_scope.

Lemma zero_mod_div : forall a m, 0 < m -> (m | a) -> (a mod m =? 0) = true.
Proof. intros a m M D. apply Z.eqb_eq. apply Z.mod_divide; [lia | exact D]. Qed.

Lemma addOff_exact : forall sz o x, sz = 1 \/ sz = 2 \/ sz = 4 -> (sz | x) -> in_int64 x -> addOff sz o x = o + x.
Proof.
  intros sz o x S (k & K) X. unfold addOff. f_equal. subst x. unfold wrapu64, in_int64, INT64_MIN, INT64_MAX in *.
  assert (E : sz * ((k * sz) mod 18446744073709551616 / sz) = (k * sz) mod 18446744073709551616).
  { replace 18446744073709551616 with (18446744073709551616 / sz * sz) by (destruct S as [->|[->| ->]]; reflexivity).
    rewrite Z.mul_mod_distr_r by (destruct S as [->|[->| ->]]; cbn; lia). rewrite Z.div_mul by lia. ring. }
  rewrite E. unfold wrap64. rewrite Zplus_mod_idemp_l. rewrite Z.mod_small by lia. lia.
Qed.

(** ** Loops *)

Lemma forStep_inv : forall {S} (P : Z -> S -> Prop) (f : Z -> S -> outcome S) lo hi step s, 0 < step -> lo <= hi ->
  (step | hi - lo) -> P lo s ->
  (forall j t, lo <= j < hi -> (step | j - lo) -> P j t -> exists t', f j t = Ok t' /\ P (j + step) t') ->
  exists s', forStep lo hi step f s = Ok s' /\ P hi s'.
Proof.
  intros S P f lo hi step s ST LH (n & N) P0 H. unfold forStep.
  assert (NN : 0 <= n) by nia.
  assert (E : (hi - lo + step - 1) / step = n).
  { rewrite N. symmetry. apply Z.div_unique with (r := step - 1); lia. }
  rewrite E.
  destruct (forZ_inv (fun k t => P (lo + k * step) t) (fun k => f (lo + k * step)) n s NN) as (s' & F & Q).
  - replace (lo + 0 * step) with lo by ring. exact P0.
  - intros k t K Pk. destruct (H (lo + k * step) t) as (t' & T1 & T2).
    + nia.
    + exists k. ring.
    + exact Pk.
    + exists t'. split; [exact T1|]. replace (lo + (k + 1) * step) with (lo + k * step + step) by ring. exact T2.
  - exists s'. split; [exact F|]. replace hi with (lo + n * step) by lia. exact Q.
Qed.

Section Plane.
Variables (sz : Z) (src : pbuf) (s ss : Z) (size0 d ds w h : Z).
Hypothesis SZ : sz = 1 \/ sz = 2 \/ sz = 4.
Hypothesis W0 : 0 <= w.
Hypothesis H0 : 0 <= h.
Hypothesis DAPART : h * sz <= Z.abs ds.
Hypothesis DIN : forall x, 0 <= x < w -> 0 <= d + x * ds /\ d + x * ds + h * sz <= size0.
Hypothesis SIN : forall y, 0 <= y < h -> 0 <= s + y * ss /\ s + y * ss + w * sz <= b_size src.
Hypothesis D16 : (16 | d).
Hypothesis DS16 : (16 | ds).
Hypothesis S16 : (16 | s).
Hypothesis SS16 : (16 | ss).
Hypothesis SSZ : b_size src <= INT64_MAX.
Hypothesis DSZ : size0 <= INT64_MAX.

Definition dOff (x y : Z) : Z := d + x * ds + y * sz.
Definition sOff (x y : Z) : Z := s + y * ss + x * sz.

(** The samples selected by [P] have arrived. *)
Definition good (P : Z -> Z -> Prop) (m : pbuf) : Prop :=
  b_size m = size0 /\
  forall x y b, 0 <= x < w -> 0 <= y < h -> 0 <= b < sz -> P x y -> b_data m (dOff x y + b) = b_data src (sOff x y + b).

Lemma good_weaken : forall (P Q : Z -> Z -> Prop) m, good P m -> (forall x y, 0 <= x < w -> 0 <= y < h -> Q x y -> P x y) -> good Q m.
Proof. intros P Q m (A & B) I. split; [exact A|]. intros x y b X Y Bb q. apply B; auto. Qed.

(** Samples [y0 ..] of row [x] written as bytes. *)
Lemma store_good : forall P m x0 y0 n l, good P m -> 0 <= x0 < w -> 0 <= y0 -> 0 <= n -> y0 + n <= h ->
  zlength l = n * sz ->
  (forall y b, 0 <= y < n -> 0 <= b < sz -> nth (Z.to_nat (y * sz + b)) l 0 = b_data src (sOff x0 (y0 + y) + b)) ->
  exists m', storeL m (dOff x0 y0) l = Ok m' /\
    good (fun x y => P x y \/ (x = x0 /\ y0 <= y < y0 + n)) m'.
Proof.
  intros P m x0 y0 n l (A & B) X Y N YN L V. destruct (DIN x0 X) as (D1 & D2).
  assert (SZ0 : 1 <= sz) by lia.
  assert (Z1 : 0 <= y0 * sz) by nia. assert (Z2 : y0 * sz + n * sz <= h * sz) by nia.
  unfold storeL. unfold dOff. rewrite L.
  rewrite inside_true by (rewrite ?A; nia).
  eexists. split; [reflexivity|]. split; [exact A|]. cbn [b_data].
  intros x y b Xx Yy Bb PP.
  destruct (Z.leb_spec (d + x0 * ds + y0 * sz) (dOff x y + b)) as [C1|C1];
    [destruct (Z.ltb_spec (dOff x y + b) (d + x0 * ds + y0 * sz + n * sz)) as [C2|C2]|]; cbn [andb].
  - (* the byte belongs to the written part *)
    assert (x = x0).
    { unfold dOff in C1, C2.
      assert (Q : x * ds + (y * sz + b) = x0 * ds + (y * sz + b + (x - x0) * ds)) by ring.
      destruct (rows_apart ds (h * sz) x x0 (y * sz + b) (y * sz + b + (x - x0) * ds)) as (E & _);
        [exact DAPART | assert (0 <= y * sz) by (apply Z.mul_nonneg_nonneg; lia);
           pose proof (Z.mul_le_mono_nonneg_r (y + 1) h sz ltac:(lia) ltac:(lia)); lia | | exact Q | exact E].
      replace ((x - x0) * ds) with (x * ds - x0 * ds) by ring. lia. }
    subst x. unfold dOff in *.
    assert (Y1 : y0 <= y < y0 + n) by nia.
    replace (d + x0 * ds + y * sz + b - (d + x0 * ds + y0 * sz)) with ((y - y0) * sz + b) by ring.
    rewrite V by lia. replace (y0 + (y - y0)) with y by lia. reflexivity.
  - apply B; auto. destruct PP as [p|(-> & YY)]; [exact p|]. unfold dOff in C2. nia.
  - apply B; auto. destruct PP as [p|(-> & YY)]; [exact p|]. unfold dOff in C1. nia.
Qed.

Lemma sz_div : forall a, (16 | a) -> (sz | a).
Proof. intros a (k & K). destruct SZ as [->|[->| ->]]; [exists (k * 16) | exists (k * 8) | exists (k * 4)]; lia. Qed.

Lemma dOff_add : forall j ii, 0 <= j < w -> addOff sz d (j * ds) + ii * sz = dOff j ii.
Proof.
  intros j ii J. rewrite addOff_exact; [reflexivity | exact SZ | |].
  - apply Z.divide_mul_r. apply sz_div, DS16.
  - destruct (DIN j J) as (A & B). destruct (DIN 0 ltac:(lia)) as (A0 & B0).
    unfold in_int64, INT64_MIN, INT64_MAX in *. nia.
Qed.

Lemma sOff_add : forall j ii, 0 <= ii < h -> addOff sz s (ii * ss) + j * sz = sOff j ii.
Proof.
  intros j ii J. rewrite addOff_exact; [reflexivity | exact SZ | |].
  - apply Z.divide_mul_r. apply sz_div, SS16.
  - destruct (SIN ii J) as (A & B). destruct (SIN 0 ltac:(lia)) as (A0 & B0).
    unfold in_int64, INT64_MIN, INT64_MAX in *. nia.
Qed.

Lemma nth_zseq_map : forall (f : Z -> Z) n k, 0 <= k < n -> nth (Z.to_nat k) (map f (zseq n)) 0 = f k.
Proof.
  intros f n k K. assert (E : nthz (map f (zseq n)) k = Some (f k)).
  { rewrite nthz_map, nthz_zseq by lia. reflexivity. }
  unfold nthz in E. destruct (Z.ltb_spec k 0); [lia|]. apply nth_error_nth. exact E.
Qed.

Lemma zlength_zseq_map : forall (f : Z -> Z) n, 0 <= n -> zlength (map f (zseq n)) = n.
Proof. intros. unfold zlength, zseq. rewrite !map_length, seq_length. lia. Qed.

Lemma px_good : forall P m j ii, good P m -> 0 <= j < w -> 0 <= ii < h ->
  exists m', copyPx sz m (addOff sz d (j * ds) + ii * sz) src (addOff sz s (ii * ss) + j * sz) = Ok m' /\
    good (fun x y => P x y \/ (x = j /\ ii <= y < ii + 1)) m'.
Proof.
  intros P m j ii G J I. rewrite dOff_add, sOff_add by assumption. unfold copyPx.
  assert (1 <= sz) by lia.
  rewrite !zero_mod_div; try lia.
  2: { unfold sOff. apply Z.divide_add_r; [apply Z.divide_add_r|]; [apply sz_div, S16 | apply Z.divide_mul_r, sz_div, SS16 | exists j; ring]. }
  2: { unfold dOff. apply Z.divide_add_r; [apply Z.divide_add_r|]; [apply sz_div, D16 | apply Z.divide_mul_r, sz_div, DS16 | exists ii; ring]. }
  cbn [andb]. destruct (SIN ii I) as (A & B). unfold loadL. unfold sOff at 1.
  rewrite inside_true by nia. cbn [obind].
  apply store_good; [exact G | lia | lia | lia | lia | |].
  - rewrite zlength_zseq_map by lia. lia.
  - intros y b Y Bb. rewrite nth_zseq_map by lia. f_equal. assert (y = 0) as -> by lia. rewrite Z.add_0_r. lia.
Qed.

(** ** The blocks *)

(** Column [x] of [n] rows of samples, as bytes. *)
Definition col (F : Z -> Z -> Z) (k n x : Z) : list Z := map (fun i => F (i / k) (x * k + i mod k)) (zseq (n * k)).

Definition rowBytes (F : Z -> Z -> Z) (y : Z) : list Z := map (F y) (zseq 16).

Lemma permByte_spec : forall F,
  permByte (rowBytes F 0) (rowBytes F 1) (rowBytes F 2) (rowBytes F 3) (rowBytes F 4) (rowBytes F 5) (rowBytes F 6) (rowBytes F 7) =
  [col F 1 8 0 ++ col F 1 8 1; col F 1 8 2 ++ col F 1 8 3; col F 1 8 8 ++ col F 1 8 9; col F 1 8 10 ++ col F 1 8 11;
   col F 1 8 4 ++ col F 1 8 5; col F 1 8 6 ++ col F 1 8 7; col F 1 8 12 ++ col F 1 8 13; col F 1 8 14 ++ col F 1 8 15].
Proof. intros. vm_compute. reflexivity. Qed.

Lemma permWord_spec : forall F,
  permWord (rowBytes F 0) (rowBytes F 1) (rowBytes F 2) (rowBytes F 3) (rowBytes F 4) (rowBytes F 5) (rowBytes F 6) (rowBytes F 7) =
  [col F 2 8 0; col F 2 8 1; col F 2 8 2; col F 2 8 3; col F 2 8 4; col F 2 8 5; col F 2 8 6; col F 2 8 7].
Proof. intros. vm_compute. reflexivity. Qed.

Lemma permDword_spec : forall F,
  permDword (rowBytes F 0) (rowBytes F 1) (rowBytes F 2) (rowBytes F 3) =
  [col F 4 4 0; col F 4 4 1; col F 4 4 2; col F 4 4 3].
Proof. intros. vm_compute. reflexivity. Qed.

Lemma col_nth : forall F k n x y b, 0 < k -> 0 <= y < n -> 0 <= b < k ->
  nth (Z.to_nat (y * k + b)) (col F k n x) 0 = F y (x * k + b).
Proof.
  intros F k n x y b K Y B. unfold col. rewrite nth_zseq_map by nia. f_equal.
  - rewrite Z.add_comm, Z.div_add, Z.div_small by lia. lia.
  - rewrite Z.add_comm, (Z.add_comm (y * k)), Z.mod_add, Z.mod_small by lia. lia.
Qed.

Lemma col_length : forall F k n x, 0 <= n * k -> zlength (col F k n x) = n * k.
Proof. intros. unfold col. apply zlength_zseq_map. lia. Qed.

Lemma in64_diff : forall a b lim, 0 <= a -> 0 <= b -> a <= lim -> b <= lim -> lim <= INT64_MAX -> in_int64 (b - a).
Proof. intros. unfold in_int64, INT64_MIN, INT64_MAX in *. lia. Qed.

Lemma s_row : forall j y k, 0 <= y < h -> 0 <= y + k < h -> addOff sz (sOff j y) (k * ss) = sOff j (y + k).
Proof.
  intros j y k Y K. rewrite addOff_exact; [unfold sOff; ring | exact SZ | |].
  - apply Z.divide_mul_r, sz_div, SS16.
  - destruct (SIN y Y) as (A & B). destruct (SIN (y + k) K) as (A' & B').
    assert (0 <= w * sz) by (apply Z.mul_nonneg_nonneg; lia).
    replace (k * ss) with ((s + (y + k) * ss) - (s + y * ss)) by ring.
    apply in64_diff with (lim := b_size src); lia.
Qed.

Lemma d_row : forall x i k, 0 <= x < w -> 0 <= x + k < w -> addOff sz (dOff x i) (k * ds) = dOff (x + k) i.
Proof.
  intros x i k X K. rewrite addOff_exact; [unfold dOff; ring | exact SZ | |].
  - apply Z.divide_mul_r, sz_div, DS16.
  - destruct (DIN x X) as (A & B). destruct (DIN (x + k) K) as (A' & B').
    assert (0 <= h * sz) by (apply Z.mul_nonneg_nonneg; lia).
    replace (k * ds) with ((d + (x + k) * ds) - (d + x * ds)) by ring.
    apply in64_diff with (lim := size0); lia.
Qed.

Lemma loadRows_spec : forall j ii ks, 0 <= j -> j * sz + 16 <= w * sz -> (16 | j * sz) -> 0 <= ii < h ->
  (forall k, In k ks -> 0 <= ii + k < h) ->
  loadRows sz src (sOff j ii) ss ks = Ok (map (rowBytes (fun k b => b_data src (sOff j (ii + k) + b))) ks).
Proof.
  intros j ii ks J J16 DJ II. induction ks as [|k ks IH]; intros H; [reflexivity|].
  cbn [loadRows map]. rewrite s_row; [|exact II | apply H; left; reflexivity].
  assert (K : 0 <= ii + k < h) by (apply H; left; reflexivity). destruct (SIN _ K) as (A & B).
  unfold load16. rewrite zero_mod_div; [|lia|].
  2: { unfold sOff. apply Z.divide_add_r; [apply Z.divide_add_r|]; [exact S16 | apply Z.divide_mul_r, SS16 | exact DJ]. }
  unfold loadL. rewrite inside_true.
  - cbn [obind]. rewrite IH; [reflexivity|]. intros q Q. apply H. right. exact Q.
  - unfold sOff. assert (0 <= j * sz) by (apply Z.mul_nonneg_nonneg; lia). lia.
  - unfold sOff. lia.
Qed.

Lemma storeRows_good : forall j ii n l P m, 0 <= j < w -> 0 <= ii -> 0 <= n -> ii + n <= h ->
  Forall (fun e => match e with (st, k, v) => 0 <= j + k < w /\ exists l',
     (forall m : pbuf, st m (dOff (j + k) ii) v = storeL m (dOff (j + k) ii) l') /\ zlength l' = n * sz /\
     forall y b, 0 <= y < n -> 0 <= b < sz -> nth (Z.to_nat (y * sz + b)) l' 0 = b_data src (sOff (j + k) (ii + y) + b) end) l ->
  good P m ->
  exists m', storeRows sz m (dOff j ii) ds l = Ok m' /\
    good (fun x y => P x y \/ (In (x - j) (map (fun e => snd (fst e)) l) /\ ii <= y < ii + n)) m'.
Proof.
  intros j ii n l P m J I N IN F. revert P m. induction F as [|[[st k] v] l (K & l' & E & L & V) F IH]; intros P m G.
  - exists m. split; [reflexivity|]. eapply good_weaken; [exact G|]. cbn [map In]. tauto.
  - cbn [storeRows]. rewrite d_row by assumption. rewrite E.
    destruct (store_good P m (j + k) ii n l' G K I N IN L V) as (m1 & E1 & G1). rewrite E1. cbn [obind].
    destruct (IH _ _ G1) as (m2 & E2 & G2). exists m2. split; [exact E2|].
    eapply good_weaken; [exact G2|]. cbn beta. cbn [map In fst snd]. intros x y X Y [p|([e|i] & yy)]; [tauto | | tauto].
    left. right. split; [lia | exact yy].
Qed.

Lemma blockC_good : forall P m j ii, good P m -> 0 <= j -> j + 1 <= w -> 0 <= ii -> ii + 1 <= h -> (1 | j) -> (1 | ii) ->
  exists m', blockC sz m (addOff sz d (j * ds) + ii * sz) ds src (addOff sz s (ii * ss) + j * sz) ss = Ok m' /\
    good (fun x y => P x y \/ (j <= x < j + 1 /\ ii <= y < ii + 1)) m'.
Proof.
  intros P m j ii G J W I H _ _. destruct (px_good P m j ii G) as (m' & E & G'); [lia | lia |].
  exists m'. split; [exact E|]. eapply good_weaken; [exact G'|]. cbn beta.
  intros x y X Y [p|q]; [left; exact p | right; lia].
Qed.

Lemma col_value : forall j ii k n, 0 <= n * sz ->
  zlength (col (fun a b => b_data src (sOff j (ii + a) + b)) sz n k) = n * sz /\
  forall y b, 0 <= y < n -> 0 <= b < sz ->
    nth (Z.to_nat (y * sz + b)) (col (fun a b => b_data src (sOff j (ii + a) + b)) sz n k) 0 = b_data src (sOff (j + k) (ii + y) + b).
Proof.
  intros j ii k n N. split; [apply col_length; exact N|]. intros y b Y B. rewrite col_nth by lia.
  f_equal. unfold sOff. ring.
Qed.

Lemma dOff16 : forall x i, (16 | i * sz) -> (dOff x i mod 16 =? 0) = true.
Proof.
  intros x i I. apply zero_mod_div; [lia|]. unfold dOff.
  apply Z.divide_add_r; [apply Z.divide_add_r|]; [exact D16 | apply Z.divide_mul_r, DS16 | exact I].
Qed.

Lemma blockByte_good : sz = 1 -> forall P m j ii, good P m -> 0 <= j -> j + 16 <= w -> 0 <= ii -> ii + 8 <= h -> (16 | j) -> (8 | ii) ->
  exists m', blockByte m (addOff sz d (j * ds) + ii * sz) ds src (addOff sz s (ii * ss) + j * sz) ss = Ok m' /\
    good (fun x y => P x y \/ (j <= x < j + 16 /\ ii <= y < ii + 8)) m'.
Proof.
  intros S1 P m j ii G J W I H DJ _. rewrite dOff_add, sOff_add by lia. unfold blockByte.
  pose proof (loadRows_spec j ii [0; 1; 2; 3; 4; 5; 6; 7]) as LR. rewrite S1 in LR at 4.
  rewrite LR; [| lia | rewrite S1; lia | rewrite S1, Z.mul_1_r; exact DJ | lia |].
  2: { cbn [In]. intros k K. lia. }
  cbn [obind map]. rewrite permByte_spec.
  remember (fun k b => b_data src (sOff j (ii + k) + b)) as F eqn:FE.
  match goal with |- exists m', storeRows 1 m (dOff j ii) ds ?l = _ /\ _ => destruct (storeRows_good j ii 8 l P m) as (m' & E & G') end;
    [lia | lia | lia | lia | | exact G |].
  - assert (ST : forall k, col F 1 8 k = col F sz 8 k) by (intros; rewrite S1; reflexivity).
    assert (LEN : forall k, length (col F 1 8 k) = 8%nat) by reflexivity.
    repeat (constructor; [split; [lia|];
      match goal with |- exists l', (forall m : pbuf, ?st m (dOff (j + ?k) ii) _ = _) /\ _ =>
        exists (col F 1 8 k); split; [intros m0; unfold storel, storeh;
          first [rewrite firstn_app, LEN, Nat.sub_diag, firstn_O, app_nil_r; rewrite firstn_all2 by (rewrite LEN; lia); reflexivity
                |rewrite skipn_app, LEN, Nat.sub_diag, skipn_O; rewrite skipn_all2 by (rewrite LEN; lia); reflexivity] |
          rewrite ST, FE; apply col_value; lia] end |]).
    constructor.
  - rewrite S1 in E at 1. exists m'. split; [exact E|]. eapply good_weaken; [exact G'|]. cbn [map fst snd In].
    intros x y X Y [p|(XX & YY)]; [left; exact p|]. right. split; [lia | exact YY].
Qed.

Lemma blockWord_good : sz = 2 -> forall P m j ii, good P m -> 0 <= j -> j + 8 <= w -> 0 <= ii -> ii + 8 <= h -> (8 | j) -> (8 | ii) ->
  exists m', blockWord m (addOff sz d (j * ds) + ii * sz) ds src (addOff sz s (ii * ss) + j * sz) ss = Ok m' /\
    good (fun x y => P x y \/ (j <= x < j + 8 /\ ii <= y < ii + 8)) m'.
Proof.
  intros S1 P m j ii G J W I H DJ DI. rewrite dOff_add, sOff_add by lia. unfold blockWord.
  pose proof (loadRows_spec j ii [0; 1; 2; 3; 4; 5; 6; 7]) as LR. rewrite S1 in LR at 4.
  rewrite LR; [| lia | rewrite S1; lia | rewrite S1; destruct DJ as (q & Q); exists q; lia | lia |].
  2: { cbn [In]. intros k K. lia. }
  cbn [obind map]. rewrite permWord_spec.
  remember (fun k b => b_data src (sOff j (ii + k) + b)) as F eqn:FE.
  assert (DI16 : (16 | ii * sz)) by (rewrite S1; destruct DI as (q & Q); exists q; lia).
  match goal with |- exists m', storeRows 2 m (dOff j ii) ds ?l = _ /\ _ => destruct (storeRows_good j ii 8 l P m) as (m' & E & G') end;
    [lia | lia | lia | lia | | exact G |].
  - assert (ST : forall k, col F 2 8 k = col F sz 8 k) by (intros; rewrite S1; reflexivity).
    repeat (constructor; [split; [lia|];
      match goal with |- exists l', (forall m : pbuf, ?st m (dOff (j + ?k) ii) _ = _) /\ _ =>
        exists (col F 2 8 k); split; [intros m0; unfold store16; rewrite dOff16 by exact DI16; reflexivity |
          rewrite ST, FE; apply col_value; lia] end |]).
    constructor.
  - rewrite S1 in E at 1. exists m'. split; [exact E|]. eapply good_weaken; [exact G'|]. cbn [map fst snd In].
    intros x y X Y [p|(XX & YY)]; [left; exact p|]. right. split; [lia | exact YY].
Qed.

Lemma blockDword_good : sz = 4 -> forall P m j ii, good P m -> 0 <= j -> j + 4 <= w -> 0 <= ii -> ii + 4 <= h -> (4 | j) -> (4 | ii) ->
  exists m', blockDword m (addOff sz d (j * ds) + ii * sz) ds src (addOff sz s (ii * ss) + j * sz) ss = Ok m' /\
    good (fun x y => P x y \/ (j <= x < j + 4 /\ ii <= y < ii + 4)) m'.
Proof.
  intros S1 P m j ii G J W I H DJ DI. rewrite dOff_add, sOff_add by lia. unfold blockDword.
  pose proof (loadRows_spec j ii [0; 1; 2; 3]) as LR. rewrite S1 in LR at 4.
  rewrite LR; [| lia | rewrite S1; lia | rewrite S1; destruct DJ as (q & Q); exists q; lia | lia |].
  2: { cbn [In]. intros k K. lia. }
  cbn [obind map]. rewrite permDword_spec.
  remember (fun k b => b_data src (sOff j (ii + k) + b)) as F eqn:FE.
  assert (DI16 : (16 | ii * sz)) by (rewrite S1; destruct DI as (q & Q); exists q; lia).
  match goal with |- exists m', storeRows 4 m (dOff j ii) ds ?l = _ /\ _ => destruct (storeRows_good j ii 4 l P m) as (m' & E & G') end;
    [lia | lia | lia | lia | | exact G |].
  - assert (ST : forall k, col F 4 4 k = col F sz 4 k) by (intros; rewrite S1; reflexivity).
    repeat (constructor; [split; [lia|];
      match goal with |- exists l', (forall m : pbuf, ?st m (dOff (j + ?k) ii) _ = _) /\ _ =>
        exists (col F 4 4 k); split; [intros m0; unfold store16; rewrite dOff16 by exact DI16; reflexivity |
          rewrite ST, FE; apply col_value; lia] end |]).
    constructor.
  - rewrite S1 in E at 1. exists m'. split; [exact E|]. eapply good_weaken; [exact G'|]. cbn [map fst snd In].
    intros x y X Y [p|(XX & YY)]; [left; exact p|]. right. split; [lia | exact YY].
Qed.

(** ** The loops, for a block function that is right *)

Variables (bw bh : Z) (block : blockFn).
Hypothesis BW : 1 <= bw.
Hypothesis BH : 1 <= bh.
Hypothesis BHCL : (bh | 64 / sz).
Hypothesis BLOCK : forall P m j ii, good P m -> 0 <= j -> j + bw <= w -> 0 <= ii -> ii + bh <= h ->
  (bw | j) -> (bh | ii) ->
  exists m', block m (addOff sz d (j * ds) + ii * sz) ds src (addOff sz s (ii * ss) + j * sz) ss = Ok m' /\
    good (fun x y => P x y \/ (j <= x < j + bw /\ ii <= y < ii + bh)) m'.

Lemma floor_facts : forall a n, 0 <= a -> 1 <= n -> 0 <= a - a mod n <= a /\ (n | a - a mod n) /\ a mod n < n.
Proof.
  intros a n A N. pose proof (Z.mod_pos_bound a n ltac:(lia)). pose proof (Z.mod_le a n A ltac:(lia)).
  split; [lia|]. split; [|lia]. exists (a / n). rewrite Z.mod_eq by lia. ring.
Qed.

Lemma div_le : forall n a b, (n | a) -> (n | b) -> 1 <= n -> a < b -> a + n <= b.
Proof. intros n a b (p & P) (q & Q) N L. assert (p < q) by nia. subst. nia. Qed.

Lemma transposePlane_good : forall dst, b_size dst = size0 ->
  exists m, transposePlane sz bw bh block src s ss dst d ds w h = Ok m /\ good (fun _ _ => True) m.
Proof.
  intros dst DS0. unfold transposePlane.
  assert (CL : 16 <= 64 / sz <= 64) by (destruct SZ as [->|[->| ->]]; cbn; lia).
  remember (64 / sz) as cl eqn:CLE.
  destruct (floor_facts w bw W0 BW) as (WF1 & WF2 & WF3). destruct (floor_facts h cl H0 ltac:(lia)) as (HF1 & HF2 & HF3).
  destruct (floor_facts h bh H0 BH) as (HG1 & HG2 & HG3).
  assert (HFG : h - h mod cl <= h - h mod bh).
  { assert (D : (bh | h - h mod cl)) by (eapply Z.divide_trans; [exact BHCL | exact HF2]).
    destruct (Z.le_gt_cases (h - h mod cl) (h - h mod bh)) as [C|C]; [exact C|].
    pose proof (div_le bh _ _ HG2 D BH C). lia. }
  remember (w - w mod bw) as wf eqn:WFE. remember (h - h mod cl) as hf eqn:HFE. remember (h - h mod bh) as hf2 eqn:HF2E.
  assert (DBF : (bh | hf)) by (eapply Z.divide_trans; [exact BHCL | exact HF2]).
  cbv zeta.
  (* first part *)
  destruct (forStep_inv (fun i m => good (fun _ y => y < i) m) (fun i m =>
           obind (forStep 0 wf bw (fun j m => forStep i (i + cl) bh (fun ii m => block m (addOff sz d (j * ds) + ii * sz) ds src (addOff sz s (ii * ss) + j * sz) ss) m) m)
                 (fun m => forStep wf w 1 (fun j m => forStep i (i + cl) 1 (fun ii m => copyPx sz m (addOff sz d (j * ds) + ii * sz) src (addOff sz s (ii * ss) + j * sz)) m) m))
           0 hf cl dst) as (m1 & E1 & G1).
  { lia. } { lia. } { rewrite Z.sub_0_r. exact HF2. }
  { split; [exact DS0|]. intros; lia. }
  { intros i t I DI G. rewrite Z.sub_0_r in DI. pose proof (div_le cl i hf DI HF2 ltac:(lia) ltac:(lia)) as IC.
    assert (DBI : (bh | i)) by (eapply Z.divide_trans; [exact BHCL | exact DI]).
    destruct (forStep_inv (fun j m => good (fun x y => y < i \/ (y < i + cl /\ x < j)) m)
       (fun j m => forStep i (i + cl) bh (fun ii m => block m (addOff sz d (j * ds) + ii * sz) ds src (addOff sz s (ii * ss) + j * sz) ss) m)
       0 wf bw t) as (t1 & T1 & GT1).
    { lia. } { lia. } { rewrite Z.sub_0_r. exact WF2. }
    { eapply good_weaken; [exact G|]. cbn beta. intros; lia. }
    { intros j u J DJ GU. rewrite Z.sub_0_r in DJ. pose proof (div_le bw j wf DJ WF2 BW ltac:(lia)) as JC.
      destruct (forStep_inv (fun ii m => good (fun x y => (y < i \/ (y < i + cl /\ x < j)) \/ (x < j + bw /\ y < ii)) m)
        (fun ii m => block m (addOff sz d (j * ds) + ii * sz) ds src (addOff sz s (ii * ss) + j * sz) ss) i (i + cl) bh u) as (u1 & U1 & GU1).
      { lia. } { lia. } { replace (i + cl - i) with cl by ring. exact BHCL. }
      { eapply good_weaken; [exact GU|]. cbn beta. intros; lia. }
      { intros ii v II DII GV.
        assert (DBII : (bh | ii)). { replace ii with (ii - i + i) by ring. apply Z.divide_add_r; assumption. }
        assert (DBIC : (bh | i + cl)) by (apply Z.divide_add_r; assumption).
        pose proof (div_le bh ii (i + cl) DBII DBIC BH ltac:(lia)) as IIC.
        destruct (BLOCK _ v j ii GV) as (v' & V1 & V2); [lia | lia | lia | lia | exact DJ | exact DBII |].
        exists v'. split; [exact V1|]. eapply good_weaken; [exact V2|]. cbn beta. intros; lia. }
      exists u1. split; [exact U1|]. eapply good_weaken; [exact GU1|]. cbn beta. intros; lia. }
    rewrite T1. cbn [obind].
    destruct (forStep_inv (fun j m => good (fun x y => y < i \/ (y < i + cl /\ x < j)) m)
       (fun j m => forStep i (i + cl) 1 (fun ii m => copyPx sz m (addOff sz d (j * ds) + ii * sz) src (addOff sz s (ii * ss) + j * sz)) m)
       wf w 1 t1) as (t2 & T2 & GT2).
    { lia. } { lia. } { apply Z.divide_1_l. } { exact GT1. }
    { intros j u J _ GU.
      destruct (forStep_inv (fun ii m => good (fun x y => (y < i \/ (y < i + cl /\ x < j)) \/ (x = j /\ y < ii)) m)
        (fun ii m => copyPx sz m (addOff sz d (j * ds) + ii * sz) src (addOff sz s (ii * ss) + j * sz)) i (i + cl) 1 u) as (u1 & U1 & GU1).
      { lia. } { lia. } { apply Z.divide_1_l. }
      { eapply good_weaken; [exact GU|]. cbn beta. intros; lia. }
      { intros ii v II _ GV. destruct (px_good _ v j ii GV) as (v' & V1 & V2); [lia | lia |].
        exists v'. split; [exact V1|]. eapply good_weaken; [exact V2|]. cbn beta. intros; lia. }
      exists u1. split; [exact U1|]. eapply good_weaken; [exact GU1|]. cbn beta. intros; lia. }
    exists t2. split; [exact T2|]. eapply good_weaken; [exact GT2|]. cbn beta. intros; lia. }
  rewrite E1. cbn [obind].
  (* second part *)
  destruct (forStep_inv (fun i m => good (fun _ y => y < i) m) (fun i m =>
           obind (forStep 0 wf bw (fun j m => block m (addOff sz d (j * ds) + i * sz) ds src (addOff sz s (i * ss) + j * sz) ss) m)
                 (fun m => forStep wf w 1 (fun j m => forStep i (i + bh) 1 (fun ii m => copyPx sz m (addOff sz d (j * ds) + ii * sz) src (addOff sz s (ii * ss) + j * sz)) m) m))
           hf hf2 bh m1) as (m2 & E2 & G2).
  { lia. } { lia. } { apply Z.divide_sub_r; assumption. } { exact G1. }
  { intros i t I DI G.
    assert (DBI : (bh | i)). { replace i with (i - hf + hf) by ring. apply Z.divide_add_r; assumption. }
    pose proof (div_le bh i hf2 DBI HG2 BH ltac:(lia)) as IC.
    destruct (forStep_inv (fun j m => good (fun x y => y < i \/ (y < i + bh /\ x < j)) m)
       (fun j m => block m (addOff sz d (j * ds) + i * sz) ds src (addOff sz s (i * ss) + j * sz) ss)
       0 wf bw t) as (t1 & T1 & GT1).
    { lia. } { lia. } { rewrite Z.sub_0_r. exact WF2. }
    { eapply good_weaken; [exact G|]. cbn beta. intros; lia. }
    { intros j u J DJ GU. rewrite Z.sub_0_r in DJ. pose proof (div_le bw j wf DJ WF2 BW ltac:(lia)) as JC.
      destruct (BLOCK _ u j i GU) as (v' & V1 & V2); [lia | lia | lia | lia | exact DJ | exact DBI |].
      exists v'. split; [exact V1|]. eapply good_weaken; [exact V2|]. cbn beta. intros; lia. }
    rewrite T1. cbn [obind].
    destruct (forStep_inv (fun j m => good (fun x y => y < i \/ (y < i + bh /\ x < j)) m)
       (fun j m => forStep i (i + bh) 1 (fun ii m => copyPx sz m (addOff sz d (j * ds) + ii * sz) src (addOff sz s (ii * ss) + j * sz)) m)
       wf w 1 t1) as (t2 & T2 & GT2).
    { lia. } { lia. } { apply Z.divide_1_l. } { exact GT1. }
    { intros j u J _ GU.
      destruct (forStep_inv (fun ii m => good (fun x y => (y < i \/ (y < i + bh /\ x < j)) \/ (x = j /\ y < ii)) m)
        (fun ii m => copyPx sz m (addOff sz d (j * ds) + ii * sz) src (addOff sz s (ii * ss) + j * sz)) i (i + bh) 1 u) as (u1 & U1 & GU1).
      { lia. } { lia. } { apply Z.divide_1_l. }
      { eapply good_weaken; [exact GU|]. cbn beta. intros; lia. }
      { intros ii v II _ GV. destruct (px_good _ v j ii GV) as (v' & V1 & V2); [lia | lia |].
        exists v'. split; [exact V1|]. eapply good_weaken; [exact V2|]. cbn beta. intros; lia. }
      exists u1. split; [exact U1|]. eapply good_weaken; [exact GU1|]. cbn beta. intros; lia. }
    exists t2. split; [exact T2|]. eapply good_weaken; [exact GT2|]. cbn beta. intros; lia. }
  rewrite E2. cbn [obind].
  (* last rows *)
  destruct (forStep_inv (fun i m => good (fun _ y => y < i) m) (fun i m =>
       forStep 0 w 1 (fun j m => copyPx sz m (addOff sz d (j * ds) + i * sz) src (addOff sz s (i * ss) + j * sz)) m)
           hf2 h 1 m2) as (m3 & E3 & G3).
  { lia. } { lia. } { apply Z.divide_1_l. } { exact G2. }
  { intros i t I _ G.
    destruct (forStep_inv (fun j m => good (fun x y => y < i \/ (y < i + 1 /\ x < j)) m)
       (fun j m => copyPx sz m (addOff sz d (j * ds) + i * sz) src (addOff sz s (i * ss) + j * sz)) 0 w 1 t) as (t2 & T2 & GT2).
    { lia. } { lia. } { apply Z.divide_1_l. }
    { eapply good_weaken; [exact G|]. cbn beta. intros; lia. }
    { intros j u J _ GU. destruct (px_good _ u j i GU) as (v' & V1 & V2); [lia | lia |].
      exists v'. split; [exact V1|]. eapply good_weaken; [exact V2|]. cbn beta. intros; lia. }
    exists t2. split; [exact T2|]. eapply good_weaken; [exact GT2|]. cbn beta. intros; lia. }
  exists m3. split; [exact E3|]. eapply good_weaken; [exact G3|]. cbn beta. intros; lia.
Qed.

End Plane.

(** Every vector kernel applies one function of a neighbourhood to each of its lanes. *)
From Coq Require Import ZArith List Lia Bool.
From Coq Require Import SpecFloat.
From Verif Require Import Common PlaneMem Pixel Soft Generic Simd GenericSimd.
Import ListNotations.
Open Scope Z_scope.

Definition known (B : backend) : Prop := B = sse2 \/ B = avx2 \/ B = avx512.

(** ** Vectors as functions of lane numbers *)

Lemma zip_map : forall {X A B C} (f : A -> B -> C) (p : X -> A) (q : X -> B) I,
  zip f (map p I) (map q I) = map (fun i => f (p i) (q i)) I.
Proof. induction I as [|i I IH]; [reflexivity|]. cbn [map zip]. rewrite IH. reflexivity. Qed.
Lemma map2_map : forall {X} f (p q : X -> Z) I, map2 f (map p I) (map q I) = map (fun i => f (p i) (q i)) I.
Proof. induction I as [|i I IH]; [reflexivity|]. cbn [map map2]. rewrite IH. reflexivity. Qed.
Lemma repeat_map : forall {X A} (x : A) n (I : list X), length I = n -> repeat x n = map (fun _ => x) I.
Proof. intros X A x n I <-. induction I as [|i I IH]; [reflexivity|]. cbn [length repeat map]. rewrite IH. reflexivity. Qed.

Fixpoint blocks {X} (nb k : nat) (f : list X -> list X) (I : list X) : list X :=
  match nb with O => [] | S n => f (firstn k I) ++ blocks n k f (skipn k I) end.
Fixpoint packI {X} (nb k : nat) (I J : list X) : list X :=
  match nb with O => [] | S n => (firstn k I ++ firstn k J) ++ packI n k (skipn k I) (skipn k J) end.

Lemma unpack_map : forall {X} (f : Z -> Z -> Z) (g : forall Y, list Y -> list Y) (p q : X -> Z) nb k I,
  (forall (p : X -> Z) J, g Z (map p J) = map p (g X J)) ->
  perBlock nb k (fun x y => map2 f (g Z x) (g Z y)) (map p I) (map q I) = map (fun i => f (p i) (q i)) (blocks nb k (g X) I).
Proof.
  intros X f g p q nb k I G. revert I. induction nb as [|nb IH]; intros I; [reflexivity|]. cbn [perBlock blocks].
  rewrite !firstn_map, !skipn_map, IH, !G, map2_map, map_app. reflexivity.
Qed.
Lemma pack_map : forall {X} (f : Z -> Z) (p : X -> Z) nb k I J,
  perBlock nb k (fun x y => map f x ++ map f y) (map p I) (map p J) = map (fun i => f (p i)) (packI nb k I J).
Proof.
  intros X f p nb k. induction nb as [|nb IH]; intros I J; [reflexivity|]. cbn [perBlock packI].
  rewrite !firstn_map, !skipn_map, IH, !map_app, !map_map. reflexivity.
Qed.

Definition lo8 {X} (nb : nat) : list X -> list X := blocks nb 16 (firstn 8).
Definition hi8 {X} (nb : nat) : list X -> list X := blocks nb 16 (skipn 8).
Definition lo16 {X} (nb : nat) : list X -> list X := blocks nb 8 (firstn 4).
Definition hi16 {X} (nb : nat) : list X -> list X := blocks nb 8 (skipn 4).

Lemma ulo8 : forall {X} nb (p q : X -> Z) I, unpacklo8 nb (map p I) (map q I) = map (fun i => join8 (p i) (q i)) (lo8 nb I).
Proof. intros. apply (unpack_map join8 (fun Y => firstn 8)). intros. apply firstn_map. Qed.
Lemma uhi8 : forall {X} nb (p q : X -> Z) I, unpackhi8 nb (map p I) (map q I) = map (fun i => join8 (p i) (q i)) (hi8 nb I).
Proof. intros. apply (unpack_map join8 (fun Y => skipn 8)). intros. apply skipn_map. Qed.
Lemma ulo16 : forall {X} nb (p q : X -> Z) I, unpacklo16 nb (map p I) (map q I) = map (fun i => join16 (p i) (q i)) (lo16 nb I).
Proof. intros. apply (unpack_map join16 (fun Y => firstn 4)). intros. apply firstn_map. Qed.
Lemma uhi16 : forall {X} nb (p q : X -> Z) I, unpackhi16 nb (map p I) (map q I) = map (fun i => join16 (p i) (q i)) (hi16 nb I).
Proof. intros. apply (unpack_map join16 (fun Y => skipn 4)). intros. apply skipn_map. Qed.
Lemma pus16 : forall {X} nb (p : X -> Z) I J, packus16 nb (map p I) (map p J) = map (fun i => satu8of16 (p i)) (packI nb 8 I J).
Proof. intros. apply pack_map. Qed.
Lemma ps32 : forall {X} nb (p : X -> Z) I J, packs32 nb (map p I) (map p J) = map (fun i => sats16of32 (p i)) (packI nb 4 I J).
Proof. intros. apply pack_map. Qed.
Lemma pus32 : forall {X} nb (p : X -> Z) I J, packus32 nb (map p I) (map p J) = map (fun i => satu16of32 (p i)) (packI nb 4 I J).
Proof. intros. apply pack_map. Qed.

(** Lane numbers: unpacking twice and packing twice gives the lanes back in order. *)
Lemma idx8 : forall B, known B -> let nb := be_nb B in let I := seq 0 (16 * nb) in
  length (lo8 nb I) = (8 * nb)%nat /\ length (hi8 nb I) = (8 * nb)%nat /\
  length (lo16 nb (lo8 nb I)) = (4 * nb)%nat /\ length (hi16 nb (lo8 nb I)) = (4 * nb)%nat /\
  length (lo16 nb (hi8 nb I)) = (4 * nb)%nat /\ length (hi16 nb (hi8 nb I)) = (4 * nb)%nat /\
  packI nb 8 (lo8 nb I) (hi8 nb I) = I /\
  packI nb 4 (lo16 nb (lo8 nb I)) (hi16 nb (lo8 nb I)) = lo8 nb I /\
  packI nb 4 (lo16 nb (hi8 nb I)) (hi16 nb (hi8 nb I)) = hi8 nb I.
Proof. intros B [->|[->| ->]]; cbv zeta; repeat split. Qed.
Lemma idx16 : forall B, known B -> let nb := be_nb B in let I := seq 0 (8 * nb) in
  length (lo16 nb I) = (4 * nb)%nat /\ length (hi16 nb I) = (4 * nb)%nat /\ packI nb 4 (lo16 nb I) (hi16 nb I) = I.
Proof. intros B [->|[->| ->]]; cbv zeta; repeat split. Qed.

Lemma as_map : forall (v : vec) n, length v = n -> v = map (fun i => nth i v 0) (seq 0 n).
Proof.
  intros v n <-. induction v as [|x v IH]; [reflexivity|]. cbn [length seq map nth]. f_equal.
  rewrite <- seq_shift, map_map. exact IH.
Qed.

(** ** Lane functions *)

Section Lanes.
Variable B : backend.

Definition wsignL (x : Z) : Z := if be_biased B then add16 x (wrapu16 (-32768)) else x.
Definition wunsignL (x : Z) : Z := if be_biased B then sub16 x (wrapu16 (-32768)) else x.
Definition wsign32L (x : Z) : Z := if be_biased B then Simd.add32 x (wrapu32 (-32768)) else x.
Definition wminL : Z -> Z -> Z := if be_biased B then min16 else minu.
Definition wmaxL : Z -> Z -> Z := if be_biased B then max16 else maxu.
Definition wmaxvalL (mv : Z) : Z := wrapu16 (if be_biased B then mv - 32768 else mv).
Definition packWordL (x : Z) : Z := if be_biased B then sats16of32 x else satu16of32 x.
Definition wide8 (x : Z) : Z := join8 x 0.
Definition wide16 (x : Z) : Z := join16 x 0.

Definition gradients2L (add sub : Z -> Z -> Z) (dbl : Z -> Z) (sobel : bool) (U : Z -> Z)
    (a00 a01 a02 a10 a12 a20 a21 a22 : Z) : Z * Z :=
  let two x := if sobel then dbl x else x in
  let g := sub (U a22) (U a00) in
  (sub (sub (add (add g (U a20)) (two (U a21))) (two (U a01))) (U a02),
   sub (sub (add (add g (U a02)) (two (U a12))) (two (U a10))) (U a20)).

Definition gradByteL (sobel : bool) (g : gparams) (l : list Z) : Z :=
  match l with
  | [a00; a01; a02; a10; a11; a12; a20; a21; a22] =>
      let q := gradients2L add16 sub16 (slli16 1) sobel wide8 a00 a01 a02 a10 a12 a20 a21 a22 in
      let s := join16 (fst q) (snd q) in
      satu8of16 (sats16of32 (cvtI (mul32 (SFsqrt 24 128 (cvtF (madd16 s s))) (g_scale g))))
  | _ => 0
  end.
Definition gradWordL (sobel : bool) (g : gparams) (l : list Z) : Z :=
  match l with
  | [a00; a01; a02; a10; a11; a12; a20; a21; a22] =>
      let q := gradients2L Simd.add32 Simd.sub32 slli32 sobel wide16 a00 a01 a02 a10 a12 a20 a21 a22 in
      let sq x := mul32 (cvtF x) (cvtF x) in
      wunsignL (wminL (packWordL (wsign32L (cvtI (mul32 (SFsqrt 24 128 (Soft.add32 (sq (fst q)) (sq (snd q)))) (g_scale g)))))
        (wmaxvalL (g_maxval g)))
  | _ => 0
  end.

Definition orderL (l : list Z) : list (Z * Z) :=
  match l with
  | [a00; a01; a02; a10; a11; a12; a20; a21; a22] =>
      [(1, a00); (2, a01); (4, a02); (8, a10); (16, a12); (32, a20); (64, a21); (128, a22)]
  | _ => []
  end.
Definition middleL (l : list Z) : Z := nth 4 l 0.
Definition variableL (reduce : Z -> Z -> Z -> Z) (on off st start : Z) (l : list Z) : Z :=
  fold_left (fun val q => reduce val (snd q) (if Z.land st (fst q) =? 0 then off else on)) (orderL l) start.
Definition fixedL (reduce : Z -> Z -> Z) (st start : Z) (l : list Z) : Z :=
  fold_left (fun val q => if Z.land st (fst q) =? 0 then val else reduce val (snd q)) (orderL l) start.

Definition minMaxByteL (mx : bool) (g : gparams) (l : list Z) : Z :=
  let a11 := middleL l in let st := g_stencil g in
  let val := if isFixed st then fixedL (if mx then maxu else minu) st a11 l
    else variableL (fun lhs rhs mask => if mx then maxu lhs (andL mask rhs) else minu lhs (orL mask rhs))
           (if mx then wrapu8 255 else wrapu8 0) (if mx then wrapu8 0 else wrapu8 255) st a11 l in
  (if mx then minu else maxu) val ((if mx then addsu 255 else subsu 255) a11 (wrapu8 (Z.min (g_th g) 255))).
Definition minMaxWordL (mx : bool) (g : gparams) (l : list Z) : Z :=
  let a11 := middleL l in let st := g_stencil g in
  let red := if mx then wmaxL else wminL in
  let val := if isFixed st then fixedL (fun lhs rhs => red lhs (wsignL rhs)) st (wsignL a11) l
    else variableL (fun lhs rhs mask => red lhs (wsignL ((if mx then andL else orL) mask rhs)))
           (if mx then wrapu16 65535 else wrapu16 0) (if mx then wrapu16 0 else wrapu16 65535) st (wsignL a11) l in
  wunsignL ((if mx then wminL else wmaxL) val (wsignL ((if mx then addsu 65535 else subsu 65535) a11 (wrapu16 (g_th g))))).

Definition medianByteL (l : list Z) : Z :=
  match l with
  | [a00; a01; a02; a10; a11; a12; a20; a21; a22] => medianNet minu maxu a00 a01 a02 a10 a11 a12 a20 a21 a22
  | _ => 0
  end.
Definition medianWordL (l : list Z) : Z :=
  match map wsignL l with
  | [a00; a01; a02; a10; a11; a12; a20; a21; a22] => wunsignL (medianNet wminL wmaxL a00 a01 a02 a10 a11 a12 a20 a21 a22)
  | _ => 0
  end.

Definition flateSumL (add : Z -> Z -> Z) (four : Z) (U : Z -> Z) (a00 a01 a02 a10 a12 a20 a21 a22 : Z) : Z :=
  add (fold_left (fun acc v => add acc (U v)) [a01; a02; a10; a12; a20; a21; a22] (U a00)) four.
Definition flateByteL (inflate : bool) (g : gparams) (l : list Z) : Z :=
  match l with
  | [a00; a01; a02; a10; a11; a12; a20; a21; a22] =>
      let tmp := satu8of16 (srli16 3 (flateSumL add16 (wrapu16 4) wide8 a00 a01 a02 a10 a12 a20 a21 a22)) in
      let tmp := (if inflate then maxu else minu) tmp a11 in
      (if inflate then minu else maxu) tmp ((if inflate then addsu 255 else subsu 255) a11 (wrapu8 (Z.min (g_th g) 255)))
  | _ => 0
  end.
Definition flateWordL (inflate : bool) (g : gparams) (l : list Z) : Z :=
  match l with
  | [a00; a01; a02; a10; a11; a12; a20; a21; a22] =>
      let tmp := packWordL (wsign32L (srl32 3 (flateSumL Simd.add32 (wrapu32 4) wide16 a00 a01 a02 a10 a12 a20 a21 a22))) in
      let tmp := (if inflate then wmaxL else wminL) tmp (wsignL a11) in
      wunsignL ((if inflate then wminL else wmaxL) tmp (wsignL ((if inflate then addsu 65535 else subsu 65535) a11 (wrapu16 (g_th g)))))
  | _ => 0
  end.

Definition convFinishL (g : gparams) (x : Z) : Z :=
  let f := Soft.add32 (mul32 (cvtF x) (g_div g)) (g_bias g) in cvtI (if g_sat g then f else SFabs f).
Definition convSumL (g : gparams) (last : Z) (a00 a01 a02 a10 a11 a12 a20 a21 a22 axx : Z) : Z :=
  let c i j := wrapu32 (interleave (coef g i) (coef g j)) in
  let acc := madd16 (c 0 1) (join16 a00 a01) in
  let acc := Simd.add32 acc (madd16 (c 2 3) (join16 a02 a10)) in
  let acc := Simd.add32 acc (madd16 (c 4 5) (join16 a11 a12)) in
  let acc := Simd.add32 acc (madd16 (c 6 7) (join16 a20 a21)) in
  Simd.add32 acc (madd16 (wrapu32 (interleave (coef g 8) last)) (join16 a22 axx)).
Definition convByteL (g : gparams) (l : list Z) : Z :=
  match l with
  | [a00; a01; a02; a10; a11; a12; a20; a21; a22] =>
      let U := wide8 in
      satu8of16 (sats16of32 (convFinishL g (convSumL g 0 (U a00) (U a01) (U a02) (U a10) (U a11) (U a12) (U a20) (U a21) (U a22) (wrapu16 0))))
  | _ => 0
  end.
Definition convWordL (g : gparams) (l : list Z) : Z :=
  let bias16 := wrapu16 (-32768) in
  let last := s16 (wrapu16 (- fold_left Z.add (firstn 9 (g_matrix g)) 0)) in
  match map (fun v => add16 v bias16) l with
  | [a00; a01; a02; a10; a11; a12; a20; a21; a22] =>
      wunsignL (wminL (packWordL (wsign32L (convFinishL g (convSumL g last a00 a01 a02 a10 a11 a12 a20 a21 a22 bias16)))) (wmaxvalL (g_maxval g)))
  | _ => 0
  end.

(** ** The kernels are these functions, lane by lane *)

Hypothesis KB : known B.
Let nb := be_nb B.

Lemma zip_rep : forall {X A C} (f : A -> Z -> C) (p : X -> A) x n I, length I = n -> zip f (map p I) (repeat x n) = map (fun i => f (p i) x) I.
Proof. intros X A C f p x n I L. rewrite (repeat_map x n I L). apply zip_map. Qed.
Lemma zip_repF : forall {X} (f : fl -> fl -> fl) (p : X -> fl) x n I, length I = n -> zip f (map p I) (repeat x n) = map (fun i => f (p i) x) I.
Proof. intros X f p x n I L. rewrite (repeat_map x n I L). apply zip_map. Qed.
Lemma rep_zip : forall {X A C} (f : Z -> A -> C) (p : X -> A) x n I, length I = n -> zip f (repeat x n) (map p I) = map (fun i => f x (p i)) I.
Proof. intros X A C f p x n I L. rewrite (repeat_map x n I L). apply zip_map. Qed.

Lemma wsign_map : forall {X} (p : X -> Z) I, length I = (8 * nb)%nat -> wsign B (map p I) = map (fun i => wsignL (p i)) I.
Proof. intros X p I L. unfold wsign, wsignL, set16. destruct (be_biased B); [|reflexivity]. apply zip_rep. exact L. Qed.
Lemma wunsign_map : forall {X} (p : X -> Z) I, length I = (8 * nb)%nat -> wunsign B (map p I) = map (fun i => wunsignL (p i)) I.
Proof. intros X p I L. unfold wunsign, wunsignL, set16. destruct (be_biased B); [|reflexivity]. apply zip_rep. exact L. Qed.
Lemma wsign32_map : forall {X} (p : X -> Z) I, length I = (4 * nb)%nat -> wsign32 B (map p I) = map (fun i => wsign32L (p i)) I.
Proof. intros X p I L. unfold wsign32, wsign32L, set32. destruct (be_biased B); [|reflexivity]. apply zip_rep. exact L. Qed.
Lemma wmin_map : forall {X} (p q : X -> Z) I, wmin B (map p I) (map q I) = map (fun i => wminL (p i) (q i)) I.
Proof. intros. unfold wmin, wminL. apply zip_map. Qed.
Lemma wmax_map : forall {X} (p q : X -> Z) I, wmax B (map p I) (map q I) = map (fun i => wmaxL (p i) (q i)) I.
Proof. intros. unfold wmax, wmaxL. apply zip_map. Qed.
Lemma packWord_map : forall {X} (p : X -> Z) I J, packWord B (map p I) (map p J) = map (fun i => packWordL (p i)) (packI nb 4 I J).
Proof. intros. unfold packWord, packWordL. destruct (be_biased B); [apply ps32 | apply pus32]. Qed.
Lemma wmaxval_map : forall {X} mv (I : list X), length I = (8 * nb)%nat -> wmaxval B mv = map (fun _ => wmaxvalL mv) I.
Proof. intros X mv I L. unfold wmaxval, wmaxvalL, set16. apply repeat_map. exact L. Qed.

Lemma LO8_map : forall {X} (p : X -> Z) I, length I = (16 * nb)%nat -> LO8 B (map p I) = map (fun i => wide8 (p i)) (lo8 nb I).
Proof. intros X p I L. unfold LO8, set8. rewrite (repeat_map _ _ I L). apply ulo8. Qed.
Lemma HI8_map : forall {X} (p : X -> Z) I, length I = (16 * nb)%nat -> HI8 B (map p I) = map (fun i => wide8 (p i)) (hi8 nb I).
Proof. intros X p I L. unfold HI8, set8. rewrite (repeat_map _ _ I L). apply uhi8. Qed.
Lemma LO16_map : forall {X} (p : X -> Z) I, length I = (8 * nb)%nat -> LO16 B (map p I) = map (fun i => wide16 (p i)) (lo16 nb I).
Proof. intros X p I L. unfold LO16, set16. rewrite (repeat_map _ _ I L). apply ulo16. Qed.
Lemma HI16_map : forall {X} (p : X -> Z) I, length I = (8 * nb)%nat -> HI16 B (map p I) = map (fun i => wide16 (p i)) (hi16 nb I).
Proof. intros X p I L. unfold HI16, set16. rewrite (repeat_map _ _ I L). apply uhi16. Qed.

Lemma gradients2_map : forall {X} add sub dbl sobel U u (p0 p1 p2 p3 p5 p6 p7 p8 : X -> Z) I J,
  (forall p : X -> Z, U (map p I) = map (fun i => u (p i)) J) ->
  gradients2 add sub dbl sobel U (map p0 I) (map p1 I) (map p2 I) (map p3 I) (map p5 I) (map p6 I) (map p7 I) (map p8 I) =
  (map (fun i => fst (gradients2L add sub dbl sobel u (p0 i) (p1 i) (p2 i) (p3 i) (p5 i) (p6 i) (p7 i) (p8 i))) J,
   map (fun i => snd (gradients2L add sub dbl sobel u (p0 i) (p1 i) (p2 i) (p3 i) (p5 i) (p6 i) (p7 i) (p8 i))) J).
Proof.
  intros X add sub dbl sobel U u p0 p1 p2 p3 p5 p6 p7 p8 I J HU. unfold gradients2, gradients2L. rewrite !HU. cbv zeta. cbn [fst snd].
  destruct sobel; rewrite ?map_map, !zip_map; reflexivity.
Qed.

Definition laneWise (n : nat) (op : list vec -> vec) (L : list Z -> Z) : Prop :=
  forall vs, length vs = 9%nat -> Forall (fun v => length v = n) vs -> op vs = map (fun i => L (map (fun v => nth i v 0) vs)) (seq 0 n).

Ltac nineV vs LV FV :=
  do 9 (destruct vs as [|? vs]; [discriminate LV|]); destruct vs as [|? vs]; [|discriminate LV];
  repeat match goal with H : Forall _ (_ :: _) |- _ => apply Forall_cons_iff in H; destruct H end; clear FV || idtac.

Lemma lw_intro : forall n op L, (forall p0 p1 p2 p3 p4 p5 p6 p7 p8 : nat -> Z, let I := seq 0 n in
  op [map p0 I; map p1 I; map p2 I; map p3 I; map p4 I; map p5 I; map p6 I; map p7 I; map p8 I] =
  map (fun i => L [p0 i; p1 i; p2 i; p3 i; p4 i; p5 i; p6 i; p7 i; p8 i]) I) -> laneWise n op L.
Proof.
  intros n op L H vs LV FV.
  do 9 (destruct vs as [|? vs]; [discriminate LV|]). destruct vs as [|? vs]; [|discriminate LV].
  repeat match goal with H : Forall _ (_ :: _) |- _ => apply Forall_cons_iff in H; destruct H end.
  cbn [map]. repeat match goal with H : length ?v = n |- _ => rewrite (as_map v n H) at 1; clear H end. apply H.
Qed.

Lemma grad_byte_lanes : forall sobel g, laneWise (16 * nb) (gradByte B sobel g) (gradByteL sobel g).
Proof.
  intros sobel g. apply lw_intro. intros p0 p1 p2 p3 p4 p5 p6 p7 p8 I.
  destruct (idx8 B KB) as (L1 & L2 & L3 & L4 & L5 & L6 & E1 & E2 & E3). fold nb in L1, L2, L3, L4, L5, L6, E1, E2, E3. fold I in L1, L2, L3, L4, L5, L6, E1, E2, E3.
  assert (LI : length I = (16 * nb)%nat) by apply seq_length.
  unfold gradByte.
  rewrite (gradients2_map add16 sub16 (slli16 1) sobel (LO8 B) wide8 _ _ _ _ _ _ _ _ I (lo8 nb I)) by (intros; apply LO8_map; exact LI).
  rewrite (gradients2_map add16 sub16 (slli16 1) sobel (HI8 B) wide8 _ _ _ _ _ _ _ _ I (hi8 nb I)) by (intros; apply HI8_map; exact LI).
  cbv zeta. fold nb. rewrite !ulo16, !uhi16, !zip_map, !map_map. unfold setF. fold nb.
  rewrite !zip_repF by assumption. rewrite !map_map. rewrite !ps32, E2, E3, pus16, E1. apply map_ext. intros i. unfold gradByteL. cbv beta zeta. reflexivity.
Qed.
Lemma grad_word_lanes : forall sobel g, laneWise (8 * nb) (gradWord B sobel g) (gradWordL sobel g).
Proof.
  intros sobel g. apply lw_intro. intros p0 p1 p2 p3 p4 p5 p6 p7 p8 I.
  destruct (idx16 B KB) as (L1 & L2 & E1). fold nb in L1, L2, E1. fold I in L1, L2, E1.
  assert (LI : length I = (8 * nb)%nat) by apply seq_length.
  unfold gradWord.
  rewrite (gradients2_map Simd.add32 Simd.sub32 slli32 sobel (LO16 B) wide16 _ _ _ _ _ _ _ _ I (lo16 nb I)) by (intros; apply LO16_map; exact LI).
  rewrite (gradients2_map Simd.add32 Simd.sub32 slli32 sobel (HI16 B) wide16 _ _ _ _ _ _ _ _ I (hi16 nb I)) by (intros; apply HI16_map; exact LI).
  cbv zeta. rewrite !map_map, !zip_map, !map_map. unfold setF. fold nb. rewrite !zip_repF by assumption. rewrite !map_map.
  rewrite !wsign32_map by assumption. rewrite packWord_map, E1, (wmaxval_map _ I LI), wmin_map, wunsign_map by exact LI. apply map_ext. intros i. unfold gradWordL. cbv beta zeta. reflexivity.
Qed.

Lemma fixed_map : forall {X} red redL st s (p0 p1 p2 p3 p4 p5 p6 p7 p8 : X -> Z) I,
  (forall p q : X -> Z, red (map p I) (map q I) = map (fun i => redL (p i) (q i)) I) ->
  fixedStencil red st (map s I) [map p0 I; map p1 I; map p2 I; map p3 I; map p4 I; map p5 I; map p6 I; map p7 I; map p8 I] =
  map (fun i => fixedL redL st (s i) [p0 i; p1 i; p2 i; p3 i; p4 i; p5 i; p6 i; p7 i; p8 i]) I.
Proof.
  intros X red redL st s p0 p1 p2 p3 p4 p5 p6 p7 p8 I R. unfold fixedStencil, fixedL, stencilOrder, orderL. cbn [fold_left fst snd].
  assert (S : forall (b : bool) p q, (if b then map p I else red (map p I) (map q I)) = map (fun i => if b then p i else redL (p i) (q i)) I) by (intros [|] p q; [reflexivity | apply R]).
  rewrite !S. reflexivity.
Qed.
Lemma variable_map : forall {X} red redL on off onL offL st s (p0 p1 p2 p3 p4 p5 p6 p7 p8 : X -> Z) I,
  (forall p q r : X -> Z, red (map p I) (map q I) (map r I) = map (fun i => redL (p i) (q i) (r i)) I) ->
  on = map (fun _ => onL) I -> off = map (fun _ => offL) I ->
  variableStencil red on off st (map s I) [map p0 I; map p1 I; map p2 I; map p3 I; map p4 I; map p5 I; map p6 I; map p7 I; map p8 I] =
  map (fun i => variableL redL onL offL st (s i) [p0 i; p1 i; p2 i; p3 i; p4 i; p5 i; p6 i; p7 i; p8 i]) I.
Proof.
  intros X red redL on off onL offL st s p0 p1 p2 p3 p4 p5 p6 p7 p8 I R -> ->. unfold variableStencil, variableL, stencilOrder, orderL. cbn [fold_left fst snd].
  assert (S : forall b : bool, (if b then map (fun _ : X => offL) I else map (fun _ => onL) I) = map (fun _ => if b then offL else onL) I) by (intros [|]; reflexivity).
  rewrite !S, !R. reflexivity.
Qed.

Lemma minmax_byte_lanes : forall mx g, laneWise (16 * nb) (minMaxByte B mx g) (minMaxByteL mx g).
Proof.
  intros mx g. apply lw_intro. intros p0 p1 p2 p3 p4 p5 p6 p7 p8 I. assert (LI : length I = (16 * nb)%nat) by apply seq_length.
  unfold minMaxByte. change (middle [map p0 I; map p1 I; map p2 I; map p3 I; map p4 I; map p5 I; map p6 I; map p7 I; map p8 I]) with (map p4 I).
  cbv zeta. rewrite (fixed_map (zip (if mx then maxu else minu)) (if mx then maxu else minu)) by (intros; apply zip_map).
  rewrite (variable_map _ (fun lhs rhs mask => if mx then maxu lhs (andL mask rhs) else minu lhs (orL mask rhs)) _ _
    (if mx then wrapu8 255 else wrapu8 0) (if mx then wrapu8 0 else wrapu8 255)) by
    first [intros; destruct mx; rewrite !zip_map; reflexivity | unfold set8; destruct mx; rewrite <- (repeat_map _ _ I LI); reflexivity].
  unfold set8. fold nb. rewrite zip_rep by exact LI.
  assert (S : forall (b : bool) p q, (if b then map p I else map q I) = map (fun i : nat => if b then p i else q i : Z) I) by (intros [|]; reflexivity).
  rewrite S, zip_map. reflexivity.
Qed.
Lemma minmax_word_lanes : forall mx g, laneWise (8 * nb) (minMaxWord B mx g) (minMaxWordL mx g).
Proof.
  intros mx g. apply lw_intro. intros p0 p1 p2 p3 p4 p5 p6 p7 p8 I. assert (LI : length I = (8 * nb)%nat) by apply seq_length.
  unfold minMaxWord. change (middle [map p0 I; map p1 I; map p2 I; map p3 I; map p4 I; map p5 I; map p6 I; map p7 I; map p8 I]) with (map p4 I).
  cbv zeta. rewrite (wsign_map p4) by exact LI.
  assert (RR : forall p q : nat -> Z, (if mx then wmax B else wmin B) (map p I) (map q I) = map (fun i => (if mx then wmaxL else wminL) (p i) (q i)) I)
    by (intros; destruct mx; [apply wmax_map | apply wmin_map]).
  assert (RQ : forall p q : nat -> Z, (if mx then wmin B else wmax B) (map p I) (map q I) = map (fun i => (if mx then wminL else wmaxL) (p i) (q i)) I)
    by (intros; destruct mx; [apply wmin_map | apply wmax_map]).
  rewrite (fixed_map _ (fun lhs rhs => (if mx then wmaxL else wminL) lhs (wsignL rhs))) by (intros; rewrite wsign_map, RR by exact LI; reflexivity).
  rewrite (variable_map _ (fun lhs rhs mask => (if mx then wmaxL else wminL) lhs (wsignL ((if mx then andL else orL) mask rhs))) _ _
    (if mx then wrapu16 65535 else wrapu16 0) (if mx then wrapu16 0 else wrapu16 65535)) by
    first [intros; rewrite zip_map, wsign_map, RR by exact LI; reflexivity | unfold set16; destruct mx; rewrite <- (repeat_map _ _ I LI); reflexivity].
  unfold set16. fold nb. rewrite zip_rep, wsign_map by exact LI.
  assert (S : forall (b : bool) p q, (if b then map p I else map q I) = map (fun i : nat => if b then p i else q i : Z) I) by (intros [|]; reflexivity).
  rewrite S, RQ, wunsign_map by exact LI. reflexivity.
Qed.

Lemma median_map : forall {X} mn mx mnL mxL (p0 p1 p2 p3 p4 p5 p6 p7 p8 : X -> Z) I,
  (forall p q : X -> Z, mn (map p I) (map q I) = map (fun i => mnL (p i) (q i)) I) ->
  (forall p q : X -> Z, mx (map p I) (map q I) = map (fun i => mxL (p i) (q i)) I) ->
  medianNet mn mx (map p0 I) (map p1 I) (map p2 I) (map p3 I) (map p4 I) (map p5 I) (map p6 I) (map p7 I) (map p8 I) =
  map (fun i => medianNet mnL mxL (p0 i) (p1 i) (p2 i) (p3 i) (p4 i) (p5 i) (p6 i) (p7 i) (p8 i)) I.
Proof.
  intros X mn mx mnL mxL p0 p1 p2 p3 p4 p5 p6 p7 p8 I HN HX. unfold medianNet. cbv zeta. rewrite !HN, !HX, !HN, !HX.
  repeat (rewrite ?HN, ?HX). reflexivity.
Qed.

Lemma median_byte_lanes : laneWise (16 * nb) medianByte medianByteL.
Proof.
  apply lw_intro. intros p0 p1 p2 p3 p4 p5 p6 p7 p8 I. unfold medianByte. rewrite (median_map _ _ minu maxu) by (intros; apply zip_map). reflexivity.
Qed.
Lemma median_word_lanes : laneWise (8 * nb) (medianWord B) medianWordL.
Proof.
  apply lw_intro. intros p0 p1 p2 p3 p4 p5 p6 p7 p8 I. assert (LI : length I = (8 * nb)%nat) by apply seq_length.
  unfold medianWord. cbn [map]. rewrite !wsign_map by exact LI.
  rewrite (median_map _ _ wminL wmaxL) by (intros; first [apply wmin_map | apply wmax_map]). rewrite wunsign_map by exact LI. reflexivity.
Qed.

Lemma flate_map : forall {X} add four fourL U u (p0 p1 p2 p3 p5 p6 p7 p8 : X -> Z) I J,
  (forall p : X -> Z, U (map p I) = map (fun i => u (p i)) J) -> four = map (fun _ => fourL) J ->
  flateSum add four U (map p0 I) (map p1 I) (map p2 I) (map p3 I) (map p5 I) (map p6 I) (map p7 I) (map p8 I) =
  map (fun i => flateSumL add fourL u (p0 i) (p1 i) (p2 i) (p3 i) (p5 i) (p6 i) (p7 i) (p8 i)) J.
Proof.
  intros X add four fourL U u p0 p1 p2 p3 p5 p6 p7 p8 I J HU ->. unfold flateSum, flateSumL. cbn [fold_left]. rewrite !HU, !zip_map. reflexivity.
Qed.

Lemma flate_byte_lanes : forall inflate g, laneWise (16 * nb) (flateByte B inflate g) (flateByteL inflate g).
Proof.
  intros inflate g. apply lw_intro. intros p0 p1 p2 p3 p4 p5 p6 p7 p8 I.
  destruct (idx8 B KB) as (L1 & L2 & L3 & L4 & L5 & L6 & E1 & E2 & E3). fold nb in L1, L2, L3, L4, L5, L6, E1, E2, E3. fold I in L1, L2, L3, L4, L5, L6, E1, E2, E3.
  assert (LI : length I = (16 * nb)%nat) by apply seq_length.
  unfold flateByte. cbv zeta.
  rewrite (flate_map add16 (set16 B 4) (wrapu16 4) (LO8 B) wide8 _ _ _ _ _ _ _ _ I (lo8 nb I)) by first [intros; apply LO8_map; exact LI | apply repeat_map; exact L1].
  rewrite (flate_map add16 (set16 B 4) (wrapu16 4) (HI8 B) wide8 _ _ _ _ _ _ _ _ I (hi8 nb I)) by first [intros; apply HI8_map; exact LI | apply repeat_map; exact L2].
  rewrite !map_map. fold nb. rewrite pus16, E1. unfold set8. fold nb. rewrite zip_rep by exact LI. rewrite !zip_map. reflexivity.
Qed.
Lemma flate_word_lanes : forall inflate g, laneWise (8 * nb) (flateWord B inflate g) (flateWordL inflate g).
Proof.
  intros inflate g. apply lw_intro. intros p0 p1 p2 p3 p4 p5 p6 p7 p8 I.
  destruct (idx16 B KB) as (L1 & L2 & E1). fold nb in L1, L2, E1. fold I in L1, L2, E1.
  assert (LI : length I = (8 * nb)%nat) by apply seq_length.
  unfold flateWord. cbv zeta.
  rewrite (flate_map Simd.add32 (set32 B 4) (wrapu32 4) (LO16 B) wide16 _ _ _ _ _ _ _ _ I (lo16 nb I)) by first [intros; apply LO16_map; exact LI | apply repeat_map; exact L1].
  rewrite (flate_map Simd.add32 (set32 B 4) (wrapu32 4) (HI16 B) wide16 _ _ _ _ _ _ _ _ I (hi16 nb I)) by first [intros; apply HI16_map; exact LI | apply repeat_map; exact L2].
  rewrite !map_map. rewrite !wsign32_map by assumption. rewrite packWord_map, E1. rewrite wsign_map by exact LI.
  unfold set16. fold nb. rewrite zip_rep by exact LI. rewrite wsign_map by exact LI.
  destruct inflate; rewrite ?wmax_map, ?wmin_map, ?wmax_map, wunsign_map by exact LI; reflexivity.
Qed.

Lemma conv_map : forall {X} g last P (p0 p1 p2 p3 p4 p5 p6 p7 p8 p9 : X -> Z) I J, length J = (4 * nb)%nat ->
  (forall p q : X -> Z, P (map p I) (map q I) = map (fun i => join16 (p i) (q i)) J) ->
  convSum B g last P (map p0 I) (map p1 I) (map p2 I) (map p3 I) (map p4 I) (map p5 I) (map p6 I) (map p7 I) (map p8 I) (map p9 I) =
  map (fun i => convSumL g last (p0 i) (p1 i) (p2 i) (p3 i) (p4 i) (p5 i) (p6 i) (p7 i) (p8 i) (p9 i)) J.
Proof.
  intros X g last P p0 p1 p2 p3 p4 p5 p6 p7 p8 p9 I J LJ HP. unfold convSum, convSumL, set32. fold nb. rewrite !HP.
  rewrite !rep_zip by exact LJ. rewrite !zip_map. reflexivity.
Qed.
Lemma finish_map : forall {X} g (p : X -> Z) J, length J = (4 * nb)%nat -> convFinish B g (map p J) = map (fun i => convFinishL g (p i)) J.
Proof.
  intros X g p J LJ. unfold convFinish, convFinishL, setF. fold nb. rewrite !map_map. rewrite !zip_repF by exact LJ. rewrite !map_map. reflexivity.
Qed.

Lemma conv_byte_lanes : forall g, laneWise (16 * nb) (convByte B g) (convByteL g).
Proof.
  intros g. apply lw_intro. intros p0 p1 p2 p3 p4 p5 p6 p7 p8 I.
  destruct (idx8 B KB) as (L1 & L2 & L3 & L4 & L5 & L6 & E1 & E2 & E3). fold nb in L1, L2, L3, L4, L5, L6, E1, E2, E3. fold I in L1, L2, L3, L4, L5, L6, E1, E2, E3.
  assert (LI : length I = (16 * nb)%nat) by apply seq_length.
  unfold convByte. cbv zeta. rewrite !LO8_map, !HI8_map by exact LI.
  assert (Z1 : set16 B 0 = map (fun _ => wrapu16 0) (lo8 nb I)) by (apply repeat_map; exact L1).
  assert (Z2 : set16 B 0 = map (fun _ => wrapu16 0) (hi8 nb I)) by (apply repeat_map; exact L2).
  rewrite Z1 at 1 2. rewrite Z2. fold nb.
  rewrite (conv_map g 0 _ _ _ _ _ _ _ _ _ _ _ (lo8 nb I) _ L3) by (intros; apply ulo16).
  rewrite (conv_map g 0 _ _ _ _ _ _ _ _ _ _ _ (lo8 nb I) _ L4) by (intros; apply uhi16).
  rewrite (conv_map g 0 _ _ _ _ _ _ _ _ _ _ _ (hi8 nb I) _ L5) by (intros; apply ulo16).
  rewrite (conv_map g 0 _ _ _ _ _ _ _ _ _ _ _ (hi8 nb I) _ L6) by (intros; apply uhi16).
  rewrite !finish_map by assumption. rewrite !ps32, E2, E3, pus16, E1. apply map_ext. intros i. unfold convByteL. cbv beta zeta. reflexivity.
Qed.
Lemma conv_word_lanes : forall g, laneWise (8 * nb) (convWord B g) (convWordL g).
Proof.
  intros g. apply lw_intro. intros p0 p1 p2 p3 p4 p5 p6 p7 p8 I.
  destruct (idx16 B KB) as (L1 & L2 & E1). fold nb in L1, L2, E1. fold I in L1, L2, E1.
  assert (LI : length I = (8 * nb)%nat) by apply seq_length.
  unfold convWord. cbn [map]. cbv zeta.
  assert (Z1 : set16 B (-32768) = map (fun _ => wrapu16 (-32768)) I) by (apply repeat_map; exact LI).
  rewrite Z1. rewrite !zip_map. fold nb.
  rewrite (conv_map g _ _ _ _ _ _ _ _ _ _ _ _ I _ L1) by (intros; apply ulo16).
  rewrite (conv_map g _ _ _ _ _ _ _ _ _ _ _ _ I _ L2) by (intros; apply uhi16).
  rewrite !finish_map, !wsign32_map by assumption. rewrite packWord_map, E1, (wmaxval_map _ I LI), wmin_map, wunsign_map by exact LI. apply map_ext. intros i. unfold convWordL. cbn [map]. cbv beta zeta. reflexivity.
Qed.
End Lanes.

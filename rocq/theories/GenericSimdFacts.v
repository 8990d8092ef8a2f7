(** Consequences and counterexamples for the vector kernels. *)
From Coq Require Import ZArith List Lia Bool.
From Coq Require Import SpecFloat.
From Verif Require Import Common FormatSpec Format Frame FrameFacts ImageSpec PlaneMem Spatial SpatialLemmas PixelSpec Pixel PixelLemmas Lut LutLemmas LutFrames LutFacts Soft SoftNum SoftLe GenericSpec Generic GenericLemmas
  GenericMedian GenericOps GenericPlanes GenericFloat GenericFrames Simd
  GenericSimd GenericSimdLanes GenericSimdFloat GenericSimdOps GenericSimdEdges GenericSimdRows GenericSimdPlanes.
Import Soft ListNotations.
Open Scope Z_scope.

(** Filters that only compare and average. *)
Definition isOrder (op : gop) : bool := match op with OpMinimum | OpMaximum | OpMedian | OpDeflate | OpInflate => true | _ => false end.

Lemma order_agree : forall B op vi a d t0 src w h dst, known B -> fmt_valid (vi_fmt vi) -> f_bits (vi_fmt vi) = 8 * f_bytes (vi_fmt vi) ->
  genericCreate op vi a = Ok d -> isOrder op = true ->
  let k := f_bytes (vi_fmt vi) in let p := gd_params d in 1 <= w < 2 ^ 31 -> 1 <= h < 2 ^ 31 ->
  wfPlane k src w h -> wfPlane k dst w h -> aligned B src -> aligned B dst -> byteBuf src ->
  exists mv ms, kernelV B op k p src w h dst = Ok mv /\ kernelOf op k p t0 src w h dst = Ok ms /\ b_size mv = b_size (p_buf dst) /\ b_size ms = b_size (p_buf dst) /\
    same (imageOf k (mkPl (p_stride dst) mv) w h) (imageOf k (mkPl (p_stride dst) ms) w h).
Proof.
  intros B op vi a d t0 src w h dst KB V FB CR OR k p W H WS WD AS AD BY. apply (kernels_mild B op vi a d); auto.
  - destruct op; try discriminate OR; cbn [opV]; discriminate.
  - intros x y _ _. destruct (bytes_of _ V) as (B1 & _). assert (K0 : 0 <= k) by (unfold k; lia).
    pose proof (image_range k src w h x y K0 BY) as R. rewrite FB, Z.pow_mul_r by (fold k; lia). fold k. change (2 ^ 8) with 256. lia.
  - destruct op; try discriminate OR; exact I.
Qed.

(** Counterexamples: planes of one row, one register wide. *)
Definition rowPlane (stride : Z) (f : Z -> Z) : plane := mkPl stride (mkB stride f).
Definition sampleIn (k w stride : Z) (o : outcome pbuf) (x : Z) : outcome Z := obind o (fun m => Ok (i_at (imageOf k (mkPl stride m) w 1) x 0)).
Definition scaled (s : Z) : gargs := mkGA [] None None (Some (num s)) [] None None None None.
Definition plain : gargs := mkGA [] None None None [] None None None None.
Definition clipOf (f : vfmt) : vinfo := mkVI f 4 4 1.

(** What differs for the given format, arguments and a row of two samples. *)
Definition differ (B : backend) (op : gop) (f : vfmt) (a : gargs) (src : plane) (v s : Z) : Prop :=
  exists d dst, genericCreate op (clipOf f) a = Ok d /\ wfPlane (f_bytes f) src 2 1 /\ wfPlane (f_bytes f) dst 2 1 /\ aligned B src /\ aligned B dst /\ byteBuf src /\
    sampleIn (f_bytes f) 2 (p_stride dst) (kernelV B op (f_bytes f) (gd_params d) src 2 1 dst) 0 = Ok v /\
    sampleIn (f_bytes f) 2 (p_stride dst) (kernelOf op (f_bytes f) (gd_params d) (fun _ => 0) src 2 1 dst) 0 = Ok s.

Definition stepRow (k stride : Z) : plane := rowPlane stride (fun a => if (k <=? a) && (a <? 2 * k) then 255 else 0).
Definition highRow : plane := rowPlane 16 (fun a => if Z.even a then 208 else 7).

Lemma step_bytes : forall k stride, byteBuf (stepRow k stride).
Proof. intros k stride a. cbn [stepRow rowPlane p_buf b_data]. destruct (_ && _); lia. Qed.

(** Sobel of a step from black to white with a scale of four million: black instead of white. *)
Lemma sobel_byte_differs : forall B, known B -> differ B OpSobel gray8 (scaled 4000000) (stepRow 1 64) 0 255.
Proof.
  intros B KB. unfold differ. eexists. exists (rowPlane 64 (fun _ => 0)). split; [reflexivity|].
  split; [unfold wfPlane; cbn; lia|]. split; [unfold wfPlane; cbn; lia|]. split; [destruct KB as [->|[->| ->]]; reflexivity|]. split; [destruct KB as [->|[->| ->]]; reflexivity|].
  split; [apply step_bytes|]. destruct KB as [->|[->| ->]]; split; vm_compute; reflexivity.
Qed.
(** 16 bit samples with AVX2 and AVX-512: a scale of ten thousand is enough. *)
Lemma sobel_word_differs : forall B, B = avx2 \/ B = avx512 -> differ B OpSobel gray16 (scaled 10000) (stepRow 2 64) 0 65535.
Proof.
  intros B KB. unfold differ. eexists. exists (rowPlane 64 (fun _ => 0)). split; [reflexivity|].
  split; [unfold wfPlane; cbn; lia|]. split; [unfold wfPlane; cbn; lia|]. split; [destruct KB as [->| ->]; reflexivity|]. split; [destruct KB as [->| ->]; reflexivity|].
  split; [apply step_bytes|]. destruct KB as [->| ->]; split; vm_compute; reflexivity.
Qed.
Lemma sobel_word_sse2 : differ sse2 OpSobel gray16 (scaled 10000) (stepRow 2 64) 65535 65535.
Proof.
  unfold differ. eexists. exists (rowPlane 64 (fun _ => 0)). split; [reflexivity|].
  split; [unfold wfPlane; cbn; lia|]. split; [unfold wfPlane; cbn; lia|]. split; [reflexivity|]. split; [reflexivity|].
  split; [apply step_bytes|]. split; vm_compute; reflexivity.
Qed.
(** A 3x3 convolution with a small divisor. *)
Definition tiny : gargs := mkGA [] None None None (map num [0; 0; 0; 0; 0; 1; 0; 0; 0]) None None (Some (div64 (num 1) (num 20000000))) None.
Lemma conv_byte_differs : forall B, known B -> differ B (OpConv CSquare) gray8 tiny (stepRow 1 64) 0 255.
Proof.
  intros B KB. unfold differ. eexists. exists (rowPlane 64 (fun _ => 0)). split; [reflexivity|].
  split; [unfold wfPlane; cbn; lia|]. split; [unfold wfPlane; cbn; lia|]. split; [destruct KB as [->|[->| ->]]; reflexivity|]. split; [destruct KB as [->|[->| ->]]; reflexivity|].
  split; [apply step_bytes|]. destruct KB as [->|[->| ->]]; split; vm_compute; reflexivity.
Qed.
(** 10 bit samples above 1023: the scalar kernel limits, the vector kernel keeps them. *)
Lemma high_differs : differ sse2 OpMedian gray10 plain highRow 2000 1023.
Proof.
  unfold differ. eexists. exists (rowPlane 16 (fun _ => 0)). split; [reflexivity|].
  split; [unfold wfPlane; cbn; lia|]. split; [unfold wfPlane; cbn; lia|]. split; [reflexivity|]. split; [reflexivity|].
  split; [intros a; cbn; destruct (Z.even a); lia|]. split; vm_compute; reflexivity.
Qed.

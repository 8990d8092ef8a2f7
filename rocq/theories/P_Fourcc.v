(** Property C98: pictures for Video for Windows. *)
From Coq Require Import String ZArith List Lia Bool.
From Verif Require Import Common FormatSpec Fourcc FourccSpec FourccFacts.
Import ListNotations.
Open Scope Z_scope.

(** No format has two entries for one mode, so the entry found is the one meant. *)
Theorem C98_table_unique : forall f alt t, In t table -> (hasKey f alt t = true <-> findTraits f alt = Some t).
Proof. exact table_unique. Qed.
Print Assumptions C98_table_unique.
Example C98_table_ex : map (fun p => snd (getFourCC (fst p) (snd p))) [(yuv420p8, 0); (yuv420p8, 1); (yuv420p10, 0); (yuv422p10, 1); (rgb24, 1)] =
  ["YV12"; "I420"; "P010"; "v210"; "UNKN"]%string.
Proof. vm_compute. reflexivity. Qed.

(** The announced size is that of the documented layout, as long as it fits an int. *)
Theorem C98_size_partial : forall f w h alt, fmt_valid f -> dimsOk f w h -> fitsInt f w h alt ->
  bmpSize f w h alt = Ok (docSize f w h alt).
Proof. exact size_right. Qed.
Print Assumptions C98_size_partial.
Example C98_size_ex : map (fun f => bmpSize f 100 50 0) [rgb24; gray8f; yuv420p8; yuv420p10] = map Ok [20000; 5000; 7500; 15000] /\
  bmpSize yuv422p10 100 50 1 = Ok 19200 /\ docSize yuv422p10 100 50 1 = 19200.
Proof. vm_compute. auto. Qed.

(** A picture is written inside a buffer of that size, no row over another; planar and
    semiplanar pictures fill it. *)
Theorem C98_pack_partial : forall f w h alt, fmt_valid f -> dimsOk f w h -> fitsInt f w h alt ->
  exists bs, packBlocks f w h alt = Ok bs /\ insideBuffer (docSize f w h alt) bs /\ noOverlap bs /\
    (planarOf f alt = true \/ nvOf f alt = true -> written bs = docSize f w h alt).
Proof. exact pack_right. Qed.
Print Assumptions C98_pack_partial.
Example C98_pack_ex : packBlocks rgb24 3 2 0 = Ok [mkB 12 (-12) 12 2 [0; 1; 2]] /\
  packBlocks yuv420p8 4 2 0 = Ok [mkB 0 4 4 2 [0]; mkB 8 2 2 1 [2]; mkB 10 2 2 1 [1]] /\
  packBlocks yuv422p10 7 1 1 = Ok [mkB 0 128 32 1 [0; 1; 2]].
Proof. vm_compute. auto. Qed.

(** The planes come one after the other without gaps, in the order the code stands for. *)
Theorem C98_order_partial : forall f w h alt, fmt_valid f -> dimsOk f w h -> fitsInt f w h alt -> planarOf f alt = true ->
  packBlocks f w h alt = Ok (layout f w h (planeOrder f alt)).
Proof. exact order_right. Qed.
Print Assumptions C98_order_partial.
Example C98_order_ex : planeOrder yuv420p8 0 = [0; 2; 1] /\ planeOrder yuv420p8 1 = [0; 1; 2] /\ planeOrder gray8f 0 = [0].
Proof. vm_compute. auto. Qed.

(** Semiplanar pictures: luma, then U and V side by side, without gaps. *)
Theorem C98_semiplanar_partial : forall f w h alt, fmt_valid f -> dimsOk f w h -> fitsInt f w h alt -> nvOf f alt = true ->
  packBlocks f w h alt = Ok (nvLayout f w h).
Proof. exact nv_rows. Qed.
Print Assumptions C98_semiplanar_partial.
Example C98_semiplanar_ex : packBlocks yuv420p10 4 2 0 = Ok [mkB 0 8 8 2 [0]; mkB 16 8 8 1 [1; 2]].
Proof. vm_compute. reflexivity. Qed.

(** Interleaved pictures: rows of the documented size, downwards, and upwards for DIB. *)
Theorem C98_interleaved_partial : forall f w h alt t, fmt_valid f -> dimsOk f w h -> fitsInt f w h alt -> findTraits f alt = Some t ->
  planarOf f alt = false -> nvOf f alt = false ->
  exists b, packBlocks f w h alt = Ok [b] /\ b_rows b = h /\ b_len b = p2pRow (t_pack t) w /\ b_from b = [0; 1; 2] /\
    forall y, rowFrom b y = (if String.eqb (t_fcc t) "DIB " then h - 1 - y else y) * docRow (t_pack t) w.
Proof. exact inter_rows. Qed.
Print Assumptions C98_interleaved_partial.
Example C98_interleaved_ex : match packBlocks rgb24 3 2 0, packBlocks yuv422p10 7 2 1 with
  | Ok [b], Ok [c] => map (rowFrom b) [0; 1] = [12; 0] /\ map (rowFrom c) [0; 1] = [0; 128] | _, _ => False end.
Proof. vm_compute. auto. Qed.

(** The bits per pixel announced are those of the picture, but for three codes. *)
Theorem C98_bits_partial : forall f w h alt t, fmt_valid f -> dimsOk f w h -> findTraits f alt = Some t ->
  t_fcc t <> "Y800"%string -> t_fcc t <> "r210"%string -> t_fcc t <> "v210"%string ->
  bitsPerPixel f alt * (w * h) = 8 * docSize f w h alt.
Proof. exact bits_right. Qed.
Print Assumptions C98_bits_partial.
Example C98_bits_ex : map (fun f => bitsPerPixel f 0) [rgb24; yuv420p8; yuv420p10; yuv422p10] = [32; 12; 24; 32].
Proof. vm_compute. reflexivity. Qed.

(** Gray pictures are announced with 24 bits per pixel, three times what they have. *)
Theorem C98_gray_bits_refuted : fmt_valid gray8f /\ hasSupportedFourCC gray8f = true /\
  forall w h, bitsPerPixel gray8f 0 * (w * h) = 24 * docSize gray8f w h 0.
Proof. exact gray_bits. Qed.
Print Assumptions C98_gray_bits_refuted.

(** A clip is accepted by its code in mode 0 and then has none in the mode asked for. *)
Theorem C98_mode_refuted : exists f alt, fmt_valid f /\ hasSupportedFourCC f = true /\ fst (getFourCC f alt) = false.
Proof. exact alt_lost. Qed.
Print Assumptions C98_mode_refuted.

(** The size of a large picture overflows an int while all of it is written. *)
Theorem C98_size_refuted : exists f w h, fmt_valid f /\ dimsOk f w h /\ hasSupportedFourCC f = true /\
  bmpSize f w h 0 = UB /\ exists bs, packBlocks f w h 0 = Ok bs /\ written bs = 2 ^ 32.
Proof. exact size_overflows. Qed.
Print Assumptions C98_size_refuted.

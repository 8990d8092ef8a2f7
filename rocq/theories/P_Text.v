(** C80: text drawn on frames. *)
From Coq Require Import ZArith List Bool Lia.
From Verif Require Import Common FormatSpec Format FrameSpec FrameFacts ImageSpec PlaneMem Spatial SpatialLemmas TextSpec Text TextLemmas TextDraw TextFrame TextFacts.
Import ListNotations.
Open Scope Z_scope.

(** Every sample of the result is known: the text in white on black where the layout puts it, no colour in the chroma samples of its boxes, everything else unchanged; nothing is written outside the planes. *)
Theorem C80_frame : forall al font t a s src, alignment al -> wfFrame al src -> zlength font = 4016 -> Forall (fun c => 0 <= c < 256) t -> 1 <= a <= 9 -> 1 <= s ->
  is8to16orFloat (vf_fmt src) = true -> 32 + 8 * s <= vf_w src -> 32 + 16 * s <= vf_h src ->
  exists r, textGetFrame font t a s src = Ok r /\ wfFrame al r /\ vf_fmt r = vf_fmt src /\ vf_w r = vf_w src /\ vf_h r = vf_h src /\ vf_props r = vf_props src /\
    forall i, 0 <= i < f_np (vf_fmt src) -> exists p q, planeImg src i = Some p /\ planeImg r i = Some q /\
      same q (mkI (i_w p) (i_h p) (planeWithText (fontAt font) (vf_fmt src) (layout t (vf_w src) (vf_h src) s) a (vf_w src) (vf_h src) s i (i_at p))).
Proof. exact text_frame. Qed.
Print Assumptions C80_frame.
(** The text stays inside the margins of 16 pixels ... *)
Theorem C80_margins : forall t a W H s x y c gx gy, 1 <= s -> 32 + 8 * s <= W -> 32 + 16 * s <= H ->
  charAt (layout t W H s) a W H s x y = Some (c, gx, gy) -> 16 <= x < W - 16 /\ 16 <= y < H - 16 /\ 0 <= gx < 8 /\ 0 <= gy < 16 /\ exists l, In l (layout t W H s) /\ In c l.
Proof. exact charAt_inside. Qed.
Print Assumptions C80_margins.
(** ... every character of the layout is shown whole ... *)
Theorem C80_shown : forall ls a W H s r l j c u v, 1 <= s -> nth_error ls r = Some l -> nth_error l j = Some c -> 0 <= u < 8 * s -> 0 <= v < 16 * s ->
  charAt ls a W H s (originX a W s l + Z.of_nat j * (8 * s) + u) (originY a H s ls + Z.of_nat r * (16 * s) + v) = Some (c, u / s, v / s).
Proof. exact charAt_shown. Qed.
Print Assumptions C80_shown.
(** ... cutting a long line loses nothing of it ... *)
Theorem C80_pieces : forall n l, (1 <= n)%nat -> concat (pieces n l) = l /\ (forall p, In p (pieces n l) -> (length p <= n)%nat).
Proof. exact pieces_all. Qed.
Print Assumptions C80_pieces.
(** ... and every byte has a glyph in the font. *)
Theorem C80_glyphs : forall c, 0 <= c < 256 -> adjust c = glyphIndex c /\ 0 <= glyphIndex c < 251.
Proof. exact adjust_index. Qed.
Print Assumptions C80_glyphs.
Theorem C80_refused : forall font t a s src, is8to16orFloat (vf_fmt src) = false \/ vf_w src < 32 + 8 * s \/ vf_h src < 32 + 16 * s -> textGetFrame font t a s src = Err.
Proof. exact text_refused. Qed.
Print Assumptions C80_refused.
Theorem C80_arguments : forall a s a' s', textArgs a s = Ok (a', s') <->
  a' = match a with Some v => v | None => 7 end /\ s' = match s with Some v => v | None => 1 end /\ 1 <= a' <= 9 /\ 1 <= s' <= 65536.
Proof. exact text_args. Qed.
Print Assumptions C80_arguments.
(** Text in a corner has no colour left under it. *)
Theorem C80_gray_partial : forall ss_w ss_h ls a W H s x y, 0 <= ss_w <= 4 -> 0 <= ss_h <= 4 -> 1 <= s -> hSide a <> Middle -> vSide a <> Middle ->
  (2 ^ ss_w | W) -> (2 ^ ss_h | H) -> (2 ^ ss_w | 8 * s) -> charAt ls a W H s x y <> None -> blanked ss_w ss_h s (spots ls a W H s) (x / 2 ^ ss_w) (y / 2 ^ ss_h) = true.
Proof. exact gray_under_text. Qed.
Print Assumptions C80_gray_partial.
(** Centred text may. *)
Theorem C80_gray_refuted : exists al font t a s src r x y q, alignment al /\ wfFrame al src /\ zlength font = 4016 /\ Forall (fun c => 0 <= c < 256) t /\ 1 <= a <= 9 /\ 1 <= s /\
  f_cf (vf_fmt src) = cfYUV /\ f_ssw (vf_fmt src) = 1 /\ f_ssh (vf_fmt src) = 1 /\ (2 | vf_w src) /\ (2 | vf_h src) /\
  textGetFrame font t a s src = Ok r /\ charAt (layout t (vf_w src) (vf_h src) s) a (vf_w src) (vf_h src) s x y <> None /\
  planeImg r 1 = Some q /\ i_at q (x / 2) (y / 2) <> neutralS (vf_fmt src).
Proof. exact colour_left. Qed.
Print Assumptions C80_gray_refuted.

(** "ab", CR LF, "cde" on a frame with room for two columns and three rows. *)
Example layout_demo : layout [97; 98; 13; 10; 99; 100; 101] 48 80 1 = [[97; 98]; [99; 100]; [101]].
Proof. vm_compute. reflexivity. Qed.
Example charAt_demo : charAt [[97; 98]; [99]] 9 48 80 1 25 40 = Some (99, 1, 8).
Proof. vm_compute. reflexivity. Qed.
Example charAt_none : charAt [[97; 98]; [99]] 9 48 80 1 23 40 = None.
Proof. vm_compute. reflexivity. Qed.
Example spots_demo : spots [[97; 98]; [99]] 9 48 80 1 = [(16, 16); (24, 16); (24, 32)].
Proof. vm_compute. reflexivity. Qed.
Example glyph_demo : map glyphIndex [95; 0; 129; 130; 255] = [95; 95; 95; 129; 250].
Proof. vm_compute. reflexivity. Qed.
Example ink_demo : inked (fun i => if i =? 16 * 97 + 3 then 64 else 0) 97 1 3 = true /\ inked (fun i => if i =? 16 * 97 + 3 then 64 else 0) 97 2 3 = false.
Proof. vm_compute. split; reflexivity. Qed.
Example colours_demo : map whiteS [mkV cfGray stInteger 8 1 0 0 1; mkV cfGray stInteger 10 2 0 0 1; mkV cfGray stFloat 16 2 0 0 1; mkV cfGray stFloat 32 4 0 0 1] = [235; 940; 15360; 1065353216] /\ neutralS (mkV cfYUV stInteger 10 2 1 1 3) = 512.
Proof. vm_compute. split; reflexivity. Qed.
Example small_demo : textGetFrame [] [97] 7 2 coloured = Err.
Proof. reflexivity. Qed.
Example args_demo : textArgs (Some 10) None = Err /\ textArgs None None = Ok (7, 1).
Proof. split; reflexivity. Qed.

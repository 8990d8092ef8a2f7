(** Property C99: creation and frames of Expr. *)
From Coq Require Import String.
From Coq Require Import ZArith List Lia Bool.
From Verif Require Import Common FormatSpec Format FrameSpec Frame FrameGeom FrameFacts ImageSpec PlaneMem Spatial
  SpatialLemmas SpatialStack SpatialFacts Pixel PixelLemmas PixelSpec Lut LutLemmas LutFrames LutFacts ExprFilter ExprFilterSpec ExprFilterFacts.
Import ListNotations.
Open Scope Z_scope.

(** Exactly the documented calls are accepted. *)
Theorem C99_accepted : forall prog (compile : string -> list vfmt -> vfmt -> option prog) r clips exprs format,
  Forall (fun v => fmt_valid (vi_fmt v)) clips -> exprs <> [] ->
  ((exists d, exprCreate compile r clips exprs format = Ok d) <-> exists v0 f, accepted compile r clips exprs format v0 f).
Proof. exact create_iff. Qed.
Print Assumptions C99_accepted.
Definition toy (e : string) (fs : list vfmt) (f : vfmt) : option string := if String.eqb e "bad" then None else Some e.
Definition noReg : reg := mkReg [] 1000.
Definition yuv420 : vfmt := mkV cfYUV stInteger 8 1 1 1 3.
Example C99_accepted_ex :
  (exists d, exprCreate toy noReg [viOf gray8 5 2; viOf gray8 5 2] ["x y +"%string] None = Ok d) /\
  exprCreate toy noReg [viOf gray8 5 2; viOf gray8 5 3] ["x y +"%string] None = Err /\
  exprCreate toy noReg [viOf gray8 5 2] ["x"%string; "y"%string] None = Err /\
  exprCreate toy noReg [viOf gray8 5 2] ["bad"%string] None = Err /\
  exprCreate toy noReg [viOf yuv420 4 4] ["x"%string; ""%string] (Some (queryVideoFormatID cfYUV stInteger 10 1 1)) =
    Ok (mkED (viOf (mkV cfYUV stInteger 10 2 1 1 3) 4 4) [Process "x"%string; Undefined; Undefined]).
Proof. split; [eexists; vm_compute; reflexivity|]. vm_compute. auto. Qed.

(** Every frame has, plane by plane, the expression applied everywhere or the plane of the
    first clip, with the interpreter and with 8 or 16 pixels at a time; no access leaves a
    buffer. *)
Theorem C99_frame : forall prog (compile : string -> list vfmt -> vfmt -> option prog) (run : prog -> list Z -> Z) usesHalf
    c g r clips exprs format d srcs, (c_avx512 c = true -> c_avx512f c = true) -> exprs <> [] ->
  (forall e fs f p, compile e fs f = Some p -> forall l, 0 <= run p l < 256 ^ f_bytes f) ->
  exprCreate compile r clips exprs format = Ok d ->
  Forall2 matches srcs clips -> Forall (wfFrame (alignOf c)) srcs ->
  exists v0 f s0 o, accepted compile r clips exprs format v0 f /\ ed_out d = mkVI f (vi_w v0) (vi_h v0) (vi_n v0) /\
    nthz srcs 0 = Some s0 /\ exprGetFrame run usesHalf c g d srcs = Ok o /\ wfFrame (alignOf c) o /\ matches o (ed_out d) /\
    vf_props o = vf_props s0 /\
    forall i, 0 <= i < f_np f -> planeRight compile run clips exprs (vi_fmt v0) f srcs o i.
Proof. exact expr_frame. Qed.
Print Assumptions C99_frame.
Definition sums (e : string) (l : list Z) : Z := fold_left Z.add l 0 mod 256.
Definition cpus : list cpu := [mkCPU true true true 3; mkCPU false false true 2; mkCPU false false false 0].
Example C99_frame_ex : map (fun c => sampleOf (obind (exprCreate toy noReg [viOf gray8 5 2; viOf gray8 5 2] ["x y +"%string] None) (fun d =>
    exprGetFrame sums (fun _ => false) c (fun _ _ => 3) d
      [drawn (alignOf c) gray8 5 2 (fun _ x y => 100 * y + x); drawn (alignOf c) gray8 5 2 (fun _ x y => 7)])) 0 4 1) cpus = [Ok 111; Ok 111; Ok 111].
Proof. vm_compute. reflexivity. Qed.

(** A clip is declared strictly spatial exactly if frame n of it is used for frame n. *)
Theorem C99_patterns : forall (out v : vinfo), 0 < vi_n v ->
  (declaredStrict out v = true <-> forall n, 0 <= n < vi_n out -> servedFrame v n = n).
Proof. exact patterns. Qed.
Print Assumptions C99_patterns.
Example C99_patterns_ex : declaredStrict (mkVI gray8 4 4 10) (mkVI gray8 4 4 10) = true /\ declaredStrict (mkVI gray8 4 4 10) (mkVI gray8 4 4 9) = false.
Proof. vm_compute. auto. Qed.

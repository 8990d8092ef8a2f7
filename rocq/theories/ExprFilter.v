(** Model of src/core/exprfilter.cpp: creation of Expr and its frames.

    compile and the arithmetic of the bytecode are the subject of C46 to C48 and parameters
    here: [compile] gives the program of an expression or an error, [run] maps the samples
    of all clips at one place, as stored, to the sample stored.  The program loads the
    clips it names; the model loads all of them, which is more to be shown safe.  The line
    procedure of the JIT is taken to do [run] in each of its lanes. *)
From Coq Require Import String.
From Coq Require Import ZArith List Bool.
From Verif Require Import Common FormatSpec Format Frame ImageSpec PlaneMem Spatial Pixel Lut.
Import ListNotations.
Open Scope Z_scope.

(** filtershared.h:159-168, is8to16orFloatFormat without allowVariable. *)
Definition supported (f : vfmt) : bool :=
  if f_cf f =? cfUndefined then false
  else negb (((f_st f =? stInteger) && (16 <? f_bits f)) || ((f_st f =? stFloat) && negb ((f_bits f =? 32) || (f_bits f =? 16)))).

(** What the processor has: cpufeatures.cpp:98-115, 137 ff.; [c_level] is vs_get_cpulevel. *)
Record cpu := mkCPU { c_avx512 : bool; c_avx512f : bool; c_f16c : bool; c_level : Z }.
(** vscore.cpp:2617-2622. *)
Definition alignOf (c : cpu) : Z := if c_avx512f c then 64 else 32.
(** exprfilter.cpp:352-366 and compile_jit, jitcompiler.cpp:65-88, on x86: the pixels per
    iteration of the compiled line, [None] = the interpreter. *)
Definition jitLanes (c : cpu) (usesHalf : bool) : option Z :=
  if (0 <? c_level c) && negb (negb (c_f16c c) && usesHalf) then Some (if c_avx512 c && (3 <=? c_level c) then 16 else 8)
  else None.

Section Expr.
Variable prog : Type.
Variable compile : string -> list vfmt -> vfmt -> option prog.
Variable run : prog -> list Z -> Z.
Variable usesHalf : prog -> bool.

Inductive planeOp := Process (p : prog) | Copy | Undefined.
Record exprData := mkED { ed_out : vinfo; ed_ops : list planeOp }.

(** exprfilter.cpp:292-308. *)
Definition clipOk (v0 v : vinfo) : bool :=
  constantFormat v &&
  (f_np (vi_fmt v0) =? f_np (vi_fmt v)) && (f_ssw (vi_fmt v0) =? f_ssw (vi_fmt v)) && (f_ssh (vi_fmt v0) =? f_ssh (vi_fmt v)) &&
  (vi_w v0 =? vi_w v) && (vi_h v0 =? vi_h v) && supported (vi_fmt v).

(** exprfilter.cpp:310-324: the format of the output. *)
Definition outFormat (r : reg) (f0 : vfmt) (format : option Z) : outcome vfmt :=
  match format with
  | None => Ok f0
  | Some id =>
      match getVideoFormatByID r (wrapu32 (sat32 id)) with
      | None => UB
      | Some (false, _) => Err
      | Some (true, f) =>
          if f_cf f =? cfUndefined then Err
          else if negb (f_cf f0 =? f_cf f) || negb (f_ssw f0 =? f_ssw f) || negb (f_ssh f0 =? f_ssh f) then Err
          else if negb (f_np f0 =? f_np f) then Err
          else queryFmt (f_cf f) (f_st f) (f_bits f) (f_ssw f) (f_ssh f)
      end
  end.

(** exprfilter.cpp:329-351: what is done with plane [i]. *)
Definition opFor (exprs : list string) (fs : list vfmt) (f0 f : vfmt) (i : Z) : outcome planeOp :=
  let n := zlength exprs in
  match nthz exprs (if i <? n then i else n - 1) with
  | None => UB
  | Some e =>
      if String.eqb e "" then
        Ok (if (f_bits f =? f_bits f0) && (f_st f =? f_st f0) then Copy else Undefined)
      else match compile e fs f with Some p => Ok (Process p) | None => Err end
  end.

(** exprCreate, exprfilter.cpp:265-386.  The call was checked to have clips and
    expressions. *)
Definition exprCreate (r : reg) (clips : list vinfo) (exprs : list string) (format : option Z) : outcome exprData :=
  if 26 <? zlength clips then Err
  else match clips with
  | [] => UB
  | v0 :: _ =>
      if negb (forallb (clipOk v0) clips) then Err
      else obind (outFormat r (vi_fmt v0) format) (fun f =>
        if negb (supported f) then Err
        else if f_np f <? zlength exprs then Err
        else obind (mapO (opFor exprs (map vi_fmt clips) (vi_fmt v0) f) (zseq (f_np f))) (fun ops =>
          Ok (mkED (mkVI f (vi_w v0) (vi_h v0) (vi_n v0)) ops)))
  end.

(** The request pattern declared for a clip, exprfilter.cpp:373: [true] = rpStrictSpatial,
    [false] = rpFrameReuseLastOnly; and the frame a request for [n] gives (C57). *)
Definition declaredStrict (out v : vinfo) : bool := vi_n out <=? vi_n v.
Definition servedFrame (v : vinfo) (n : Z) : Z := Z.min n (vi_n v - 1).

(** One pixel: the samples of all clips and the result. *)
Definition pixel (p : prog) (srcs : list (Z * plane)) (x y : Z) : outcome Z :=
  obind (mapO (fun kp => loadS (fst kp) (p_buf (snd kp)) (y * p_stride (snd kp) + x * fst kp)) srcs) (fun l => Ok (run p l)).

(** exprfilter.cpp:198-242: by the line procedure, [lanes] pixels at a time, or pixel by
    pixel. *)
Definition exprPlane (lanes : option Z) (k w h : Z) (p : prog) (srcs : list (Z * plane)) (dst : plane) : outcome pbuf :=
  match lanes with
  | Some n => drawGroups k w h n (fun x y => mapO (fun j => pixel p srcs (x + j) y) (zseq n)) dst
  | None => drawPlane k w h (pixel p srcs) dst
  end.

(** getReadPtr of plane [i] of all frames with the bytes per sample of their formats. *)
Definition planeOf (i : Z) (s : vframe) : outcome (Z * plane) :=
  match nthz (vf_planes s) i with Some p => Ok (f_bytes (vf_fmt s), p) | None => UB end.

(** exprGetFrame, exprfilter.cpp:171-254; newVideoFrame2 is given the first frame for the
    planes to copy, and the properties are those of the first frame. *)
Definition exprGetFrame (c : cpu) (g : Z -> Z -> Z) (d : exprData) (srcs : list vframe) : outcome vframe :=
  match srcs with
  | [] => UB
  | s0 :: _ =>
      let f := vi_fmt (ed_out d) in
      filterFrame (alignOf c) g f (vf_w s0) (vf_h s0)
        (fun i => match nthz (ed_ops d) i with Some Copy => false | _ => true end) s0
        (fun i q => match nthz (ed_ops d) i with
          | Some (Process p) =>
              obind (mapO (planeOf i) srcs) (fun ps =>
              exprPlane (jitLanes c (usesHalf p)) (f_bytes f) (getWidth f (vf_w s0) i) (getHeight f (vf_h s0) i) p ps q)
          | Some _ => Ok (p_buf q)
          | None => UB
          end)
  end.
End Expr.
Arguments Process {prog}. Arguments Copy {prog}. Arguments Undefined {prog}.
Arguments mkED {prog}. Arguments ed_out {prog}. Arguments ed_ops {prog}.
Arguments exprCreate {prog}. Arguments exprGetFrame {prog}. Arguments opFor {prog}. Arguments exprPlane {prog}. Arguments pixel {prog}.

(** Property C95: FrameEval and ModifyFrame. *)
From Coq Require Import ZArith List Lia Bool.
From Verif Require Import Common FormatSpec Frame Spatial ClipProp Eval EvalSpec EvalLemmas EvalRun EvalFacts.
Import ListNotations.
Open Scope Z_scope.

(** FrameEval: in whatever order frames are asked for, arrive and fail, between calls the shared
    maps are empty and the only references owned are those of waiting contexts to their nodes. *)
Theorem C95_eval_no_leak_partial : forall p es w, evalVideo p -> evalRun p es = Ok w -> noLeak w.
Proof. exact eval_no_leak. Qed.
Print Assumptions C95_eval_no_leak_partial.
Example C95_eval_no_leak_ex : evalVideo exSetup /\
  match evalRun exSetup (firstn 10 exEvents) with Ok w => map c_fd (w_ctx w) = [Some 2; None] /\ e_nodes (w_inst w) 2 = 1 /\ length (w_done w) = 3%nat | _ => False end.
Proof. split; [exact exVideo|]. vm_compute. repeat split. Qed.

(** FrameEval calls the function for one frame at a time, with that frame's number and that
    frame's properties sources and an empty result, once for every frame that gets that far. *)
Theorem C95_eval_calls_partial : forall p es w, evalVideo p -> evalRun p es = Ok w -> callsRight p es w.
Proof. exact eval_calls. Qed.
Print Assumptions C95_eval_calls_partial.
Example C95_eval_calls_ex : match evalRun exSetup exEvents with Ok w => map (fun c => in_n (fst c)) (e_calls (w_inst w)) = [[6]; [5]; [0]; [3]; [1]] | _ => False end.
Proof. vm_compute. reflexivity. Qed.

(** A frame comes to what the function answered for that very frame: the frame of the node it
    gave, if that has the declared size and format, and otherwise an error. *)
Theorem C95_eval_delivers_partial : forall p es w n r, evalVideo p -> evalRun p es = Ok w -> In (n, r) (w_done w) ->
  r = RNothing \/
  exists j, calledFor (p_serve p) (p_src p) (w_inst w) j n /\
    evalOwes (p_vi p) (p_serve p) n (p_fn p j (argsFor (p_serve p) (p_src p) n) outEmpty) r.
Proof. exact eval_delivers. Qed.
Print Assumptions C95_eval_delivers_partial.
Example C95_eval_delivers_ex : match evalRun exSetup exEvents with Ok w =>
    w_done w = [(6, RFail msgSize); (1, RFrame (exServe 2 1)); (2, RNothing); (5, RFrame (exServe 2 5)); (0, RFail 77); (3, RFail msgNoClip)] | _ => False end.
Proof. vm_compute. reflexivity. Qed.

(** No order of events is undefined, and every context can always go on. *)
Theorem C95_eval_defined_partial : forall p es, evalVideo p ->
  evalRun p es <> UB /\
  forall w e, evalRun p es = Ok w -> possible w e -> exists w', evalRun p (es ++ [e]) = Ok w'.
Proof. exact eval_defined. Qed.
Print Assumptions C95_eval_defined_partial.
Example C95_eval_defined_ex : evalRun exSetup (exEvents ++ [EvReady 0]) = Err /\ exists w, evalRun exSetup (exEvents ++ [EvStart 8; EvFail 0]) = Ok w.
Proof. split; [vm_compute; reflexivity|]. eexists. vm_compute. reflexivity. Qed.

(** With a function of its arguments alone no frame depends on the order of events. *)
Theorem C95_eval_order_partial : forall p es1 es2 w1 w2 n r1 r2, evalVideo p -> pure p ->
  evalRun p es1 = Ok w1 -> evalRun p es2 = Ok w2 -> In (n, r1) (w_done w1) -> In (n, r2) (w_done w2) ->
  r1 <> RNothing -> r2 <> RNothing -> r1 = r2.
Proof. exact eval_order. Qed.
Print Assumptions C95_eval_order_partial.
Example C95_eval_order_ex : pure exSetup /\
  match evalRun exSetup exEvents, evalRun exSetup [EvStart 5; EvReady 0; EvReady 0] with
  | Ok w1, Ok w2 => nth_error (w_done w1) 3 = Some (5, RFrame (exServe 2 5)) /\ nth_error (w_done w2) 0 = Some (5, RFrame (exServe 2 5)) | _, _ => False end.
Proof. split; [intros j1 j2 i; reflexivity|]. vm_compute. split; reflexivity. Qed.

(** ModifyFrame: the same maps, and no node is ever held. *)
Theorem C95_modify_no_leak_partial : forall p es w, modifyVideo p -> modifyRun p es = Ok w ->
  clean (w_inst w) /\ forall k, e_nodes (w_inst w) k = 0.
Proof. exact modify_no_leak. Qed.
Print Assumptions C95_modify_no_leak_partial.
Example C95_modify_no_leak_ex : exists w, modifyRun (mkSetup exVi (fun _ i o => mkOut (out_err o) (out_val o ++ map VFrame (in_f i))) [2; 1] exServe) [EvStart 4; EvStart 7; EvReady 1; EvReady 0] = Ok w /\
  w_done w = [(7, RFrame (exServe 2 7)); (4, RFrame (exServe 2 4))].
Proof. eexists. split; [vm_compute; reflexivity|]. vm_compute. reflexivity. Qed.

Theorem C95_modify_calls_partial : forall p es w, modifyVideo p -> modifyRun p es = Ok w -> callsRight p es w.
Proof. exact modify_calls. Qed.
Print Assumptions C95_modify_calls_partial.
Example C95_modify_calls_ex : exists w, modifyRun (mkSetup exVi exFn [2; 1] exServe) [EvStart 4; EvStart 7; EvReady 1] = Ok w /\
  e_calls (w_inst w) = [(mkIn [4] [exServe 2 4; exServe 1 4], outEmpty)].
Proof. eexists. split; [vm_compute; reflexivity|]. vm_compute. reflexivity. Qed.

(** A frame comes to the frame the function gave for it, if that has the declared format and
    size, and otherwise to an error. *)
Theorem C95_modify_delivers_partial : forall p es w n r, modifyVideo p -> modifyRun p es = Ok w -> In (n, r) (w_done w) ->
  r = RNothing \/
  exists j, calledFor (p_serve p) (p_src p) (w_inst w) j n /\
    modifyOwes (p_vi p) (p_fn p j (argsFor (p_serve p) (p_src p) n) outEmpty) r.
Proof. exact modify_delivers. Qed.
Print Assumptions C95_modify_delivers_partial.
Example C95_modify_delivers_ex : exists w, modifyRun (mkSetup exVi (fun _ i o => mkOut (out_err o) (out_val o ++ map VFrame (in_f i))) [3] exServe) [EvStart 4; EvReady 0] = Ok w /\
  w_done w = [(4, RFail msgSize)].
Proof. eexists. split; [vm_compute; reflexivity|]. vm_compute. reflexivity. Qed.

Theorem C95_modify_defined_partial : forall p es, modifyVideo p ->
  modifyRun p es <> UB /\
  forall w e, modifyRun p es = Ok w -> possible w e -> exists w', modifyRun p (es ++ [e]) = Ok w'.
Proof. exact modify_defined. Qed.
Print Assumptions C95_modify_defined_partial.
Example C95_modify_defined_ex : exists w, modifyRun (mkSetup exVi exFn [2; 1] exServe) [EvStart 4; EvFail 0] = Ok w /\ w_done w = [(4, RNothing)].
Proof. eexists. split; vm_compute; reflexivity. Qed.

Theorem C95_modify_order_partial : forall p es1 es2 w1 w2 n r1 r2, modifyVideo p -> pure p ->
  modifyRun p es1 = Ok w1 -> modifyRun p es2 = Ok w2 -> In (n, r1) (w_done w1) -> In (n, r2) (w_done w2) ->
  r1 <> RNothing -> r2 <> RNothing -> r1 = r2.
Proof. exact modify_order. Qed.
Print Assumptions C95_modify_order_partial.
Example C95_modify_order_ex : modifyVideo (mkSetup exVi exFn [2; 1] exServe) /\ pure (mkSetup exVi exFn [2; 1] exServe).
Proof.
  split; [|intros j1 j2 i; reflexivity]. intros j i m. cbn [p_fn]. unfold exFn, firstFrame.
  destruct (in_n i) as [|n [|n' tl]]; try discriminate. destruct (n mod 4 =? 0), (n mod 4 =? 1), (n mod 4 =? 2); discriminate.
Qed.

(** A function may return an audio clip: the size of its frame is then read from a frame that
    has none. *)
Theorem C95_audio_clip_refuted : exists p es, evalRun p es = UB.
Proof. exact audio_undefined. Qed.
Print Assumptions C95_audio_clip_refuted.
Example C95_audio_clip_ex : evalRun (mkSetup exVi audioFn [1] exServe) [EvStart 0; EvReady 0; EvReady 0] = UB.
Proof. reflexivity. Qed.

Theorem C95_audio_frame_refuted : exists p es, modifyRun p es = UB.
Proof. exact audio_frame_undefined. Qed.
Print Assumptions C95_audio_frame_refuted.
Example C95_audio_frame_ex : modifyRun (mkSetup exVi audioFrameFn [1; 2] exServe) [EvStart 6; EvStart 7; EvReady 1] = UB.
Proof. reflexivity. Qed.

(** And if the clip declares neither size nor format, the video filter delivers the audio frame. *)
Theorem C95_audio_delivered_refuted : exists p es w n id, evalRun p es = Ok w /\ In (n, RFrame (MAudio id)) (w_done w).
Proof. exact audio_delivered. Qed.
Print Assumptions C95_audio_delivered_refuted.
Example C95_audio_delivered_ex : exists w, modifyRun (mkSetup exAny audioFrameFn [1; 2] exServe) [EvStart 6; EvReady 0] = Ok w /\ w_done w = [(6, RFrame (MAudio 5))].
Proof. eexists. split; vm_compute; reflexivity. Qed.

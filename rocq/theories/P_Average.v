(** Property C44: averaging frames. *)
From Coq Require Import String.
From Coq Require Import ZArith List Lia Bool SpecFloat.
From Verif Require Import Common FormatSpec Format Frame FrameSpec FrameGeom FrameFacts ImageSpec PlaneMem Spatial SpatialLemmas SpatialStack SpatialFacts.
From Verif Require Import Pixel PixelLemmas Soft Lut LutFrames LutFacts AverageSpec Average AverageNear AverageLemmas AverageFrames.
Import ListNotations.
Open Scope Z_scope.

(** The single precision division of the accumulator. *)
Theorem C44_quotient : forall acc scale, Z.abs acc < 2 ^ 31 - 2 ^ 26 -> 1 <= scale <= 2 ^ 31 ->
  exists r, rounded acc scale = Ok r /\ quotient32 acc scale r /\ Z.abs r < 2 ^ 31 - 2 ^ 25.
Proof. exact rounded_near. Qed.
Print Assumptions C44_quotient.
Example C44_quotient_ex : map (fun p => rounded (fst p) (snd p)) [(7, 2); (-5, 2); (2078311455, 1); (2078311455, 31713); (10, 3)] =
  [Ok 4; Ok (-2); Ok 2078311424; Ok 65535; Ok 3].
Proof. vm_compute. reflexivity. Qed.

(** One sample: nothing overflows for up to 31 weights of at most 1023, even after all of them went to one frame. *)
Theorem C44_sample : forall k scale top bias str ws srcs vs x y, 1 <= scale <= INT_MAX -> 0 <= bias <= 32768 -> 0 <= top ->
  Forall2 (fun s v => loadS k s (y * str + x * k) = Ok v) srcs vs -> length ws = length vs -> Forall (fun v => 0 <= v < 65536) vs -> absSum ws <= 31713 ->
  exists v, averagePixel k scale top bias str ws srcs x y = Ok v /\ average bias top scale ws vs v /\ 0 <= v <= top.
Proof. exact pixel_spec. Qed.
Print Assumptions C44_sample.
Example C44_sample_ex : let b v := mkB 2 (fun a => if a =? 0 then v mod 256 else v / 256) in
  (averagePixel 2 4 65535 0 2 [1; 2; 1] [b 100; b 201; b 50000] 0 0, averagePixel 2 1 65535 32768 2 [-1] [b 0] 0 0,
   averagePixel 2 31713 65535 0 2 (repeat 1023 31) (repeat (b 65535) 31) 0 0) = (Ok 12626, Ok 65535, Ok 65535).
Proof. vm_compute. reflexivity. Qed.

Theorem C44_identical_inputs : forall bias top scale ws vs v w, 1 <= scale -> 0 <= bias <= 32768 -> length ws = length vs -> Forall (fun x => x = v) vs -> 0 <= v <= top -> v < 65536 ->
  total ws = scale -> average bias top scale ws vs w -> w = v.
Proof. exact average_equal. Qed.
Print Assumptions C44_identical_inputs.
Example C44_identical_inputs_ex : let b v := mkB 1 (fun _ => v) in
  map (fun v => averagePixel 1 7 255 128 1 [1; 5; 3; -2] [b v; b v; b v; b v] 0 0) [0; 1; 127; 128; 254; 255] = map (@Ok Z) [0; 1; 127; 128; 254; 255].
Proof. vm_compute. reflexivity. Qed.

(** Scene changes: the total is kept, and weights of frames outside the scene of the middle frame become zero. *)
Theorem C44_scene_changes : forall first last ws, ws <> [] -> absSum ws <= INT_MAX ->
  exists ws', redistribute first last ws = Ok ws' /\ sceneWeights first last (zlength ws / 2) ws ws' /\ absSum ws' <= absSum ws.
Proof. exact redistribute_spec. Qed.
Print Assumptions C44_scene_changes.
Example C44_scene_changes_ex :
  (redistribute (fun i => i =? 2) (fun _ => false) [1; 2; 3; 4; 5; 6; 7], redistribute (fun i => i =? 1) (fun i => i =? 3) [1; 2; 3; 4; 5; 6; 7],
   redistribute (fun i => i =? 4) (fun i => (i =? 5) || (i =? 2)) [1; 2; 3; 4; 5; 6; 7]) =
  (Ok [0; 0; 3; 7; 5; 6; 7], Ok [0; 2; 3; 23; 0; 0; 0], Ok [1; 2; 3; 11; 5; 6; 0]).
Proof. vm_compute. reflexivity. Qed.

(** Frame numbers of the only clip. *)
Theorem C44_fetched_is_requested : forall n size, 0 <= n < INT_MAX -> 1 <= size <= 31 -> incl (avgFetches n size) (avgRequests n (size / 2)).
Proof. exact fetches_requested. Qed.
Print Assumptions C44_fetched_is_requested.
Example C44_fetched_is_requested_ex : (avgRequests 1 2, avgRequests 2147483645 2) = ([0; 1; 2; 3], [2147483643; 2147483644; 2147483645; 2147483646]).
Proof. vm_compute. reflexivity. Qed.
Theorem C44_fetched_neighbours : forall n size, 0 <= n -> 1 <= size <= 31 -> n + size < INT_MAX ->
  avgFetches n size = map (fun i => Z.max 0 (n - size / 2 + i)) (zseq size).
Proof. exact fetches_neighbours. Qed.
Print Assumptions C44_fetched_neighbours.
Example C44_fetched_neighbours_ex : (avgFetches 1 5, avgFetches 9 3, avgFetches 2147483645 5) =
  ([0; 0; 1; 2; 3], [8; 9; 10], [2147483643; 2147483644; 2147483645; 2147483646; 2147483646]).
Proof. vm_compute. reflexivity. Qed.

(** What is known about the arguments once they are accepted. *)
Theorem C44_arguments : forall clips weights scale scenes planes d, avgCreate clips weights scale scenes planes = Ok d ->
  avgOk d /\ av_weights d = map roundZ weights /\ getPlanesArg planes = Some (av_process d) /\
  (av_single d = true <-> zlength clips = 1) /\ (av_single d = false -> zlength (av_weights d) = zlength clips) /\
  (scale = None -> 1 <= total (av_weights d) -> av_scale d = total (av_weights d)) /\
  exists vi rest, clips = vi :: rest /\ vi_fmt (av_vi d) = vi_fmt vi /\ vi_w (av_vi d) = vi_w vi /\ vi_h (av_vi d) = vi_h vi /\ Forall (fun v => sameInfo vi v = true) rest.
Proof. exact create_facts. Qed.
Print Assumptions C44_arguments.
Example C44_arguments_ex : let w l := map (fun v => of64 v (-1)) l in let show o := match o with Ok d => Ok (av_weights d, av_scale d) | Err => Err | UB => UB end in
  map show [avgCreate [viOf gray8 4 4] (w [2; 3; -1]) None 1 []; avgCreate [viOf gray8 4 4] (w [2; 2]) None 0 []; avgCreate [viOf gray8 4 4] (w [-2]) None 0 [];
    avgCreate [viOf gray8 4 4; viOf gray8 4 4] (w [2; 2046]) (Some (of64 5 0)) 0 []; avgCreate [viOf gray8 4 4; viOf gray8 4 4] (w [2; 2047]) None 0 [];
    avgCreate [viOf gray8 4 4; viOf gray8 4 4] (w [2; 2]) None 1 []; avgCreate [viOf gray8 4 4; viOf gray8 4 4] (w [2; 2]) (Some (of64 1 31)) 0 [];
    avgCreate [viOf gray8 4 4; viOf gray8 4 4] (w [2; 2]) (Some (of64 1 32)) 0 []] =
  [Ok ([1; 2; -1], 2); Err; Ok ([-1], 1); Ok ([1; 1023], 5); Err; Err; Err; Ok ([1; 1], INT_MAX)].
Proof. vm_compute. reflexivity. Qed.

(** Whole frames. *)
Theorem C44_frame : forall al g d frames vi, alignment al -> avgOk d -> fmt_valid (vi_fmt vi) -> f_st (vi_fmt vi) = stInteger -> f_bits (vi_fmt vi) <= 16 ->
  zlength frames = zlength (av_weights d) -> Forall (wfFrame al) frames -> Forall (fun s => matches s vi) frames -> Forall byteFrame frames ->
  exists center r ws, nthz frames (if av_single d then zlength frames / 2 else 0) = Some center /\ averageGetFrame al g d frames = Ok r /\ wfFrame al r /\
    vf_fmt r = vi_fmt vi /\ vf_w r = vi_w vi /\ vf_h r = vi_h vi /\ vf_props r = vf_props center /\
    (if av_scenes d then sceneWeights (flagAt "_SceneChangePrev" frames) (flagAt "_SceneChangeNext" frames) (zlength frames / 2) (av_weights d) ws else ws = av_weights d) /\
    forall i, 0 <= i < f_np (vi_fmt vi) -> exists b, planeImg r i = Some b /\
      if av_process d i then exists imgs, partsOf frames i imgs /\ i_w b = planeW (vi_fmt vi) (vi_w vi) i /\ i_h b = planeH (vi_fmt vi) (vi_h vi) i /\
          averageImg (biasOf (vi_fmt vi) i) (2 ^ f_bits (vi_fmt vi) - 1) (av_scale d) ws imgs b
      else exists a, planeImg center i = Some a /\ same a b.
Proof. exact average_frame. Qed.
Print Assumptions C44_frame.
Example C44_frame_ex : let fr c p := let s := drawn 32 yuv420p8 4 2 (fun i x y => c + 10 * i + x) in mkVF (vf_fmt s) (vf_w s) (vf_h s) (vf_planes s) p in
  let none := fun _ : string => @None Z in let change := fun k : string => if String.eqb k "_SceneChangeNext" then Some 1 else None in
  let run sc p := obind (avgCreate [viOf yuv420p8 4 2] [of64 1 0; of64 2 0; of64 1 0] None sc [0; 1]) (fun d => averageGetFrame 32 (fun _ _ => 77) d [fr 10 none; fr 60 p; fr 200 none]) in
  map (fun o => map (fun p => sampleOf o (fst p) (snd p) 0) [(0, 0); (0, 3); (1, 0); (1, 1); (2, 0); (2, 1)]) [run 0 change; run 1 change; run 1 none] =
  [[Ok 82; Ok 86; Ok 92; Ok 94; Ok 80; Ok 81]; [Ok 48; Ok 50; Ok 58; Ok 58; Ok 80; Ok 81]; [Ok 82; Ok 86; Ok 92; Ok 94; Ok 80; Ok 81]].
Proof. vm_compute. reflexivity. Qed.

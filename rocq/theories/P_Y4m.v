(** C78: video files written by vspipe. *)
From Coq Require Import String Ascii ZArith List Bool Lia.
From Verif Require Import Common OptSpec Y4mSpec Y4m Y4mLemmas.
Import ListNotations.
Open Scope Z_scope.

(** A y4m file can be read back: size, rate, format, number of frames and every byte of every row, whatever the strides are and whatever lies between the rows. *)
Theorem C78_round_trip_partial : forall v fs, videoIs v -> named (v_format v) -> Forall2 (frameShows (v_format v) (v_w v) (v_h v)) fs (v_frames v) ->
  exists t, writeVideo true (v_format v) (v_w v) (v_h v) (v_num v) (v_den v) (map (fun x => (x, None)) fs) = Ok t /\ readY4m t = Some v.
Proof. exact round_trip. Qed.
Print Assumptions C78_round_trip_partial.
(** Without headers the file is the rows of the planes, green, blue and red for RGB, each frame followed by its alpha plane; the buffer is never overrun. *)
Theorem C78_raw : forall f w h num den fs vs, sizeIs f w h -> Forall2 (entryShows f w h) fs vs -> writeVideo false f w h num den fs = Ok (rawFile f vs).
Proof. exact raw_ok. Qed.
Print Assumptions C78_raw.
(** RGB clips, clips with alpha and subsamplings without a name are refused. *)
Theorem C78_refused : forall f w h num den fs, ~ (f_family f = Gray \/ named f) \/ (exists x a, In (x, Some a) fs) -> writeVideo true f w h num den fs = Err.
Proof. exact refused. Qed.
Print Assumptions C78_refused.
(** Gray clips with floating point samples are written like clips with integers. *)
Theorem C78_gray_float_refuted : exists v v' fs t, videoIs v /\ videoIs v' /\ v <> v' /\
  Forall2 (frameShows (v_format v) (v_w v) (v_h v)) fs (v_frames v) /\ Forall2 (frameShows (v_format v') (v_w v') (v_h v')) fs (v_frames v') /\
  writeVideo true (v_format v) (v_w v) (v_h v) (v_num v) (v_den v) (map (fun x => (x, None)) fs) = Ok t /\
  writeVideo true (v_format v') (v_w v') (v_h v') (v_num v') (v_den v') (map (fun x => (x, None)) fs) = Ok t.
Proof. exact gray_float_same. Qed.
Print Assumptions C78_gray_float_refuted.
Theorem C78_gray_float_always : forall b w h num den fs, writeVideo true (mkF Gray true b 0 0) w h num den fs = writeVideo true (mkF Gray false b 0 0) w h num den fs.
Proof. exact gray_float. Qed.
Print Assumptions C78_gray_float_always.

(** Rows of any stride are packed without touching the rest of the buffer. *)
Theorem C78_bitblt : forall n s src dst h, (n <= s)%nat -> (n * h <= length dst)%nat -> (s * h <= length src)%nat ->
  bitblt dst (Z.of_nat n) src (Z.of_nat s) (Z.of_nat n) (Z.of_nat h) = Ok (concat (map (fun y => firstn n (skipn (s * y) src)) (seq 0 h)) ++ skipn (n * h) dst).
Proof. exact bitblt_packs. Qed.
Print Assumptions C78_bitblt.

Definition demo : list plane := [mkPl 4 (T "abXXcdXX"); mkPl 1 (T "e"); mkPl 2 (T "fX")].
Example demo_file : writeVideo true (mkF YUV false 8 1 1) 2 2 24 1 [(demo, None)] = Ok (T "YUV4MPEG2 C420 W2 H2 F24:1 Ip A0:0 XLENGTH=1" ++ [nl] ++ T "FRAME" ++ [nl] ++ T "abcdef").
Proof. vm_compute. reflexivity. Qed.
Example demo_shows : frameShows (mkF YUV false 8 1 1) 2 2 demo [[T "ab"; T "cd"]; [T "e"]; [T "f"]].
Proof. split; [reflexivity|]. split; [reflexivity|]. intros [|[|[|[|p]]]] pl r A B; cbn in A, B; try discriminate; injection A as <-; injection B as <-; (split; [vm_compute; discriminate|split; reflexivity]). Qed.
Example demo_rgb : writeVideo false (mkF RGB false 8 0 0) 1 1 24 1 [([mkPl 1 (T "r"); mkPl 1 (T "g"); mkPl 1 (T "b")], Some (mkPl 2 (T "a-")))] = Ok (T "gbra").
Proof. vm_compute. reflexivity. Qed.

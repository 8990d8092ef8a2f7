(** C82: clips stored in frame properties. *)
From Coq Require Import String Ascii ZArith List Lia Bool.
From Verif Require Import Common SMap MapSpec FormatSpec Format ReqPat PropsSpec Props PropsLemmas ClipProp ClipPropLemmas.
Import ListNotations.
Local Open Scope string_scope.
Local Open Scope list_scope.
Open Scope Z_scope.

(** ClipToProp keeps the frames of the first clip and their other properties; the property holds the frame of the second clip. *)
Theorem C82_stores_partial : forall st v1 v2 c1 c2 p, videoClip st v1 c1 -> videoClip st v2 c2 -> identifier (propName p) = true ->
  exists v ps, clipToPropCreate v1 v2 p = Ok (v, propName p, ps) /\ cv_n v = cv_n v2 /\ cv_fps v = cv_fps v1 /\
    videoClip st v (clipToProp st (propName p) (cv_n v1) (cv_n v2) c1 c2) /\
    forall n, 0 <= n < cv_n v2 -> let f := clipToProp st (propName p) (cv_n v1) (cv_n v2) c1 c2 n in let s := c1 (Z.min n (cv_n v1 - 1)) in
      fst f = fst s /\ (forall k, k <> propName p -> entry (snd f) k = entry (snd s) k) /\ mapGetFrame (snd f) (propName p) 0 = Some (false, fst (c2 n)).
Proof. exact to_prop. Qed.
(** PropToClip gives the second clip back. *)
Theorem C82_round_trip : forall st v1 v2 c1 c2 p, videoClip st v1 c1 -> videoClip st v2 c2 -> identifier (propName p) = true ->
  exists v ps w, let c := clipToProp st (propName p) (cv_n v1) (cv_n v2) c1 c2 in
    clipToPropCreate v1 v2 p = Ok (v, propName p, ps) /\ propToClipCreate st v p None (Ok (c 0)) = Ok (w, propName p, 0) /\
    w = mkCV (cv_fmt v2) (cv_w v2) (cv_h v2) (cv_n v2) (cv_fps v1) /\
    forall n, 0 <= n < cv_n w -> propToClipFrame st (w, propName p, 0) (c n) = Ok (fst (c2 n)).
Proof. exact round_trip. Qed.
(** Frames PropToClip returns have the format and the size of its clip. *)
Theorem C82_honest_partial : forall st v k i s, legal (snd s) -> noAudio (snd s) -> 0 <= i ->
  match propToClipFrame st (v, k, i) s with
  | Ok h => (exists l, entry (snd s) k = Some (ptVideoFrame, l) /\ nthz l i = Some (VFrame false h)) /\ snd (st_meta st h) = (cv_w v, cv_h v) /\
      (f_cf (fst (st_meta st h)) = f_cf (cv_fmt v) /\ f_st (fst (st_meta st h)) = f_st (cv_fmt v) /\ f_bits (fst (st_meta st h)) = f_bits (cv_fmt v) /\ f_ssw (fst (st_meta st h)) = f_ssw (cv_fmt v) /\ f_ssh (fst (st_meta st h)) = f_ssh (cv_fmt v))
  | Err => True
  | UB => False
  end.
Proof. exact to_clip_honest. Qed.
Theorem C82_created : forall st v p index s, (exists d, propToClipCreate st v p index s = Ok d) -> constant v /\ propName p <> "" /\ match index with Some z => 0 <= z | None => True end.
Proof. exact create_refuses. Qed.
(** Every declared request pattern is kept. *)
Theorem C82_patterns : forall v1 v2 p v k q1 q2, clipToPropCreate v1 v2 p = Ok (v, k, (q1, q2)) -> honest q1 (cv_n v1) (cv_n v) (fun n j => j = n) /\ honest q2 (cv_n v2) (cv_n v) (fun n j => j = n).
Proof. exact patterns. Qed.
Theorem C82_copy_patterns : forall v1 v2, honest (fst (copyPatterns v1 v2)) (cv_n v1) (cv_n v1) (fun n j => j = n) /\ honest (snd (copyPatterns v1 v2)) (cv_n v2) (cv_n v1) (fun n j => j = n).
Proof. exact copy_patterns. Qed.
(** A name that is no identifier is accepted; the second clip is lost. *)
Theorem C82_name_refuted : exists st v1 v2 c1 c2 p v ps, videoClip st v1 c1 /\ videoClip st v2 c2 /\ clipToPropCreate v1 v2 (Some p) = Ok (v, p, ps) /\ forall n, snd (clipToProp st p (cv_n v1) (cv_n v2) c1 c2 n) = fresh.
Proof. exact bad_name. Qed.
(** PropToClip takes an audio frame for a video frame. *)
Theorem C82_audio_refuted : exists st v m, legal m /\ propToClipCreate st v None None (Ok (0, m)) = UB.
Proof. exact audio_frame. Qed.
Example C82_ex : let st := mkStore (fun _ => false) (fun h => (gray8, (h, h))) in
  clipToProp st "a" 2 5 (fun n => (10 + n, fresh)) (fun n => (n, fresh)) 4 = (11, one "a" (ptVideoFrame, [VFrame false 4])) /\
  propToClipFrame st (mkCV gray8 4 4 5 (1, 1), "a", 0) (11, one "a" (ptVideoFrame, [VFrame false 4])) = Ok 4 /\
  propToClipFrame st (mkCV gray8 4 4 5 (1, 1), "a", 0) (11, one "a" (ptVideoFrame, [VFrame false 3])) = Err.
Proof. repeat split. Qed.
Print Assumptions C82_stores_partial.
Print Assumptions C82_round_trip.
Print Assumptions C82_honest_partial.
Print Assumptions C82_patterns.

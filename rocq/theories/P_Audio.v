(** Properties C23-C28 and C70-C73: audio filters. *)
From Coq Require Import ZArith List Lia Bool QArith.
From Verif Require Import Common FormatSpec ReqPat AudioSpec Audio AudioLemmas AudioLemmas2 AudioChanSpec AudioChan
  AudioChanLemmas3 AudioQuantLemmas AudioChanFacts.
Import ListNotations.
Open Scope Z_scope.

(** A ramp 0, 1, 2 ... of [L] samples for the examples, and reading a clip. *)
Definition ramp (L : Z) : outcome (clip Z) := waveAudio (fun p => p) 1 L.
Definition sampleAt (o : outcome (clip Z)) (i : Z) : outcome (option Z) :=
  obind o (fun c => obind (c_get c (i / AFS)) (fun f =>
    match nthz (af_buf f) (i mod AFS) with Some x => Ok x | None => UB end)).

(** ** C23 AudioTrim *)
Theorem C23_trim_partial : forall A (c : clip A) L s first last len, serves c L s ->
  (forall n, len = Some n -> match first with Some x => x | None => 0 end + n <= INT64_MAX) ->
  match trimWish L first last len with
  | Some (f, n) => exists c', audioTrim c first last len = Ok c' /\ serves c' n (trimmed s f)
  | None => audioTrim c first last len = Err
  end.
Proof. exact @trim_correct. Qed.
Print Assumptions C23_trim_partial.
Example C23_trim_ex : sampleAt (obind (ramp 7000) (fun c => audioTrim c (Some 3000) None (Some 3500))) 3100 = Ok (Some 6100)
  /\ obind (obind (ramp 7000) (fun c => audioTrim c (Some 3000) (Some 2999) None)) (fun c => Ok (c_samples c)) = Err.
Proof. vm_compute; auto. Qed.

Theorem C23_trim_overflow_refuted : forall A (c : clip A), 2 <= c_samples c ->
  exists first len, in_int64 first /\ in_int64 len /\ audioTrim c (Some first) None (Some len) = UB.
Proof. exact @trim_overflow. Qed.
Print Assumptions C23_trim_overflow_refuted.

(** ** C24 AudioSplice *)
Theorem C24_splice_partial : forall A (clips : list (Z * clip A)) ls, clips <> [] ->
  allServe (map snd clips) ls -> sameFmt clips ->
  total (map fst ls) <= INT64_MAX ->
  if total (map fst ls) <=? INT_MAX * AFS
  then exists c', audioSplice clips = Ok c' /\ serves c' (total (map fst ls)) (joined ls)
  else audioSplice clips = Err.
Proof. exact @splice_correct. Qed.
Print Assumptions C24_splice_partial.
Example C24_splice_ex : sampleAt (obind (ramp 5) (fun a => obind (ramp 4000) (fun b =>
    audioSplice [(0, a); (0, b); (0, a); (0, b)]))) 6000 = Ok (Some 1990).
Proof. vm_compute; auto. Qed.

Theorem C24_splice_mismatch : forall A (f0 : Z) (c0 : clip A) t, (exists x, In x t /\ fst x <> f0) ->
  audioSplice ((f0, c0) :: t) = Err.
Proof. exact @splice_mismatch. Qed.
Print Assumptions C24_splice_mismatch.

Theorem C24_splice_overflow_refuted : forall A (c : clip A), c_samples c = INT_MAX * AFS ->
  exists clips, sameFmt clips /\ (forall x, In x clips -> snd x = c) /\ clips <> [] /\
    zlength clips <= INT_MAX /\ audioSplice clips = UB.
Proof. exact @splice_overflow. Qed.
Print Assumptions C24_splice_overflow_refuted.

(** ** C25 AudioLoop *)
Theorem C25_loop : forall A (c : clip A) L s times, serves c L s ->
  let t := match times with Some x => x | None => 0 end in
  let L' := if t =? 0 then INT_MAX * AFS else L * t in
  if (t <? 0) || (INT_MAX * AFS <? L') then audioLoop c times = Err
  else exists c', audioLoop c times = Ok c' /\ serves c' L' (looped s L).
Proof. exact @loop_correct. Qed.
Print Assumptions C25_loop.
Example C25_loop_ex : sampleAt (obind (ramp 700) (fun c => audioLoop c (Some 20))) 7123 = Ok (Some 123)
  /\ obind (obind (ramp 700) (fun c => audioLoop c None)) (fun c => Ok (c_samples c)) = Ok 6597069763584.
Proof. vm_compute; auto. Qed.

(** ** C26 AudioReverse *)
Theorem C26_reverse : forall A (c : clip A) L s, serves c L s ->
  exists c', audioReverse c = Ok c' /\ serves c' L (reversed s L).
Proof. exact @reverse_correct. Qed.
Print Assumptions C26_reverse.
Theorem C26_reverse_twice : forall A (c : clip A) L s, serves c L s ->
  exists c' c'', audioReverse c = Ok c' /\ audioReverse c' = Ok c'' /\ serves c'' L s.
Proof. exact @reverse_twice. Qed.
Print Assumptions C26_reverse_twice.
Example C26_reverse_ex : sampleAt (obind (ramp 7000) (fun c => audioReverse c)) 6998 = Ok (Some 1).
Proof. vm_compute; auto. Qed.

(** ** C27 Audio frame lengths *)
Theorem C27_silence_partial : forall A (zero : A) keep L frames ns, 1 <= L <= INT_MAX * AFS -> framesFor L frames ->
  (keep = true -> uniform L) ->
  Forall (fun n => 0 <= n < frames) ns ->
  forall kept, match kept with
               | None => True
               | Some f => keep = true /\ forall n, 0 <= n < frames -> holds L (fun _ => Some zero) n f
               end ->
  Forall2 (fun n o => exists f, o = Ok f /\ holds L (fun _ => Some zero) n f) ns
    (silentRun zero keep L frames kept ns).
Proof. exact @silent_run. Qed.
Print Assumptions C27_silence_partial.
Theorem C27_silence_keep_refuted : forall A (zero : A) L frames, 1 <= L <= INT_MAX * AFS -> framesFor L frames ->
  ~ uniform L -> silentRun zero true L frames None [0; frames - 1] = [silentFrame zero L 0; Err].
Proof. exact @silent_keep_bad. Qed.
Print Assumptions C27_silence_keep_refuted.
Example C27_silence_ex : silentRun 0 true 3073 2 None [0; 1] = [silentFrame 0 3073 0; Err]
  /\ ~ uniform 3073 /\ framesFor 3073 2.
Proof. split; [vm_compute; reflexivity|]. unfold uniform, framesFor, AFS. split; [|lia]. intros [H|H]; vm_compute in H; congruence. Qed.
Theorem C27_frame_lengths : forall A (c : clip A) L s n f, serves c L s -> 0 <= n < c_frames c -> c_get c n = Ok f ->
  af_len f = Z.min AFS (L - AFS * n) /\ 1 <= af_len f <= AFS /\ c_frames c = (L + AFS - 1) / AFS.
Proof. exact @serves_lengths. Qed.
Print Assumptions C27_frame_lengths.

(** ** C28 Generators can be read in any order *)
Theorem C28_wave_position : forall A (value : Z -> A) step L, 1 <= L <= INT_MAX * AFS ->
  exists c, waveAudio value step L = Ok c /\ serves c L (fun i => Some (value (wrapu64 (i * step)))).
Proof. exact @wave_correct. Qed.
Print Assumptions C28_wave_position.
Example C28_wave_ex : sampleAt (waveAudio (fun p => p) 18446744073709551615 10000) 9999 = Ok (Some 18446744073709541617).
Proof. vm_compute; auto. Qed.

(** ** C70 Channel routing *)
Theorem C70_shuffle : forall B (zero : B) (nodes : list (anode B)) cin cout, nodes <> [] -> Forall goodNode nodes ->
  shuffleAsks nodes cin cout ->
  exists r, shuffleChannels zero nodes cin cout = Ok r /\ shuffled zero nodes cin cout r.
Proof. exact @shuffle_accepts. Qed.
Print Assumptions C70_shuffle.
Theorem C70_shuffle_rejects : forall B (zero : B) (nodes : list (anode B)) cin cout,
  nodes <> [] -> Forall goodNode nodes ->
  ~ shuffleAsks nodes cin cout -> shuffleChannels zero nodes cin cout = Err.
Proof. exact @shuffle_rejects. Qed.
Print Assumptions C70_shuffle_rejects.
Theorem C70_split : forall B (zero : B) (nd : anode B), goodNode nd ->
  exists rs, splitChannels zero nd = Ok rs /\ Forall2 (isChannel nd) (channelsOf (an_layout nd)) rs.
Proof. exact @split_correct. Qed.
Print Assumptions C70_split.
Theorem C70_split_shuffle : forall B (zero : B) (nd : anode B) rs, goodNode nd -> splitChannels zero nd = Ok rs ->
  exists r, shuffleChannels zero rs (channelsOf (an_layout nd)) (channelsOf (an_layout nd)) = Ok r /\
    an_fmt r = an_fmt nd /\ an_layout r = an_layout nd /\
    forall L ss, nodeServes nd L ss -> nodeServes r L ss.
Proof. exact @split_shuffle. Qed.
Print Assumptions C70_split_shuffle.
Theorem C70_mix_planes : forall C (unset : C) cout rows, length cout = length rows -> cout <> [] ->
  (Forall chanOk cout /\ NoDup cout /\
   exists ps, mixPlanes unset cout rows = Ok ps /\ zlength ps = zlength cout /\
     forall k c r, nth_error cout k = Some c -> nth_error rows k = Some r ->
       nthz ps (planeOf (layoutOf cout) c) = Some r) \/
  (~ (Forall chanOk cout /\ NoDup cout) /\ mixPlanes unset cout rows = Err).
Proof. exact @mix_correct. Qed.
Print Assumptions C70_mix_planes.
Definition stereo : outcome (anode Z) :=
  obind (ramp 4000) (fun a => obind (audioReverse a) (fun b => Ok (mkN 0 9 4000 2 [a; b]))).
Example C70_shuffle_ex :
  obind stereo (fun nd => obind (ramp 5) (fun m =>
  obind (shuffleChannels 0 [nd; mkN 0 1 5 1 [m]] [3; 0] [1; 0]) (fun r =>
    match an_chans r with
    | [x; y] => obind (sampleAt (Ok x) 4) (fun p => obind (sampleAt (Ok x) 3999) (fun q =>
                obind (sampleAt (Ok y) 3999) (fun t => Ok (an_layout r, an_samples r, p, q, t))))
    | _ => UB
    end))) = Ok (3, 4000, Some 4, Some 0, Some 0).
Proof. vm_compute; reflexivity. Qed.
Example C70_mix_ex : mixPlanes 0 [5; 0; 63] [50; 10; 630] = Ok [10; 50; 630].
Proof. reflexivity. Qed.

(** ** C71 Integer quantisation *)
Theorem C71_quantize_partial : forall bits bytes, 1 <= bits <= 8 * bytes -> forall v, v <> NaN ->
  exists x flag, quantizeStore bits bytes v = Ok (x, flag) /\
    nearestOnGrid bits bytes v x /\ clipMeans bits bytes v x flag.
Proof. exact quantize_correct. Qed.
Print Assumptions C71_quantize_partial.
Theorem C71_gain_one : forall bits bytes, 1 <= bits <= 8 * bytes -> forall s, onGrid bits bytes s ->
  gainStore bits bytes s (Fin 1) = Ok (s, false).
Proof. exact gain_one. Qed.
Print Assumptions C71_gain_one.
Theorem C71_wave_store : forall bits bytes, 1 <= bits <= 8 * bytes -> forall q,
  exists x, waveStore bits bytes (Fin q) = Ok x /\
    nearestOnGrid bits bytes (Fin (q * inject_Z (2 ^ (8 * bytes - 1)))) x.
Proof. exact wave_store_correct. Qed.
Print Assumptions C71_wave_store.
Theorem C71_gain_nan_refuted : forall bits bytes, 1 <= bits <= 8 * bytes ->
  exists s g, onGrid bits bytes s /\ g <> NaN /\ gainStore bits bytes s g = UB.
Proof. exact gain_nan. Qed.
Print Assumptions C71_gain_nan_refuted.
Example C71_quantize_ex : quantizeStore 24 4 (Fin (1000 # 3)) = Ok (256, false)
  /\ gainStore 16 2 30000 (Fin (3 # 2)) = Ok (32767, true) /\ gainStore 16 2 (-30000) PInf = Ok (-32768, true)
  /\ waveStore 24 4 (Fin 1) = Ok 2147483392.
Proof. vm_compute; auto. Qed.

(** ** C72 Declared request patterns *)
Theorem C72_splice_first_honest : forall A (c0 : clip A) cs L0 s0 cum L M,
  serves c0 L0 s0 -> L <= INT_MAX * AFS -> framesFor L M ->
  honest rpNoFrameReuse (c_frames c0) M
    (fun n j => exists r, spliceRequests (c0 :: cs) (L0 :: cum) L n = Ok r /\ In (0%nat, j) r).
Proof. exact @splice_first_honest. Qed.
Print Assumptions C72_splice_first_honest.
Theorem C72_shuffle_partial : forall B (zero : B) (nodes : list (anode B)) cin cout r nd0 nd,
  Forall goodNode nodes -> shuffled zero nodes cin cout r -> In nd0 nodes -> In nd nodes ->
  (forall x, In x nodes -> an_samples x <= an_samples nd0) ->
  honest (shufflePattern nd0 nd) (an_frames nd) (an_frames r) shuffleRequest.
Proof. exact @shuffle_pattern_honest. Qed.
Print Assumptions C72_shuffle_partial.
Theorem C72_shuffle_refuted : forall B (zero : B), exists (nodes : list (anode B)) cin cout r nd0,
  Forall goodNode nodes /\ shuffleChannels zero nodes cin cout = Ok r /\ shuffled zero nodes cin cout r /\
  In nd0 nodes /\ shufflePattern nd0 nd0 = rpStrictSpatial /\
  ~ honest (shufflePattern nd0 nd0) (an_frames nd0) (an_frames r) shuffleRequest.
Proof. exact @shuffle_pattern_dishonest. Qed.
Print Assumptions C72_shuffle_refuted.
Example C72_splice_ex : obind (ramp 4000) (fun a => spliceRequests [a; a] [4000; 8000] 8000 1)
  = Ok [(0%nat, 1); (1%nat, 0)].
Proof. vm_compute; reflexivity. Qed.

(** ** C73 Clip report *)
Theorem C73_report_partial : forall n len, 0 <= n -> 1 <= len -> n * AFS + len <= INT_MAX ->
  clipReport n len = Ok (n * AFS, n * AFS + len - 1).
Proof. exact clipReport_ok. Qed.
Print Assumptions C73_report_partial.
Theorem C73_report_overflow_refuted : forall n len, 699051 <= n -> 0 <= len -> clipReport n len = UB.
Proof. exact clipReport_bad. Qed.
Print Assumptions C73_report_overflow_refuted.
Example C73_report_ex : clipReport 10 3072 = Ok (30720, 33791).
Proof. reflexivity. Qed.

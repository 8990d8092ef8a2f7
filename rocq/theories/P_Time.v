(** C79: timecodes written by vspipe. *)
From Coq Require Import ZArith QArith List Bool Lia SpecFloat.
From Verif Require Import Common Soft TimeSpec Time TimeLemmas.
Import ListNotations.
Open Scope Z_scope.

(** The number written for frame i is the sum of the durations before it in milliseconds; its relative error is bounded by the number of different durations and not by the number of frames. *)
Theorem C79_error : forall l, Forall durationIs l -> Z.of_nat (length l) <= 2 ^ 31 ->
  exists ls, timecodes [] (map propsOf l) = (ls, false) /\ length ls = length l /\
    forall i x, nth_error ls i = Some x -> exists v, value x = Some v /\ close (kinds (firstn i l) + 6) (1000 * total (firstn i l)) v.
Proof. exact lines_close. Qed.
Print Assumptions C79_error.
(** Clips of constant frame rate have strictly increasing timecodes. *)
Theorem C79_increasing : forall d n ls, durationIs d -> Z.of_nat n <= 2 ^ 31 -> timecodes [] (map propsOf (repeat d n)) = (ls, false) ->
  forall i j x y, (i < j)%nat -> nth_error ls i = Some x -> nth_error ls j = Some y -> exists v w, value x = Some v /\ value y = Some w /\ (v < w)%Q.
Proof. exact lines_increase. Qed.
Print Assumptions C79_increasing.
(** The first frame without a positive duration ends the file; its own line is still written. *)
Theorem C79_stops : forall l p rest, Forall durationIs l -> durationOf p = None ->
  exists ls, timecodes [] (map propsOf l ++ p :: rest) = (ls, true) /\ length ls = S (length l) /\ fst (timecodes [] (map propsOf l)) = firstn (length l) ls.
Proof. exact stops. Qed.
Print Assumptions C79_stops.
Theorem C79_durations : forall n d, durationOf (n, d) = None <-> match n, d with Some n, Some d => n <= 0 \/ d <= 0 | _, _ => True end.
Proof. exact bad_props. Qed.
Print Assumptions C79_durations.


Example demo_lines : timecodes [] (map propsOf [(1, 25); (1, 50); (1, 25); (1, 25)]) =
  ([S754_zero false; S754_finite false 5629499534213120 (-47); S754_finite false 8444249301319680 (-47); S754_finite false 7036874417766400 (-46)], false).
Proof. vm_compute. reflexivity. Qed.
Example demo_values : map value [S754_finite false 5629499534213120 (-47)] = [Some ((if false then -1 else 1) * (5629499534213120 * Qpower (2 # 1) (-47)))%Q] /\ (5629499534213120 * Qpower (2 # 1) (-47) == 40)%Q.
Proof. split; reflexivity. Qed.
Example demo_stop : timecodes [] [propsOf (1, 25); (Some 1, Some 0); propsOf (1, 25)] = ([S754_zero false; S754_finite false 5629499534213120 (-47)], true).
Proof. vm_compute. reflexivity. Qed.

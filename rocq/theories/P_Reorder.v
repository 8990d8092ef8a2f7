(** Properties C14 to C22: the frame reordering filters. *)
From Coq Require Import ZArith List Lia Bool Sorting.Sorted.
From Verif Require Import Common ReqPat Reorder ReorderSpec ReorderLemmas ReorderLemmas2 ReorderPat.
Import ListNotations.
Open Scope Z_scope.

(** ** C14 Trim *)
Theorem C14_trim_valid : forall A (l : list A) first last len,
  0 < zlength l <= INT_MAX ->
  trim_valid (zlength l) first last len ->
  output1 l (trimCreate (zlength l) first last len) =
    Some (map Some (trim_frames first last len l)).
Proof. exact trim_valid_output. Qed.
Print Assumptions C14_trim_valid.

Example C14_trim_example :
  output1 [10; 11; 12; 13; 14] (trimCreate 5 (Some 1) (Some 3) None) = Some [Some 11; Some 12; Some 13].
Proof. reflexivity. Qed.

(** Rejection of every invalid argument combination; clips of exactly INT_MAX
    frames excluded (see the refutation). *)
Theorem C14_trim_invalid_partial : forall N first last len,
  0 < N < INT_MAX -> ~ trim_valid N first last len ->
  trimCreate N first last len = CErr.
Proof. exact trim_invalid_error. Qed.
Print Assumptions C14_trim_invalid_partial.

Example C14_trim_invalid_example : ~ trim_valid 5 (Some 1) (Some 5) None /\
  trimCreate 5 (Some 1) (Some 5) None = CErr.
Proof. split; [unfold trim_valid, opt0; lia|reflexivity]. Qed.

(** Saturation of the 64 bit argument: a length beyond the clip is accepted. *)
Theorem C14_trim_invalid_refuted : exists N first last len,
  0 < N <= INT_MAX /\ ~ trim_valid N first last len /\
  trimCreate N first last len <> CErr.
Proof.
  exists INT_MAX, None, None, (Some (INT_MAX + 1)). split; [unfold INT_MAX; lia|].
  split; [unfold trim_valid, opt0, INT_MAX; lia|].
  vm_compute. discriminate.
Qed.
Print Assumptions C14_trim_invalid_refuted.

(** ** C15 Splice *)
Theorem C15_splice_concat : forall A (ls : list (list A)),
  ls <> [] -> Forall (fun l => 0 < zlength l) ls -> zlength (concat ls) <= INT_MAX ->
  outputN ls (spliceCreate (map (@zlength A) ls)) = Some (map Some (concat ls)).
Proof. exact splice_output. Qed.
Print Assumptions C15_splice_concat.

Example C15_splice_example :
  outputN [[1; 2]; [3]; [4; 5]] (spliceCreate [2; 1; 2]) = Some (map Some [1; 2; 3; 4; 5]).
Proof. reflexivity. Qed.

Theorem C15_splice_too_long : forall A (ls : list (list A)),
  1 < zlength ls -> INT_MAX < zlength (concat ls) ->
  spliceCreate (map (@zlength A) ls) = CErr.
Proof. exact splice_too_long. Qed.
Print Assumptions C15_splice_too_long.

Example C15_splice_too_long_example : spliceCreate [INT_MAX; 1] = CErr.
Proof. reflexivity. Qed.

(** ** C16 Reverse *)
Theorem C16_reverse : forall A (l : list A),
  output1 l (reverseCreate (zlength l)) = Some (map Some (rev l)).
Proof. exact reverse_output. Qed.
Print Assumptions C16_reverse.

Example C16_reverse_example : output1 [1; 2; 3] (reverseCreate 3) = Some [Some 3; Some 2; Some 1].
Proof. reflexivity. Qed.

(** Applying it twice gives back the clip. *)
Theorem C16_reverse_involutive : forall A (l : list A),
  exists out, output1 l (reverseCreate (zlength l)) = Some (map Some out) /\
    output1 out (reverseCreate (zlength out)) = Some (map Some l).
Proof.
  exact (fun A l => ex_intro _ (rev l) (conj (reverse_output A l)
    (eq_ind (rev (rev l)) (fun x => output1 (rev l) (reverseCreate (zlength (rev l))) = Some (map Some x))
       (reverse_output A (rev l)) l (rev_involutive l)))).
Qed.
Print Assumptions C16_reverse_involutive.

(** ** C17 Loop *)
Theorem C17_loop_times : forall A (l : list A) times,
  0 < zlength l <= INT_MAX -> 0 < times -> zlength l * times <= INT_MAX ->
  output1 l (loopCreate (zlength l) (Some times)) =
    Some (map Some (concat (repeat l (Z.to_nat times)))).
Proof. exact loop_output. Qed.
Print Assumptions C17_loop_times.

Example C17_loop_example : output1 [1; 2] (loopCreate 2 (Some 2)) = Some (map Some [1; 2; 1; 2]).
Proof. reflexivity. Qed.

Theorem C17_loop_endless : forall A (l : list A) atimes,
  0 < zlength l <= INT_MAX -> atimes = None \/ atimes = Some 0 ->
  exists out, output1 l (loopCreate (zlength l) atimes) = Some out /\
    zlength out = INT_MAX /\
    forall n, 0 <= n < INT_MAX -> nthz out n = Some (nthz l (n mod zlength l)).
Proof. exact loop_endless. Qed.
Print Assumptions C17_loop_endless.

Theorem C17_loop_negative : forall N times, times < 0 -> loopCreate N (Some times) = CErr.
Proof. exact loop_negative. Qed.
Print Assumptions C17_loop_negative.

Theorem C17_loop_too_long_partial : forall N times,
  0 < N <= INT_MAX -> 1 < times <= INT_MAX -> INT_MAX < N * times ->
  loopCreate N (Some times) = CErr.
Proof. exact loop_too_long. Qed.
Print Assumptions C17_loop_too_long_partial.

Example C17_loop_too_long_example : loopCreate 2 (Some 1073741824) = CErr.
Proof. reflexivity. Qed.

(** A repeat count beyond INT_MAX on a one frame clip is silently reduced. *)
Theorem C17_loop_too_long_refuted : exists N times f,
  0 < N <= INT_MAX /\ INT_MAX < N * times /\
  loopCreate N (Some times) = CFilter f /\ f_len f <> N * times.
Proof.
  exists 1, (INT_MAX + 1). eexists. split; [unfold INT_MAX; lia|]. split; [unfold INT_MAX; lia|].
  split; [reflexivity|]. cbn [f_len]. vm_compute. discriminate.
Qed.
Print Assumptions C17_loop_too_long_refuted.

(** ** C18 Interleave *)
Theorem C18_interleave : forall A (ls : list (list A)),
  1 < zlength ls <= INT_MAX -> Forall (fun l => 0 < zlength l) ls ->
  (forall i l, nthz ls i = Some l -> (zlength l - 1) * zlength ls + i + 1 <= INT_MAX) ->
  exists out, outputN ls (interleaveCreate (map (@zlength A) ls) false) = Some out /\
    (forall i l j, nthz ls i = Some l -> 0 <= j < zlength l ->
       nthz out (j * zlength ls + i) = Some (nthz l j)) /\
    (forall n, 0 <= n < zlength out ->
       exists l, nthz ls (n mod zlength ls) = Some l /\
         nthz out n = Some (nthz l (Z.min (n / zlength ls) (zlength l - 1)))) /\
    (exists l, nthz ls ((zlength out - 1) mod zlength ls) = Some l /\
       (zlength out - 1) / zlength ls = zlength l - 1).
Proof. exact interleave_output. Qed.
Print Assumptions C18_interleave.

Example C18_interleave_example :
  outputN [[1; 2; 3]; [10]] (interleaveCreate [3; 1] false) =
    Some (map Some [1; 10; 2; 10; 3]).
Proof. reflexivity. Qed.

Theorem C18_interleave_too_long : forall A (ls : list (list A)) i l,
  1 < zlength ls <= INT_MAX -> Forall (fun l => 0 < zlength l) ls ->
  nthz ls i = Some l -> INT_MAX < (zlength l - 1) * zlength ls + i + 1 ->
  interleaveCreate (map (@zlength A) ls) false = CErr.
Proof. exact interleave_too_long. Qed.
Print Assumptions C18_interleave_too_long.

Theorem C18_interleave_extend_partial : forall A (ls : list (list A)) L,
  1 < zlength ls <= INT_MAX -> Forall (fun l => 0 < zlength l) ls ->
  (exists l, In l ls /\ zlength l = L) -> (forall l, In l ls -> zlength l <= L) ->
  L * zlength ls <= INT_MAX ->
  exists out, outputN ls (interleaveCreate (map (@zlength A) ls) true) = Some out /\
    zlength out = L * zlength ls /\
    (forall n, 0 <= n < zlength out ->
       exists l, nthz ls (n mod zlength ls) = Some l /\
         nthz out n = Some (nthz l (Z.min (n / zlength ls) (zlength l - 1)))).
Proof. exact interleave_extend_output. Qed.
Print Assumptions C18_interleave_extend_partial.

Example C18_interleave_extend_example :
  outputN [[1; 2; 3]; [10]] (interleaveCreate [3; 1] true) =
    Some (map Some [1; 10; 2; 10; 3; 10]).
Proof. reflexivity. Qed.

(** With [extend] an overlong result is not a clean error: the product is
    computed in [int] before the overflow flag is looked at. *)
Theorem C18_interleave_extend_overflow_refuted : exists lens,
  Forall (fun x => 0 < x <= INT_MAX) lens /\ interleaveCreate lens true = CUB.
Proof.
  exists [INT_MAX; 1]. split; [|reflexivity].
  constructor; [|constructor; [|constructor]]; unfold INT_MAX; lia.
Qed.
Print Assumptions C18_interleave_extend_overflow_refuted.

(** ** C19 SelectEvery *)
Theorem C19_selectEvery : forall A (l : list A) cycle offsets,
  0 < zlength l <= INT_MAX -> cycle <= INT_MAX -> offsets <> [] ->
  1 < cycle -> Forall (fun o => 0 <= o < cycle) offsets ->
  0 < zlength (select_indices (zlength l) cycle offsets) <= INT_MAX ->
  output1 l (selectEveryCreate (zlength l) cycle offsets) =
    Some (pick l (select_indices (zlength l) cycle offsets)).
Proof. exact selectEvery_output. Qed.
Print Assumptions C19_selectEvery.

Example C19_selectEvery_example :
  output1 [0; 1; 2; 3; 4; 5; 6; 7] (selectEveryCreate 8 3 [2; 0]) = Some (map Some [2; 0; 5; 3; 6]).
Proof. reflexivity. Qed.

Theorem C19_selectEvery_reject : forall N cycle offsets,
  0 < N <= INT_MAX -> cycle <= INT_MAX -> offsets <> [] ->
  cycle <= 1 \/ ~ Forall (fun o => 0 <= o < cycle) offsets \/
  ~ (0 < zlength (select_indices N cycle offsets) <= INT_MAX) ->
  selectEveryCreate N cycle offsets = CErr.
Proof. exact selectEvery_reject. Qed.
Print Assumptions C19_selectEvery_reject.

Example C19_selectEvery_reject_example : selectEveryCreate 2 3 [2] = CErr.
Proof. reflexivity. Qed.

(** ** C20 DuplicateFrames and DeleteFrames *)
Theorem C20_duplicate : forall A (l : list A) frames,
  0 < zlength l <= INT_MAX -> Forall (fun d => 0 <= d < zlength l) frames ->
  zlength l + zlength frames <= INT_MAX ->
  output1 l (duplicateCreate (zlength l) frames) = Some (pick l (dup_indices (zlength l) frames)).
Proof. exact duplicate_output. Qed.
Print Assumptions C20_duplicate.

Example C20_duplicate_example :
  output1 [5; 6; 7] (duplicateCreate 3 [2; 0; 2]) = Some (map Some [5; 5; 6; 7; 7; 7]).
Proof. reflexivity. Qed.

Theorem C20_delete : forall A (l : list A) frames,
  0 < zlength l <= INT_MAX -> Forall (fun d => 0 <= d < zlength l) frames -> NoDup frames ->
  zlength frames < zlength l ->
  output1 l (deleteCreate (zlength l) frames) = Some (pick l (del_indices (zlength l) frames)).
Proof. exact delete_output. Qed.
Print Assumptions C20_delete.

Example C20_delete_example :
  output1 [5; 6; 7; 8] (deleteCreate 4 [2; 0]) = Some (map Some [6; 8]).
Proof. reflexivity. Qed.

Theorem C20_duplicate_reject : forall N frames,
  0 < N < INT_MAX ->
  ~ Forall (fun d => 0 <= d < N) frames \/ INT_MAX < N + zlength frames ->
  duplicateCreate N frames = CErr.
Proof. exact duplicate_reject. Qed.
Print Assumptions C20_duplicate_reject.

Theorem C20_delete_reject : forall N frames,
  0 < N < INT_MAX ->
  ~ Forall (fun d => 0 <= d < N) frames \/ ~ NoDup frames \/ N <= zlength frames ->
  deleteCreate N frames = CErr.
Proof. exact delete_reject. Qed.
Print Assumptions C20_delete_reject.

Theorem C20_duplicate_delete_inverse : forall A (l : list A) frames,
  0 < zlength l -> Forall (fun d => 0 <= d < zlength l) frames -> StronglySorted Z.le frames ->
  zlength l + zlength frames <= INT_MAX ->
  exists out, output1 l (duplicateCreate (zlength l) frames) = Some (map Some out) /\
    output1 out (deleteCreate (zlength out) (copy_positions frames)) = Some (map Some l).
Proof. exact duplicate_delete_inverse. Qed.
Print Assumptions C20_duplicate_delete_inverse.

Example C20_inverse_example :
  copy_positions [0; 2; 2] = [0; 3; 4] /\
  output1 [5; 5; 6; 7; 7; 7] (deleteCreate 6 [0; 3; 4]) = Some (map Some [5; 6; 7]).
Proof. split; reflexivity. Qed.

(** ** C21 FreezeFrames *)
Theorem C21_freeze : forall A (l : list A) ranges,
  0 < zlength l <= INT_MAX -> Forall (range_ok (zlength l)) ranges ->
  ForallOrdPairs range_disjoint ranges ->
  exists out, output1 l (freezeCreate (zlength l) ranges) = Some out /\
    zlength out = zlength l /\
    (forall n a b r, 0 <= n < zlength l -> In (a, b, r) ranges -> in_range a b n ->
       nthz out n = Some (nthz l r)) /\
    (forall n, 0 <= n < zlength l ->
       (forall a b r, In (a, b, r) ranges -> ~ in_range a b n) -> nthz out n = Some (nthz l n)).
Proof. exact freeze_output. Qed.
Print Assumptions C21_freeze.

Example C21_freeze_example :
  output1 [0; 1; 2; 3; 4; 5] (freezeCreate 6 [(5, 4, 0); (1, 2, 3)]) = Some (map Some [0; 3; 3; 3; 0; 0]).
Proof. reflexivity. Qed.

Theorem C21_freeze_reject : forall N ranges,
  0 < N < INT_MAX -> ranges <> [] ->
  ~ Forall (range_ok N) ranges \/ ~ ForallOrdPairs range_disjoint ranges ->
  freezeCreate N ranges = CErr.
Proof. exact freeze_reject. Qed.
Print Assumptions C21_freeze_reject.

Example C21_freeze_reject_example : freezeCreate 6 [(1, 3, 0); (3, 4, 5)] = CErr.
Proof. reflexivity. Qed.

(** ** C22 Request patterns *)
Theorem C22_trim_honest : forall N first last len f,
  0 < N <= INT_MAX -> trimCreate N first last len = CFilter f ->
  honest (f_rp f) N (f_len f) (fun n j => f_src f n = j).
Proof. exact trim_honest. Qed.
Print Assumptions C22_trim_honest.

Theorem C22_reverse_honest : forall N f,
  0 < N -> reverseCreate N = CFilter f ->
  honest (f_rp f) N (f_len f) (fun n j => f_src f n = j).
Proof. exact reverse_honest. Qed.
Print Assumptions C22_reverse_honest.

Theorem C22_selectEvery_honest : forall N cycle offsets f,
  0 < N <= INT_MAX -> offsets <> [] -> selectEveryCreate N cycle offsets = CFilter f ->
  honest (f_rp f) N (f_len f) (fun n j => f_src f n = j).
Proof. exact selectEvery_honest. Qed.
Print Assumptions C22_selectEvery_honest.

Theorem C22_delete_honest : forall N frames f,
  0 < N < INT_MAX -> deleteCreate N frames = CFilter f ->
  honest (f_rp f) N (f_len f) (fun n j => f_src f n = j).
Proof. exact delete_honest. Qed.
Print Assumptions C22_delete_honest.

Theorem C22_splice_honest : forall lens f i len,
  Forall (fun x => 0 < x) lens -> spliceCreate lens = CFilter f -> nthz lens i = Some len ->
  honest (fn_rp f i) len (fn_len f) (fun n j => fn_src f n = (i, j)).
Proof. exact splice_honest. Qed.
Print Assumptions C22_splice_honest.

Theorem C22_interleave_honest : forall lens extend f i len,
  1 < zlength lens -> Forall (fun x => 0 < x) lens ->
  interleaveCreate lens extend = CFilter f -> nthz lens i = Some len ->
  honest (fn_rp f i) len (fn_len f) (fun n j => fn_src f n = (i, j)).
Proof. exact interleave_honest. Qed.
Print Assumptions C22_interleave_honest.

Example C22_patterns_declared :
  (exists f, trimCreate 5 (Some 0) (Some 3) None = CFilter f /\ f_rp f = rpStrictSpatial) /\
  (exists f, trimCreate 5 (Some 1) (Some 3) None = CFilter f /\ f_rp f = rpNoFrameReuse) /\
  (exists f, selectEveryCreate 8 3 [2; 0] = CFilter f /\ f_rp f = rpNoFrameReuse) /\
  (exists f, interleaveCreate [3; 1] false = CFilter f /\ fn_rp f 0 = rpNoFrameReuse /\
     fn_rp f 1 = rpFrameReuseLastOnly).
Proof. repeat split; eexists; repeat split; reflexivity. Qed.

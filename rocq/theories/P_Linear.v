(** C55: filters that are called linearly. *)
From Coq Require Import ZArith List Lia Bool.
From Verif Require Import Common CacheSpec Cache CacheLemmas CacheLemmas2 CacheLemmas3 LinearSpec Linear LinearLemmas.
Import ListNotations.
Open Scope Z_scope.

(** The look-ahead with t threads; computing n - threshold cannot overflow. *)
Theorem C55_threshold : forall t, linearThreshold t = t + 10.
Proof. exact threshold_of. Qed.
Print Assumptions C55_threshold.
(** As long as the filter does not fail on the way to the frame asked for, it is called linearly: from the previous call on without gaps, or, going back or far ahead, for that frame only. *)
Theorem C55_linear_partial : forall S F call t ns last s, Forall2 (smooth S F) ns (requests S F call t last s ns) ->
  linear t last (combine ns (map (r_calls S F) (requests S F call t last s ns))).
Proof. exact requests_linear. Qed.
Print Assumptions C55_linear_partial.
(** In terms of the calls alone. *)
Theorem C55_no_gap : forall t h prev, 0 < t -> linear t prev h -> noGap t prev (concat (map snd h)).
Proof. exact linear_noGap. Qed.
Print Assumptions C55_no_gap.
(** The frame returned is what the filter gave for the frame asked for, and what goes into the cache under a number is what it gave for that number; a failure on the way is a failure of the request. *)
Theorem C55_right_frame : forall S F call t last n s, let q := getFrame S F call t last n s in
  r_state S F q = runCalls S F call s (r_calls S F q) /\
  ((r_last S F q = n /\ goodCalls t last n (r_calls S F q) /\ answers S F call s (r_calls S F q) = map (fun e => (fst e, Some (snd e))) (r_cache S F q) ++ [(n, r_frame S F q)] /\
    r_calls S F q = map fst (r_cache S F q) ++ [n]) \/
   (r_last S F q = last /\ r_frame S F q = None /\ last < n < last + t /\ exists j, last < j < n /\ r_calls S F q = upTo (last + 1) j /\
    answers S F call s (r_calls S F q) = map (fun e => (fst e, Some (snd e))) (r_cache S F q) ++ [(j, None)])).
Proof. exact getFrame_spec. Qed.
Print Assumptions C55_right_frame.
(** The frames passed over are found in the cache afterwards: no more than its size are inserted. *)
Theorem C55_kept : forall F fsz c a k f inserted, rel F fsz c a -> run_ok F fsz a (inserts F inserted) -> NoDup (map fst inserted) -> zlength inserted <= cap F a -> In (k, f) inserted ->
  exists c' rs c'', run F fsz c (inserts F inserted) = Ok (c', rs) /\ relink F fsz c' k = Ok (c'', Some f).
Proof. exact passed_over_kept. Qed.
Print Assumptions C55_kept.
Theorem C55_cache_suffices : forall S F call threads last n s, 1 <= threads -> let q := getFrame S F call (linearThreshold threads) last n s in
  zlength (r_cache S F q) < linearFrames threads /\ NoDup (map fst (r_cache S F q)).
Proof. exact cache_suffices. Qed.
Print Assumptions C55_cache_suffices.
(** A filter that fails for 3 while 5 is wanted is called for 0 again when 6 is wanted, although it has got to 3. *)
Theorem C55_refuted : exists S F call t a b s c1 c2, map (r_calls S F) (requests S F call t (-1) s [a; b]) = [c1; c2] /\ c1 <> [] /\
  last c1 0 < b < last c1 0 + t /\ hd 0 c2 <> last c1 0 + 1.
Proof. exact failing_restart. Qed.
Print Assumptions C55_refuted.
Example C55_ex : map (r_calls unit Z) (requests unit Z (fun s i => (s, Some (10 * i))) 11 (-1) tt [2; 4; 3; 30; 31]) = [[0; 1; 2]; [3; 4]; [3]; [30]; [31]] /\
  map (r_frame unit Z) (requests unit Z (fun s i => (s, Some (10 * i))) 11 (-1) tt [2; 4; 3; 30; 31]) = [Some 20; Some 40; Some 30; Some 300; Some 310].
Proof. vm_compute. auto. Qed.

(** C84: changing the rate and the channels of audio. *)
From Coq Require Import ZArith List Bool SpecFloat.
From Verif Require Import Common AudioSpec Audio Soft ResampleSpec Resample ResampleLemmas ResampleBank.
Import ListNotations.
Open Scope Z_scope.

(** Every frame holds the mixed, filtered and stored samples of the whole streams; all accesses are inside their rows and all positions are exact. *)
Theorem C84_frames : forall {S D} (load : S -> fl) (store : Z -> Z -> fl -> outcome (D * bool)) (coeff : Z -> Z -> fl) (silence : D) (src : clip (Z -> S)) (N : Z) (s : stream (Z -> S)),
  serves src N s -> forall inRate outRate mix silent numIn numOut ovf, 0 < inRate <= INT_MAX -> 0 < outRate <= INT_MAX -> 0 <= numIn -> 0 <= numOut ->
  forall d, makePlan inRate outRate N mix silent numIn numOut ovf = Ok d ->
  let p := outRate / Z.gcd inRate outRate in let q := inRate / Z.gcd inRate outRate in
  exists half, (outRate = inRate -> pl_len d = N) /\ (outRate <> inRate -> sizeOk p q half /\ outLength p q N (pl_len d)) /\
    forall n, 0 <= n -> AFS * n < pl_len d -> resampleFrame load store coeff d silence src n = storedFrame store (valueOf load s N coeff inRate outRate mix numIn half) silent silence numOut (pl_len d) ovf n.
Proof. exact @resample_correct. Qed.
Print Assumptions C84_frames.

(** The frames asked for exist and each is asked for once; without a change of rate it is frame [n] alone, as the declared request pattern says. *)
Theorem C84_requests : forall {S : Type} (src : clip (Z -> S)) (N : Z) (s : stream (Z -> S)),
  serves src N s -> forall inRate outRate mix silent numIn numOut ovf, 0 < inRate <= INT_MAX -> 0 < outRate <= INT_MAX -> 0 <= numIn -> 0 <= numOut ->
  forall d, makePlan inRate outRate N mix silent numIn numOut ovf = Ok d ->
  forall n, 0 <= n -> AFS * n < pl_len d -> exists l, resampleRequests d (c_frames src) n = Ok (map (fun f => (O, f)) l) /\ l <> [] /\ NoDup l /\ (forall f, In f l -> 0 <= f < c_frames src) /\ (outRate = inRate -> l = [n]).
Proof. exact @resample_requests. Qed.
Print Assumptions C84_requests.

(** The table of coefficients is bounded, and has a row for every phase. *)
Theorem C84_bank : forall a b k, 0 < a <= INT_MAX -> 0 < b <= INT_MAX -> buildBank a b = Ok k -> bankOk (b / Z.gcd a b) (a / Z.gcd a b) k.
Proof. exact bank_ok. Qed.
Print Assumptions C84_bank.

(** Creation is defined unless the rate drops by a factor of more than about 2^24. *)
Theorem C84_defined_partial : forall {S : Type} (src : clip (Z -> S)) (N : Z) (s : stream (Z -> S)), serves src N s ->
  forall inRate outRate mix silent numIn numOut ovf, 0 < inRate <= INT_MAX -> 0 < outRate <= INT_MAX ->
  64 * inRate <= (2 ^ 30 - 2) * outRate -> makePlan inRate outRate N mix silent numIn numOut ovf <> UB.
Proof. exact @resample_defined. Qed.
Print Assumptions C84_defined_partial.

Theorem C84_defined_refuted : exists inRate outRate, 0 < inRate <= INT_MAX /\ 0 < outRate <= INT_MAX /\ buildBank inRate outRate = UB.
Proof. exact bank_undefined_at. Qed.
Print Assumptions C84_defined_refuted.

Example C84_down : buildBank 48000 44100 = Ok (mkBank 147 160 1 13 70 140).
Proof. reflexivity. Qed.
Example C84_down_length : resampleLength (mkBank 147 160 1 13 70 140) 3072 = Ok 2823.
Proof. reflexivity. Qed.
Example C84_one_more : buildBank 49000 1000 = Ok (mkBank 1 49 49 0 3137 6274).
Proof. reflexivity. Qed.
Example C84_too_long : buildBank 192000 2000 = Err.
Proof. reflexivity. Qed.
Definition exSrc : clip (Z -> Z) := mkClip 2 1 (fun _ => Ok (mkAF 2 (map (fun i => Some (fun ch => 10 * i + ch + 1)) [0; 1] ++ repeat None (Z.to_nat 3070)))).
Definition exStore (pos ch : Z) (x : fl) : outcome (Z * bool) := obind (truncInt64 x) (fun v => Ok (v, 10 <? v)).
Definition exPlan ov := mkPlan (mkBank 2 1 0 1 1 2) true None (fun ch => ch =? 1) 2 2 4 ov.
Definition exCoeff (ph j : Z) := if ph =? 0 then (if j =? 0 then of64 1 0 else of64 0 0) else of64 1 (-1).
Example C84_double : resampleFrame (fun z => of32 z 0) exStore exCoeff (exPlan false) 99 exSrc 0 = Ok [[1; 6; 11; 5]; [99; 99; 99; 99]].
Proof. reflexivity. Qed.
Example C84_clips : resampleFrame (fun z => of32 z 0) exStore exCoeff (exPlan true) 99 exSrc 0 = Err.
Proof. reflexivity. Qed.

(** What memory admission control is for. *)
From Coq Require Import ZArith List Bool Lia Permutation Sorted.
From Verif Require Import Common Admission.
Import ListNotations.
Open Scope Z_scope.

(** The changes in memory a thread makes, calls inside calls included. *)
Fixpoint deltas (p : prog) : list Z :=
  match p with
  | PDone => []
  | PAlloc n k => n :: deltas k
  | PFree n k => (- n) :: deltas k
  | PCall b k => deltas b ++ deltas k
  end.
(** The calls, in the order in which they end. *)
Fixpoint callsOf (p : prog) : list prog :=
  match p with
  | PDone => []
  | PAlloc _ k | PFree _ k => callsOf k
  | PCall b k => callsOf b ++ b :: callsOf k
  end.
Fixpoint sizesOk (p : prog) : Prop :=
  match p with
  | PDone => True
  | PAlloc n k | PFree n k => 0 <= n /\ sizesOk k
  | PCall b k => sizesOk b /\ sizesOk k
  end.
Fixpoint sumZ (l : list Z) : Z := match l with [] => 0 | x :: l => x + sumZ l end.
(** The most memory held at any moment beyond what was held at the start. *)
Definition highWater (l : list Z) (m : Z) : Prop :=
  (exists k, m = sumZ (firstn k l)) /\ forall k, sumZ (firstn k l) <= m.

(** A measurement [ago] calls old counts with a 128th less per call. *)
Fixpoint aged (ago : nat) (x : Z) : Z := match ago with O => x | S a => aged a (x - x / 128) end.
(** The estimate is the largest of the measurements, each by its age. *)
Definition isEstimate (samples : list Z) (e : Z) : Prop :=
  (exists i s, nth_error samples i = Some s /\ e = aged (length samples - 1 - i) s) /\
  forall i s, nth_error samples i = Some s -> aged (length samples - 1 - i) s <= e.

(** The bytes of one frame of the media. *)
Definition frameBytes (m : media) : Z :=
  match m with
  | MVideo w h ssw ssh bps planes =>
      match planes with
      | O => 0
      | S n => w * h * bps + Z.of_nat n * ((w / 2 ^ ssw) * (h / 2 ^ ssh) * bps)
      end
  | MAudio bps channels => bps * channels * 3072
  end.
Definition mediaOk (m : media) : Prop :=
  match m with
  | MVideo w h ssw ssh bps planes =>
      0 <= w < 2 ^ 31 /\ 0 <= h < 2 ^ 31 /\ (w = 0 <-> h = 0) /\ 0 <= ssw <= 4 /\ 0 <= ssh <= 4 /\
      1 <= bps <= 4 /\ (planes <= 3)%nat
  | MAudio bps channels => 1 <= bps <= 4 /\ 1 <= channels <= 64
  end.

(** No call allocates more than was expected of it. *)
Definition predicted (limit : Z) (evs : list pev) (s0 : pool) : Prop :=
  forall k s, prun limit (firstn k evs) s0 = Some s -> Forall (fun c => c_use c <= c_exp c) (p_run s).
(** The running calls together never have less than [- d] bytes of their own. *)
Definition ownAtLeast (d limit : Z) (evs : list pev) (s0 : pool) : Prop :=
  forall k s, prun limit (firstn k evs) s0 = Some s -> - d <= sumZ (map c_use (p_run s)).
(** A call that is started while nothing runs fits below [b]. *)
Definition aloneFits (b limit : Z) (evs : list pev) (s0 : pool) : Prop :=
  forall k s e, prun limit (firstn k evs) s0 = Some s -> nth_error evs k = Some (EStart e) ->
    p_run s = [] -> p_alloc s + e <= b.

(** What std::sort is given and gives. *)
Definition sorted_entries (caches l : list ccache) : Prop :=
  Permutation l (filter takesPart caches) /\ StronglySorted (fun a b => cc_value a <= cc_value b) l.
Definition framesOk (l : list ccache) : Prop := Forall (fun c => Forall (fun f => 0 < cf_bytes f) (cc_frames c)) l.
(** The bytes that leave memory when the frames of [a] become those of [b], a tail of them: a
    frame somebody else holds stays. *)
Definition heldBytes (l : list ccache) : Z := fold_right (fun c a => bytesOf (cc_frames c) + a) 0 l.
Definition ownBytes (l : list ccache) : Z :=
  fold_right (fun c a => bytesOf (filter (fun f => negb (cf_shared f)) (cc_frames c)) + a) 0 l.

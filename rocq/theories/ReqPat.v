(** Declared request patterns: include/VapourSynth4.h:325-333 and what the
    header comment promises for each. *)
From Coq Require Import ZArith Lia.
Open Scope Z_scope.

Inductive reqpat := rpGeneral | rpNoFrameReuse | rpStrictSpatial | rpFrameReuseLastOnly.

(** [N]: frames in the input clip, [M]: frames in the output clip,
    [req n j]: producing output frame [n] requests frame [j] of the input. *)
Definition honest (p : reqpat) (N M : Z) (req : Z -> Z -> Prop) : Prop :=
  match p with
  | rpGeneral => True
  | rpNoFrameReuse =>
      (* no frame requested by two output frames, never beyond the end *)
      (forall n j, 0 <= n < M -> req n j -> 0 <= j < N) /\
      (forall n m j, 0 <= n < M -> 0 <= m < M -> req n j -> req m j -> n = m)
  | rpStrictSpatial =>
      (* always and only frame n, never beyond the end *)
      forall n, 0 <= n < M -> n < N /\ forall j, req n j <-> j = n
  | rpFrameReuseLastOnly =>
      (* as no reuse, but the last frame (or beyond, which is served the last
         frame) may be requested repeatedly *)
      (forall n j, 0 <= n < M -> req n j -> 0 <= j) /\
      (forall n m j, 0 <= n < M -> 0 <= m < M -> req n j -> req m j -> j < N - 1 -> n = m)
  end.

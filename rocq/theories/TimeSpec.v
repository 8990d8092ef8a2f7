(** Timecodes: when each frame is shown, as exact rational numbers. *)
From Coq Require Import ZArith QArith List Bool Lia.
Import ListNotations.
Open Scope Z_scope.

(** Durations of frames in seconds, numerator and denominator, both positive. *)
Definition duration := (Z * Z)%type.
Definition seconds (d : duration) : Q := (inject_Z (fst d) / inject_Z (snd d))%Q.
Definition total (l : list duration) : Q := fold_right (fun d s => seconds d + s)%Q 0%Q l.
Definition durationIs (d : duration) : Prop := 0 < fst d < 2 ^ 63 /\ 0 < snd d < 2 ^ 63.
Definition durEq (a b : duration) : {a = b} + {a <> b}.
Proof. decide equality; apply Z.eq_dec. Defined.
(** Number of different durations. *)
Definition kinds (l : list duration) : nat := length (nodup durEq l).
(** Half a unit in the last place of a double. *)
Definition unit64 : Q := Qpower (2 # 1) (- 53).
(** The number a double stands for. *)
From Coq Require Import SpecFloat.
Definition value (x : spec_float) : option Q :=
  match x with
  | S754_zero _ => Some 0%Q
  | S754_finite s m e => Some ((if s then -1 else 1) * (inject_Z (Z.pos m) * Qpower (2 # 1) e))%Q
  | _ => None
  end.
(** v stands for a, up to n roundings. *)
Definition close (n : nat) (a v : Q) : Prop := ((1 - inject_Z (Z.of_nat n) * unit64) * a <= v /\ (1 - inject_Z (Z.of_nat n) * unit64) * v <= a)%Q.

(** What converting audio samples between formats means, in exact integers.  Does not import the model. *)
From Coq Require Import ZArith List Bool.
From Coq Require Import SpecFloat.
From Verif Require Import Common AudioSpec Soft ResampleSpec.
Import ListNotations.
Open Scope Z_scope.

(** Formats: floats of 32 bits; integers of 16 to 32 bits in containers of 16 or 32. *)
Record afmt := mkFmt { f_float : bool; f_bits : Z; f_bytes : Z }.
Definition container (f : afmt) : Z := 8 * f_bytes f.
Definition fmtOk (f : afmt) : Prop := 16 <= f_bits f <= 32 /\ f_bytes f = (if f_bits f =? 16 then 2 else 4) /\ (f_float f = true -> f_bits f = 32).
Inductive sample := Int (v : Z) | Flt (x : fl).
Definition sampleOk (f : afmt) (x : sample) : Prop :=
  match x with
  | Int v => f_float f = false /\ - 2 ^ (container f - 1) <= v < 2 ^ (container f - 1)
  | Flt v => f_float f = true /\ valid_binary 24 128 v = true
  end.
Definition finite (x : sample) : Prop := match x with Int _ => True | Flt v => isFin v = true end.
Definition notNan (x : sample) : Prop := match x with Int _ => True | Flt v => isNan v = false end.
(** The samples an integer format of fewer bits than its container holds: the significant bits are at the top. *)
Definition aligned (f : afmt) (x : sample) : Prop := match x with Int v => (2 ^ (container f - f_bits f) | v) | Flt _ => True end.

(** The level of a sample as a fraction; full scale is 1. *)
Definition numOf (x : sample) : Z :=
  match x with Int v => v | Flt (S754_finite s m e) => signed s (Z.pos m) * 2 ^ (Z.max e 0) | Flt _ => 0 end.
Definition denOf (f : afmt) (x : sample) : Z :=
  match x with Int v => 2 ^ (container f - 1) | Flt (S754_finite s m e) => 2 ^ (Z.max (- e) 0) | Flt _ => 1 end.
Definition sameLevel (f : afmt) (x : sample) (g : afmt) (y : sample) : Prop := numOf x * denOf g y = numOf y * denOf f x.
(** At most a part in 2^24 apart. *)
Definition nearLevel (f : afmt) (x : sample) (g : afmt) (y : sample) : Prop := 2 ^ 24 * Z.abs (numOf x * denOf g y - numOf y * denOf f x) <= Z.abs (numOf x) * denOf g y.

(** Nearest integer of n/d, halves away from zero. *)
Definition rnd (n d : Z) : Z := Z.sgn n * ((2 * Z.abs n + d) / (2 * d)).
Definition limit (bits k : Z) : Z := Z.max (- 2 ^ (bits - 1)) (Z.min (2 ^ (bits - 1) - 1) k).
(** Step [k] of the grid of an integer format as it is stored, and whether it had to be limited. *)
Definition storedStep (g : afmt) (k : Z) : sample * bool := (Int (limit (f_bits g) k * 2 ^ (container g - f_bits g)), negb (limit (f_bits g) k =? k)).
(** The nearest step. *)
Definition nearest (f g : afmt) (x : sample) : Z := rnd (numOf x * 2 ^ (f_bits g - 1)) (denOf f x).
(** Step [k] belongs to the level plus [t] units of 2^-32 steps: the nearest to a number that differs from it by at most a part in 2^53. *)
Definition ditheredStep (f g : afmt) (x : sample) (t k : Z) : Prop :=
  let n := numOf x * 2 ^ (f_bits g - 1) in let d := denOf f x in let exact := n * 2 ^ 32 + t * d in
  2 ^ 54 * Z.abs (k * (d * 2 ^ 32) - exact) <= 2 ^ 53 * (d * 2 ^ 32) + 2 * Z.abs exact.

Inductive ditherType := DNone | DRect | DTri.
(** What the dither may add, in units of 2^-32 steps: half a step, or less than one. *)
Definition ditherRange (dt : ditherType) (t : Z) : Prop :=
  match dt with DNone => t = 0 | DRect => - 2 ^ 31 <= t < 2 ^ 31 | DTri => - 2 ^ 32 < t < 2 ^ 32 end.
(** Only going to integers with fewer bits is dithered. *)
Definition dithered (f g : afmt) : bool := negb (f_float g) && (f_float f || (f_bits g <? f_bits f)).

(** One frame of the converted clip; [conv] sees the position in the whole clip and the channel. *)
Section Frame.
Variable conv : Z -> Z -> sample -> outcome (sample * bool).
Variables (s : stream (Z -> sample)) (N channels : Z) (overflowError : bool).
Definition convertedAt (pos ch : Z) : outcome (sample * bool) := match s pos with Some cell => conv pos ch (cell ch) | None => UB end.
Definition convertedFrame (n : Z) : outcome (list (list sample)) :=
  obind (inOrder (fun ch => obind (inOrder (fun i => convertedAt (AFS * n + i) ch) (zseq (Z.min AFS (N - AFS * n)))) (fun l => Ok (map fst l, existsb snd l))) (zseq channels)) (fun chs =>
  if existsb snd chs && overflowError then Err else Ok (map fst chs)).
End Frame.

(** What BoxBlur means: means over a window clamped to the picture. *)
From Coq Require Import ZArith List Lia Bool.
From Verif Require Import Common ImageSpec GenericSpec.
Import ListNotations.
Open Scope Z_scope.

(** Sum of the 2r+1 samples around column [x]; outside columns repeat the border column. *)
Definition rowSum (r w : Z) (f : Z -> Z) (x : Z) : Z := sumL (map (fun d => f (edge w (x - r + d))) (zseq (2 * r + 1))).
Definition rowMean (r round w : Z) (f : Z -> Z) (x : Z) : Z := (rowSum r w f x + round) / (2 * r + 1).

Definition boxH (r round : Z) (a : image) : image :=
  mkI (i_w a) (i_h a) (fun x y => rowMean r round (i_w a) (fun u => i_at a u y) x).

(** Pass [p]: even passes round up, odd ones round down. *)
Definition rounding (r p : Z) : Z := if Z.odd p then 0 else 2 * r.
Fixpoint boxPasses (n : nat) (r p : Z) (a : image) : image :=
  match n with O => a | S n' => boxPasses n' r (p + 1) (boxH r (rounding r p) a) end.

(** Both directions; radius or passes of 0 leave the direction alone. *)
Definition blurs (radius passes : Z) : bool := (0 <? radius) && (0 <? passes).
Definition boxDir (radius passes : Z) (a : image) : image :=
  if blurs radius passes then boxPasses (Z.to_nat passes) radius 0 a else a.
Definition boxBlur (hr hp vr vp : Z) (a : image) : image :=
  let b := boxDir hr hp a in
  if blurs vr vp then transposed (boxDir vr vp (transposed b)) else b.

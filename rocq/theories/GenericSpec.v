(** What the neighbourhood filters mean, on pictures. *)
From Coq Require Import ZArith List Lia Bool.
From Verif Require Import Common ImageSpec PixelSpec.
Import ListNotations.
Open Scope Z_scope.

(** ** 3x3 neighbourhoods: the border is replicated *)

Definition edge (n i : Z) : Z := Z.max 0 (Z.min (n - 1) i).
Definition offsets : list (Z * Z) :=
  [(-1, -1); (0, -1); (1, -1); (-1, 0); (0, 0); (1, 0); (-1, 1); (0, 1); (1, 1)].
Definition around (a : image) (x y : Z) : list Z :=
  map (fun d => i_at a (edge (i_w a) (x + fst d)) (edge (i_h a) (y + snd d))) offsets.
Definition local (f : list Z -> Z) (a : image) : image := mkI (i_w a) (i_h a) (fun x y => f (around a x y)).

Definition centre (l : list Z) : Z := nth 4 l 0.

(** The fifth smallest of nine: insertion sort. *)
Fixpoint insert (x : Z) (l : list Z) : list Z :=
  match l with [] => [x] | y :: r => if x <=? y then x :: l else y :: insert x r end.
Definition sorted (l : list Z) : list Z := fold_right insert [] l.
Definition fifth (l : list Z) : Z := nth 4 (sorted l) 0.

(** The neighbours selected by a mask, in reading order without the centre. *)
Definition neighbours (l : list Z) : list Z := firstn 4 l ++ skipn 5 l.
Fixpoint picked (mask : list bool) (l : list Z) : list Z :=
  match mask, l with
  | b :: m, v :: r => if b then v :: picked m r else picked m r
  | _, _ => []
  end.
Definition largest (x : Z) (l : list Z) : Z := fold_right Z.max x l.
Definition smallest (x : Z) (l : list Z) : Z := fold_right Z.min x l.

Definition maximumOf (mask : list bool) (th : Z) (l : list Z) : Z :=
  Z.min (largest (centre l) (picked mask (neighbours l))) (centre l + th).
Definition minimumOf (mask : list bool) (th : Z) (l : list Z) : Z :=
  Z.max (smallest (centre l) (picked mask (neighbours l))) (centre l - th).

(** The mean of the eight neighbours, rounded half up. *)
Definition mean8 (l : list Z) : Z := (2 * sumL (neighbours l) + 8) / 16.
Definition inflateOf (th : Z) (l : list Z) : Z := Z.min (Z.max (mean8 l) (centre l)) (centre l + th).
Definition deflateOf (th : Z) (l : list Z) : Z := Z.max (Z.min (mean8 l) (centre l)) (centre l - th).

(** Horizontal and vertical gradients. *)
Definition at3 (l : list Z) (dx dy : Z) : Z := nth (Z.to_nat (3 * (dy + 1) + (dx + 1))) l 0.
Definition gradV (c : Z) (l : list Z) : Z :=
  (at3 l (-1) 1 + c * at3 l 0 1 + at3 l 1 1) - (at3 l (-1) (-1) + c * at3 l 0 (-1) + at3 l 1 (-1)).
Definition gradH (c : Z) (l : list Z) : Z :=
  (at3 l 1 (-1) + c * at3 l 1 0 + at3 l 1 1) - (at3 l (-1) (-1) + c * at3 l (-1) 0 + at3 l (-1) 1).

(** ** Convolutions: the picture is reflected once at its borders, the border sample being
    repeated, and clamped beyond that *)

Definition mirrored (n i : Z) : Z :=
  edge n (if i <? 0 then -1 - i else if n <=? i then 2 * n - 1 - i else i).

(** Weighted sums; the matrix is given row by row. *)
Definition coef (m : list Z) (i : Z) : Z := nth (Z.to_nat i) m 0.
Definition square (n : Z) (m : list Z) (a : image) (x y : Z) : Z :=
  sumL (map (fun r => sumL (map (fun c =>
    coef m (r * n + c) * i_at a (mirrored (i_w a) (x + c - n / 2)) (mirrored (i_h a) (y + r - n / 2)))
    (zseq n))) (zseq n)).
Definition horizontal (m : list Z) (a : image) (x y : Z) : Z :=
  sumL (map (fun c => coef m c * i_at a (mirrored (i_w a) (x + c - zlength m / 2)) y) (zseq (zlength m))).
Definition vertical (m : list Z) (a : image) (x y : Z) : Z :=
  sumL (map (fun r => coef m r * i_at a x (mirrored (i_h a) (y + r - zlength m / 2))) (zseq (zlength m))).

(** A picture of weighted sums, each finished by [f]. *)
Definition weighed (f : Z -> Z) (s : image -> Z -> Z -> Z) (a : image) : image :=
  mkI (i_w a) (i_h a) (fun x y => f (s a x y)).

(** ** Single samples *)

Definition inverted (bits v : Z) : Z := top bits - legal bits v.
Definition limited (lo hi v : Z) : Z := Z.min hi (Z.max lo v).
Definition binarized (thr v0 v1 v : Z) : Z := if v <? thr then v0 else v1.

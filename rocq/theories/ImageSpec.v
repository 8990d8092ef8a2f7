(** Pictures as mathematical objects: a width, a height and a sample at every
    position.  The geometric filters are described on these; nothing here refers to
    buffers, strides or bytes. *)
From Coq Require Import ZArith List Lia Bool.
From Verif Require Import Common.
Import ListNotations.
Open Scope Z_scope.

Record image := mkI { i_w : Z; i_h : Z; i_at : Z -> Z -> Z }.   (* column, row *)

(** Two pictures are the same when they agree wherever they are defined. *)
Definition same (a b : image) : Prop :=
  i_w a = i_w b /\ i_h a = i_h b /\
  forall x y, 0 <= x < i_w a -> 0 <= y < i_h a -> i_at a x y = i_at b x y.

(** The window whose upper left corner is (x, y). *)
Definition crop (x y w h : Z) (a : image) : image :=
  mkI w h (fun u v => i_at a (x + u) (y + v)).

(** A border of colour [c] around the picture. *)
Definition pad (l r t b c : Z) (a : image) : image :=
  mkI (l + i_w a + r) (t + i_h a + b)
      (fun u v => if (l <=? u) && (u <? l + i_w a) && (t <=? v) && (v <? t + i_h a)
                  then i_at a (u - l) (v - t) else c).

(** Mirrored top to bottom, mirrored left to right. *)
Definition flipV (a : image) : image := mkI (i_w a) (i_h a) (fun u v => i_at a u (i_h a - 1 - v)).
Definition flipH (a : image) : image := mkI (i_w a) (i_h a) (fun u v => i_at a (i_w a - 1 - u) v).
Definition rot180 (a : image) : image :=
  mkI (i_w a) (i_h a) (fun u v => i_at a (i_w a - 1 - u) (i_h a - 1 - v)).
(** Rows and columns exchanged. *)
Definition transposed (a : image) : image := mkI (i_h a) (i_w a) (fun u v => i_at a v u).
(** Turned clockwise: the first column, read upwards, becomes the first row. *)
Definition rot90 (a : image) : image := mkI (i_h a) (i_w a) (fun u v => i_at a v (i_h a - 1 - u)).
(** Turned counter-clockwise. *)
Definition rot270 (a : image) : image := mkI (i_h a) (i_w a) (fun u v => i_at a (i_w a - 1 - v) u).

(** [b] below [a], [b] to the right of [a]. *)
Definition above (a b : image) : image :=
  mkI (i_w a) (i_h a + i_h b)
      (fun u v => if v <? i_h a then i_at a u v else i_at b u (v - i_h a)).
Definition beside (a b : image) : image :=
  mkI (i_w a + i_w b) (i_h a)
      (fun u v => if u <? i_w a then i_at a u v else i_at b (u - i_w a) v).

(** The rows of a field: the even ones form the top field, the odd ones the bottom field. *)
Definition topField (a : image) : image := mkI (i_w a) (i_h a / 2) (fun u v => i_at a u (2 * v)).
Definition bottomField (a : image) : image := mkI (i_w a) (i_h a / 2) (fun u v => i_at a u (2 * v + 1)).
(** The picture with the given top and bottom field. *)
Definition weave (t b : image) : image :=
  mkI (i_w t) (2 * i_h t)
      (fun u v => if v mod 2 =? 0 then i_at t u (v / 2) else i_at b u (v / 2)).

(** One colour everywhere. *)
Definition solid (w h c : Z) : image := mkI w h (fun _ _ => c).

(** ** Stacks *)

Definition sumL (l : list Z) : Z := fold_right Z.add 0 l.

(** [out] consists of the parts one below the other: every part is found at its offset
    and nothing else is there. *)
Definition stackedV (parts : list image) (out : image) : Prop :=
  i_h out = sumL (map i_h parts) /\
  forall j a, nth_error parts j = Some a ->
    i_w a = i_w out /\ same (crop 0 (sumL (map i_h (firstn j parts))) (i_w a) (i_h a) out) a.

(** One beside the other. *)
Definition stackedH (parts : list image) (out : image) : Prop :=
  i_w out = sumL (map i_w parts) /\
  forall j a, nth_error parts j = Some a ->
    i_h a = i_h out /\ same (crop (sumL (map i_w (firstn j parts))) 0 (i_w a) (i_h a) out) a.

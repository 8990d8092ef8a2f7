(** What averaging frames means. *)
From Coq Require Import ZArith List Lia Bool.
From Verif Require Import Common ImageSpec.
Import ListNotations.
Open Scope Z_scope.

(** Weighted sum of the distances from [bias]. *)
Fixpoint weighted (bias : Z) (ws vs : list Z) : Z :=
  match ws, vs with
  | w :: ws', v :: vs' => w * (v - bias) + weighted bias ws' vs'
  | _, _ => 0
  end.

(** [r] is the quotient acc / scale rounded to an integer with single precision arithmetic: off by at most one half plus
    the relative error 2^-21. *)
Definition quotient32 (acc scale r : Z) : Prop := 2 ^ 21 * Z.abs (r * scale - acc) <= 2 ^ 20 * scale + Z.abs acc.

(** [v] is the average of the samples [vs]. *)
Definition average (bias top scale : Z) (ws vs : list Z) (v : Z) : Prop :=
  exists r, quotient32 (weighted bias ws vs) scale r /\ v = Z.max 0 (Z.min (r + bias) top).
Definition averageImg (bias top scale : Z) (ws : list Z) (l : list image) (b : image) : Prop :=
  forall x y, 0 <= x < i_w b -> 0 <= y < i_h b -> average bias top scale ws (map (fun a => i_at a x y) l) (i_at b x y).

(** Frame [i] belongs to the scene of frame [mid]: no frame between them, ends included, marks a change on the near side.
    [first] marks the first frame of a scene, [last] the last one. *)
Definition inScene (first last : Z -> bool) (mid i : Z) : Prop :=
  (forall j, i < j <= mid -> first j = false) /\ (forall j, mid <= j < i -> last j = false).

(** Weights restricted to a scene: what the other frames had goes to the middle one. *)
Definition sceneWeights (first last : Z -> bool) (mid : Z) (ws ws' : list Z) : Prop :=
  zlength ws' = zlength ws /\ fold_right Z.add 0 ws' = fold_right Z.add 0 ws /\
  forall i w w', i <> mid -> nthz ws i = Some w -> nthz ws' i = Some w' ->
    (inScene first last mid i -> w' = w) /\ (~ inScene first last mid i -> w' = 0).

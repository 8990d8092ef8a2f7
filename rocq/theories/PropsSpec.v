(** What filters do to the properties of a frame.  Does not import the model. *)
From Coq Require Import String Ascii ZArith List Lia Bool.
From Verif Require Import Common SMap MapSpec.
Import ListNotations.
Open Scope Z_scope.

(** Maps as the interface builds them: ordered, names are identifiers, values have the type of their entry, no error. *)
Definition legal (m : pmap) : Prop :=
  msorted (pm m) /\ pe m = false /\ forall k t l, In (k, (t, l)) (pm m) -> identifier k = true /\ Forall (fun v => vtype v = t) l.
Definition entry (m : pmap) (k : string) : option (ptype * list val) := mget k (pm m).

(** Patterns: * stands for any text, ? for one character. *)
Inductive fits : list ascii -> list ascii -> Prop :=
| fits_end : fits [] []
| fits_star : forall p a b, fits p b -> fits ("*"%char :: p) (a ++ b)
| fits_one : forall p c s, fits p s -> fits ("?"%char :: p) (c :: s)
| fits_same : forall p c s, c <> "*"%char -> c <> "?"%char -> fits p s -> fits (c :: p) (c :: s).

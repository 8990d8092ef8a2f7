(** What a register of plugins has to keep, and the lines of a manifest.  Does not import the model. *)
From Coq Require Import String Ascii ZArith List Bool Lia.
From Verif Require Import Common ArgsSpec.
Import ListNotations.
Open Scope list_scope.

(** The lines of a text: the stretches without line ends, empty ones left out. *)
Definition lineEnd (c : ascii) : bool := Ascii.eqb c (ascii_of_nat 13) || Ascii.eqb c (ascii_of_nat 10).
Fixpoint stretches (s : text) : list text :=
  match s with [] => [[]] | c :: r => if lineEnd c then [] :: stretches r else match stretches r with w :: ws => (c :: w) :: ws | [] => [[c]] end end.
Definition lines (s : text) : list text := filter nonempty (stretches s).

(** The first of the versions, best first, that is there. *)
Fixpoint best {A} (there : A -> bool) (l : list A) (d : A) : A := match l with [] => d | a :: r => if there a then a else best there r d end.

(** What the printed graph is meant to be. *)
From Coq Require Import String Ascii ZArith List Bool Lia.
From Verif Require Import Common OptSpec Graph.
Import ListNotations.
Open Scope Z_scope.

(** The nodes a node depends on, directly or not, and itself. *)
Inductive reach (deps : Z -> list Z) : Z -> Z -> Prop :=
| reach_refl : forall a, reach deps a a
| reach_step : forall a s b, In s (deps a) -> reach deps s b -> reach deps a b.

(** Graphs of filters: nodes depend on nodes that existed before them. *)
Definition layered (deps : Z -> list Z) (rank : Z -> nat) : Prop := forall a s, In s (deps a) -> (rank s < rank a)%nat.

(** Escaping, in one pass: every line break, of any system, becomes one backslash and
    an n, every backslash two, and everything else stays. *)
Fixpoint escaped (s : text) : text :=
  match s with
  | [] => []
  | c :: r =>
      if Ascii.eqb c bs then bs :: bs :: escaped r
      else if Ascii.eqb c LF then bs :: "n"%char :: escaped r
      else if Ascii.eqb c CR then bs :: "n"%char :: match r with d :: r' => if Ascii.eqb d LF then escaped r' else escaped r | [] => [] end
      else c :: escaped r
  end.

(** Text that stands between the quotes of a quoted string of the DOT language without
    ending it: no quote that is not preceded by a backslash of its own, and no
    backslash left over at the end. *)
Fixpoint inside (s : text) : bool :=
  match s with
  | [] => true
  | c :: r =>
      if Ascii.eqb c quote then false
      else if Ascii.eqb c bs then match r with _ :: r' => inside r' | [] => false end
      else inside r
  end.

Definition plain (s : text) : Prop := ~ In bs s /\ ~ In quote s.

Definition valPlain (v : argVal) : Prop :=
  match v with
  | ATexts l => forall t, In t l -> plain t
  | AData l => forall d, In d l -> ~ In quote (snd d)
  | _ => True
  end.

(** In ascending order without repetitions. *)
Fixpoint ascending (l : list text) : Prop :=
  match l with [] => True | x :: tl => (match tl with [] => True | y :: _ => tcmp x y = Lt end) /\ ascending tl end.

(** The lines of a box. *)
Fixpoint boxOf (k : text) (m : list (text * list text)) : list text :=
  match m with [] => [] | (k', s) :: tl => if list_eq_dec ascii_dec k k' then s else boxOf k tl end.

Fixpoint longestFirst (l : list (text * Z * Z)) : Prop :=
  match l with [] => True | x :: tl => (match tl with [] => True | y :: _ => snd y <= snd x end) /\ longestFirst tl end.

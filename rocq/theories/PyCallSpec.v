(** How the arguments of a call from Python belong to the parameters of a function. *)
From Coq Require Import ZArith List Bool Ascii String.
Import ListNotations.
Local Open Scope string_scope.
Local Open Scope list_scope.

(** The value given by name, if any; names are distinct in a call. *)
Fixpoint given {A} (l : list (string * A)) (k : string) : option A :=
  match l with [] => None | (x, a) :: r => if String.eqb x k then Some a else given r k end.
Definition isGiven {A} (l : list (string * A)) (k : string) : bool := match given l k with Some _ => true | None => false end.
(** The parameters left for values without a name, in the order of the declaration. *)
Definition openParams {A} (names : list string) (named : list (string * A)) : list string := filter (fun k => negb (isGiven named k)) names.
(** The value of a parameter. *)
Definition valueOf {A} (names : list string) (named : list (string * A)) (args : list A) (k : string) : option A :=
  match given named k with Some v => Some v | None => given (combine (openParams names named) args) k end.
(** Named values that belong to no parameter. *)
Definition extras {A} (names : list string) (named : list (string * A)) : list (string * A) :=
  filter (fun kv => negb (existsb (String.eqb (fst kv)) names)) named.
(** A name without the underscore at its end, which is there for names that are keywords of Python. *)
Fixpoint withoutTail (s : string) : string :=
  match s with EmptyString => EmptyString | String c EmptyString => if Ascii.eqb c "_"%char then EmptyString else s | String c r => String c (withoutTail r) end.
(** The named values of a call, and the values without a name with that of a bound function in front. *)
Definition stripped {A} (kwargs : list (string * A)) : list (string * A) := map (fun kv => (withoutTail (fst kv), snd kv)) kwargs.
Definition withFront {A} (injected : option A) (args : list A) : list A := match injected with Some v => v :: args | None => args end.

(** The vocabulary of the thread pool's guarantees. *)
From Coq Require Import ZArith List Bool Arith.
Import ListNotations.
Open Scope Z_scope.

(** A node and a frame number; nodes, frames and error messages are numbers. *)
Definition key := (Z * Z)%type.
Inductive res := Frame (f : Z) | Failed (m : Z).

(** [hist]: from, to, what, oldest first. *)
Definition received (w : nat) (hist : list (nat * nat * res)) : list res := map snd (filter (fun e => Nat.eqb (snd (fst e)) w) hist).
Definition sentBy (i : nat) (hist : list (nat * nat * res)) : list (nat * res) := map (fun e => (snd (fst e), snd e)) (filter (fun e => Nat.eqb (fst (fst e)) i) hist).
Fixpoint firstError (l : list res) : option Z := match l with [] => None | Failed m :: _ => Some m | Frame _ :: r => firstError r end.
Definition framesFor (keyOf : nat -> key) (w : nat) (hist : list (nat * nat * res)) : list (key * Z) :=
  flat_map (fun e => if Nat.eqb (snd (fst e)) w then match snd e with Frame f => [(keyOf (fst (fst e)), f)] | Failed _ => [] end else []) hist.

(** Order of requests, then frame number. *)
Definition notAfter (a b : Z * Z) : Prop := fst a < fst b \/ (fst a = fst b /\ snd a <= snd b).
Definition inOrder (l : list (Z * Z)) : Prop := forall p a q b r, l = p ++ a :: q ++ b :: r -> notAfter a b.

(** Log messages: who is told what. *)
From Coq Require Import String Ascii ZArith List Bool Lia.
Import ListNotations.
Open Scope Z_scope.
Definition text := list Z.
Definition T (s : string) : text := map (fun c => Z.of_nat (nat_of_ascii c)) (list_ascii_of_string s).
(** A message: its type and text.  Types as in VSMessageType. *)
Definition msg := (Z * text)%type.
Definition warn (t : text) : msg := (2, t).
Definition fatal (m : msg) : bool := fst m =? 4.
Definition discarded : msg := warn (T "Log messages after this point may have been discarded due to the buffer reaching its max size").
Definition doubleFree : msg := (4, T "Double free of core").
Definition retained : nat := 500.
(** What is done with a log: handlers are numbered in the order they are added. *)
Inductive op := Log (m : msg) | Add | Remove (h : nat) | FreeCore (ws : list text).
Definition mem (i : nat) (l : list nat) : bool := existsb (Nat.eqb i) l.
Definition when {A} (b : bool) (l : list A) : list A := if b then l else [].
Definition nobody (live : list nat) : bool := match live with [] => true | _ => false end.
(** What handler [i] hears: [next] handlers have been added, [live] are there, [pending] was said while nobody listened, [gone] the core has been freed.  Nothing is said after a fatal message. *)
Fixpoint heard (i : nat) (ops : list op) (next : nat) (live : list nat) (pending : list msg) (gone : bool) : list msg :=
  match ops with
  | [] => []
  | Log m :: r => when (mem i live) [m] ++ (if fatal m then [] else heard i r next live (pending ++ when (nobody live) [m]) gone)
  | Add :: r => when (Nat.eqb i next) (firstn retained pending ++ when (retained <=? List.length pending)%nat [discarded]) ++ heard i r (S next) (next :: live) [] gone
  | Remove h :: r => heard i r next (filter (fun x => negb (Nat.eqb x h)) live) pending gone
  | FreeCore ws :: r => if gone then when (mem i live) [doubleFree]
                        else when (mem i live) (map warn ws) ++ heard i r next [] (pending ++ when (nobody live) (map warn ws)) true
  end.
(** The record of what happened: messages told and free callbacks. *)
Inductive event := Told (h : nat) (m : msg) | Freed (h : nat).
Definition toldTo (i : nat) (l : list event) : list msg := flat_map (fun e => match e with Told h m => when (Nat.eqb i h) [m] | Freed _ => [] end) l.
Definition freedTimes (i : nat) (l : list event) : nat := List.length (filter (fun e => match e with Freed h => Nat.eqb i h | Told _ _ => false end) l).
(** The log of API 3: a handler that is set replaces the one set before, others are added and removed by number. *)
Inductive op3 := Log3 (m : msg) | Set3 (handler : bool) | Add3 | Remove3 (id : nat).
Definition drop (h : nat) (l : list nat) : list nat := filter (fun x => negb (Nat.eqb x h)) l.
Definition dropped (g : option nat) (l : list nat) : list nat := match g with Some h => drop h l | None => l end.
Fixpoint heard3 (i : nat) (ops : list op3) (next : nat) (live : list nat) (global : option nat) : list msg :=
  match ops with
  | [] => []
  | Log3 m :: r => when (mem i live) [m] ++ heard3 i r next live global
  | Add3 :: r => heard3 i r (S next) (live ++ [next]) global
  | Remove3 h :: r => heard3 i r next (drop h live) global
  | Set3 true :: r => heard3 i r (S next) (dropped global live ++ [next]) (Some next)
  | Set3 false :: r => heard3 i r next (dropped global live) None
  end.

(** The grammar of argument lists, and what a call has to pass. *)
From Coq Require Import String Ascii ZArith List Bool Lia.
Import ListNotations.
Open Scope list_scope.

Definition text := list ascii.
Definition T (s : string) : text := list_ascii_of_string s.
Inductive argType := tInt | tFloat | tData | tVNode | tANode | tVFrame | tAFrame | tFunc | tAny.
(** name, type, array, may be empty, optional *)
Record arg := mkA { a_name : text; a_type : argType; a_arr : bool; a_empty : bool; a_opt : bool }.

(** The stretches between delimiters, empty ones left out. *)
Fixpoint pieces (d : ascii) (s : text) : list text :=
  match s with [] => [[]] | c :: r => if Ascii.eqb c d then [] :: pieces d r else match pieces d r with w :: ws => (c :: w) :: ws | [] => [[c]] end end.
Definition nonempty (w : text) : bool := match w with [] => false | _ => true end.
Definition fields (d : ascii) (s : text) : list text := filter nonempty (pieces d s).

Definition letter (c : ascii) : Prop := (65 <= nat_of_ascii c <= 90 \/ 97 <= nat_of_ascii c <= 122)%nat.
Definition wordChar (c : ascii) : Prop := (letter c \/ 48 <= nat_of_ascii c <= 57 \/ nat_of_ascii c = 95)%nat.
Definition identifier (s : text) : Prop := exists c r, s = c :: r /\ letter c /\ Forall wordChar r.
(** Names of types; [v3]: written for version 3 of the interface. *)
Definition typeName (v3 : bool) (t : argType) (n : text) : Prop :=
  match t with
  | tInt => n = T "int" | tFloat => n = T "float" | tData => n = T "data" | tFunc => n = T "func"
  | tVNode => n = T (if v3 then "clip" else "vnode") | tVFrame => n = T (if v3 then "frame" else "vframe")
  | tANode => v3 = false /\ n = T "anode" | tAFrame => v3 = false /\ n = T "aframe"
  | tAny => False
  end.
Definition modifiers (opt empty : bool) (m : list text) : Prop :=
  match opt, empty with
  | false, false => m = []
  | true, false => m = [T "opt"]
  | false, true => m = [T "empty"]
  | true, true => m = [T "opt"; T "empty"] \/ m = [T "empty"; T "opt"]
  end.
(** One entry. *)
Definition entryOf (v3 : bool) (e : text) (a : arg) : Prop :=
  (fields ":" e = [T "any"] /\ a = mkA [] tAny false false false) \/
  (exists (n : text) (t : argType) (arr empty opt : bool) (tn : text) (m : list text), fields ":" e = n :: (tn ++ (if arr then T "[]" else [])) :: m /\ identifier n /\ typeName v3 t tn /\ modifiers opt empty m /\
     (empty = true -> arr = true) /\ a = mkA n t arr empty opt).

(** What is passed: name, type, number of values. *)
Definition passed := list (text * (argType * nat)).
Definition acceptable (sig : list arg) (m : passed) : Prop :=
  (forall a, In a sig -> a_type a <> tAny ->
     (forall t n, In (a_name a, (t, n)) m -> t = a_type a /\ (a_arr a = false -> n <= 1)%nat /\ (a_empty a = false -> 1 <= n)%nat) /\
     (a_opt a = false -> In (a_name a) (map fst m))) /\
  (forall k, In k (map fst m) -> exists a, In a sig /\ (a_type a = tAny \/ a_name a = k)).

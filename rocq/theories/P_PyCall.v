(** C103: the arguments of a call from Python reach the parameters they are meant for. *)
From Coq Require Import ZArith List Bool Ascii String Lia.
From Verif Require Import Common PyCallSpec PyCall PyCallFacts.
Import ListNotations.
Local Open Scope string_scope.
Local Open Scope list_scope.

Theorem C103_call_partial : forall (V : Type) names any (injected : option V) args kwargs, NoDup names -> ~ In "" (map fst kwargs) -> NoDup (map fst (stripped kwargs)) ->
  let named := stripped kwargs in let all := withFront injected args in
  ((exists r, call names any injected args kwargs = Ok r) <-> (List.length all <= List.length (openParams names named))%nat /\ (extras names named = [] \/ any = true)) /\
  forall p rest, call names any injected args kwargs = Ok (p, rest) ->
    (forall k, In k names -> given p k = valueOf names named all k) /\ (forall k, ~ In k names -> given p k = None) /\ rest = extras names named.
Proof. exact call_spec. Qed.
Print Assumptions C103_call_partial.

Theorem C103_twice_refuted : forall (V : Type) (a b : V), call ["x"] false None [] [("x", a); ("x_", b)] = Ok ([("x", b)], []).
Proof. exact swallowed. Qed.
Print Assumptions C103_twice_refuted.

(** A bound function called with one value more and two by name, one of them a keyword of Python; too many values; an unknown name. *)
Example C103_ex_call : call ["clip"; "lambda"; "a"; "b"] false (Some 1) [2] [("b", 3); ("lambda_", 4)] = Ok ([("clip", 1); ("lambda", 4); ("a", 2); ("b", 3)], []).
Proof. reflexivity. Qed.
Example C103_ex_many : call ["a"; "b"] false None [1; 2] [("b", 3)] = Err.
Proof. reflexivity. Qed.
Example C103_ex_unknown : call ["a"] false None [] [("c", 3)] = Err /\ call ["a"] true None [] [("c", 3)] = Ok ([], [("c", 3)]).
Proof. split; reflexivity. Qed.
Example C103_ex_conditions : NoDup ["clip"; "lambda"; "a"; "b"] /\ NoDup (map fst (stripped [("b", 3); ("lambda_", 4)])).
Proof. split; repeat constructor; cbn; intuition discriminate. Qed.

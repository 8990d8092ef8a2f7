(** C102: variables passed to a script are the ones read back. *)
From Coq Require Import ZArith List Bool String Lia.
From Verif Require Import Common PyMapSpec PyMap PyMapFacts.
Import ListNotations.
Local Open Scope string_scope.
Local Open Scope list_scope.
Open Scope Z_scope.

Theorem C102_variables_partial : forall utf8 validKey vars env, NoDup (map fst vars) -> Forall (fun kp => propOk utf8 (snd kp)) vars ->
  exists env', setVariables utf8 vars env = (0, env') /\
    (forall k p, In (k, p) vars -> k <> "_ColorRange" -> validKey k = true -> snd p <> [] -> getVariable validKey env' k = Some [(k, sameProp p)]) /\
    (forall k, ~ In k (map fst vars) -> getVariable validKey env' k = getVariable validKey env k).
Proof. exact variables. Qed.
Print Assumptions C102_variables_partial.

Theorem C102_range : forall utf8 validKey full k, k = "_Range" \/ k = "_ColorRange" -> validKey "_Range" = true ->
  dictToMap validKey [(k, One (PRange full))] [] = Ok [("_Range", (tInt, [EInt (if full then 1 else 0)]))] /\
  mapToDict utf8 [("_Range", (tInt, [EInt (if full then 1 else 0)]))] = Ok [("_Range", One (PRange full))].
Proof. exact range_names. Qed.
Print Assumptions C102_range.

Theorem C102_refused : forall utf8 vars env k p b, In (k, p) vars -> In (EData dtUtf8 b) (snd p) -> utf8 b = false -> setVariables utf8 vars env = (1, env).
Proof. exact refused. Qed.
Print Assumptions C102_refused.

Theorem C102_mixed : forall validKey env k v l, k <> "_ColorRange" -> lookup env k = Some (Many (v :: l)) -> Exists (fun w => pyType w <> pyType v) l -> getVariable validKey env k = None.
Proof. exact mixed. Qed.
Print Assumptions C102_mixed.

Theorem C102_empty_refuted : forall (utf8 : list Z -> bool) (validKey : string -> bool), validKey "x" = true -> exists env', setVariables utf8 [("x", (tInt, []))] [] = (0, env') /\ getVariable validKey env' "x" = Some [].
Proof. exact empty_lost. Qed.
Print Assumptions C102_empty_refuted.

(** Several properties at once, with one element and more; texts that are not UTF-8 are refused and change nothing. *)
Definition exUtf8 (b : list Z) : bool := forallb (fun c => c <? 128) b.
Definition exVars : vmap := [("n", (tInt, [EInt 3])); ("_Range", (tInt, [EInt 1; EInt 0; EInt 7])); ("s", (tData, [EData dtUtf8 [65]; EData dtUnknown [200]])); ("clip", (tObj oVideoNode, [EObj oVideoNode 4]))].
Example C102_ex_ok : Forall (fun kp => propOk exUtf8 (snd kp)) exVars /\ NoDup (map fst exVars).
Proof. split; repeat constructor; cbn; intuition discriminate. Qed.
Example C102_ex_dict : mapToDict exUtf8 exVars = Ok [("n", One (PInt 3)); ("_Range", Many [PRange true; PRange false; PInt 7]); ("s", Many [PStr [65]; PBytes [200]]); ("clip", One (PObj oVideoNode 4))].
Proof. reflexivity. Qed.
Example C102_ex_back : getVariable (fun _ => true) (snd (setVariables exUtf8 exVars [])) "s" = Some [("s", (tData, [EData dtUtf8 [65]; EData dtBinary [200]]))].
Proof. reflexivity. Qed.
Example C102_ex_refused : setVariables exUtf8 [("n", (tInt, [EInt 3])); ("s", (tData, [EData dtUtf8 [200]]))] [] = (1, []).
Proof. reflexivity. Qed.
Example C102_ex_mixed : getVariable (fun _ => true) [("l", Many [PInt 1; PFloat 0])] "l" = None.
Proof. reflexivity. Qed.

(** Maps turned into dictionaries of Python and back, /repo/src/cython/vapoursynth.pyx:1070-1181, and the variables of scripts, lines 4048-4069. *)
From Coq Require Import ZArith List Bool String.
From Verif Require Import Common PyMapSpec.
Import ListNotations.
Local Open Scope string_scope.
Local Open Scope list_scope.
Open Scope Z_scope.

(** A VSMap as its keys with their properties in order; the sharing below is the subject of C01. *)
Definition vmap := list (string * prop).
Fixpoint lookup {A} (m : list (string * A)) (k : string) : option A :=
  match m with [] => None | (x, a) :: r => if String.eqb x k then Some a else lookup r k end.
Fixpoint assign {A} (m : list (string * A)) (k : string) (a : A) : list (string * A) :=
  match m with [] => [(k, a)] | (x, b) :: r => if String.eqb x k then (x, a) :: r else (x, b) :: assign r k a end.
Definition objEqb (a b : objType) : bool :=
  match a, b with oVideoNode, oVideoNode | oAudioNode, oAudioNode | oVideoFrame, oVideoFrame | oAudioFrame, oAudioFrame | oFunction, oFunction => true | _, _ => false end.
Definition etypeEqb (a b : etype) : bool :=
  match a, b with tInt, tInt | tFloat, tFloat | tData, tData => true | tObj x, tObj y => objEqb x y | _, _ => false end.
(** Range.RANGE_FULL and Range.RANGE_LIMITED, include/VSConstants4.h:26-29. *)
Definition RANGE_FULL : Z := 1.
Definition RANGE_LIMITED : Z := 0.
Definition flipRange (z : Z) : Z := if z =? 0 then 1 else if z =? 1 then 0 else z.
Definition remap (k : string) : string := if String.eqb k "_ColorRange" then "_Range" else k.
(** intToRangeFilter, lines 1070-1077. *)
Definition intToRange (z : Z) (k : string) : pv :=
  let isrange := String.eqb k "_Range" in let iscolorrange := String.eqb k "_ColorRange" in
  if (isrange && (z =? RANGE_FULL)) || (iscolorrange && (z =? RANGE_LIMITED)) then PRange true
  else if (isrange && (z =? RANGE_LIMITED)) || (iscolorrange && (z =? RANGE_FULL)) then PRange false
  else PInt z.
(** rangeToIntFilter, lines 1079-1086, of values that are integers. *)
Definition rangeToInt (v : pv) (k : string) : option Z :=
  match v with
  | PInt z => Some z
  | PRange full => let full := if String.eqb k "_ColorRange" then negb full else full in Some (if full then RANGE_FULL else RANGE_LIMITED)
  | _ => None
  end.

Section Utf8.
(** Whether bytes are UTF-8. *)
Variable utf8 : list Z -> bool.
(** isValidVSMapKey is a parameter as well. *)
Variable validKey : string -> bool.

(** mapToDict without flattening, lines 1088-1126, for keys other than _ColorRange, of which type and size would be those of _Range. *)
Definition elemToPy (k : string) (e : elem) : outcome pv :=
  match e with
  | EInt z => Ok (intToRange z k)
  | EFloat f => Ok (PFloat f)
  | EData dtUtf8 b => if utf8 b then Ok (PStr b) else Err
  | EData _ b => Ok (PBytes b)
  | EObj t i => Ok (PObj t i)
  end.
Fixpoint elemsToPy (k : string) (l : list elem) : outcome (list pv) :=
  match l with [] => Ok [] | e :: r => obind (elemToPy k e) (fun v => obind (elemsToPy k r) (fun vs => Ok (v :: vs))) end.
(** The list vval: the value itself for one element. *)
Definition vval (l : list pv) : pyval := match l with [v] => One v | _ => Many l end.
Fixpoint mapToDict (m : vmap) : outcome (list (string * pyval)) :=
  match m with
  | [] => Ok []
  | (k, p) :: r => obind (elemsToPy k (snd p)) (fun l => obind (mapToDict r) (fun d => Ok ((k, vval l) :: d)))
  end.

(** mapSetInt and so on with maAppend, vsapi.cpp:536-620: refused for bad keys and for other types; Err stands for the exception raised then. *)
Definition append (m : vmap) (k : string) (e : elem) : outcome vmap :=
  if negb (validKey k) then Err
  else match lookup m k with
       | None => Ok (assign m k (typeOf e, [e]))
       | Some (t, l) => if etypeEqb t (typeOf e) then Ok (assign m k (t, l ++ [e])) else Err
       end.
Definition mapSetInt (m : vmap) (k : string) (z : Z) : outcome vmap :=
  append m (remap k) (EInt (if String.eqb k "_ColorRange" then flipRange z else z)).
(** dictToMap, lines 1137-1181. *)
Definition setOne (m : vmap) (k : string) (v : pv) : outcome vmap :=
  match v with
  | PInt _ | PRange _ => match rangeToInt v k with Some z => mapSetInt m k z | None => Err end
  | PFloat f => append m k (EFloat f)
  | PStr b => append m k (EData dtUtf8 b)
  | PBytes b => append m k (EData dtBinary b)
  | PObj t i => append m k (EObj t i)
  end.
Fixpoint setAll (m : vmap) (k : string) (l : list pv) : outcome vmap :=
  match l with [] => Ok m | v :: r => obind (setOne m k v) (fun m' => setAll m' k r) end.
Definition listOf (v : pyval) : list pv := match v with One v => [v] | Many l => l end.
Fixpoint dictToMap (d : list (string * pyval)) (m : vmap) : outcome vmap :=
  match d with [] => Ok m | (k, v) :: r => obind (setAll m k (listOf v)) (fun m' => dictToMap r m') end.

(** vpy4_setVariables, lines 4061-4069: the answer and the variables. *)
Fixpoint update (env d : list (string * pyval)) : list (string * pyval) :=
  match d with [] => env | (k, v) :: r => update (assign env k v) r end.
Definition setVariables (vars : vmap) (env : list (string * pyval)) : Z * list (string * pyval) :=
  match mapToDict vars with Ok d => (0, update env d) | _ => (1, env) end.
(** vpy4_getVariable, lines 4048-4059, into an empty map; None: failed, what was written before the exception left open. *)
Definition getVariable (env : list (string * pyval)) (k : string) : option vmap :=
  match lookup env k with
  | None => None
  | Some v => match dictToMap [(k, v)] [] with Ok m => Some m | _ => None end
  end.
End Utf8.

(** C81: filters that set, remove and copy frame properties. *)
From Coq Require Import String Ascii ZArith List Lia Bool.
From Verif Require Import Common SMap MapSpec MapAlias PropsSpec Props PropsLemmas.
Import ListNotations.
Local Open Scope string_scope.
Local Open Scope list_scope.
Open Scope Z_scope.

(** SetFrameProp is created exactly for a name and one list; then the property has the values given and every other entry is kept. *)
Theorem C81_set_created : forall a, setFramePropCreate a = Ok a <-> sa_prop a <> "" /\
  ((exists l, sa_ints a = Some l /\ sa_floats a = None /\ sa_data a = None) \/ (exists l, sa_ints a = None /\ sa_floats a = Some l /\ sa_data a = None) \/ (exists l, sa_ints a = None /\ sa_floats a = None /\ sa_data a = Some l)).
Proof. exact create_ok. Qed.
Theorem C81_set_partial : forall a m, setFramePropCreate a = Ok a -> nonempty a -> identifier (sa_prop a) = true -> legal m ->
  legal (setFrameProp a m) /\ forall k, entry (setFrameProp a m) k = if String.eqb k (place a) then Some (valuesOf a) else entry m k.
Proof. exact set_prop. Qed.
(** Integers are read back under the name they were set with, the old name of the range included. *)
Theorem C81_set_reads : forall p l m i z, legal m -> identifier p = true -> nthz l i = Some z ->
  aGetInt (setFrameProp (mkSA p (Some l) None None) m) p i = Some z.
Proof. exact read_back. Qed.
(** A name that is no identifier is accepted and the frames stay as they were. *)
Theorem C81_set_refuted : exists a m, setFramePropCreate a = Ok a /\ nonempty a /\ legal m /\ setFrameProp a m = m /\ entry m (sa_prop a) = None.
Proof. exact bad_name_refuted. Qed.
(** SetFrameProps: every argument but the clip replaces the entry of its name. *)
Theorem C81_set_all : forall args m, legal args -> legal m ->
  legal (setFrameProps (setFramePropsCreate args) m) /\
  forall k, entry (setFrameProps (setFramePropsCreate args) m) k = match entry args k with Some v => if String.eqb k "clip" then entry m k else Some v | None => entry m k end.
Proof. exact set_props. Qed.
Theorem C81_field_based : forall v m, legal m -> (exists w, setFieldBasedCreate v = Ok w) ->
  0 <= v <= 2 /\ legal (setFieldBased v m) /\ forall k, entry (setFieldBased v m) k = if String.eqb k "_FieldBased" then Some (ptInt, [VInt v]) else if String.eqb k "_Field" then None else entry m k.
Proof. exact set_field. Qed.
(** Every pattern becomes a regular expression that matches exactly the texts the pattern stands for. *)
Theorem C81_glob : forall p s, plain s -> exists r, regexOf (globToRegex p) = Some r /\ (regexMatch r s = true <-> fits p s).
Proof. exact glob_ok. Qed.
(** RemoveFrameProps: exactly the entries named by a pattern are gone. *)
Theorem C81_remove_partial : forall ps m, legal m -> entry m "_ColorRange" = None ->
  exists rs m', compileAll ps = Ok rs /\ removeFrameProps (Some rs) m = Ok m' /\ legal m' /\
    forall k, (named ps k -> entry m' k = None) /\ (~ named ps k -> entry m' k = entry m k).
Proof. exact remove_ok. Qed.
Theorem C81_remove_all : forall m, removeFrameProps None m = Ok fresh.
Proof. exact remove_all. Qed.
(** The range can be read as _ColorRange, yet removing _ColorRange does not remove it. *)
Theorem C81_remove_refuted : exists m m' rs, legal m /\ compileAll [list_ascii_of_string "_ColorRange"] = Ok rs /\ removeFrameProps (Some rs) m = Ok m' /\ aGetInt m "_ColorRange" 0 = Some 1 /\ aGetInt m' "_ColorRange" 0 = Some 1 /\
  aGetInt (aDelete m "_ColorRange") "_ColorRange" 0 = None.
Proof. exact remove_alias. Qed.
(** CopyFrameProps: the properties listed are those of the source, the others are kept; without a list everything is that of the source. *)
Theorem C81_copy_partial : forall src ks m, legal src -> legal m -> ks <> [] -> ~ In "_ColorRange" ks ->
  exists m', copyFrameProps src ks m = Ok m' /\ legal m' /\ forall k, (In k ks -> entry m' k = entry src k) /\ (~ In k ks -> entry m' k = entry m k).
Proof. exact copy_listed. Qed.
Theorem C81_copy_all : forall src m, legal src -> exists m', copyFrameProps src [] m = Ok m' /\ legal m' /\ forall k, entry m' k = entry src k.
Proof. exact copy_all. Qed.
Theorem C81_copy_range : forall src m z, legal src -> legal m -> z = 0 \/ z = 1 -> entry src "_Range" = Some (ptInt, [VInt z]) ->
  exists m', copyFrameProps src ["_ColorRange"] m = Ok m' /\ legal m' /\ forall k, entry m' k = if String.eqb k "_Range" then entry src "_Range" else if String.eqb k "_ColorRange" then None else entry m k.
Proof. exact copy_alias_ok. Qed.
(** A range that is neither limited nor full is changed by copying it under its old name. *)
Theorem C81_copy_refuted : exists src m', legal src /\ copyFrameProps src ["_ColorRange"] fresh = Ok m' /\ entry src "_Range" = Some (ptInt, [VInt 2]) /\ entry m' "_Range" = Some (ptInt, [VInt 1]).
Proof. exact copy_alias. Qed.
(** And a range that is no integer ends the process. *)
Theorem C81_copy_fatal_refuted : exists src, legal src /\ copyFrameProps src ["_ColorRange"] fresh = UB.
Proof. exact copy_alias_fatal. Qed.
Example C81_set_ex : setFrameProp (mkSA "n" (Some [4; 5]) None None) fresh = one "n" (ptInt, [VInt 4; VInt 5]).
Proof. reflexivity. Qed.
Example C81_glob_ex : match regexOf (globToRegex (list_ascii_of_string "_M?t*")) with Some r => (regexMatch r (list_ascii_of_string "_Matrix"), regexMatch r (list_ascii_of_string "_Mt")) | None => (false, false) end = (true, false).
Proof. reflexivity. Qed.
Example C81_remove_ex : match compileAll [list_ascii_of_string "_M*"] with Ok rs => removeFrameProps (Some rs) {| pm := [("_Matrix", (ptInt, [VInt 1])); ("x", (ptInt, [VInt 2]))]; pe := false |} | _ => UB end = Ok (one "x" (ptInt, [VInt 2])).
Proof. vm_compute. reflexivity. Qed.
Example C81_copy_ex : copyFrameProps (one "x" (ptData, [VData 1 "a"; VData 1 "b"])) ["x"; "y"] (one "y" (ptInt, [VInt 3])) = Ok (one "x" (ptData, [VData 1 "a"; VData 1 "b"])).
Proof. reflexivity. Qed.
Print Assumptions C81_set_partial.
Print Assumptions C81_set_reads.
Print Assumptions C81_set_all.
Print Assumptions C81_glob.
Print Assumptions C81_remove_partial.
Print Assumptions C81_copy_partial.
Print Assumptions C81_copy_range.

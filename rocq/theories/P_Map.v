(** Properties C01 to C04: property maps. *)
From Coq Require Import ZArith List Lia Bool String.
From Verif Require Import Common SMap MapSpec MapModel MapLemmas2 MapSim MapAlias MapFacts.
Import ListNotations.
Local Open Scope string_scope.
Local Open Scope list_scope.
Open Scope Z_scope.

(** ** C01 *)
Theorem C01_maps_are_values : forall os sp rs, s_run s_init os = Some (sp, rs) ->
  exists s, run init os = Ok (s, rs) /\ forall h, contents s h = p_at sp h.
Proof. exact values. Qed.
Print Assumptions C01_maps_are_values.

(** A call changes no map but its target. *)
Theorem C01_isolation : forall os s sp o s' r h, reached os s sp -> welltyped o = true -> step s o = Ok (s', r) ->
  hands s h <> None -> target o <> Some h -> contents s' h = contents s h.
Proof. exact isolated. Qed.
Print Assumptions C01_isolation.

Theorem C01_reference_counts_exact : forall os s sp, reached os s sp ->
  (forall a, match arrs s a with Some (r, _) => r = refs_of_array s a /\ 0 < r | None => refs_of_array s a = 0 end) /\
  (forall i, match stos s i with Some x => s_ref x = refs_of_storage s i /\ 0 < s_ref x | None => refs_of_storage s i = 0 end).
Proof. exact counts_exact. Qed.
Print Assumptions C01_reference_counts_exact.

Theorem C01_no_leak : forall os s sp, reached os s sp -> (forall h, p_at sp h = None) ->
  (forall i, stos s i = None) /\ (forall a, arrs s a = None).
Proof. exact freed_all. Qed.
Print Assumptions C01_no_leak.

(** Only calls on dead maps (or reading a missing error text) are undefined. *)
Theorem C01_misuse_is_the_only_fault : forall s sp o, sim s sp -> welltyped o = true -> s_step sp o = None -> step s o = UB.
Proof. exact step_dead. Qed.
Print Assumptions C01_misuse_is_the_only_fault.

Definition ex_map_ops : list mop :=
  [ONew; OSet 0 "a" (VInt 1) MAppend; OClone 0; OSet 1 "a" (VInt 2) MAppend; OGet 0 "a" 1 ptInt; OGet 1 "a" 1 ptInt;
   ODelete 0 "a"; OGet 1 "a" 0 ptInt; OAssign 0 1; OCount 0 "a"; OFree 1; OGetAll 0 "a" ptInt].
Example C01_example : exists s sp, run init ex_map_ops = Ok (s,
   [RHandle 0; ROk true; RHandle 1; ROk true; RVal peIndex None; RVal peSuccess (Some (VInt 2)); ROk true;
    RVal peSuccess (Some (VInt 1)); RUnit; RNum 2; RUnit; RVals peSuccess (Some [VInt 1; VInt 2])]) /\ reached ex_map_ops s sp.
Proof. eexists. eexists. split; [vm_compute; reflexivity|]. eexists. split; [vm_compute; reflexivity|vm_compute; reflexivity]. Qed.

(** ** C02 *)
Theorem C02_replace : forall os s sp h m k v, reached os s sp -> p_at sp h = Some m -> pe m = false -> identifier k = true ->
  exists s', run s [OSet h k v MReplace; OCount h k; OGet h k 0 (vtype v); OType h k]
    = Ok (s', [ROk true; RNum 1; RVal peSuccess (Some v); RType (Some (vtype v))]).
Proof. exact replace_fact. Qed.
Print Assumptions C02_replace.

Theorem C02_append : forall os s sp h m k v, reached os s sp -> p_at sp h = Some m -> pe m = false -> identifier k = true ->
  match mget k (pm m) with
  | None => exists s', run s [OSet h k v MAppend; OCount h k; OGet h k 0 (vtype v)] = Ok (s', [ROk true; RNum 1; RVal peSuccess (Some v)])
  | Some (t, l) =>
    if ptype_eqb t (vtype v)
    then forall i w, nthz l i = Some w -> exists s',
      run s [OSet h k v MAppend; OCount h k; OGet h k i t; OGet h k (zlength l) t]
      = Ok (s', [ROk true; RNum (zlength l + 1); RVal peSuccess (Some w); RVal peSuccess (Some v)])
    else step s (OSet h k v MAppend) = Ok (s, ROk false)
  end.
Proof. exact append_fact. Qed.
Print Assumptions C02_append.

Theorem C02_other_keys : forall os s sp h m k k' v md i t, reached os s sp -> p_at sp h = Some m -> k' <> k ->
  exists s' r b, run s [OSet h k v md; OGet h k' i t] = Ok (s', [ROk b; r]) /\ step s (OGet h k' i t) = Ok (s, r).
Proof. exact other_keys. Qed.
Print Assumptions C02_other_keys.

Theorem C02_get : forall os s sp h m k i t, reached os s sp -> p_at sp h = Some m ->
  exists e v, step s (OGet h k i t) = Ok (s, RVal e v) /\
    (e = peSuccess <-> pe m = false /\ exists l w, mget k (pm m) = Some (t, l) /\ nthz l i = Some w /\ v = Some w) /\
    (e = peError <-> pe m = true) /\
    (e = peUnset <-> pe m = false /\ mget k (pm m) = None) /\
    (e = peIndex <-> pe m = false /\ exists t' l, mget k (pm m) = Some (t', l) /\ (i < 0 \/ zlength l <= i)) /\
    (e = peType <-> pe m = false /\ exists t' l, mget k (pm m) = Some (t', l) /\ 0 <= i < zlength l /\ t' <> t) /\
    (e <> peSuccess -> v = None).
Proof. exact get_fact. Qed.
Print Assumptions C02_get.

Theorem C02_keys_are_identifiers : forall os s sp h m k v md, reached os s sp -> p_at sp h = Some m -> identifier k = false ->
  step s (OSet h k v md) = Ok (s, ROk false).
Proof. exact bad_key. Qed.
Print Assumptions C02_keys_are_identifiers.

Example C02_example : exists s, run init
  [ONew; OSet 0 "x" (VInt 1) MAppend; OSet 0 "x" (VInt 2) MAppend; OSet 0 "x" (VFloat 3) MAppend; OSet 0 "1x" (VInt 3) MReplace;
   OGet 0 "x" 1 ptInt; OGet 0 "x" 2 ptInt; OGet 0 "x" 0 ptFloat; OGet 0 "y" 0 ptInt; OSet 0 "x" (VFloat 3) MReplace; OCount 0 "x"]
  = Ok (s, [RHandle 0; ROk true; ROk true; ROk false; ROk false; RVal peSuccess (Some (VInt 2)); RVal peIndex None;
            RVal peType None; RVal peUnset None; ROk true; RNum 1]).
Proof. eexists. vm_compute. reflexivity. Qed.

(** ** C03 *)
Theorem C03_set_error : forall os s sp h m msg, reached os s sp -> p_at sp h = Some m ->
  exists s', run s [OError h msg; OGetError h; ONumKeys h; OKey h 0] = Ok (s', [RUnit; RStr (Some msg); RNum 1; RStr (Some "_Error")]).
Proof. exact error_fact. Qed.
Print Assumptions C03_set_error.

Theorem C03_clear : forall os s sp h m, reached os s sp -> p_at sp h = Some m ->
  exists s', run s [OClear h; OGetError h; ONumKeys h] = Ok (s', [RUnit; RStr None; RNum 0]).
Proof. exact clear_fact. Qed.
Print Assumptions C03_clear.

(** Histories that never write or delete the error key itself: reading the error
    always works and there is one exactly when the calls say so. *)
Theorem C03_error_state_partial : forall os s sp h, reached os s sp -> forallb (fun o => negb (names_error o)) os = true ->
  p_at sp h <> None ->
  exists r, step s (OGetError h) = Ok (s, RStr r) /\ (r = None <-> flags 0 (fun _ => false) os h = false).
Proof. exact read_error_fact. Qed.
Print Assumptions C03_error_state_partial.

(** Deleting the error key of an error map: reading the error dereferences null. *)
Theorem C03_delete_error_key_refuted : exists os s, run init os = Ok (s, [RHandle 0; RUnit; ROk true]) /\ step s (OGetError 0) = UB.
Proof. exact error_refuted. Qed.
Print Assumptions C03_delete_error_key_refuted.

Example C03_example : exists s, run init [ONew; OGetError 0; OError 0 "e"; OClone 0; OClear 0; OGetError 0; OGetError 1; OGet 1 "x" 0 ptInt]
  = Ok (s, [RHandle 0; RStr None; RUnit; RHandle 1; RUnit; RStr None; RStr (Some "e"); RVal peError None]).
Proof. eexists. vm_compute. reflexivity. Qed.

(** ** C04 *)
Theorem C04_views_flipped : forall os s sp h m i, reached os s sp -> p_at sp h = Some m ->
  (exists e z, apiGetInt s h "_Range" i = Ok (e, z) /\
     apiGetInt s h "_ColorRange" i = Ok (e, match e with peSuccess => flipRangeProperty z | _ => z end)) /\
  apiNumElements s h "_ColorRange" = apiNumElements s h "_Range" /\
  apiGetType s h "_ColorRange" = apiGetType s h "_Range".
Proof. exact views_fact. Qed.
Print Assumptions C04_views_flipped.

Theorem C04_roundtrip : forall os s sp h m k z, reached os s sp -> p_at sp h = Some m -> pe m = false -> range_name k ->
  exists s', apiSetInt s h k z MReplace = Ok (s', true) /\
    apiGetInt s' h k 0 = Ok (peSuccess, z) /\
    apiGetInt s' h (other_name k) 0 = Ok (peSuccess, flipRangeProperty z) /\
    apiNumElements s' h k = Ok 1 /\ apiNumElements s' h (other_name k) = Ok 1.
Proof. exact alias_roundtrip. Qed.
Print Assumptions C04_roundtrip.

Theorem C04_array_roundtrip : forall os s sp h m k l i z, reached os s sp -> p_at sp h = Some m -> pe m = false -> range_name k -> nthz l i = Some z ->
  exists s', apiSetIntArray s h k l = Ok (s', true) /\
    apiGetInt s' h k i = Ok (peSuccess, z) /\ apiGetInt s' h (other_name k) i = Ok (peSuccess, flipRangeProperty z).
Proof. exact alias_array. Qed.
Print Assumptions C04_array_roundtrip.

Theorem C04_delete : forall os s sp h m, reached os s sp -> p_at sp h = Some m ->
  exists s' b, apiDeleteKey s h "_ColorRange" = Ok (s', b) /\ apiNumElements s' h "_Range" = Ok (-1) /\ apiNumElements s' h "_ColorRange" = Ok (-1).
Proof. exact alias_delete. Qed.
Print Assumptions C04_delete.

(** The bulk reader is right only for a single legal value. *)
Theorem C04_bulk_read_partial : forall os s sp h m k z, reached os s sp -> p_at sp h = Some m -> pe m = false -> range_name k -> z = 0 \/ z = 1 ->
  exists s', apiSetIntArray s h k [z] = Ok (s', true) /\ apiGetIntArray s' h k = Ok (peSuccess, Some [z]).
Proof. exact alias_bulk. Qed.
Print Assumptions C04_bulk_read_partial.

Theorem C04_bulk_read_refuted : exists s s1 s2, run init [ONew] = Ok (s, [RHandle 0]) /\
  apiSetIntArray s 0 "_ColorRange" [5] = Ok (s1, true) /\ apiGetInt s1 0 "_ColorRange" 0 = Ok (peSuccess, 5) /\
  apiGetIntArray s1 0 "_ColorRange" = Ok (peSuccess, Some [0]) /\
  apiSetIntArray s 0 "_ColorRange" [0; 1] = Ok (s2, true) /\ apiGetInt s2 0 "_ColorRange" 0 = Ok (peSuccess, 0) /\
  apiGetIntArray s2 0 "_ColorRange" = Ok (peSuccess, Some [1; 0]).
Proof. exact alias_bulk_refuted. Qed.
Print Assumptions C04_bulk_read_refuted.

Theorem C04_float_invisible_refuted : exists s s1, run init [ONew] = Ok (s, [RHandle 0]) /\
  propSetShared s 0 "_ColorRange" (VFloat 7) MReplace = Ok (s1, true) /\
  mapGet s1 0 "_ColorRange" 0 ptFloat = Ok (peSuccess, Some (VFloat 7)) /\
  apiNumElements s1 0 "_ColorRange" = Ok (-1) /\ apiGetType s1 0 "_ColorRange" = Ok None.
Proof. exact alias_float_refuted. Qed.
Print Assumptions C04_float_invisible_refuted.

Example C04_example : exists s s1, run init [ONew] = Ok (s, [RHandle 0]) /\ apiSetInt s 0 "_ColorRange" 1 MReplace = Ok (s1, true) /\
  apiGetInt s1 0 "_Range" 0 = Ok (peSuccess, 0) /\ apiGetInt s1 0 "_ColorRange" 0 = Ok (peSuccess, 1).
Proof. do 2 eexists. repeat split; vm_compute; reflexivity. Qed.

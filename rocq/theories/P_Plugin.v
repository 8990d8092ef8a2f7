(** Property C91: the register of plugins, their functions, manifests and processor levels. *)
From Coq Require Import String Ascii ZArith List Bool Lia Sorting.Sorted.
From Verif Require Import Common ArgsSpec Args SMap PluginSpec Plugin PluginLemmas.
Import ListNotations.
Open Scope string_scope.
Open Scope list_scope.
Open Scope Z_scope.

(** Whatever was loaded and registered: an identifier and a namespace name the same one plugin. *)
Theorem C91_unique : forall std resize text c l c', coreRegister std resize text = Ok c -> runOps c l = Ok c' ->
  (forall k p, getPluginByID c' k = Some p -> pg_id p = k /\ getPluginByNamespace c' (pg_ns p) = Some p) /\
  (forall n p, getPluginByNamespace c' n = Some p -> pg_ns p = n /\ getPluginByID c' (pg_id p) = Some p).
Proof. exact all_reached. Qed.
Print Assumptions C91_unique.
Definition small : list op :=
  [OLoad "" "" [CConfig "a.b" "ab" "AB" 1 262144 0; CRegister "F" "x:int;" "any"; CRegister "F" "x:float;" "any"]; OLoad "" "" [CConfig "a.c" "ab" "AC" 1 262144 0]; OLoad "ac" "" [CConfig "a.c" "ab" "AC" 1 262144 1]; ORegister "a.b" "G" "" "any"; ORegister "a.c" "G" "" "any"].
Example C91_unique_ex : match obind (coreRegister [] [] []) (fun c => runOps c small) with
  | Ok c => map fst c = ["a.b"; "a.c"; "com.vapoursynth.resize"; "com.vapoursynth.std"; "com.vapoursynth.text"] /\ map (fun e => map fst (pg_funcs (snd e))) c = [["F"]; ["G"]; []; []; []] /\ option_map pg_id (getPluginByNamespace c "ac") = Some "a.c"
  | _ => False end.
Proof. vm_compute. repeat split. Qed.

(** A load succeeds exactly when neither name is taken, and then adds this plugin and nothing else. *)
Theorem C91_load : forall c ns id l p, wellKept c -> newPlugin ns id l = Ok p ->
  ((getPluginByID c (pg_id p) <> None \/ getPluginByNamespace c (pg_ns p) <> None) /\ loadPlugin c ns id l = Err) \/
  (getPluginByID c (pg_id p) = None /\ getPluginByNamespace c (pg_ns p) = None /\ exists c', loadPlugin c ns id l = Ok c' /\ wellKept c' /\
     (forall k, getPluginByID c' k = if String.eqb k (pg_id p) then Some p else getPluginByID c k) /\
     (forall n, getPluginByNamespace c' n = if String.eqb n (pg_ns p) then Some p else getPluginByNamespace c n)).
Proof. exact load_spec. Qed.
Print Assumptions C91_load.
Example C91_load_ex : match coreRegister [] [] [] with Ok c => loadPlugin c "std" "my.id" [CConfig "a.b" "ab" "AB" 1 262144 0] = Err /\ match loadPlugin c "mine" "my.id" [CConfig "a.b" "ab" "AB" 1 262144 0] with Ok c' => option_map pg_ns (getPluginByID c' "my.id") = Some "mine" | _ => False end | _ => False end.
Proof. vm_compute. split; reflexivity. Qed.

(** Asking for the next plugin again and again gives every plugin once, in the order of their identifiers. *)
Theorem C91_plugins_listed : forall std resize text c l c', coreRegister std resize text = Ok c -> runOps c l = Ok c' -> exists L,
  (forall n, (List.length L < n)%nat -> walk (getNextPlugin c') n None = L) /\ StronglySorted (fun a b => String.compare (pg_id a) (pg_id b) = Lt) L /\ (forall p, In p L <-> getPluginByID c' (pg_id p) = Some p).
Proof. exact listed. Qed.
Print Assumptions C91_plugins_listed.
Example C91_plugins_listed_ex : match obind (coreRegister [] [] []) (fun c => runOps c small) with
  | Ok c => map pg_ns (walk (getNextPlugin c) 9 None) = ["ab"; "ac"; "resize"; "std"; "text"] | _ => False end.
Proof. vm_compute. reflexivity. Qed.

(** So do the functions of every plugin, and their names are identifiers. *)
Theorem C91_functions_listed : forall std resize text c l c' id p, coreRegister std resize text = Ok c -> runOps c l = Ok c' -> getPluginByID c' id = Some p -> exists L,
  (forall n, (List.length L < n)%nat -> walk (getNextFunction p) n None = L) /\ StronglySorted (fun a b => String.compare (fn_name a) (fn_name b) = Lt) L /\
  (forall f, In f L <-> mget (fn_name f) (pg_funcs p) = Some f) /\ forall f, In f L -> identifier (T (fn_name f)).
Proof. exact functions_listed. Qed.
Print Assumptions C91_functions_listed.
Example C91_functions_listed_ex : match registerAll (blankPlugin "n" "i") [("Zoom", "", "any"); ("Add", "", "any"); ("9", "", "any")] with Ok p => map fn_name (walk (getNextFunction p) 9 None) = ["Add"; "Zoom"] | _ => False end.
Proof. vm_compute. reflexivity. Qed.

(** In an open plugin every name is bound by its first acceptable registration. *)
Theorem C91_first_wins : forall l p q, pg_ro p = false -> registerAll p l = Ok q ->
  pg_id q = pg_id p /\ pg_ns q = pg_ns p /\ forall n, mget n (pg_funcs q) = match mget n (pg_funcs p) with Some f => Some f | None => firstValid p l n end.
Proof. exact register_all. Qed.
Print Assumptions C91_first_wins.
Example C91_first_wins_ex : match registerAll (mkP "n" "i" "" 1 4 0 true false false []) [("F", "x:wrong;", "any"); ("F", "x:int;", "any"); ("F", "y:int;", "any")] with
  | Ok p => option_map fn_text (mget "F" (pg_funcs p)) = Some (T "x:int;") | _ => False end.
Proof. vm_compute. reflexivity. Qed.

(** A library that did not ask to stay open is locked, and a locked plugin never changes. *)
Theorem C91_locked : forall c ns id l p, newPlugin ns id l = Ok p -> pg_roSet p = true ->
  forall ops c' k, getPluginByID c k = Some p -> runOps c ops = Ok c' -> getPluginByID c' k = Some p.
Proof. intros c ns id l p N RS ops c' k G R. exact (ops_locked ops c c' k p G (proj2 (new_named ns id l p N) RS) R). Qed.
Print Assumptions C91_locked.
Example C91_locked_ex : match newPlugin "" "" [CConfig "a.b" "ab" "AB" 1 262144 0; CRegister "F" "" "any"] with Ok p => pg_roSet p = true /\ registerFunction p "G" "" "any" = Ok (p, false) | _ => False end.
Proof. vm_compute. split; reflexivity. Qed.

(** No function and no plugin ever disappears or is replaced. *)
Theorem C91_stays : forall l c c' id p n f, getPluginByID c id = Some p -> mget n (pg_funcs p) = Some f -> runOps c l = Ok c' ->
  exists p', getPluginByID c' id = Some p' /\ pg_id p' = pg_id p /\ pg_ns p' = pg_ns p /\ mget n (pg_funcs p') = Some f.
Proof. exact ops_functions. Qed.
Print Assumptions C91_stays.
Example C91_stays_ex : match obind (coreRegister [CRegister "Trim" "clip:vnode;" "clip:vnode;"] [] []) (fun c => runOps c (small ++ [ORegister "com.vapoursynth.std" "Trim" "" "any"])) with
  | Ok c => match getPluginByNamespace c "std" with Some p => map fn_text (walk (getNextFunction p) 5 None) = [T "clip:vnode;"] | None => False end | _ => False end.
Proof. vm_compute. reflexivity. Qed.

(** The names a manifest asks for are its lines after the heading. *)
Theorem C91_manifest : forall limit s, (List.length s <= limit)%nat -> existsb (fun c => negb (lineEnd c)) s = true -> manifestOf limit s = Ok (asked s).
Proof. exact manifest_ok. Qed.
Print Assumptions C91_manifest.
Definition nl : text := [ascii_of_nat 13; ascii_of_nat 10].
Example C91_manifest_ex : manifestOf 100 (nl ++ manifestHeader ++ nl ++ nl ++ T "one" ++ nl ++ T "two") = Ok (Some [T "one"; T "two"]).
Proof. vm_compute. reflexivity. Qed.

(** The greatest level with a library of its own is taken, otherwise the plain library. *)
Theorem C91_level : forall there abi, let r := chooseLevel there abi in
  (r = 1 \/ (1 < r <= abi /\ there r = true)) /\ forall k, 1 < k <= abi -> there k = true -> k <= r.
Proof. exact level_ok. Qed.
Print Assumptions C91_level.
Example C91_level_ex : chooseLevel (fun k => (k =? 3) || (k =? 2) || (k =? 4)) 3 = 3 /\ chooseLevel (fun _ => false) 4 = 1.
Proof. split; reflexivity. Qed.

(** A plugin of the core that asked to be locked takes new functions. *)
Theorem C91_locked_refuted : exists c p c', coreRegister [] [] [] = Ok c /\ getPluginByNamespace c "resize" = Some p /\ pg_roSet p = true /\ runOps c [ORegister (pg_id p) "Mine" "" "any"] = Ok c' /\
  getPluginByID c' (pg_id p) <> Some p.
Proof.
  destruct (coreRegister [] [] []) as [c| |] eqn:C; vm_compute in C; try discriminate. exists c. injection C as <-.
  eexists. eexists. split; [reflexivity|]. split; [reflexivity|]. split; [reflexivity|]. split; [reflexivity|]. discriminate.
Qed.
Print Assumptions C91_locked_refuted.

(** A manifest of nothing but line ends is not complained about: the exception of substr ends the process. *)
Theorem C91_manifest_refuted : forall limit s, (0 < limit)%nat -> s <> [] -> existsb (fun c => negb (lineEnd c)) s = false -> manifestOf limit s = UB.
Proof. exact manifest_blank. Qed.
Print Assumptions C91_manifest_refuted.
Example C91_manifest_refuted_ex : manifestOf 10000 nl = UB.
Proof. reflexivity. Qed.

(** A longer manifest is cut: the last name may lose its end. *)
Theorem C91_long_manifest_refuted : exists limit s, manifestOf limit s <> Ok (asked s) /\ existsb (fun c => negb (lineEnd c)) s = true.
Proof. exists 30%nat, (manifestHeader ++ nl ++ T "one" ++ nl ++ T "two"). vm_compute. split; [discriminate|reflexivity]. Qed.
Print Assumptions C91_long_manifest_refuted.

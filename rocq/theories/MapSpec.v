(** Property maps as pure values: the interface and the abstract behaviour.
    Does not import the model. *)
From Coq Require Import ZArith List Lia Bool String Ascii.
From Verif Require Import Common SMap.
Import ListNotations.
Open Scope Z_scope.

(** include/VapourSynth4.h:236-245 *)
Inductive ptype := ptInt | ptFloat | ptData | ptFunction | ptVideoNode | ptAudioNode | ptVideoFrame | ptAudioFrame.

(** A stored element.  Doubles, nodes, frames and functions are opaque. *)
Inductive val :=
| VInt (i : Z) | VFloat (d : Z) | VData (hint : Z) (s : string)
| VFunction (p : Z) | VNode (audio : bool) (p : Z) | VFrame (audio : bool) (p : Z).

Definition vtype (v : val) : ptype :=
  match v with
  | VInt _ => ptInt | VFloat _ => ptFloat | VData _ _ => ptData | VFunction _ => ptFunction
  | VNode a _ => if a then ptAudioNode else ptVideoNode
  | VFrame a _ => if a then ptAudioFrame else ptVideoFrame
  end.

Definition ptype_eqb (a b : ptype) : bool :=
  match a, b with
  | ptInt, ptInt | ptFloat, ptFloat | ptData, ptData | ptFunction, ptFunction
  | ptVideoNode, ptVideoNode | ptAudioNode, ptAudioNode
  | ptVideoFrame, ptVideoFrame | ptAudioFrame, ptAudioFrame => true
  | _, _ => false
  end.

Lemma ptype_eqb_spec : forall a b, reflect (a = b) (ptype_eqb a b).
Proof. destruct a, b; simpl; constructor; congruence. Qed.

Inductive mode := MReplace | MAppend | MTouch.

(** Operations.  [nat]: a map handle, numbered in order of creation. *)
Inductive mop :=
| ONew | OClone (h : nat) | OAssign (dst src : nat) | OFree (h : nat)
| OCopy (src dst : nat) | OClear (h : nat) | OError (h : nat) (msg : string)
| ODelete (h : nat) (k : string) | OSet (h : nat) (k : string) (v : val) (m : mode)
| OEmpty (h : nat) (k : string) (t : ptype) | OArray (h : nat) (k : string) (t : ptype) (l : list val)
| OGet (h : nat) (k : string) (i : Z) (t : ptype) | OGetAll (h : nat) (k : string) (t : ptype)
| OCount (h : nat) (k : string) | OType (h : nat) (k : string)
| ONumKeys (h : nat) | OKey (h : nat) (n : Z) | OGetError (h : nat).

(** include/VapourSynth4.h:246-252 *)
Inductive perr := peSuccess | peUnset | peType | peIndex | peError.

Inductive mres :=
| RUnit | RHandle (h : nat) | ROk (b : bool) | RVal (e : perr) (v : option val)
| RVals (e : perr) (l : option (list val)) | RNum (n : Z) | RType (t : option ptype)
| RStr (s : option string).

(** A map as a value: typed sequences under keys, and the error flag. *)
Record pmap := { pm : smap (ptype * list val); pe : bool }.
Definition set_pm m x := {| pm := x; pe := pe m |}.
Definition fresh : pmap := {| pm := []; pe := false |}.

(** Keys are C identifiers. *)
Definition is_lower (c : ascii) := (97 <=? Z.of_N (N_of_ascii c)) && (Z.of_N (N_of_ascii c) <=? 122).
Definition is_upper (c : ascii) := (65 <=? Z.of_N (N_of_ascii c)) && (Z.of_N (N_of_ascii c) <=? 90).
Definition is_digit (c : ascii) := (48 <=? Z.of_N (N_of_ascii c)) && (Z.of_N (N_of_ascii c) <=? 57).
Definition is_word (c : ascii) := is_lower c || is_upper c || is_digit c || (Z.of_N (N_of_ascii c) =? 95).
Definition identifier (s : string) : bool :=
  match list_ascii_of_string s with
  | [] => false
  | c :: t => negb (is_digit c) && forallb is_word (c :: t)
  end.

Definition lookup_at (m : pmap) (k : string) (i : Z) (t : ptype) : perr * option val :=
  if pe m then (peError, None)
  else match mget k (pm m) with
       | None => (peUnset, None)
       | Some (t', l) =>
         match nthz l i with
         | None => (peIndex, None)
         | Some v => if ptype_eqb t' t then (peSuccess, Some v) else (peType, None)
         end
       end.

Definition lookup_all (m : pmap) (k : string) (t : ptype) : perr * option (list val) :=
  if pe m then (peError, None)
  else match mget k (pm m) with
       | None => (peUnset, None)
       | Some (t', l) =>
         match l with
         | [] => (peIndex, None)
         | _ => if ptype_eqb t' t then (peSuccess, Some l) else (peType, None)
         end
       end.

(** [None]: no change, failure reported. *)
Definition set_value (m : pmap) (k : string) (v : val) (md : mode) : option pmap :=
  if negb (identifier k) then None
  else match md with
       | MReplace => Some (set_pm m (mput k (vtype v, [v]) (pm m)))
       | MAppend => match mget k (pm m) with
                    | None => Some (set_pm m (mput k (vtype v, [v]) (pm m)))
                    | Some (t, l) => if ptype_eqb t (vtype v) then Some (set_pm m (mput k (t, l ++ [v]) (pm m))) else None
                    end
       | MTouch => match mget k (pm m) with
                   | None => Some (set_pm m (mput k (vtype v, []) (pm m)))
                   | Some _ => None
                   end
       end.

Definition set_empty (m : pmap) (k : string) (t : ptype) : option pmap :=
  if negb (identifier k) then None
  else match mget k (pm m) with None => Some (set_pm m (mput k (t, []) (pm m))) | Some _ => None end.

Definition set_array (m : pmap) (k : string) (t : ptype) (l : list val) : option pmap :=
  if negb (identifier k) then None else Some (set_pm m (mput k (t, l) (pm m))).

Definition merge_into (dst src : pmap) : pmap :=
  set_pm dst (fold_left (fun m p => mput (fst p) (snd p) m) (pm src) (pm dst)).

Definition error_map (msg : string) : pmap := {| pm := [("_Error"%string, (ptData, [VData 1 msg]))]; pe := true |}.

(** The message of an error map; [None] when the map has no well formed
    message although it is flagged. *)
Definition error_text (m : pmap) : option (option string) :=
  if pe m then
    match mget "_Error" (pm m) with
    | Some (ptData, VData _ s :: _) => Some (Some s)
    | _ => None
    end
  else Some None.

(** All live maps; every handle owns its own value. *)
Record spec := { p_next : nat; p_at : nat -> option pmap }.
Definition s_init : spec := {| p_next := 0; p_at := fun _ => None |}.
Definition s_put (s : spec) (h : nat) (m : pmap) : spec :=
  {| p_next := p_next s; p_at := fun x => if Nat.eqb x h then Some m else p_at s x |}.
Definition s_del (s : spec) (h : nat) : spec :=
  {| p_next := p_next s; p_at := fun x => if Nat.eqb x h then None else p_at s x |}.
Definition s_new (s : spec) (m : pmap) : spec * mres :=
  ({| p_next := S (p_next s); p_at := fun x => if Nat.eqb x (p_next s) then Some m else p_at s x |}, RHandle (p_next s)).

Definition s_try (s : spec) (h : nat) (r : option pmap) : spec * mres :=
  match r with Some m => (s_put s h m, ROk true) | None => (s, ROk false) end.

(** [None]: the call is not allowed (dead handle, ill typed array, no message). *)
Definition s_step (s : spec) (o : mop) : option (spec * mres) :=
  let on h f := match p_at s h with Some m => f m | None => None end in
  match o with
  | ONew => Some (s_new s fresh)
  | OClone h => on h (fun m => Some (s_new s m))
  | OAssign d h => on d (fun _ => on h (fun m => Some (s_put s d m, RUnit)))
  | OFree h => on h (fun _ => Some (s_del s h, RUnit))
  | OCopy h d => on d (fun md => on h (fun m => Some (if Nat.eqb h d then s else s_put s d (merge_into md m), RUnit)))
  | OClear h => on h (fun _ => Some (s_put s h fresh, RUnit))
  | OError h msg => on h (fun _ => Some (s_put s h (error_map msg), RUnit))
  | ODelete h k => on h (fun m => Some (match mget k (pm m) with
                                        | None => (s, ROk false)
                                        | Some _ => (s_put s h (set_pm m (mdel k (pm m))), ROk true) end))
  | OSet h k v md => on h (fun m => Some (s_try s h (set_value m k v md)))
  | OEmpty h k t => on h (fun m => Some (s_try s h (set_empty m k t)))
  | OArray h k t l => on h (fun m => if forallb (fun v => ptype_eqb (vtype v) t) l
                                     then Some (s_try s h (set_array m k t l)) else None)
  | OGet h k i t => on h (fun m => let r := lookup_at m k i t in Some (s, RVal (fst r) (snd r)))
  | OGetAll h k t => on h (fun m => let r := lookup_all m k t in Some (s, RVals (fst r) (snd r)))
  | OCount h k => on h (fun m => Some (s, RNum (match mget k (pm m) with Some (_, l) => zlength l | None => -1 end)))
  | OType h k => on h (fun m => Some (s, RType (option_map fst (mget k (pm m)))))
  | ONumKeys h => on h (fun m => Some (s, RNum (zlength (pm m))))
  | OKey h n => on h (fun m => Some (s, RStr (option_map fst (nthz (pm m) n))))
  | OGetError h => on h (fun m => match error_text m with Some r => Some (s, RStr r) | None => None end)
  end.

Fixpoint s_run (s : spec) (os : list mop) : option (spec * list mres) :=
  match os with
  | [] => Some (s, [])
  | o :: t => match s_step s o with
              | None => None
              | Some (s1, r) => match s_run s1 t with Some (s2, rs) => Some (s2, r :: rs) | None => None end
              end
  end.

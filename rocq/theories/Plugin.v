(** Plugins and their functions: src/core/vscore.cpp:1843-1930, 2040-2071, 2118-2185, 2226-2460; vscore.h:1083-1110.  Locks are left out: every call is taken as a whole.  Loading a library and calling its entry point is the list of calls the entry point makes. *)
From Coq Require Import String Ascii ZArith List Bool Lia.
From Verif Require Import Common ArgsSpec Args SMap PluginSpec.
Import ListNotations.
Open Scope string_scope.
Open Scope list_scope.
Open Scope Z_scope.

(** VSPluginFunction, vscore.cpp:517-524: name, argument text, arguments, returned values ([None]: any). *)
Record pfunc := mkF { fn_name : string; fn_text : text; fn_args : list arg; fn_ret : option (list arg) }.
(** VSPlugin: namespace, identifier, versions, flags, functions. *)
Record plugin := mkP { pg_ns : string; pg_id : string; pg_name : string; pg_version : Z; pg_major : Z; pg_minor : Z; pg_config : bool; pg_ro : bool; pg_roSet : bool; pg_funcs : smap pfunc }.
Definition blankPlugin (ns id : string) : plugin := mkP ns id "" 0 0 0 false false false [].
Definition withFuncs (p : plugin) (f : smap pfunc) : plugin := mkP (pg_ns p) (pg_id p) (pg_name p) (pg_version p) (pg_major p) (pg_minor p) (pg_config p) (pg_ro p) (pg_roSet p) f.
Definition withLock (p : plugin) (b : bool) : plugin := mkP (pg_ns p) (pg_id p) (pg_name p) (pg_version p) (pg_major p) (pg_minor p) (pg_config p) b (pg_roSet p) (pg_funcs p).

(** configPlugin, vscore.cpp:2370-2395; UB: logFatal ends the process. *)
Definition configPlugin (p : plugin) (ident ns name : string) (version api flags : Z) : outcome plugin :=
  if pg_config p then UB
  else if negb (Z.land flags (Z.lnot 1) =? 0) then UB
  else
    let big := 65536 <=? api in
    Ok (mkP (if String.eqb (pg_ns p) "" then ns else pg_ns p) (if String.eqb (pg_id p) "" then ident else pg_id p) name version
          (if big then Z.shiftr api 16 else api) (if big then Z.land api 65535 else pg_minor p) true (pg_ro p) (Z.land flags 1 =? 0) (pg_funcs p)).

(** parseArgString for the version a plugin is written for; before it said so (version 0) no word for nodes or frames is known. *)
Definition plainType (t : argType) : bool := match t with tVNode | tANode | tVFrame | tAFrame => false | _ => true end.
Definition parseFor (major : Z) (s : text) : outcome (list arg) :=
  if major =? 3 then parseArgString true s
  else if 3 <? major then parseArgString false s
  else obind (parseArgString false s) (fun l => if forallb (fun a => plainType (a_type a)) l then Ok l else Err).
Definition makeFunction (p : plugin) (name args ret : string) : outcome pfunc :=
  obind (parseFor (pg_major p) (T args)) (fun a =>
  obind (if pg_major p =? 3 then argText false a else Ok (T args)) (fun t =>
  obind (if String.eqb ret "any" then Ok None else obind (parseFor (pg_major p) (T ret)) (fun r => Ok (Some r))) (fun r =>
  Ok (mkF name t a r)))).
(** registerFunction, vscore.cpp:2397-2423: false when it is refused. *)
Definition registerFunction (p : plugin) (name args ret : string) : outcome (plugin * bool) :=
  if pg_ro p then Ok (p, false)
  else if negb (isValidIdentifier (T name)) then Ok (p, false)
  else match mget name (pg_funcs p) with
       | Some _ => Ok (p, false)
       | None => match makeFunction p name args ret with
                 | Ok f => Ok (withFuncs p (mput name f (pg_funcs p)), true)
                 | Err => Ok (p, false)
                 | UB => UB
                 end
       end.

(** What an entry point calls. *)
Inductive call := CConfig (ident ns name : string) (version api flags : Z) | CRegister (name args ret : string).
Fixpoint runInit (p : plugin) (l : list call) : outcome plugin :=
  match l with
  | [] => Ok p
  | CConfig i n m v a f :: r => obind (configPlugin p i n m v a f) (fun p => runInit p r)
  | CRegister n a t :: r => obind (registerFunction p n a t) (fun q => runInit (fst q) r)
  end.
(** The constructor for libraries, vscore.cpp:2243-2358; Err: an exception.  The minor version the core was built for is 2 at most. *)
Definition supported (p : plugin) : bool := ((pg_major p =? 4) && (pg_minor p <=? 2)) || ((pg_major p =? 3) && (pg_minor p <=? 6)).
Definition newPlugin (ns id : string) (l : list call) : outcome plugin :=
  obind (runInit (blankPlugin ns id) l) (fun p =>
  let p := if pg_roSet p then withLock p true else p in
  if supported p then Ok p else Err).

(** std::map<std::string, VSPlugin *>, and vscore.cpp:2129-2185. *)
Definition register := smap plugin.
Definition getPluginByID (c : register) (id : string) : option plugin := mget id c.
Definition getPluginByNamespace (c : register) (ns : string) : option plugin := option_map snd (find (fun e => String.eqb (pg_ns (snd e)) ns) c).
(** The entry after a key. *)
Fixpoint after {A} (k : string) (m : smap A) : option A :=
  match m with [] => None | (k', _) :: r => if String.eqb k k' then match r with [] => None | e :: _ => Some (snd e) end else after k r end.
Definition first {A} (m : smap A) : option A := match m with [] => None | e :: _ => Some (snd e) end.
Definition getNextPlugin (c : register) (p : option plugin) : option plugin := match p with None => first c | Some p => after (pg_id p) c end.
Definition getNextFunction (p : plugin) (f : option pfunc) : option pfunc := match f with None => first (pg_funcs p) | Some f => after (fn_name f) (pg_funcs p) end.
Definition loadPlugin (c : register) (ns id : string) (l : list call) : outcome register :=
  obind (newPlugin ns id l) (fun p =>
  match getPluginByID c (pg_id p) with
  | Some _ => Err
  | None => match getPluginByNamespace c (pg_ns p) with Some _ => Err | None => Ok (mput (pg_id p) p c) end
  end).
(** Calls on a running core; a refused load changes nothing. *)
Inductive op := OLoad (ns id : string) (l : list call) | ORegister (id name args ret : string).
Definition stepOp (c : register) (o : op) : outcome register :=
  match o with
  | OLoad ns id l => match loadPlugin c ns id l with Err => Ok c | r => r end
  | ORegister id n a t => match getPluginByID c id with None => Ok c | Some p => obind (registerFunction p n a t) (fun q => Ok (mput id (fst q) c)) end
  end.
Fixpoint runOps (c : register) (l : list op) : outcome register := match l with [] => Ok c | o :: r => obind (stepOp c o) (fun c => runOps c r) end.

(** vscore.cpp:2046-2069: the plugins of the core itself; the first is locked, the others are put in as they are. *)
Definition coreRegister (std resize text : list call) : outcome register :=
  obind (newPlugin "" "" (CConfig "com.vapoursynth.std" "std" "VapourSynth Core Functions" 0 262146 1 :: std)) (fun s =>
  obind (runInit (blankPlugin "" "") (CConfig "com.vapoursynth.resize" "resize" "VapourSynth Resize" 0 262146 0 :: resize)) (fun r =>
  obind (runInit (blankPlugin "" "") (CConfig "com.vapoursynth.text" "text" "VapourSynth Text" 0 262146 0 :: text)) (fun t =>
  Ok (mput (pg_id t) t (mput (pg_id r) r (mput (pg_id s) (withLock s true) [])))))).

(** ** Manifests, vscore.cpp:1843-1901 *)

(** A position is the rest of the text from there, npos is None. *)
Fixpoint findNot (s : text) : option text := match s with [] => None | c :: r => if lineEnd c then findNot r else Some s end.
Fixpoint findEnd (s : text) : option text := match s with [] => None | c :: r => if lineEnd c then Some s else findEnd r end.
(** UB: std::out_of_range from substr, which nobody catches. *)
Fixpoint splitLoop (fuel : nat) (last pos : option text) : outcome (list text) :=
  match fuel with
  | O => Ok []
  | S k => match pos with
           | None => Ok (match last with None => [] | Some l => [l] end)
           | Some p => match last with
                       | None => UB
                       | Some l => let last' := findNot (tl p) in
                                   obind (splitLoop k last' (match last' with None => None | Some l' => findEnd l' end)) (fun r =>
                                   Ok (firstn (List.length l - List.length p) l :: r))
                       end
           end
  end.
(** lastPos + 1 is 0 when lastPos is npos. *)
Definition splitLines (s : text) : outcome (list text) :=
  let last := findNot s in splitLoop (S (List.length s)) last (findEnd (match last with Some l => tl l | None => s end)).
Definition manifestHeader : text := T "[VapourSynth Manifest V1]".
(** The names a manifest asks for; None: the file is complained about.  [limit]: 10000. *)
Definition manifestOf (limit : nat) (s : text) : outcome (option (list text)) :=
  match firstn limit s with
  | [] => Ok None
  | c => obind (splitLines c) (fun l => match l with [] => Ok None | h :: r => if teq h manifestHeader then Ok (Some (filter nonempty r)) else Ok None end)
  end.

(** vscore.cpp:2249-2278: for (level = abiLevel; level > 1; --level) if the file is there, take it. *)
Fixpoint tryLevels (there : Z -> bool) (level : Z) (n : nat) : Z := match n with O => 1 | S k => if there level then level else tryLevels there (level - 1) k end.
Definition chooseLevel (there : Z -> bool) (abi : Z) : Z := tryLevels there abi (Z.to_nat (abi - 1)).

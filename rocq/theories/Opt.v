(** The command line of vspipe: src/vspipe/vspipe.cpp:629-637 (svToInt64, svToInt) and 702-895 (parseOptions). *)
From Coq Require Import String Ascii ZArith List Bool Lia.
From Verif Require Import Common OptSpec.
Import ListNotations.
Open Scope Z_scope.

Definition teq (a b : text) : bool := if list_eq_dec ascii_dec a b then true else false.
(** std::from_chars for a signed type, base 10: an optional minus sign and as many digits as there are.  The value, if any digits were found; and what is left.  Without digits nothing is consumed, not even the sign. *)
Fixpoint scan (acc : Z) (t : text) : Z * text :=
  match t with [] => (acc, []) | c :: r => let n := Z.of_nat (nat_of_ascii c) in if (48 <=? n) && (n <=? 57) then scan (acc * 10 + (n - 48)) r else (acc, t) end.
Definition fromChars (t : text) : option Z * text :=
  let '(neg, r) := match t with c :: r => if Ascii.eqb c "-" then (true, r) else (false, t) | [] => (false, t) end in
  let '(v, rest) := scan 0 r in
  if Nat.eqb (length rest) (length r) then (None, t) else (Some (if neg then - v else v), rest).
(** svToInt64, svToInt: only the pointer is looked at.  A value out of range leaves the target alone, like a string without digits. *)
Definition svTo (lo hi : Z) (t : text) (target : Z) : outcome Z :=
  let '(v, rest) := fromChars t in
  match rest with
  | [] => Ok (match v with Some v => if (lo <=? v) && (v <=? hi) then v else target | None => target end)
  | _ => Err
  end.
Definition svToInt64 := svTo INT64_MIN INT64_MAX.
Definition svToInt := svTo INT_MIN INT_MAX.

(** find and substr, 846-851. *)
Fixpoint splitEq (t : text) : option (text * text) :=
  match t with [] => None | c :: r => if Ascii.eqb c "=" then Some ([], r) else option_map (fun p => (c :: fst p, snd p)) (splitEq r) end.
(** scriptArgs is a std::map; its order does not matter here. *)
Fixpoint putArg (k v : text) (m : list (text * text)) : list (text * text) :=
  match m with [] => [(k, v)] | (k', v') :: r => if teq k k' then (k, v) :: r else (k', v') :: putArg k v r end.
Definition setMode m o := mkO m (o_headers o) (o_start o) (o_end o) (o_index o) (o_requests o) (o_progress o) (o_refDebug o) (o_filterTime o) (o_script o) (o_output o) (o_timecodes o) (o_json o) (o_graph o) (o_args o).
Definition setHeaders h o := mkO (o_mode o) h (o_start o) (o_end o) (o_index o) (o_requests o) (o_progress o) (o_refDebug o) (o_filterTime o) (o_script o) (o_output o) (o_timecodes o) (o_json o) (o_graph o) (o_args o).
Definition setNums s e i r o := mkO (o_mode o) (o_headers o) s e i r (o_progress o) (o_refDebug o) (o_filterTime o) (o_script o) (o_output o) (o_timecodes o) (o_json o) (o_graph o) (o_args o).
Definition setFlags p d f o := mkO (o_mode o) (o_headers o) (o_start o) (o_end o) (o_index o) (o_requests o) p d f (o_script o) (o_output o) (o_timecodes o) (o_json o) (o_graph o) (o_args o).
Definition setFiles s u t j g o := mkO (o_mode o) (o_headers o) (o_start o) (o_end o) (o_index o) (o_requests o) (o_progress o) (o_refDebug o) (o_filterTime o) s u t j g (o_args o).
Definition setArgs a o := mkO (o_mode o) (o_headers o) (o_start o) (o_end o) (o_index o) (o_requests o) (o_progress o) (o_refDebug o) (o_filterTime o) (o_script o) (o_output o) (o_timecodes o) (o_json o) (o_graph o) a.
Definition is (a : text) (s l : string) : bool := teq a (T s) || teq a (T l).
Definition graphMode (m : mode) : bool := match m with mSimpleGraph | mFullGraph => true | _ => false end.
Definition infoMode (m : mode) : bool := match m with mInfo => true | _ => false end.
Definition empty (t : text) : bool := match t with [] => true | _ => false end.
(** The loop; Err: 1 is returned. *)
Fixpoint parse (argc : Z) (l : list text) (o : opts) : outcome opts :=
  match l with
  | [] => Ok o
  | a :: r =>
      if is a "-v" "--version" then if 2 <? argc then Err else parse argc r (setMode mVersion o)
      else if is a "-c" "--container" then
        match r with [] => Err | v :: r => if teq v (T "y4m") then parse argc r (setHeaders hY4M o) else if teq v (T "wav") then parse argc r (setHeaders hWave o) else if teq v (T "w64") then parse argc r (setHeaders hWave64 o) else Err end
      else if is a "-p" "--progress" then parse argc r (setFlags true (o_refDebug o) (o_filterTime o) o)
      else if teq a (T "--frame-ref-debug") then parse argc r (setFlags (o_progress o) true (o_filterTime o) o)
      else if teq a (T "--filter-time") then parse argc r (setFlags (o_progress o) (o_refDebug o) true o)
      else if teq a (T "--filter-time-graph") then match r with [] => Err | v :: r => parse argc r (setFiles (o_script o) (o_output o) (o_timecodes o) (o_json o) v o) end
      else if is a "-i" "--info" then if graphMode (o_mode o) then Err else parse argc r (setMode mInfo o)
      else if is a "-g" "--graph" then
        if infoMode (o_mode o) then Err else
        match r with [] => Err | v :: r => if teq v (T "simple") then parse argc r (setMode mSimpleGraph o) else if teq v (T "full") then parse argc r (setMode mFullGraph o) else Err end
      else if is a "-h" "--help" then if 2 <? argc then Err else parse argc r (setMode mHelp o)
      else if is a "-s" "--start" then
        match r with [] => Err | v :: r => obind (svToInt64 v (o_start o)) (fun n => if n <? 0 then Err else parse argc r (setNums n (o_end o) (o_index o) (o_requests o) o)) end
      else if is a "-e" "--end" then
        match r with [] => Err | v :: r => obind (svToInt64 v (o_end o)) (fun n => if n <? 0 then Err else parse argc r (setNums (o_start o) n (o_index o) (o_requests o) o)) end
      else if is a "-o" "--outputindex" then
        match r with [] => Err | v :: r => obind (svToInt v (o_index o)) (fun n => parse argc r (setNums (o_start o) (o_end o) n (o_requests o) o)) end
      else if is a "-r" "--requests" then
        match r with [] => Err | v :: r => obind (svToInt v (o_requests o)) (fun n => parse argc r (setNums (o_start o) (o_end o) (o_index o) n o)) end
      else if is a "-a" "--arg" then
        match r with [] => Err | v :: r => match splitEq v with None => Err | Some (k, x) => parse argc r (setArgs (putArg k x (o_args o)) o) end end
      else if is a "-t" "--timecodes" then match r with [] => Err | v :: r => parse argc r (setFiles (o_script o) (o_output o) v (o_json o) (o_graph o) o) end
      else if is a "-j" "--json" then match r with [] => Err | v :: r => parse argc r (setFiles (o_script o) (o_output o) (o_timecodes o) v (o_graph o) o) end
      else if empty (o_script o) && negb (empty a) && negb (dash a) then parse argc r (setFiles a (o_output o) (o_timecodes o) (o_json o) (o_graph o) o)
      else if empty (o_output o) && negb (empty a) && (teq a (T "-") || teq a (T "--") || negb (dash a)) then parse argc r (setFiles (o_script o) a (o_timecodes o) (o_json o) (o_graph o) o)
      else Err
  end.
Definition parseOptions (l : list text) : outcome opts :=
  let argc := zlength l + 1 in
  obind (parse argc l defaults) (fun o =>
  let o := if argc <=? 1 then setMode mHelp o else o in
  if match o_mode o with mVersion | mHelp => false | _ => true end && empty (o_script o) then Err
  else if match o_mode o with mOutput => true | _ => false end && empty (o_output o) then Err else Ok o).

(** Signature strings and argument checking: src/core/vscore.cpp:40-59, 417-441, 443-515, 517-524, 526-569, 602-640, 642-678. *)
From Coq Require Import String Ascii ZArith List Bool Lia.
From Verif Require Import Common ArgsSpec.
Import ListNotations.
Open Scope list_scope.

Definition teq (a b : text) : bool := if list_eq_dec ascii_dec a b then true else false.
(** isAlpha, isAlphaNumUnderscore, isValidIdentifier, vscore.cpp:40-59; chars compare like their codes, which are below 128 in all bounds. *)
Definition between (a b : ascii) (c : ascii) : bool := (nat_of_ascii a <=? nat_of_ascii c)%nat && (nat_of_ascii c <=? nat_of_ascii b)%nat.
Definition isAlpha (c : ascii) : bool := between "a" "z" c || between "A" "Z" c.
Definition isAlphaNumUnderscore (c : ascii) : bool := between "a" "z" c || between "A" "Z" c || between "0" "9" c || Ascii.eqb c "_".
Definition isValidIdentifier (s : text) : bool := match s with [] => false | c :: r => isAlpha c && forallb isAlphaNumUnderscore r end.

(** split with no_empties and a single delimiter, vscore.cpp:421-441: find_first_not_of, find_first_of, substr; UB: never. *)
Fixpoint skip (d : ascii) (s : text) : text := match s with c :: r => if Ascii.eqb c d then skip d r else s | [] => [] end.
Fixpoint span (d : ascii) (s : text) : text * text :=
  match s with [] => ([], []) | c :: r => if Ascii.eqb c d then ([], s) else let '(w, t) := span d r in (c :: w, t) end.
Fixpoint split (fuel : nat) (d : ascii) (s : text) : list text :=
  match fuel with
  | O => []
  | S k => match skip d s with
           | [] => []
           | s' => let '(w, t) := span d s' in w :: match t with [] => [] | _ :: t => split k d t end
           end
  end.
Definition splitAt (d : ascii) (s : text) : list text := split (S (List.length s)) d s.

(** parseArgString, vscore.cpp:443-515; Err: an exception (the messages are left out, so the order of the tests does not show). *)
Definition typeOf (v3 : bool) (n : text) : option argType :=
  if teq n (T "int") then Some tInt else if teq n (T "float") then Some tFloat else if teq n (T "data") then Some tData
  else if (teq n (T "vnode") && negb v3) || (v3 && teq n (T "clip")) then Some tVNode
  else if teq n (T "anode") && negb v3 then Some tANode
  else if (teq n (T "vframe") && negb v3) || (v3 && teq n (T "frame")) then Some tVFrame
  else if teq n (T "aframe") && negb v3 then Some tAFrame
  else if teq n (T "func") then Some tFunc else None.
Fixpoint mods (l : list text) (opt empty : bool) : outcome (bool * bool) :=
  match l with
  | [] => Ok (opt, empty)
  | m :: r => if teq m (T "opt") then (if opt then Err else mods r true empty)
              else if teq m (T "empty") then (if empty then Err else mods r opt true) else Err
  end.
Definition parseEntry (v3 : bool) (e : text) : outcome arg :=
  match splitAt ":" e with
  | [w] => if teq w (T "any") then Ok (mkA [] tAny false false false) else Err
  | n :: t :: m =>
      let l := List.length t in
      let arr := (2 <? l)%nat && teq (skipn (l - 2) t) (T "[]") in
      let t := if arr then firstn (l - 2) t else t in
      match typeOf v3 t with
      | None => Err
      | Some ty => obind (mods m false false) (fun oe => let '(opt, empty) := oe in
                   if negb (isValidIdentifier n) then Err else if empty && negb arr then Err else Ok (mkA n ty arr empty opt))
      end
  | _ => Err
  end.
Fixpoint parseEntries (v3 : bool) (l : list text) : outcome (list arg) :=
  match l with [] => Ok [] | e :: r => obind (parseEntry v3 e) (fun a => obind (parseEntries v3 r) (fun q => Ok (a :: q))) end.
Definition parseArgString (v3 : bool) (s : text) : outcome (list arg) := parseEntries v3 (splitAt ";" s).

(** checkValues, vscore.cpp:526-569; true: no complaint.  [m] is a std::map: each key once. *)
Definition typeEq (a b : argType) : bool := match a, b with
  | tInt, tInt | tFloat, tFloat | tData, tData | tVNode, tVNode | tANode, tANode | tVFrame, tVFrame | tAFrame, tAFrame | tFunc, tFunc | tAny, tAny => true | _, _ => false end.
Definition lookup (k : text) (m : passed) : option (argType * nat) := option_map snd (find (fun e => teq k (fst e)) m).
Fixpoint checkArgs (fargs : list arg) (m : passed) (remaining : list text) : bool :=
  match fargs with
  | [] => match remaining with [] => true | _ => false end
  | fa :: r =>
      if typeEq (a_type fa) tAny then checkArgs r m []
      else match lookup (a_name fa) m with
           | Some (t, n) =>
               let remaining := filter (fun k => negb (teq k (a_name fa))) remaining in
               if negb (typeEq (a_type fa) t) then false
               else if negb (a_arr fa) && (1 <? n)%nat then false
               else if negb (a_empty fa) && (n <? 1)%nat then false
               else checkArgs r m remaining
           | None => if negb (a_opt fa) then false else checkArgs r m remaining
           end
  end.
Definition checkValues (fargs : list arg) (m : passed) : bool := checkArgs fargs m (map fst m).
(** invoke, vscore.cpp:571-600, up to the call of the function. *)
Definition invokes (fargs : list arg) (m : passed) : outcome unit := if checkValues fargs m then Ok tt else Err.

(** getV4ArgString, getV3ArgString, vscore.cpp:612-678; UB: audio types and "any" (assert). *)
Definition typeText (v3 : bool) (t : argType) : outcome text :=
  match t with
  | tInt => Ok (T "int") | tFloat => Ok (T "float") | tData => Ok (T "data") | tFunc => Ok (T "func")
  | tVNode => Ok (T (if v3 then "clip" else "vnode")) | tVFrame => Ok (T (if v3 then "frame" else "vframe"))
  | _ => UB
  end.
Fixpoint argText (v3 : bool) (l : list arg) : outcome text :=
  match l with
  | [] => Ok []
  | a :: r => obind (typeText v3 (a_type a)) (fun t => obind (argText v3 r) (fun q =>
      Ok (a_name a ++ T ":" ++ t ++ (if a_arr a then T "[]" else []) ++ (if a_opt a then T ":opt" else []) ++ (if a_empty a then T ":empty" else []) ++ T ";" ++ q)))
  end.

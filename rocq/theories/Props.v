(** The filters that change frame properties: src/core/simplefilters.cpp:2170-2530 (SetFrameProp, SetFrameProps, RemoveFrameProps, SetFieldBased, CopyFrameProps) over the map functions of src/core/vsapi.cpp.
    Simplifications: maps are values (that the shared representation behaves so is C01 and C02); reading without an error argument ends the process when it fails, which is UB here; the planes of the frame are those of the source (copyFrame) and left out. *)
From Coq Require Import String Ascii ZArith List Lia Bool.
From Verif Require Import Common SMap MapSpec MapAlias.
Import ListNotations.
Local Open Scope string_scope.
Local Open Scope list_scope.
Open Scope Z_scope.

(** vsapi.cpp:320-330, 497-503, 528-566, 602-606, 872-930 on map values. *)
Definition aNum (m : pmap) (k : string) : Z := match mget (remapColorRange k) (pm m) with Some (_, l) => zlength l | None => -1 end.
Definition aType (m : pmap) (k : string) : option ptype := option_map fst (mget (remapColorRange k) (pm m)).
Definition aDelete (m : pmap) (k : string) : pmap :=
  let m1 := set_pm m (mdel k (pm m)) in if isCR k then set_pm m1 (mdel "_Range" (pm m1)) else m1.
Definition keepOr (m : pmap) (o : option pmap) : pmap := match o with Some m' => m' | None => m end.
Definition aSetEmpty (m : pmap) (k : string) (t : ptype) : pmap :=
  if negb (identifier k) then m else keepOr m (set_empty m (if ptype_eqb t ptInt then remapColorRange k else k) t).
Definition aSetInt (m : pmap) (k : string) (z : Z) (md : mode) : pmap :=
  keepOr m (set_value m (if isCR k then "_Range" else k) (VInt (if isCR k then flipRangeProperty z else z)) md).
Definition aSetIntArray (m : pmap) (k : string) (l : list Z) : pmap :=
  if negb (identifier k) then m
  else keepOr m (if isCR k then set_array m "_Range" ptInt (map VInt (map flipRangeProperty l)) else set_array m k ptInt (map VInt l)).
Definition aGetIntArray (m : pmap) (k : string) : outcome (list Z) :=
  match snd (lookup_all m (if isCR k then "_Range" else k) ptInt) with
  | None => UB
  | Some l => obind (toInts l) (fun zs => Ok (if isCR k then match zs with [z] => [if flipRangeProperty z =? 1 then 1 else 0] | _ => zs end else zs))
  end.
(** mapGetInt; None when it fails. *)
Definition aGetInt (m : pmap) (k : string) (i : Z) : option Z :=
  match snd (lookup_at m (if isCR k then "_Range" else k) i ptInt) with Some (VInt z) => Some (if isCR k then flipRangeProperty z else z) | _ => None end.

(** SetFrameProp.  A data element is its type hint and its bytes. *)
Record setArgs := mkSA { sa_prop : string; sa_ints : option (list Z); sa_floats : option (list Z); sa_data : option (list (Z * string)) }.
Definition given {A} (o : option (list A)) : Z := match o with Some _ => 1 | None => 0 end.
Definition setFramePropCreate (a : setArgs) : outcome setArgs :=
  if 1 <? given (sa_ints a) + given (sa_floats a) + given (sa_data a) then Err
  else if given (sa_ints a) + given (sa_floats a) + given (sa_data a) =? 0 then Err
  else if String.eqb (sa_prop a) "" then Err else Ok a.
Definition orNil {A} (o : option (list A)) : list A := match o with Some l => l | None => [] end.
Fixpoint setData (m : pmap) (k : string) (l : list (Z * string)) (md : mode) : pmap :=
  match l with [] => m | (h, s) :: r => setData (keepOr m (set_value m k (VData h s) md)) k r MAppend end.
Definition setFrameProp (a : setArgs) (m : pmap) : pmap :=
  match orNil (sa_ints a), orNil (sa_floats a), orNil (sa_data a) with
  | _ :: _, _, _ => aSetIntArray m (sa_prop a) (orNil (sa_ints a))
  | [], _ :: _, _ => keepOr m (set_array m (sa_prop a) ptFloat (map VFloat (orNil (sa_floats a))))
  | [], [], l => setData m (sa_prop a) l MReplace
  end.
(** SetFrameProps: all arguments but the clip. *)
Definition setFramePropsCreate (args : pmap) : pmap := aDelete (merge_into fresh args) "clip".
Definition setFrameProps (d m : pmap) : pmap := merge_into m d.
(** SetFieldBased. *)
Definition setFieldBasedCreate (v : Z) : outcome Z := if (v <? 0) || (2 <? v) then Err else Ok v.
Definition setFieldBased (v : Z) (m : pmap) : pmap := aSetInt (aDelete m "_Field") "_FieldBased" v MReplace.

(** RemoveFrameProps: patterns become regular expressions. *)
Definition special : list ascii := ["."; "^"; "$"; "+"; "("; ")"; "["; "]"; "{"; "}"; "|"; "\"]%char.
Definition isSpecial (c : ascii) : bool := existsb (Ascii.eqb c) special.
Definition globChar (c : ascii) : list ascii :=
  if Ascii.eqb c "*" then ["("; "."; "*"; ")"]%char else if Ascii.eqb c "?" then ["."]%char else if isSpecial c then ["\"%char; c] else [c].
Definition globToRegex (p : list ascii) : list ascii := "^"%char :: flat_map globChar p ++ ["$"%char].
(** The part of ECMAScript regular expressions that occurs; anything else is not read. *)
Inductive re := RBol | REol | RAny | RChar (c : ascii) | RGroup (l : list re) | RStar (r : re).
Definition syntax : list ascii := ["*"; "?"; "/"; "."; "^"; "$"; "+"; "("; ")"; "["; "]"; "{"; "}"; "|"; "\"]%char.
Definition quantified (x : re) (r : list ascii) : re * list ascii := match r with c :: r' => if Ascii.eqb c "*" then (RStar x, r') else (x, r) | [] => (x, r) end.
Fixpoint parseRe (fuel : nat) (s : list ascii) : option (list re * list ascii) :=
  match fuel with
  | O => None
  | S f =>
    match s with
    | [] => Some ([], [])
    | c :: r =>
      let andThen (p : re * list ascii) := match parseRe f (snd p) with Some (l, t) => Some (fst p :: l, t) | None => None end in
      if Ascii.eqb c ")" then Some ([], s)
      else if Ascii.eqb c "^" then andThen (RBol, r)
      else if Ascii.eqb c "$" then andThen (REol, r)
      else if Ascii.eqb c "." then andThen (quantified RAny r)
      else if Ascii.eqb c "\" then match r with e :: r' => if existsb (Ascii.eqb e) syntax then andThen (quantified (RChar e) r') else None | [] => None end
      else if Ascii.eqb c "(" then match parseRe f r with Some (l, e :: r') => if Ascii.eqb e ")" then andThen (quantified (RGroup l) r') else None | _ => None end
      else if existsb (Ascii.eqb c) syntax && negb (Ascii.eqb c "/") then None
      else andThen (quantified (RChar c) r)
    end
  end.
Definition regexOf (s : list ascii) : option (list re) := match parseRe (S (length s)) s with Some (l, []) => Some l | _ => None end.
(** Matching: [b] says whether we are at the beginning, [k] what must hold of the rest. *)
Definition lineEnd (c : ascii) : bool := Ascii.eqb c "010" || Ascii.eqb c "013".
Fixpoint rm1 (x : re) (k : bool -> list ascii -> bool) (b : bool) (s : list ascii) {struct x} : bool :=
  match x with
  | RBol => b && k b s
  | REol => match s with [] => k b s | _ => false end
  | RAny => match s with c :: s' => negb (lineEnd c) && k false s' | [] => false end
  | RChar c => match s with d :: s' => Ascii.eqb c d && k false s' | [] => false end
  | RGroup l => (fix seq (l : list re) (k : bool -> list ascii -> bool) (b : bool) (s : list ascii) {struct l} : bool := match l with [] => k b s | y :: r => rm1 y (seq r k) b s end) l k b s
  | RStar y => (fix star (n : nat) (b : bool) (s : list ascii) {struct n} : bool :=
      k b s || match n with O => false | S n' => rm1 y (fun b' s' => (length s' <? length s)%nat && star n' b' s') b s end) (length s) b s
  end.
Fixpoint rmSeq (l : list re) (k : bool -> list ascii -> bool) (b : bool) (s : list ascii) {struct l} : bool := match l with [] => k b s | y :: r => rm1 y (rmSeq r k) b s end.
(** std::regex_match. *)
Definition regexMatch (l : list re) (s : list ascii) : bool := rmSeq l (fun _ s => match s with [] => true | _ => false end) true s.
(** The constructor throws when the text is no regular expression (Err: reported as an error by invoke). *)
Fixpoint compileAll (l : list (list ascii)) : outcome (list (list re)) :=
  match l with [] => Ok [] | p :: r => match regexOf (globToRegex p) with Some x => obind (compileAll r) (fun xs => Ok (x :: xs)) | None => Err end end.
(** removeFramePropsGetFrame: the loop over the keys.  [fuel] bounds the iterations. *)
Fixpoint removeLoop (fuel : nat) (del : string -> bool) (i : nat) (m : pmap) : outcome pmap :=
  match nth_error (pm m) i with
  | None => Ok m
  | Some (k, _) => match fuel with O => UB | S f => if del k then removeLoop f del i (aDelete m k) else removeLoop f del (S i) m end
  end.
Definition removeFrameProps (pats : option (list (list re))) (m : pmap) : outcome pmap :=
  match pats with
  | None => Ok fresh
  | Some ps => removeLoop (length (pm m)) (fun k => existsb (fun p => regexMatch p (list_ascii_of_string k)) ps) 0 m
  end.

(** CopyFrameProps: one property ... *)
Fixpoint appendAll (src : pmap) (k : string) (t : ptype) (n : nat) (i : Z) (m : pmap) : outcome pmap :=
  match n with
  | O => Ok m
  | S n' => match snd (lookup_at src k i t) with None => UB | Some v => appendAll src k t n' (i + 1) (keepOr m (set_value m k v MAppend)) end
  end.
Definition copyOne (src : pmap) (k : string) (m : pmap) : outcome pmap :=
  let m := aDelete m k in
  let num := aNum src k in
  match aType src k with
  | None => Ok m
  | Some t =>
    if num =? 0 then Ok (aSetEmpty m k t)
    else match t with
    | ptInt => obind (aGetIntArray src k) (fun l => Ok (aSetIntArray m k l))
    | ptFloat => match snd (lookup_all src k ptFloat) with None => UB | Some l => Ok (keepOr m (set_array m k ptFloat l)) end
    | _ => appendAll src k t (Z.to_nat num) 0 m
    end
  end.
(** ... and all of the list, or everything when there is none. *)
Fixpoint copyList (src : pmap) (ks : list string) (m : pmap) : outcome pmap :=
  match ks with [] => Ok m | k :: r => obind (copyOne src k m) (copyList src r) end.
Definition copyFrameProps (src : pmap) (ks : list string) (m : pmap) : outcome pmap :=
  match ks with [] => Ok (merge_into fresh src) | _ => copyList src ks m end.

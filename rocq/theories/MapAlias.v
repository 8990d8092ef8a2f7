(** The integer accessors with their special treatment of "_ColorRange".
    Source: src/core/vsapi.cpp:316-330 (remapColorRange, mapNumElements, mapGetType),
    397-413 (flipRangeProperty, mapGetInt), 497-503 (mapDeleteKey), 528-534
    (mapSetEmpty), 602-606 (mapSetInt), 872-889 (mapGetIntArray), 900-917
    (mapSetIntArray).  Float and data accessors (608-614, 420-430) use the key as given.
    Simplification: as [MapModel]. *)
From Coq Require Import ZArith List Lia Bool String.
From Verif Require Import Common SMap MapSpec MapModel.
Import ListNotations.
Local Open Scope string_scope.
Local Open Scope list_scope.
Open Scope Z_scope.

Definition remapColorRange (k : string) : string := if String.eqb k "_ColorRange" then "_Range" else k.
Definition flipRangeProperty (z : Z) : Z := if z =? 0 then 1 else if z =? 1 then 0 else z.
Definition isCR (k : string) : bool := String.eqb k "_ColorRange".
Definition toInt (v : val) : outcome Z := match v with VInt z => Ok z | _ => UB end.
Fixpoint toInts (l : list val) : outcome (list Z) :=
  match l with [] => Ok [] | v :: t => obind (toInt v) (fun z => obind (toInts t) (fun zs => Ok (z :: zs))) end.

Definition apiNumElements (s : st) (h : nat) (k : string) : outcome Z :=
  obind (find s h (remapColorRange k)) (fun o => Ok (match o with Some x => a_size x | None => -1 end)).
Definition apiGetType (s : st) (h : nat) (k : string) : outcome (option ptype) :=
  obind (find s h (remapColorRange k)) (fun o => Ok (option_map a_type o)).
Definition apiGetInt (s : st) (h : nat) (k : string) (i : Z) : outcome (perr * Z) :=
  obind (mapGet s h (if isCR k then "_Range" else k) i ptInt) (fun r =>
  match snd r with
  | None => Ok (fst r, 0)
  | Some v => obind (toInt v) (fun z => Ok (fst r, if isCR k then flipRangeProperty z else z))
  end).
Definition apiSetInt (s : st) (h : nat) (k : string) (z : Z) (m : mode) : outcome (st * bool) :=
  propSetShared s h (if isCR k then "_Range" else k) (VInt (if isCR k then flipRangeProperty z else z)) m.
Definition apiSetEmpty (s : st) (h : nat) (k : string) (t : ptype) : outcome (st * bool) :=
  if negb (isValidVSMapKey k) then obind (deref s h) (fun _ => Ok (s, false))
  else mapSetEmpty s h (if ptype_eqb t ptInt then remapColorRange k else k) t.
Definition apiDeleteKey (s : st) (h : nat) (k : string) : outcome (st * bool) :=
  obind (erase s h k) (fun r =>
  if isCR k then obind (erase (fst r) h "_Range") (fun r2 => Ok (fst r2, snd r2 || snd r)) else Ok r).
Definition apiGetIntArray (s : st) (h : nat) (k : string) : outcome (perr * option (list Z)) :=
  obind (mapGetArray s h (if isCR k then "_Range" else k) ptInt) (fun r =>
  match snd r with
  | None => Ok (fst r, None)
  | Some l => obind (toInts l) (fun zs =>
    Ok (fst r, Some (if isCR k then match zs with [z] => [if flipRangeProperty z =? 1 then 1 else 0] | _ => zs end else zs)))
  end).
Definition apiSetIntArray (s : st) (h : nat) (k : string) (l : list Z) : outcome (st * bool) :=
  if negb (isValidVSMapKey k) then obind (deref s h) (fun _ => Ok (s, false))
  else if isCR k then mapSetArray s h "_Range" ptInt (map VInt (map flipRangeProperty l))
  else mapSetArray s h k ptInt (map VInt l).

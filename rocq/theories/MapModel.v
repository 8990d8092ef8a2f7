(** Property maps as implemented: reference counted, copy on write storages of
    reference counted arrays.
    Source: src/core/vscore.h:126-361 (VSArrayBase, VSArray, VSMapStorage, VSMap),
    src/core/vsapi.cpp:244-404, 497-600, 653-669, 872-927 (the API functions),
    src/core/intrusive_ptr.h.
    Modelled: both heaps with explicit reference counts, unique() tests, in-place
    mutation of unshared objects, deletion at count zero, the
    singleData/vector representation of VSArray.  Using a deleted object is [UB].
    Simplifications: one operation at a time (no concurrent calls); element
    reference counts (nodes, frames, functions) not tracked; the fatal error
    raised when the caller passes no error pointer is not modelled (an error
    pointer is always given); int casts of sizes ignored. *)
From Coq Require Import ZArith List Lia Bool String Ascii.
From Verif Require Import Common SMap MapSpec.
Import ListNotations.
Open Scope Z_scope.

(** ** VSArray, vscore.h:161-219 *)
Record arr := { a_type : ptype; a_size : Z; a_single : option val; a_vec : list val }.

Definition newArr (t : ptype) : arr := {| a_type := t; a_size := 0; a_single := None; a_vec := [] |}.
(** vscore.h:169-175, copy constructor *)
Definition copyArr (x : arr) : arr :=
  {| a_type := a_type x; a_size := a_size x;
     a_single := if a_size x =? 1 then a_single x else None;
     a_vec := if 1 <? a_size x then a_vec x else [] |}.
(** vscore.h:177-185 *)
Definition arrOf (t : ptype) (l : list val) : arr :=
  match l with
  | [v] => {| a_type := t; a_size := 1; a_single := Some v; a_vec := [] |}
  | _ => {| a_type := t; a_size := zlength l; a_single := None; a_vec := l |}
  end.
(** vscore.h:198-210; [singleData] keeps an unspecified (moved from) value. *)
Definition push_back (x : arr) (v : val) : arr :=
  if a_size x =? 0 then {| a_type := a_type x; a_size := a_size x + 1; a_single := Some v; a_vec := a_vec x |}
  else if a_size x =? 1 then
    {| a_type := a_type x; a_size := a_size x + 1; a_single := None;
       a_vec := a_vec x ++ (match a_single x with Some s => [s] | None => [] end) ++ [v] |}
  else {| a_type := a_type x; a_size := a_size x + 1; a_single := a_single x; a_vec := a_vec x ++ [v] |}.
(** vscore.h:212-218 *)
Definition at_ (x : arr) (i : Z) : outcome val :=
  if a_size x =? 1 then match a_single x with Some v => Ok v | None => UB end
  else match nthz (a_vec x) i with Some v => Ok v | None => UB end.
(** vscore.h:191-196: the elements found at the data pointer. *)
Definition dataPtr (x : arr) : outcome (list val) :=
  if a_size x =? 1 then match a_single x with Some v => Ok [v] | None => UB end
  else Ok (a_vec x).

(** ** The heaps *)
Record sto := { s_ref : Z; s_map : smap nat; s_err : bool }.
Record st := {
  nA : nat; arrs : nat -> option (Z * arr);
  nS : nat; stos : nat -> option sto;
  nH : nat; hands : nat -> option nat }.

Definition fset {B} (f : nat -> B) (k : nat) (b : B) : nat -> B := fun x => if Nat.eqb x k then b else f x.
Definition w_arrs s f := {| nA := nA s; arrs := f; nS := nS s; stos := stos s; nH := nH s; hands := hands s |}.
Definition w_stos s f := {| nA := nA s; arrs := arrs s; nS := nS s; stos := f; nH := nH s; hands := hands s |}.
Definition w_hands s f := {| nA := nA s; arrs := arrs s; nS := nS s; stos := stos s; nH := nH s; hands := f |}.
Definition init : st := {| nA := 0; arrs := fun _ => None; nS := 0; stos := fun _ => None; nH := 0; hands := fun _ => None |}.

(** vscore.h:147-155 *)
Definition addrefA (s : st) (a : nat) : outcome st :=
  match arrs s a with Some (r, x) => Ok (w_arrs s (fset (arrs s) a (Some (r + 1, x)))) | None => UB end.
Definition releaseA (s : st) (a : nat) : outcome st :=
  match arrs s a with
  | Some (r, x) => Ok (w_arrs s (fset (arrs s) a (if r - 1 =? 0 then None else Some (r - 1, x))))
  | None => UB
  end.
Fixpoint addrefAs (s : st) (l : list nat) : outcome st :=
  match l with [] => Ok s | a :: t => obind (addrefA s a) (fun s => addrefAs s t) end.
Fixpoint releaseAs (s : st) (l : list nat) : outcome st :=
  match l with [] => Ok s | a :: t => obind (releaseA s a) (fun s => releaseAs s t) end.
(** new VSArray: reference count 1 *)
Definition allocA (s : st) (x : arr) : st * nat :=
  ({| nA := S (nA s); arrs := fset (arrs s) (nA s) (Some (1, x)); nS := nS s; stos := stos s; nH := nH s; hands := hands s |}, nA s).

(** vscore.h:260-268: deleting a storage destroys its map, which releases its arrays. *)
Definition addrefS (s : st) (i : nat) : outcome st :=
  match stos s i with
  | Some x => Ok (w_stos s (fset (stos s) i (Some {| s_ref := s_ref x + 1; s_map := s_map x; s_err := s_err x |})))
  | None => UB
  end.
Definition releaseS (s : st) (i : nat) : outcome st :=
  match stos s i with
  | Some x =>
    if s_ref x - 1 =? 0 then releaseAs (w_stos s (fset (stos s) i None)) (map snd (s_map x))
    else Ok (w_stos s (fset (stos s) i (Some {| s_ref := s_ref x - 1; s_map := s_map x; s_err := s_err x |})))
  | None => UB
  end.
Definition allocS (s : st) (m : smap nat) (e : bool) : st * nat :=
  ({| nA := nA s; arrs := arrs s; nS := S (nS s); stos := fset (stos s) (nS s) (Some {| s_ref := 1; s_map := m; s_err := e |});
      nH := nH s; hands := hands s |}, nS s).

(** The storage behind a handle. *)
Definition deref (s : st) (h : nat) : outcome (nat * sto) :=
  match hands s h with
  | Some i => match stos s i with Some x => Ok (i, x) | None => UB end
  | None => UB
  end.
(** Overwriting fields of a storage in place. *)
Definition putS (s : st) (i : nat) (x : sto) : st := w_stos s (fset (stos s) i (Some x)).
Definition with_map (x : sto) m := {| s_ref := s_ref x; s_map := m; s_err := s_err x |}.
(** [data = new VSMapStorage(...)]: the handle takes the new one, the old one is released. *)
Definition reseat (s : st) (h old new : nat) : outcome st :=
  releaseS (w_hands s (fset (hands s) h (Some new))) old.

(** ** VSMap, vscore.h:273-361 *)
Definition detach (s : st) (h : nat) : outcome st :=
  obind (deref s h) (fun p => let '(i, x) := p in
  if s_ref x =? 1 then Ok s
  else
    obind (addrefAs s (map snd (s_map x))) (fun s =>
    let '(s, i2) := allocS s (s_map x) (s_err x) in
    reseat s h i i2)).

Definition detachKey (s : st) (h : nat) (k : string) : outcome (st * option nat) :=
  obind (detach s h) (fun s =>
  obind (deref s h) (fun p => let '(i, x) := p in
  match mget k (s_map x) with
  | None => Ok (s, None)
  | Some a =>
    match arrs s a with
    | None => UB
    | Some (r, v) =>
      if r =? 1 then Ok (s, Some a)
      else
        let '(s, a2) := allocA s (copyArr v) in
        obind (releaseA (putS s i (with_map x (mput k a2 (s_map x)))) a) (fun s => Ok (s, Some a2))
    end
  end)).

Definition erase (s : st) (h : nat) (k : string) : outcome (st * bool) :=
  obind (deref s h) (fun p =>
  match mget k (s_map (snd p)) with
  | None => Ok (s, false)
  | Some _ =>
    obind (detach s h) (fun s =>
    obind (deref s h) (fun p => let '(i, x) := p in
    match mget k (s_map x) with
    | None => UB
    | Some a => obind (releaseA (putS s i (with_map x (mdel k (s_map x)))) a) (fun s => Ok (s, true))
    end))
  end).

(** [a]: an array owned by the caller. *)
Definition insert (s : st) (h : nat) (k : string) (a : nat) : outcome st :=
  obind (detach s h) (fun s =>
  obind (deref s h) (fun p => let '(i, x) := p in
  let s1 := putS s i (with_map x (mput k a (s_map x))) in
  match mget k (s_map x) with
  | Some old => releaseA s1 old
  | None => Ok s1
  end)).

(** One iteration of the loop in VSMap::copy: [data[k] = a]. *)
Definition assignEntry (s : st) (h : nat) (k : string) (a : nat) : outcome st :=
  obind (deref s h) (fun p => let '(i, x) := p in
  let s1 := putS s i (with_map x (mput k a (s_map x))) in
  obind (match mget k (s_map x) with Some old => releaseA s1 old | None => Ok s1 end) (fun s => addrefA s a)).
Fixpoint assignEntries (s : st) (h : nat) (l : list (string * nat)) : outcome st :=
  match l with [] => Ok s | (k, a) :: t => obind (assignEntry s h k a) (fun s => assignEntries s h t) end.

Definition copyMap (s : st) (src dst : nat) : outcome st :=
  if Nat.eqb src dst then obind (deref s dst) (fun _ => Ok s)
  else
    obind (detach s dst) (fun s =>
    obind (deref s src) (fun p => assignEntries s dst (s_map (snd p)))).

Definition clear (s : st) (h : nat) : outcome st :=
  obind (deref s h) (fun p => let '(i, x) := p in
  if s_ref x =? 1 then
    releaseAs (putS s i {| s_ref := s_ref x; s_map := []; s_err := false |}) (map snd (s_map x))
  else let '(s, i2) := allocS s [] false in reseat s h i i2).

Definition setError (s : st) (h : nat) (msg : string) : outcome st :=
  obind (clear s h) (fun s =>
  let '(s, a) := allocA s (push_back (newArr ptData) (VData 1 msg)) in
  obind (deref s h) (fun p => let '(i, x) := p in
  Ok (putS s i {| s_ref := s_ref x; s_map := mput "_Error" a (s_map x); s_err := true |}))).

Definition find (s : st) (h : nat) (k : string) : outcome (option arr) :=
  obind (deref s h) (fun p =>
  match mget k (s_map (snd p)) with
  | None => Ok None
  | Some a => match arrs s a with Some (_, x) => Ok (Some x) | None => UB end
  end).

(** vscore.h:350-356: reinterpret_cast to VSDataArray, at(0). *)
Definition getErrorMessage (s : st) (h : nat) : outcome (option string) :=
  obind (deref s h) (fun p =>
  if s_err (snd p) then
    obind (find s h "_Error") (fun o =>
    match o with
    | None => UB
    | Some x => if ptype_eqb (a_type x) ptData
                then obind (at_ x 0) (fun v => match v with VData _ m => Ok (Some m) | _ => UB end)
                else UB
    end)
  else Ok None).

(** Handle creation and destruction: vscore.h:277-283, vsapi.cpp:653-659. *)
Definition newHandle (s : st) (i : nat) : st * nat :=
  ({| nA := nA s; arrs := arrs s; nS := nS s; stos := stos s; nH := S (nH s); hands := fset (hands s) (nH s) (Some i) |}, nH s).
Definition createMap (s : st) : st * nat := let '(s, i) := allocS s [] false in newHandle s i.
Definition cloneMap (s : st) (h : nat) : outcome (st * nat) :=
  obind (deref s h) (fun p => obind (addrefS s (fst p)) (fun s => Ok (newHandle s (fst p)))).
(** operator=, intrusive_ptr.h:56-66 (self assignment guarded). *)
Definition assignMap (s : st) (d h : nat) : outcome st :=
  obind (deref s d) (fun pd => obind (deref s h) (fun p =>
  if Nat.eqb d h then Ok s
  else obind (releaseS (w_hands s (fset (hands s) d (Some (fst p)))) (fst pd)) (fun s => addrefS s (fst p)))).
Definition freeMap (s : st) (h : nat) : outcome st :=
  obind (deref s h) (fun p => releaseS (w_hands s (fset (hands s) h None)) (fst p)).

(** ** API, vsapi.cpp *)
(** vsapi.cpp:505-526 *)
Definition chr (c : ascii) : Z := Z.of_N (N_of_ascii c).
Definition isAlphaUnderscore (c : ascii) : bool :=
  ((97 <=? chr c) && (chr c <=? 122)) || ((65 <=? chr c) && (chr c <=? 90)) || (chr c =? 95).
Definition isAlphaNumUnderscore (c : ascii) : bool :=
  ((97 <=? chr c) && (chr c <=? 122)) || ((65 <=? chr c) && (chr c <=? 90))
  || ((48 <=? chr c) && (chr c <=? 57)) || (chr c =? 95).
Fixpoint keyTail (s : string) : bool :=
  match s with EmptyString => true | String c t => isAlphaNumUnderscore c && keyTail t end.
Definition isValidVSMapKey (s : string) : bool :=
  match s with EmptyString => false | String c t => isAlphaUnderscore c && keyTail t end.

(** vsapi.cpp:354-395 *)
Definition propGetShared (s : st) (h : nat) (k : string) (i : Z) (t : ptype) : outcome (perr * option arr) :=
  obind (deref s h) (fun p =>
  if s_err (snd p) then Ok (peError, None)
  else obind (find s h k) (fun o =>
       match o with
       | None => Ok (peUnset, None)
       | Some x => if (i <? 0) || (a_size x <=? i) then Ok (peIndex, None)
                   else if negb (ptype_eqb (a_type x) t) then Ok (peType, None)
                   else Ok (peSuccess, Some x)
       end)).
Definition mapGet (s : st) (h : nat) (k : string) (i : Z) (t : ptype) : outcome (perr * option val) :=
  obind (propGetShared s h k i t) (fun r =>
  match snd r with
  | None => Ok (fst r, None)
  | Some x => obind (at_ x i) (fun v => Ok (fst r, Some v))
  end).
Definition mapGetArray (s : st) (h : nat) (k : string) (t : ptype) : outcome (perr * option (list val)) :=
  obind (propGetShared s h k 0 t) (fun r =>
  match snd r with
  | None => Ok (fst r, None)
  | Some x => obind (dataPtr x) (fun l => Ok (fst r, Some l))
  end).

Definition insertNew (s : st) (h : nat) (k : string) (x : arr) : outcome (st * bool) :=
  let '(s, a) := allocA s x in obind (insert s h k a) (fun s => Ok (s, true)).

(** vsapi.cpp:528-566 *)
Definition mapSetEmpty (s : st) (h : nat) (k : string) (t : ptype) : outcome (st * bool) :=
  if negb (isValidVSMapKey k) then obind (deref s h) (fun _ => Ok (s, false))
  else obind (find s h k) (fun o =>
       match o with Some _ => Ok (s, false) | None => insertNew s h k (newArr t) end).

(** vsapi.cpp:568-600 *)
Definition propSetShared (s : st) (h : nat) (k : string) (v : val) (m : mode) : outcome (st * bool) :=
  if negb (isValidVSMapKey k) then obind (deref s h) (fun _ => Ok (s, false))
  else match m with
  | MReplace => insertNew s h k (push_back (newArr (vtype v)) v)
  | MAppend =>
    obind (find s h k) (fun o =>
    match o with
    | Some x =>
      if ptype_eqb (a_type x) (vtype v) then
        obind (detachKey s h k) (fun r =>
        match snd r with
        | None => UB
        | Some a => match arrs (fst r) a with
                    | None => UB
                    | Some (c, y) => Ok (w_arrs (fst r) (fset (arrs (fst r)) a (Some (c, push_back y v))), true)
                    end
        end)
      else Ok (s, false)
    | None => insertNew s h k (push_back (newArr (vtype v)) v)
    end)
  | MTouch => mapSetEmpty s h k (vtype v)
  end.

(** vsapi.cpp:900-927: the elements have the type of the array by construction. *)
Definition mapSetArray (s : st) (h : nat) (k : string) (t : ptype) (l : list val) : outcome (st * bool) :=
  if negb (isValidVSMapKey k) then obind (deref s h) (fun _ => Ok (s, false))
  else insertNew s h k (arrOf t l).

Definition step (s : st) (o : mop) : outcome (st * mres) :=
  let unit r := obind r (fun s => Ok (s, RUnit)) in
  let res r := obind r (fun r => Ok (fst r, ROk (snd r))) in
  match o with
  | ONew => let '(s, h) := createMap s in Ok (s, RHandle h)
  | OClone h => obind (cloneMap s h) (fun r => Ok (fst r, RHandle (snd r)))
  | OAssign d h => unit (assignMap s d h)
  | OFree h => unit (freeMap s h)
  | OCopy h d => unit (copyMap s h d)
  | OClear h => unit (clear s h)
  | OError h m => unit (setError s h m)
  | ODelete h k => res (erase s h k)
  | OSet h k v m => res (propSetShared s h k v m)
  | OEmpty h k t => res (mapSetEmpty s h k t)
  | OArray h k t l => res (mapSetArray s h k t l)
  | OGet h k i t => obind (mapGet s h k i t) (fun r => Ok (s, RVal (fst r) (snd r)))
  | OGetAll h k t => obind (mapGetArray s h k t) (fun r => Ok (s, RVals (fst r) (snd r)))
  | OCount h k => obind (find s h k) (fun o => Ok (s, RNum (match o with Some x => a_size x | None => -1 end)))
  | OType h k => obind (find s h k) (fun o => Ok (s, RType (option_map a_type o)))
  | ONumKeys h => obind (deref s h) (fun p => Ok (s, RNum (zlength (s_map (snd p)))))
  | OKey h n => obind (deref s h) (fun p => Ok (s, RStr (option_map fst (nthz (s_map (snd p)) n))))
  | OGetError h => obind (getErrorMessage s h) (fun r => Ok (s, RStr r))
  end.

Fixpoint run (s : st) (os : list mop) : outcome (st * list mres) :=
  match os with
  | [] => Ok (s, [])
  | o :: t => obind (step s o) (fun r => obind (run (fst r) t) (fun r2 => Ok (fst r2, snd r :: snd r2)))
  end.

(** Properties and the Python values they correspond to. *)
From Coq Require Import ZArith List Bool String.
Import ListNotations.
Open Scope Z_scope.

(** Elements of a property: integers, floats by their bits, data with a hint, and references to nodes, frames and functions by identity. *)
Inductive hint := dtUnknown | dtBinary | dtUtf8.
Inductive objType := oVideoNode | oAudioNode | oVideoFrame | oAudioFrame | oFunction.
Inductive elem := EInt (z : Z) | EFloat (bits : Z) | EData (h : hint) (b : list Z) | EObj (t : objType) (id : Z).
Inductive etype := tInt | tFloat | tData | tObj (t : objType).
Definition typeOf (e : elem) : etype := match e with EInt _ => tInt | EFloat _ => tFloat | EData _ _ => tData | EObj t _ => tObj t end.
Definition prop : Type := etype * list elem.
(** Values of Python: a text is given by the bytes of its UTF-8 form. *)
Inductive pv := PInt (z : Z) | PRange (full : bool) | PFloat (bits : Z) | PStr (b : list Z) | PBytes (b : list Z) | PObj (t : objType) (id : Z).
Inductive pyval := One (v : pv) | Many (l : list pv).

(** A property that Python can hold: elements of the type, texts in UTF-8, integers of 64 bits. *)
Definition elemOk (utf8 : list Z -> bool) (t : etype) (e : elem) : Prop :=
  typeOf e = t /\ match e with EData dtUtf8 b => utf8 b = true | _ => True end.
Definition propOk (utf8 : list Z -> bool) (p : prop) : Prop := Forall (elemOk utf8 (fst p)) (snd p).
(** The same property, data of unknown kind counting as binary. *)
Definition sameElem (e : elem) : elem := match e with EData dtUnknown b => EData dtBinary b | _ => e end.
Definition sameProp (p : prop) : prop := (fst p, map sameElem (snd p)).
(** The type of property that a value of Python makes. *)
Definition pyType (v : pv) : etype := match v with PInt _ | PRange _ => tInt | PFloat _ => tFloat | PStr _ | PBytes _ => tData | PObj t _ => tObj t end.

(** What the resize filters do to the description of a picture, from doc/functions/video/resize.rst and the meaning of the reserved frame properties (doc/apireference.rst).  Does not import the model. *)
From Coq Require Import String.
From Coq Require Import ZArith List Lia Bool.
From Verif Require Import Common FormatSpec SMap MapSpec PropsSpec.
Import ListNotations.
Local Open Scope string_scope.
Local Open Scope list_scope.
Open Scope Z_scope.

(** The numbers of ITU-T H.273: 2 is "unspecified" and 0 the identity matrix; ranges: 0 limited, 1 full; chroma: 0 left, 1 centre. *)
Record colour := mkCol { c_matrix : Z; c_transfer : Z; c_primaries : Z; c_range : Z; c_chroma : Z }.
(** What the caller asks for. *)
Record given := mkG { g_matrix : option Z; g_transfer : option Z; g_primaries : option Z; g_range : option Z; g_chroma : option Z }.
Definition nothing : given := mkG None None None None None.

Definition subsampled (f : vfmt) : bool := (f_cf f =? cfYUV) && negb ((f_ssw f =? 0) && (f_ssh f =? 0)).
Definition isRGB (f : vfmt) : bool := f_cf f =? cfRGB.
Definition sameFamily (f g : vfmt) : bool := f_cf f =? f_cf g.

(** The value of an integer frame property: its first element. *)
Definition propOf (m : pmap) (k : string) : option Z := match entry m k with Some (ptInt, VInt z :: _) => Some z | _ => None end.
Definition keepIf (P : Z -> bool) (o : option Z) : option Z := match o with Some z => if P z then Some z else None | None => None end.
Fixpoint firstOf (l : list (option Z)) (d : Z) : Z := match l with [] => d | Some z :: _ => z | None :: r => firstOf r d end.

(** "If the corresponding frame property is set to a value other than unspecified, the frame property is used instead of this parameter.  Default values are set for certain color families." *)
Definition specified (o : option Z) : option Z := keepIf (fun z => negb (z =? 2)) o.
Definition inputColour (f : vfmt) (g : given) (m : pmap) : colour :=
  mkCol (firstOf [specified (propOf m "_Matrix"); g_matrix g] (if isRGB f then 0 else 2))
        (firstOf [specified (propOf m "_Transfer"); g_transfer g] 2)
        (firstOf [specified (propOf m "_Primaries"); g_primaries g] 2)
        (firstOf [propOf m "_Range"; g_range g] (if isRGB f then 1 else 0))
        (firstOf [keepIf (fun z => 0 <=? z) (propOf m "_ChromaLocation"); g_chroma g] (if subsampled f then 0 else 1)).

(** "If not provided, the corresponding attributes from the input clip will be selected, except for the RGB color family"; "If the input format is of a different color family, the default range is studio/limited for YUV and full-range for RGB"; "If the input format is 4:4:4 or RGB and the output is subsampled, the default location is left-aligned". *)
Definition outputColour (f : vfmt) (g : given) (fs : vfmt) (s : colour) : colour :=
  mkCol (firstOf [g_matrix g] (if isRGB f then 0 else c_matrix s))
        (firstOf [g_transfer g] (c_transfer s))
        (firstOf [g_primaries g] (c_primaries s))
        (firstOf [g_range g] (if sameFamily f fs then c_range s else if isRGB f then 1 else 0))
        (firstOf [g_chroma g] (if subsampled f then if subsampled fs then c_chroma s else 0 else 1)).

(** The properties that record a description: numbers that are not codes are not recorded, nor is the chroma location of pictures without subsampled chroma. *)
Definition recorded (ok : bool) (v : Z) : option (ptype * list val) := if ok then Some (ptInt, [VInt v]) else None.
Definition describes (f : vfmt) (c : colour) (m : pmap) : Prop :=
  entry m "_Matrix" = recorded (0 <=? c_matrix c) (c_matrix c) /\
  entry m "_Transfer" = recorded (0 <=? c_transfer c) (c_transfer c) /\
  entry m "_Primaries" = recorded (0 <=? c_primaries c) (c_primaries c) /\
  entry m "_Range" = recorded ((c_range c =? 0) || (c_range c =? 1)) (c_range c) /\
  entry m "_ChromaLocation" = recorded (subsampled f) (c_chroma c).

Definition colourKeys : list string := ["_Matrix"; "_Transfer"; "_Primaries"; "_Range"; "_ChromaLocation"].
Definition sarKeys : list string := ["_SARNum"; "_SARDen"].

(** Properties that mean something: whole numbers, of the documented values. *)
Definition intProp (P : Z -> Prop) (m : pmap) (k : string) : Prop :=
  forall q, entry m k = Some q -> exists l, q = (ptInt, map VInt l) /\ forall z r, l = z :: r -> P z.
Definition in32 (z : Z) : Prop := INT_MIN <= z <= INT_MAX.
Definition meaningful (m : pmap) : Prop :=
  intProp in32 m "_Matrix" /\ intProp in32 m "_Transfer" /\ intProp in32 m "_Primaries" /\ intProp in32 m "_ChromaLocation" /\
  intProp (fun z => z = 0 \/ z = 1) m "_Range" /\ intProp (fun z => z = 0 \/ z = 1) m "_Field" /\
  intProp (fun z => z = 0 \/ z = 1 \/ z = 2) m "_FieldBased" /\ intProp (fun _ => True) m "_SARNum" /\ intProp (fun _ => True) m "_SARDen".

(** A frame holds two fields when it is not a field itself and is marked as field based. *)
Definition interlacedFrame (m : pmap) : bool :=
  match propOf m "_Field" with Some _ => false | None => match propOf m "_FieldBased" with Some z => (z =? 1) || (z =? 2) | None => false end end.

(** The shape of the display: num / den * w / h. *)
Definition sameShape (num den w h num' den' w' h' : Z) : Prop := num * w * (den' * h') = num' * w' * (den * h).

(** The names of the codes, from the tables at the end of resize.rst. *)
Definition matrixNames : list (string * Z) := [("rgb", 0); ("709", 1); ("unspec", 2); ("fcc", 4); ("470bg", 5); ("170m", 6); ("240m", 7); ("ycgco", 8); ("2020ncl", 9); ("2020cl", 10); ("chromancl", 12); ("chromacl", 13); ("ictcp", 14)].
Definition transferNames : list (string * Z) := [("709", 1); ("unspec", 2); ("470m", 4); ("470bg", 5); ("601", 6); ("240m", 7); ("linear", 8); ("log100", 9); ("log316", 10); ("xvycc", 11); ("srgb", 13); ("2020_10", 14); ("2020_12", 15); ("st2084", 16); ("st428", 17); ("std-b67", 18)].
Definition primariesNames : list (string * Z) := [("709", 1); ("unspec", 2); ("470m", 4); ("470bg", 5); ("170m", 6); ("240m", 7); ("film", 8); ("2020", 9); ("st428", 10); ("xyz", 10); ("st431-2", 11); ("st432-1", 12); ("jedec-p22", 22)].
Definition rangeNames : list (string * Z) := [("limited", 0); ("full", 1)].
Definition chromaNames : list (string * Z) := [("left", 0); ("center", 1); ("top_left", 2); ("top", 3); ("bottom_left", 4); ("bottom", 5)].

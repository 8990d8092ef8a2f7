(** Output of frames: what is to be in the file. *)
From Coq Require Import ZArith List Bool Lia.
Import ListNotations.
Open Scope Z_scope.
Section Out.
Variable F : Type.
Variable hasAlpha : bool.
(** The frames of the clip (false) and of its alpha clip (true). *)
Variable frameOf : bool -> Z -> F.
Definition entryOf (n : Z) : Z * F * option F := (n, frameOf false n, if hasAlpha then Some (frameOf true n) else None).
Definition fileOf (k : nat) : list (Z * F * option F) := map (fun i => entryOf (Z.of_nat i)) (seq 0 k).
End Out.

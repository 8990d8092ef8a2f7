(** What the caller of vsscript is told about a script. *)
From Coq Require Import ZArith List Bool.
From Verif Require Import Common.
Import ListNotations.
Open Scope Z_scope.

(** What sys.exit was called with: an integer, nothing or something else. *)
Inductive exitArg := CInt (z : Z) | CNone | COther.
(** What the script does; texts of exceptions are numbered. *)
Inductive behaviour := BadCompile (m : Z) | Finishes | Exits (c : exitArg) | Raises (m : Z).
Inductive message := MsgPython (m : Z) | MsgExit (c : exitArg) | MsgFile (m : Z).
(** A call of evaluateBuffer or evaluateFile: an exception before the script, what the script does, an exception behind it. *)
Record call := mkC { c_before : option Z; c_script : behaviour; c_after : option Z }.

(** The error the caller should see: that of this call, the last thing gone wrong. *)
Definition errorOf (c : call) : option message :=
  match c_before c, c_after c, c_script c with
  | Some m, _, _ => Some (MsgFile m)
  | None, Some m, _ => Some (MsgFile m)
  | None, None, BadCompile m => Some (MsgPython m)
  | None, None, Raises m => Some (MsgPython m)
  | None, None, Exits a => Some (MsgExit a)
  | None, None, Finishes => None
  end.
(** The exit code documented: that of sys.exit, 0 if the script fails for other reasons or does not exit. Anything but integers that fit and None means failure, 1. *)
Definition exitOf (c : call) : Z :=
  match c_before c, c_script c with
  | None, Exits (CInt z) => if (INT_MIN <=? z) && (z <=? INT_MAX) then z else 1
  | None, Exits COther => 1
  | _, _ => 0
  end.
Definition succeeds (c : call) : Prop := errorOf c = None.

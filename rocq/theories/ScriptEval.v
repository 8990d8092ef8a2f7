(** Scripts evaluated through vsscript: the error and exit code of a handle and the list of outputs.
    /repo/src/cython/vapoursynth.pyx:3798-4026 and /repo/src/vsscript/vsscript.cpp:241-338. The Python in between is described by what it does. *)
From Coq Require Import ZArith List Bool.
From Verif Require Import Common ScriptEvalSpec.
Import ListNotations.
Open Scope Z_scope.

(** VSScript, vsscript_internal.h: [s_err] is errstr as an index into the byte strings made so far, each with the references held by handles;
    a string made in a function and increased once keeps one reference when the local variable is gone. The dictionary is left out. *)
Record st := mkS { s_strings : list (message * Z); s_err : option nat; s_exit : Z }.
(** createScript: new VSScript() sets all members to zero. *)
Definition newScript : st := mkS [] None 0.
(** Py_INCREF and the assignment to errstr; a string already there is not looked at. *)
Definition setErr (m : message) (s : st) : st := mkS (s_strings s ++ [(m, 1)]) (Some (length (s_strings s))) (s_exit s).
Fixpoint decRef (i : nat) (l : list (message * Z)) : outcome (list (message * Z)) :=
  match l, i with
  | [], _ => UB
  | (m, n) :: r, O => if 0 <? n then Ok ((m, n - 1) :: r) else UB
  | x :: r, S j => obind (decRef j r) (fun r' => Ok (x :: r'))
  end.
(** if se.errstr: ... Py_DECREF, as in lines 3826-3830 and 3944-3948. *)
Definition clearErr (s : st) : outcome st :=
  match s_err s with
  | None => Ok s
  | Some i => obind (decRef i (s_strings s)) (fun l => Ok (mkS l None (s_exit s)))
  end.
(** The value of se.exitCode after a SystemExit, lines 3836-3839; integers that do not fit raise OverflowError. *)
Definition exitCodeOf (c : exitArg) : Z := match c with CInt z => if in_intb z then z else 1 | CNone => 0 | COther => 1 end.
(** _vpy_evaluate, lines 3808-3857. *)
Definition vpyEvaluate (b : behaviour) (s : st) : outcome (Z * st) :=
  match b with
  | BadCompile m => Ok (2, setErr (MsgPython m) s)
  | Finishes => obind (clearErr s) (fun s => Ok (0, s))
  | Exits c => obind (clearErr s) (fun s => Ok (3, setErr (MsgExit c) (mkS (s_strings s) (s_err s) (exitCodeOf c))))
  | Raises m => obind (clearErr s) (fun s => Ok (2, setErr (MsgPython m) s))
  end.
(** vpy4_evaluateBuffer and vpy4_evaluateFile, lines 3873-3920: exceptions before the script (NULL arguments, names that cannot be decoded, files that
    cannot be read, a directory that cannot be entered) and behind it (the way back to the old directory). *)
Definition evaluate (c : call) (s : st) : outcome (Z * st) :=
  match c_before c with
  | Some m => Ok (2, setErr (MsgFile m) s)
  | None => obind (vpyEvaluate (c_script c) s) (fun rs =>
              match c_after c with Some m => Ok (2, setErr (MsgFile m) (snd rs)) | None => Ok rs end)
  end.
(** getError, vpy4_getError, lines 3957-3962: a string without references must not be read. *)
Definition getError (s : st) : outcome (option message) :=
  match s_err s with
  | None => Ok None
  | Some i => match nth_error (s_strings s) i with Some (m, n) => if 0 <? n then Ok (Some m) else UB | None => UB end
  end.
Definition getExitCode (s : st) : Z := s_exit s.
(** freeScript, vpy4_freeScript, lines 3922-3955. *)
Definition freeScript (s : st) : outcome st := clearErr s.
(** A handle after some calls. *)
Fixpoint evaluateAll (cs : list call) (s : st) : outcome st :=
  match cs with [] => Ok s | c :: r => obind (evaluate c s) (fun rs => evaluateAll r (snd rs)) end.

(** ** Outputs *)
(** The loop of vpy4_getAvailableOutputNodes, lines 4019-4025, over the keys of the dictionary in order of insertion. *)
Fixpoint fillKeys (size idx : Z) (keys : list Z) : list Z :=
  match keys with [] => [] | k :: r => k :: (if size - (idx + 1) <=? 0 then [] else fillKeys size (idx + 1) r) end.
Fixpoint insertZ (x : Z) (l : list Z) : list Z := match l with [] => [x] | y :: r => if x <=? y then x :: l else y :: insertZ x r end.
(** std::sort of integers: any way of sorting gives the same. *)
Definition sortZ (l : list Z) : list Z := fold_right insertZ [] l.
(** getAvailableOutputNodes, vsscript.cpp:331-338: the values written and the answer; std::sort runs over the first min(size, count) values of the
    array, which is undefined behaviour if some of them were not written. *)
Definition availableOutputs (keys : list Z) (size : Z) : outcome (list Z * Z) :=
  let count := zlength keys in
  let dst := if 0 <? size then fillKeys size 0 keys else [] in
  if 0 <? size then
    if zlength dst <? Z.min size count then UB
    else Ok (sortZ (firstn (Z.to_nat (Z.min size count)) dst) ++ skipn (Z.to_nat (Z.min size count)) dst, count)
  else Ok (dst, count).

(** Function.__call__, /repo/src/cython/vapoursynth.pyx:3472-3519: matching the arguments of a call with the parameters of the signature.
    Values are of any type; their conversion is typedDictToMap. *)
From Coq Require Import ZArith List Bool Ascii String.
From Verif Require Import Common.
Import ListNotations.
Local Open Scope string_scope.
Local Open Scope list_scope.

Section Call.
Variable V : Type.
Definition dict := list (string * V).
(** Dictionaries keep the order of insertion. *)
Fixpoint dictGet (d : dict) (k : string) : option V := match d with [] => None | (x, v) :: r => if String.eqb x k then Some v else dictGet r k end.
Fixpoint dictSet (d : dict) (k : string) (v : V) : dict := match d with [] => [(k, v)] | (x, w) :: r => if String.eqb x k then (x, v) :: r else (x, w) :: dictSet r k v end.
Fixpoint dictDel (d : dict) (k : string) : dict := match d with [] => [] | (x, v) :: r => if String.eqb x k then r else (x, v) :: dictDel r k end.
(** key[-1] == "_": key[:-1], lines 3483-3489. *)
Fixpoint lastChar (s : string) : option Ascii.ascii := match s with EmptyString => None | String c EmptyString => Some c | String _ r => lastChar r end.
Fixpoint dropLast (s : string) : string := match s with EmptyString => EmptyString | String _ EmptyString => EmptyString | String c r => String c (dropLast r) end.
(** Lines 3482-3489: Err is the IndexError of an empty name. *)
Fixpoint stripNames (kwargs : dict) (ndict : dict) : outcome dict :=
  match kwargs with
  | [] => Ok ndict
  | (key, v) :: r =>
      match lastChar key with
      | None => Err
      | Some c => let nkey := if Ascii.eqb c "_"%char then dropLast key else key in stripNames r (dictSet ndict nkey v)
      end
  end.
(** Lines 3495-3514, the parameters in the order of the signature. *)
Fixpoint matchArgs (names : list string) (ndict : dict) (arglist : list V) (processed : dict) : dict * dict * list V :=
  match names with
  | [] => (processed, ndict, arglist)
  | key :: r =>
      match dictGet ndict key with
      | Some v => matchArgs r (dictDel ndict key) arglist (dictSet processed key v)
      | None => match arglist with
                | a :: t => matchArgs r ndict t (dictSet processed key a)
                | [] => matchArgs r ndict [] processed
                end
      end
  end.
(** The whole, with the argument of a bound function in front: the values of parameters and, for functions that take any, the others. *)
Definition call (names : list string) (any : bool) (injected : option V) (args : list V) (kwargs : dict) : outcome (dict * dict) :=
  let arglist := match injected with Some v => v :: args | None => args end in
  obind (stripNames kwargs []) (fun nd =>
    let '(processed, rest, lft) := matchArgs names nd arglist [] in
    match lft with
    | _ :: _ => Err
    | [] => match rest with
            | _ :: _ => if any then Ok (processed, rest) else Err
            | [] => Ok (processed, [])
            end
    end).
End Call.
Arguments call {V}. Arguments matchArgs {V}. Arguments stripNames {V}. Arguments dictGet {V}. Arguments dictSet {V}. Arguments dictDel {V}.

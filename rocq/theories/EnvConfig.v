(** The configuration that tells vsscript where Python is: written by the command [vapoursynth config], read when vsscript is initialised.
    Texts are the bytes of the UTF-8 form. *)
From Coq Require Import String Ascii ZArith List Bool.
From Verif Require Import Common OptSpec.
Import ListNotations.
Open Scope Z_scope.

Definition qt : ascii := """"%char.
Definition bsl : ascii := "\"%char.
Definition nl : ascii := ascii_of_nat 10.
Definition pat64 : text := T "/lib64/".
Definition patLib : text := T "/lib/".
Fixpoint startsWith (p t : text) : bool :=
  match p, t with [], _ => true | x :: p', y :: t' => Ascii.eqb x y && startsWith p' t' | _ :: _, [] => false end.
Fixpoint textEqb (a b : text) : bool :=
  match a, b with [], [] => true | x :: a', y :: b' => Ascii.eqb x y && textEqb a' b' | _, _ => false end.

(** ** The writer, /repo/src/py/_utils.py *)
(** str.replace of Python: all occurrences from the left that do not overlap; [skip] characters of an occurrence are still to be dropped. *)
Fixpoint replaceAll (skip : nat) (t : text) : text :=
  match t with
  | [] => []
  | c :: r => match skip with
              | S k => replaceAll k r
              | O => if startsWith pat64 t then patLib ++ replaceAll 6 r else c :: replaceAll 0 r
              end
  end.
(** _mangle_vsscript_key, lines 239-243, not on Windows. *)
Definition mangleKey (path : text) : text := replaceAll 0 path.
(** _escape_toml_string, lines 283-284. *)
Definition escapeToml (s : text) : text := qt :: flat_map (fun c => if Ascii.eqb c bsl then [bsl; bsl] else [c]) s ++ [qt].
(** An item of the dictionary: the key and the list of three, all as texts (str of the values). *)
Record entry := mkE { e_key : text; e_exe : text; e_sym : text; e_stamp : text }.
(** Assignment to an item of a dictionary: in place if the key exists, at the end otherwise. *)
Fixpoint setEntry (e : entry) (l : list entry) : list entry :=
  match l with [] => [e] | x :: r => if textEqb (e_key x) (e_key e) then e :: r else x :: setEntry e r end.
(** The line for an item and the whole file, lines 309-314. *)
Definition lineOf (e : entry) : text :=
  escapeToml (e_key e) ++ T " = [" ++ escapeToml (e_exe e) ++ T "," ++ escapeToml (e_sym e) ++ T "," ++ escapeToml (e_stamp e) ++ T "]".
Definition fileOf (l : list entry) : text := flat_map (fun e => lineOf e ++ [nl]) l.
(** vapoursynth_config, lines 287-319, once the Python library has been found: [old] is what tomllib got out of the file,
    [path] the library of vsscript, [exe] the interpreter with modification time [stamp] and [sym] the Python library. *)
Definition configure (old : list entry) (path exe sym : text) (stamp : Z) : text :=
  fileOf (setEntry (mkE (mangleKey path) exe sym (dec stamp)) old).

(** ** The reader, /repo/src/vsscript/vsscript.cpp *)
(** getLibraryPath, lines 63-83, not on Windows: the first /lib64/ is replaced; [path] is what dladdr answers, taken to be normal already. *)
Fixpoint libraryPath (t : text) : text :=
  match t with [] => [] | c :: r => if startsWith pat64 t then patLib ++ skipn 7 t else c :: libraryPath r end.
(** unescapeTOMLString, lines 85-95. *)
Fixpoint unescape (esc : bool) (s : text) : text :=
  match s with
  | [] => []
  | c :: r => let e := negb esc && Ascii.eqb c bsl in if e then unescape e r else c :: unescape e r
  end.
(** std::string::find of a character from an offset; None is npos. *)
Fixpoint findCh (c : ascii) (t : text) : option nat :=
  match t with [] => None | x :: r => if Ascii.eqb x c then Some O else option_map S (findCh c r) end.
Definition findAt (c : ascii) (t : text) (off : nat) : option nat := option_map (Nat.add off) (findCh c (skipn off t)).
(** getTOMLString, lines 97-104. Without a closing quote the rest of the line is taken, and npos + 1 is 0. *)
Definition tomlString (line : text) (off : nat) : text * nat :=
  match findAt qt line off with
  | None => ([], O)
  | Some st => match findAt qt line (S st) with
               | Some en => (unescape false (firstn (en - st - 1) (skipn (S st) line)), S en)
               | None => (unescape false (skipn (S st) line), O)
               end
  end.
(** std::getline until the end: a last line without a line feed counts unless it is empty. *)
Fixpoint getLines (t : text) : list text :=
  match t with
  | [] => []
  | c :: r => if Ascii.eqb c nl then [] :: getLines r
              else match getLines r with [] => [[c]] | l :: ls => (c :: l) :: ls end
  end.
(** atoll: white space, a sign, digits up to anything else; values that do not fit are undefined behaviour. *)
Fixpoint leadingDigits (acc : Z) (t : text) : Z :=
  match t with [] => acc | c :: r => let n := Z.of_nat (nat_of_ascii c) in
    if (48 <=? n) && (n <=? 57) then leadingDigits (acc * 10 + (n - 48)) r else acc end.
Fixpoint skipSpace (t : text) : text :=
  match t with [] => [] | c :: r => let n := Z.of_nat (nat_of_ascii c) in
    if (n =? 32) || ((9 <=? n) && (n <=? 13)) then skipSpace r else t end.
Definition atoll (t : text) : outcome Z :=
  let v := match skipSpace t with
           | c :: r => if Ascii.eqb c "-" then - leadingDigits 0 r else if Ascii.eqb c "+" then leadingDigits 0 r else leadingDigits 0 (c :: r)
           | [] => 0
           end in
  if (- 2 ^ 63 <=? v) && (v <? 2 ^ 63) then Ok v else UB.
(** readEnvConfig, lines 106-163, not on Windows. [mtime] answers stat, being 0 for files that are not there; the answer is the pair of the
    interpreter and the library, both empty if nothing was found. [file] is None if it cannot be opened. *)
Section Read.
Variable mtime : text -> Z.
Fixpoint readLines (key : text) (ls : list text) : outcome (text * text) :=
  match ls with
  | [] => Ok ([], [])
  | line :: r =>
      match line with
      | [] => readLines key r
      | c :: _ =>
          if Ascii.eqb c "#" then readLines key r
          else
            let s1 := tomlString line 0 in
            if textEqb (fst s1) key then
              let s2 := tomlString line (snd s1) in
              let s3 := tomlString line (snd s2) in
              let s4 := tomlString line (snd s3) in
              obind (atoll (fst s4)) (fun t => if t =? mtime (fst s2) then Ok (fst s2, fst s3) else readLines key r)
            else readLines key r
      end
  end.
Definition readEnvConfig (file : option text) (key : text) : outcome (text * text) :=
  match file with None => Ok ([], []) | Some t => readLines key (getLines t) end.
End Read.

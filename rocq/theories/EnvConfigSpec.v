(** What the configuration of vsscript should do: the interpreter configured for a library is the one found. *)
From Coq Require Import String Ascii ZArith List Bool.
From Verif Require Import Common OptSpec.
Import ListNotations.
Open Scope Z_scope.

(** An installation: library of vsscript, interpreter, Python library and the time at which the interpreter was modified. *)
Record install := mkI { i_lib : text; i_exe : text; i_sym : text; i_time : Z }.
(** Texts without quotes and line feeds. *)
Definition plainText (t : text) : Prop := ~ In """"%char t /\ ~ In (ascii_of_nat 10) t.
Definition plainInstall (i : install) : Prop := plainText (i_lib i) /\ plainText (i_exe i) /\ plainText (i_sym i) /\ fits64 (i_time i).
(** What a lookup answers: the first installation of that library whose interpreter has not changed since. *)
Definition found (mtime : text -> Z) (l : list install) (lib : text) (answer : text * text) : Prop :=
  (exists a i b, l = a ++ i :: b /\ i_lib i = lib /\ mtime (i_exe i) = i_time i /\ answer = (i_exe i, i_sym i) /\
     forall x, In x a -> i_lib x = lib -> mtime (i_exe x) <> i_time x) \/
  ((forall x, In x l -> i_lib x = lib -> mtime (i_exe x) <> i_time x) /\ answer = ([], [])).
(** At most one directory called lib64 that is not right behind another one. *)
Definition occursIn (p t : text) : Prop := exists x y, t = x ++ p ++ y.
Definition oneLib64 (path : text) : Prop := forall a b, path = a ++ T "/lib64/" ++ b -> ~ occursIn (T "/lib64/") b.

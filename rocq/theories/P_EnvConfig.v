(** C100: the Python that was configured for a library of vsscript is the one found. *)
From Coq Require Import String Ascii ZArith List Bool Lia.
From Verif Require Import Common OptSpec EnvConfig EnvConfigSpec EnvConfigFacts.
Import ListNotations.
Open Scope Z_scope.

Theorem C100_lookup : forall mtime l lib, Forall plainInstall l ->
  exists answer, readEnvConfig mtime (Some (fileOf (map entryOf l))) lib = Ok answer /\ found mtime l lib answer.
Proof. exact read_found. Qed.
Print Assumptions C100_lookup.

Theorem C100_config_partial : forall mtime old path exe sym stamp,
  Forall plainInstall old -> plainText path -> plainText exe -> plainText sym -> fits64 stamp -> oneLib64 path -> mtime exe = stamp ->
  readEnvConfig mtime (Some (configure (map entryOf old) path exe sym stamp)) (libraryPath path) = Ok (exe, sym) /\
  forall lib, lib <> libraryPath path ->
    readEnvConfig mtime (Some (configure (map entryOf old) path exe sym stamp)) lib = readEnvConfig mtime (Some (fileOf (map entryOf old))) lib.
Proof. exact configured. Qed.
Print Assumptions C100_config_partial.

Theorem C100_quote_refuted : exists mtime path exe sym stamp, mtime exe = stamp /\ fits64 stamp /\ mangleKey path = libraryPath path /\
  readEnvConfig mtime (Some (configure [] path exe sym stamp)) (libraryPath path) = Ok ([], []).
Proof. exact quote_lost. Qed.
Print Assumptions C100_quote_refuted.

Theorem C100_lib64_refuted : exists mtime path exe sym stamp, mtime exe = stamp /\ fits64 stamp /\ plainText path /\ plainText exe /\ plainText sym /\
  readEnvConfig mtime (Some (configure [] path exe sym stamp)) (libraryPath path) = Ok ([], []).
Proof. exact lib64_lost. Qed.
Print Assumptions C100_lib64_refuted.

(** Two installations, one with backslashes in a name: both are found, a changed interpreter and an unknown library are not. *)
Definition exOld : list install := [mkI (T "/a\b/libvsscript.so") (T "/a\\b/python") (T "/a\b/libpython.so\") 12].
Definition exFile : text := configure (map entryOf exOld) (T "/usr/lib64/libvsscript.so") (T "/usr/bin/python3") (T "/usr/lib/libpython3.so") 1700000000.
Definition exTime (t : text) : Z := if textEqb t (T "/usr/bin/python3") then 1700000000 else 12.
Example C100_ex_new : readEnvConfig exTime (Some exFile) (libraryPath (T "/usr/lib64/libvsscript.so")) = Ok (T "/usr/bin/python3", T "/usr/lib/libpython3.so").
Proof. reflexivity. Qed.
Example C100_ex_old : readEnvConfig exTime (Some exFile) (T "/a\b/libvsscript.so") = Ok (T "/a\\b/python", T "/a\b/libpython.so\").
Proof. reflexivity. Qed.
Example C100_ex_changed : readEnvConfig (fun _ => 13) (Some exFile) (T "/a\b/libvsscript.so") = Ok ([], []).
Proof. reflexivity. Qed.
Example C100_ex_plain : Forall plainInstall exOld.
Proof. constructor; [|constructor]. repeat split; cbn; try (intuition discriminate); lia. Qed.
Example C100_ex_one : oneLib64 (T "/lib64/vs.so").
Proof. intros a b E (x & y & ->). apply (f_equal (@List.length ascii)) in E. rewrite !app_length in E. cbn in E. lia. Qed.

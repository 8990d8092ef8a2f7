(** The log of a core: src/core/vscore.cpp:1438-1505 and 2091-2110, vscore.h:1123-1131 and 1161-1165; and the global log of API 3, src/core/vslog.cpp. *)
From Coq Require Import ZArith List Bool Lia.
From Verif Require Import Common LogSpec.
Import ListNotations.
Open Scope Z_scope.

Section Log.
(** Handlers are kept in a set ordered by address; [addr h] is the address of handler number [h].  [hasFree]: a free callback was given; [freeLogs]: what it logs, from within the callback (the mutex is recursive).  Handlers that log, add or remove handlers themselves are left out. *)
Variable addr : nat -> Z.
Variable hasFree : nat -> bool.
Variable freeLogs : nat -> list msg.
Record st := mkS { s_handlers : list nat; s_stored : list msg; s_trace : list event; s_next : nat; s_freed : bool; s_dead : bool }.
Definition start : st := mkS [] [] [] 0 false false.
Definition maxStored : nat := 500.
Fixpoint insert (h : nat) (l : list nat) : list nat := match l with [] => [h] | x :: r => if addr h <? addr x then h :: l else x :: insert h r end.
(** logMessage, 1462-1491; after a fatal message there is no process. *)
Definition logMessage (m : msg) (s : st) : st :=
  if s_dead s then s else
  mkS (s_handlers s) (if nobody (s_handlers s) && (length (s_stored s) <? maxStored)%nat then s_stored s ++ [m] else s_stored s)
      (s_trace s ++ map (fun h => Told h m) (s_handlers s)) (s_next s) (s_freed s) (fatal m).
(** addLogHandler, 1438-1448. *)
Definition addLogHandler (s : st) : st :=
  if s_dead s then s else let h := s_next s in
  mkS (insert h (s_handlers s)) [] (s_trace s ++ map (Told h) (s_stored s) ++ (if Nat.eqb (length (s_stored s)) maxStored then [Told h discarded] else [])) (S h) (s_freed s) (s_dead s).
(** removeLogHandler, 1450-1460: delete runs the callback while the handler is still in the set. *)
Definition removeLogHandler (h : nat) (s : st) : st :=
  if s_dead s then s else
  if mem h (s_handlers s) then
    let s := mkS (s_handlers s) (s_stored s) (s_trace s ++ (if hasFree h then [Freed h] else [])) (s_next s) (s_freed s) (s_dead s) in
    let s := if hasFree h then fold_left (fun s m => logMessage m s) (freeLogs h) s else s in
    mkS (filter (fun x => negb (Nat.eqb x h)) (s_handlers s)) (s_stored s) (s_trace s) (s_next s) (s_freed s) (s_dead s)
  else s.
(** freeCore, 2091-2110; [ws]: the warnings about what is still allocated. *)
Definition freeCore (ws : list text) (s : st) : st :=
  if s_dead s then s else if s_freed s then logMessage doubleFree s else
  let s := mkS (s_handlers s) (s_stored s) (s_trace s) (s_next s) true (s_dead s) in
  let s := fold_left (fun s w => logMessage (warn w) s) ws s in
  fold_left (fun s h => removeLogHandler h s) (s_handlers s) s.
Definition step (s : st) (o : op) : st := match o with Log m => logMessage m s | Add => addLogHandler s | Remove h => removeLogHandler h s | FreeCore ws => freeCore ws s end.
Definition run (ops : list op) : st := fold_left step ops start.
End Log.

(** ** The global log of API 3, vslog.cpp:38-105 *)
Section Log3.
(** Handlers of vsSetMessageHandler3 have no free callback. *)
Variable hasFree3 : nat -> bool.
Record st3 := mkG { g_handlers : list (nat * bool); g_trace : list event; g_next : nat; g_global : option nat }.
Definition start3 : st3 := mkG [] [] 0 None.
Definition remove3 (id : nat) (s : st3) : st3 :=
  match find (fun e => Nat.eqb id (fst e)) (g_handlers s) with
  | Some (_, f) => mkG (filter (fun e => negb (Nat.eqb (fst e) id)) (g_handlers s)) (g_trace s ++ (if f then [Freed id] else [])) (g_next s) (g_global s)
  | None => s
  end.
Definition add3 (f : bool) (s : st3) : st3 := mkG (g_handlers s ++ [(g_next s, f)]) (g_trace s) (S (g_next s)) (g_global s).
Definition set3 (handler : bool) (s : st3) : st3 :=
  let s := match g_global s with Some id => let s := remove3 id s in mkG (g_handlers s) (g_trace s) (g_next s) None | None => s end in
  if handler then let id := g_next s in let s := add3 false s in mkG (g_handlers s) (g_trace s) (g_next s) (Some id) else s.
Definition log3 (m : msg) (s : st3) : st3 := mkG (g_handlers s) (g_trace s ++ map (fun e => Told (fst e) m) (g_handlers s)) (g_next s) (g_global s).
Definition step3 (s : st3) (o : op3) : st3 := match o with Log3 m => log3 m s | Set3 h => set3 h s | Add3 => add3 (hasFree3 (g_next s)) s | Remove3 id => remove3 id s end.
Definition run3 (ops : list op3) : st3 := fold_left step3 ops start3.
End Log3.
(** logMessage passes messages on, 1471-1485: information counts as a warning there. *)
Definition type3 (t : Z) : Z := if t =? 0 then 0 else if (t =? 1) || (t =? 2) then 1 else if t =? 3 then 2 else 3.

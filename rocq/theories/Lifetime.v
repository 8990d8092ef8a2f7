(** The life of filter instances and of the core: src/core/vscore.cpp:779-847 (node constructors and destructor), 1923-1975 (filterInstanceCreated, filterInstanceDestroyed, destroyFilterInstance), 2091-2107 (freeCore), 2192-2224 (creation); vscore.h:653- (reference counts).
    Threads interleave between the atomic accesses.  The rest of a thread is a list of actions, the innermost call first.  A free function is taken to give back the references its instance data holds and nothing else.  Caches, consumers and timing are left out. *)
From Coq Require Import ZArith List Bool Lia Arith.
From Verif Require Import Common.
Import ListNotations.
Open Scope list_scope.
Open Scope Z_scope.

(** A node.  [n_ext]: references held by users, [n_lost]: held by instance data nobody will free, [n_fin]: the instance is done with. *)
Record node := mkN { n_core : nat; n_deps : list nat; n_inst : list nat; n_free : bool; n_live : bool; n_fin : bool; n_refs : Z; n_ext : Z; n_lost : Z }.
Definition withRefs (x : node) (live : bool) (r e l : Z) : node := mkN (n_core x) (n_deps x) (n_inst x) (n_free x) live (n_fin x) r e l.
Definition finished (x : node) : node := mkN (n_core x) (n_deps x) (n_inst x) (n_free x) (n_live x) true (n_refs x) (n_ext x) (n_lost x).
(** [ARel]: release(); [AInst]: destroyFilterInstance(node); [ALoop]: its while loop on this core; [ACall]: freeFunc with this core; [ADec]: filterInstanceDestroyed; [ALeave]: freeDepth--. *)
Inductive act := ARel (n : nat) | AInst (n : nat) | ALoop (c : nat) | ACall (n c : nat) | ADec (c : nat) | ALeave.
(** freeDepth and nodeFreeList are thread_local. *)
Record thread := mkT { t_stack : list act; t_depth : nat; t_list : list nat }.
Record kore := mkK { k_count : Z; k_handle : bool; k_deleted : bool }.
Inductive event := EFree (n c : nat) | EDelete (c : nat).
Record state := mkS { s_nodes : list node; s_threads : list thread; s_cores : list kore; s_log : list event }.

Fixpoint upd {A} (i : nat) (x : A) (l : list A) : list A := match l, i with [], _ => [] | _ :: r, O => x :: r | y :: r, S k => y :: upd k x r end.

(** filterInstanceDestroyed; UB: the core is gone already, or the assertion that it was given back fails. *)
Definition decCore (c : nat) (cs : list kore) (log : list event) : outcome (list kore * list event) :=
  match nth_error cs c with
  | None => UB
  | Some k => if k_deleted k then UB
              else if k_count k - 1 =? 0 then if k_handle k then UB else Ok (upd c (mkK 0 false true) cs, EDelete c :: log)
              else Ok (upd c (mkK (k_count k - 1) (k_handle k) false) cs, log)
  end.
Definition alive (cs : list kore) (c : nat) : bool := match nth_error cs c with Some k => negb (k_deleted k) | None => false end.

(** The next action of a thread; Err: there is none. *)
Definition step (s : state) (t : nat) : outcome state :=
  match nth_error (s_threads s) t with
  | None => Err
  | Some th =>
    let go ns cs log st d fl := Ok (mkS ns (upd t (mkT st d fl) (s_threads s)) cs log) in
    match t_stack th with
    | [] => Err
    | ARel n :: r =>
        match nth_error (s_nodes s) n with
        | None => UB
        | Some x => if negb (n_live x) then UB
                    else if n_refs x =? 1
                         then go (upd n (withRefs x false 0 (n_ext x) (n_lost x)) (s_nodes s)) (s_cores s) (s_log s) (map ARel (n_deps x) ++ AInst n :: r) (t_depth th) (t_list th)
                         else go (upd n (withRefs x true (n_refs x - 1) (n_ext x) (n_lost x)) (s_nodes s)) (s_cores s) (s_log s) r (t_depth th) (t_list th)
        end
    | AInst n :: r =>
        match nth_error (s_nodes s) n with
        | None => UB
        | Some x => if negb (alive (s_cores s) (n_core x)) then UB
                    else let d := S (t_depth th) in
                         let st := if Nat.eqb d 1 then ALoop (n_core x) :: ALeave :: r else ALeave :: r in
                         if n_free x then go (s_nodes s) (s_cores s) (s_log s) st d (n :: t_list th)
                         else obind (decCore (n_core x) (s_cores s) (s_log s)) (fun cl => go (upd n (finished x) (s_nodes s)) (fst cl) (snd cl) st d (t_list th))
        end
    | ALoop c :: r =>
        match t_list th with
        | [] => go (s_nodes s) (s_cores s) (s_log s) r (t_depth th) []
        | n :: fl => if alive (s_cores s) c then go (s_nodes s) (s_cores s) (s_log s) (ACall n c :: ADec c :: ALoop c :: r) (t_depth th) fl else UB
        end
    | ACall n c :: r =>
        match nth_error (s_nodes s) n with
        | None => UB
        | Some x => if n_fin x || negb (alive (s_cores s) c) then UB
                    else go (upd n (finished x) (s_nodes s)) (s_cores s) (EFree n c :: s_log s) (map ARel (n_inst x) ++ r) (t_depth th) (t_list th)
        end
    | ADec c :: r => obind (decCore c (s_cores s) (s_log s)) (fun cl => go (s_nodes s) (fst cl) (snd cl) r (t_depth th) (t_list th))
    | ALeave :: r => go (s_nodes s) (s_cores s) (s_log s) r (pred (t_depth th)) (t_list th)
    end
  end.

(** What a user does on an idle thread with references they hold; Err: not allowed.  [strict]: filters hold clips of their own core only. *)
Inductive op := OAdd (n : nat) | ORel (n : nat) | OCreate (c : nat) (deps inst : list nat) (free : bool) | OFail (c : nat) (inst : list nat) | OFreeCore (c : nat).
Definition occ (n : nat) (l : list nat) : Z := Z.of_nat (count_occ Nat.eq_dec l n).
(** Each node with its number. *)
Fixpoint numbered {A} (i : nat) (l : list A) : list (nat * A) := match l with [] => [] | x :: r => (i, x) :: numbered (S i) r end.
Definition mapi {A B} (f : nat -> A -> B) (l : list A) : list B := map (fun p => f (fst p) (snd p)) (numbered 0 l).
Definition held (strict : bool) (c : nat) (ns : list node) (n : nat) : bool :=
  match nth_error ns n with Some x => (0 <? n_ext x) && (negb strict || Nat.eqb (n_core x) c) | None => false end.
Definition user (strict : bool) (s : state) (t : nat) (o : op) : outcome state :=
  match nth_error (s_threads s) t with
  | None => Err
  | Some th =>
    match t_stack th with
    | _ :: _ => Err
    | [] =>
      let put st := upd t (mkT st (t_depth th) (t_list th)) (s_threads s) in
      match o with
      | OAdd n => match nth_error (s_nodes s) n with
                  | Some x => if 0 <? n_ext x then Ok (mkS (upd n (withRefs x (n_live x) (n_refs x + 1) (n_ext x + 1) (n_lost x)) (s_nodes s)) (s_threads s) (s_cores s) (s_log s)) else Err
                  | None => Err
                  end
      | ORel n => match nth_error (s_nodes s) n with
                  | Some x => if 0 <? n_ext x then Ok (mkS (upd n (withRefs x (n_live x) (n_refs x) (n_ext x - 1) (n_lost x)) (s_nodes s)) (put [ARel n]) (s_cores s) (s_log s)) else Err
                  | None => Err
                  end
      | OCreate c deps inst free =>
          match nth_error (s_cores s) c with
          | Some k =>
              if k_handle k && forallb (held strict c (s_nodes s)) deps && forallb (held strict c (s_nodes s)) inst
                 && forallb (fun p => occ (fst p) inst <=? n_ext (snd p)) (numbered 0 (s_nodes s)) && (free || Nat.eqb (List.length inst) 0)
              then Ok (mkS (mapi (fun i x => withRefs x (n_live x) (n_refs x + occ i deps) (n_ext x - occ i inst) (n_lost x)) (s_nodes s) ++ [mkN c deps inst free true false 1 1 0]) (s_threads s)
                           (upd c (mkK (k_count k + 1) (k_handle k) (k_deleted k)) (s_cores s)) (s_log s))
              else Err
          | None => Err
          end
      | OFail c inst =>
          if forallb (fun p => occ (fst p) inst <=? n_ext (snd p)) (numbered 0 (s_nodes s))
          then Ok (mkS (mapi (fun i x => withRefs x (n_live x) (n_refs x) (n_ext x - occ i inst) (n_lost x + occ i inst)) (s_nodes s)) (s_threads s) (s_cores s) (s_log s))
          else Err
      | OFreeCore c =>
          match nth_error (s_cores s) c with
          | Some k => if k_handle k then Ok (mkS (s_nodes s) (put [ADec c]) (upd c (mkK (k_count k) false (k_deleted k)) (s_cores s)) (s_log s)) else Err
          | None => Err
          end
      end
    end
  end.

(** Any order of what users and threads do; what is not allowed does not happen. *)
Inductive move := MStep (t : nat) | MUser (t : nat) (o : op).
Definition act1 (strict : bool) (s : state) (m : move) : outcome state :=
  match (match m with MStep t => step s t | MUser t o => user strict s t o end) with Err => Ok s | r => r end.
Fixpoint run (strict : bool) (s : state) (l : list move) : outcome state := match l with [] => Ok s | m :: r => obind (act1 strict s m) (fun s' => run strict s' r) end.
Definition start (cores threads : nat) : state := mkS [] (repeat (mkT [] 0 []) threads) (repeat (mkK 1 true false) cores) [].

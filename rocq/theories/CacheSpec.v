(** Abstract two segment LRU list: live frames most recently used first, then
    the remembered keys of evicted frames.  Does not import the model. *)
From Coq Require Import ZArith List Lia Bool.
From Verif Require Import Common.
Import ListNotations.
Open Scope Z_scope.

(** Interface of the cache: every public operation. *)
Inductive op (F : Type) :=
| OInsert (k : Z) (f : F) | OLookup (k : Z) | ORemove (k : Z) | OClear
| OSetMax (m : Z) | OSetHist (m : Z) | OSetUser (m : Z) | OSetFixed (b : bool) | OResetTuning
| ODrop (budget : Z) | OAdjust (comfortable : bool) (completed : Z).
Arguments OInsert {F} _ _. Arguments OLookup {F} _. Arguments ORemove {F} _. Arguments OClear {F}.
Arguments OSetMax {F} _. Arguments OSetHist {F} _. Arguments OSetUser {F} _. Arguments OSetFixed {F} _.
Arguments OResetTuning {F}. Arguments ODrop {F} _. Arguments OAdjust {F} _ _.

Section Spec.
Variable F : Type.
Variable fsz : F -> Z.

Record lru := {
  live : list (Z * F);   (* most recently used first *)
  hist : list Z;         (* most recently used first; all older than live *)
  cap : Z; hcap : Z;     (* limits *)
  fixed : bool; nhit : Z; nnear : Z; nfar : Z; floor : Z; seen : Z }.

Definition lists (a : lru) lv hs := {| live := lv; hist := hs; cap := cap a; hcap := hcap a; fixed := fixed a;
  nhit := nhit a; nnear := nnear a; nfar := nfar a; floor := floor a; seen := seen a |}.
Definition caps (a : lru) m mh := {| live := live a; hist := hist a; cap := m; hcap := mh; fixed := fixed a;
  nhit := nhit a; nnear := nnear a; nfar := nfar a; floor := floor a; seen := seen a |}.
Definition stats (a : lru) h n f := {| live := live a; hist := hist a; cap := cap a; hcap := hcap a; fixed := fixed a;
  nhit := h; nnear := n; nfar := f; floor := floor a; seen := seen a |}.
Definition tune (a : lru) fx fl s := {| live := live a; hist := hist a; cap := cap a; hcap := hcap a; fixed := fx;
  nhit := nhit a; nnear := nnear a; nfar := nfar a; floor := fl; seen := s |}.

Definition assoc (k : Z) (l : list (Z * F)) : option F :=
  option_map snd (find (fun p => fst p =? k) l).
Definition without (k : Z) (l : list (Z * F)) := filter (fun p => negb (fst p =? k)) l.
Definition hwithout (k : Z) (l : list Z) := filter (fun x => negb (x =? k)) l.
Definition total (l : list (Z * F)) : Z := fold_right (fun p s => fsz (snd p) + s) 0 l.

(** Keep the [n] most recent live frames; the others become history, of which
    the most recent [hcap] entries are kept. *)
Definition keep (a : lru) (n : nat) : lru :=
  lists a (firstn n (live a))
          (firstn (Z.to_nat (hcap a)) (map fst (skipn n (live a)) ++ hist a)).
Definition settle (a : lru) : lru := keep a (Z.to_nat (cap a)).

(** How many frames, starting with the least recently used, to give up to free
    [budget] bytes. *)
Fixpoint drop_count (lru_first : list (Z * F)) (budget : Z) : nat :=
  match lru_first with
  | [] => 0
  | (_, f) :: t => if 0 <? budget then S (drop_count t (budget - fsz f)) else 0
  end.

Definition s_setmax a m := settle (caps a m (hcap a)).
Definition s_sethist a m := settle (caps a (cap a) m).
Definition s_clear a := stats (lists a [] []) 0 0 0.

Definition s_adjust (a : lru) (comfortable : bool) (completed : Z) : lru :=
  if fixed a then a
  else
    let requests := nhit a + nnear a + nfar a in
    if requests <=? 0 then
      if (completed - seen a) mod 2 ^ 64 <? 3 then a
      else (* dead branch: emptied and made smaller, but not below what the user asked for *)
        let b := s_setmax (s_clear a) (Z.max (cap a - 2) (floor a)) in
        if hcap b <? cap b then s_sethist b (cap b) else b
    else
      let a := tune a (fixed a) (floor a) completed in
      let b :=
        if requests <? 30 then a
        else if requests <=? nnear a * 20 then
          (if comfortable then s_setmax (stats a 0 0 0) (cap a + 2) else stats a 0 0 0)
        else if (nnear a =? 0) && (nhit a =? 0) then
          s_setmax (stats a 0 0 0) (Z.max (cap a - 1) (floor a))
        else stats a 0 0 0 in
      if hcap b <? cap b then s_sethist b (cap b) else b.

Definition s_drop (a : lru) (budget : Z) : lru :=
  let b := keep a (length (live a) - drop_count (rev (live a)) budget) in
  if Z.max 20 (floor b) <? cap b
  then caps b (Z.max (Z.max 20 (floor b)) (zlength (live b))) (hcap b) else b.

Definition s_step (a : lru) (o : op F) : lru * option F :=
  match o with
  | OInsert k f => (settle (lists a ((k, f) :: without k (live a)) (hwithout k (hist a))), None)
  | OLookup k =>
    match assoc k (live a) with
    | Some f => (stats (lists a ((k, f) :: without k (live a)) (hist a)) (nhit a + 1) (nnear a) (nfar a), Some f)
    | None => (if existsb (Z.eqb k) (hist a) then stats a (nhit a) (nnear a + 1) (nfar a)
               else stats a (nhit a) (nnear a) (nfar a + 1), None)
    end
  | ORemove k => (lists a (without k (live a)) (hwithout k (hist a)), None)
  | OClear => (s_clear a, None)
  | OSetMax m => (s_setmax a m, None)
  | OSetHist m => (s_sethist a m, None)
  | OSetUser m => (s_setmax (tune a (fixed a) m (seen a)) m, None)
  | OSetFixed b => (tune a b (floor a) (seen a), None)
  | OResetTuning => (tune a (fixed a) 0 (seen a), None)
  | ODrop b => (s_drop a b, None)
  | OAdjust m x => (s_adjust a m x, None)
  end.

Fixpoint s_run (a : lru) (os : list (op F)) : lru * list (option F) :=
  match os with
  | [] => (a, [])
  | o :: t => let r := s_step a o in let r2 := s_run (fst r) t in (fst r2, snd r :: snd r2)
  end.

Definition s_init (m mh : Z) (fx : bool) : lru :=
  {| live := []; hist := []; cap := m; hcap := mh; fixed := fx;
     nhit := 0; nnear := 0; nfar := 0; floor := 0; seen := 0 |}.

(** Callers pass non-negative limits (guarded in VSNode::setCacheOptions) and
    the frames held fit in the address space. *)
Definition op_ok (a : lru) (o : op F) : Prop :=
  match o with
  | OInsert k f => 0 <= fsz f /\ total (live a) + fsz f < 2 ^ 64 - 1
  | OSetMax m | OSetHist m | OSetUser m => 0 <= m
  | _ => True
  end.
Fixpoint run_ok (a : lru) (os : list (op F)) : Prop :=
  match os with [] => True | o :: t => op_ok a o /\ run_ok (fst (s_step a o)) t end.

(** The frame a lookup of [k] may return after the given history of operations
    (latest last): the one most recently inserted under [k] since the last
    removal or clearing. *)
Definition latest_step (k : Z) (cur : option F) (o : op F) : option F :=
  match o with
  | OInsert k' f => if k' =? k then Some f else cur
  | ORemove k' => if k' =? k then None else cur
  | OClear => None
  | _ => cur
  end.
Definition latest (k : Z) (os : list (op F)) : option F := fold_left (latest_step k) os None.

End Spec.

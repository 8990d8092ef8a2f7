(** The frame buffer allocator, src/core/memoryuse.cpp and memoryuse.h. *)
From Coq Require Import ZArith List Lia Bool.
From Verif Require Import Common Sums.
Import ListNotations.
Open Scope Z_scope.

(** memoryuse.cpp:32-38 *)
Definition THRESHOLD : Z := 1048576.
Definition ALIGNMENT : Z := 64.

(** A block obtained from the system and not yet given back to it; [b_size] is
    the header field (memoryuse.h:39-41, init_block memoryuse.cpp:130-135),
    [b_live] is false while the block sits on the free list. *)
Record blk := mkB { b_size : Z; b_live : bool }.

(** memoryuse.h:44-53.  Blocks are numbered in order of system allocation; the
    free list is the multimap in key order; [m_rng] are the numbers the random
    generator will produce (arbitrary, 0 when used up); [m_deleted] records
    [delete this].  Sizes are exact integers: size_t never wraps here because all
    blocks fit the address space together. *)
Record mem := mkMem {
  m_blk : nat -> option blk;
  m_next : nat;
  m_free : list (Z * nat);
  m_alloc : Z;
  m_fsize : Z;
  m_limit : Z;
  m_rng : list nat;
  m_cfreed : bool;
  m_deleted : bool
}.

Definition mem0 (limit : Z) (rng : list nat) : mem :=
  mkMem (fun _ => None) 0 [] 0 0 limit rng false false.

(** memoryuse.cpp:40-45 *)
Definition is_good_fit (request allocated : Z) : bool := allocated - request <=? request / 8.

(** std::multimap::lower_bound: first entry with key >= size. *)
Fixpoint lower_bound (size : Z) (l : list (Z * nat)) : option (Z * nat) :=
  match l with
  | [] => None
  | e :: r => if size <=? fst e then Some e else lower_bound size r
  end.

(** std::multimap::erase of one entry (identified by its block). *)
Fixpoint eraseB (b : nat) (l : list (Z * nat)) : list (Z * nat) :=
  match l with
  | [] => []
  | e :: r => if Nat.eqb (snd e) b then r else e :: eraseB b r
  end.

(** std::multimap::emplace: after all entries with the same key. *)
Fixpoint emplace (e : Z * nat) (l : list (Z * nat)) : list (Z * nat) :=
  match l with
  | [] => [e]
  | x :: r => if fst e <? fst x then e :: l else x :: emplace e r
  end.

(** memoryuse.cpp:147-164, allocate_from_system.  The system never runs out of
    memory in the model (the callers abort the process when it does). *)
Definition allocate_from_system (m : mem) (size : Z) : mem * nat :=
  (mkMem (fset (m_blk m) (m_next m) (Some (mkB size true))) (S (m_next m)) (m_free m)
         (m_alloc m + size) (m_fsize m) (m_limit m) (m_rng m) (m_cfreed m) (m_deleted m),
   m_next m).

(** memoryuse.cpp:166-185, allocate_from_freelist. *)
Definition allocate_from_freelist (m : mem) (size : Z) : option (mem * nat) :=
  match lower_bound size (m_free m) with
  | Some (bs, b) =>
      if is_good_fit size bs
      then Some (mkMem (fset (m_blk m) b (Some (mkB bs true))) (m_next m) (eraseB b (m_free m))
                       (m_alloc m + bs) (m_fsize m - bs) (m_limit m) (m_rng m) (m_cfreed m) (m_deleted m), b)
      else None
  | None => None
  end.

(** memoryuse.cpp:260-261; [x & ~(k-1)] for a power of two k clears the low bits. *)
Definition alignUp (x k : Z) : Z := Z.land (x + (k - 1)) (Z.lnot (k - 1)).

(** memoryuse.cpp:256-269, allocate.  Using a deleted allocator is undefined. *)
Definition allocate (m : mem) (size : Z) : outcome (mem * nat) :=
  if m_deleted m then UB
  else
    let aligned := alignUp (size + ALIGNMENT) ALIGNMENT in
    let page := alignUp aligned 4096 in
    if page <=? THRESHOLD then Ok (allocate_from_system m aligned)
    else match allocate_from_freelist m page with
         | Some r => Ok r
         | None => Ok (allocate_from_system m page)
         end.

(** memoryuse.cpp:210-254, gc_freelist: random blocks are given back until the
    total is within the limit.  One element of [m_rng] per iteration. *)
Fixpoint gc (fuel : nat) (m : mem) : mem :=
  match fuel with
  | O => m
  | S k =>
      if m_limit m <? m_alloc m + m_fsize m then
        match m_free m with
        | [] => m
        | _ =>
            let index := Nat.modulo (hd O (m_rng m)) (length (m_free m)) in
            match nth_error (m_free m) index with
            | None => m
            | Some (size, b) =>
                gc k (mkMem (fset (m_blk m) b None) (m_next m) (eraseB b (m_free m)) (m_alloc m)
                            (m_fsize m - size) (m_limit m) (tl (m_rng m)) (m_cfreed m) (m_deleted m))
            end
        end
      else m
  end.

Definition gc_freelist (m : mem) : mem := gc (S (length (m_free m))) m.

(** MemoryUse::~MemoryUse, memoryuse.cpp:98-128: the blocks on the free list go
    back to the system. *)
Definition destroy (m : mem) : mem :=
  mkMem (fold_left (fun f e => fset f (snd e) None) (m_free m) (m_blk m)) (m_next m) []
        (m_alloc m) 0 (m_limit m) (m_rng m) (m_cfreed m) true.

(** memoryuse.cpp:271-292, deallocate.  Deallocating something that is not a live
    block (double free) or using a deleted allocator is undefined. *)
Definition deallocate (m : mem) (b : nat) : outcome mem :=
  if m_deleted m then UB
  else match m_blk m b with
  | Some (mkB size true) =>
      let m1 :=
        if THRESHOLD <? size then
          gc_freelist (mkMem (fset (m_blk m) b (Some (mkB size false))) (m_next m)
                             (emplace (size, b) (m_free m)) (m_alloc m - size) (m_fsize m + size)
                             (m_limit m) (m_rng m) (m_cfreed m) (m_deleted m))
        else
          mkMem (fset (m_blk m) b None) (m_next m) (m_free m) (m_alloc m - size) (m_fsize m)
                (m_limit m) (m_rng m) (m_cfreed m) (m_deleted m) in
      Ok (if m_cfreed m1 && (m_alloc m1 =? 0) then destroy m1 else m1)
  | _ => UB
  end.

(** memoryuse.cpp:294-299, set_limit. *)
Definition set_limit (m : mem) (bytes : Z) : outcome mem :=
  if m_deleted m then UB
  else Ok (gc_freelist (mkMem (m_blk m) (m_next m) (m_free m) (m_alloc m) (m_fsize m) bytes
                              (m_rng m) (m_cfreed m) (m_deleted m))).

(** memoryuse.cpp:301-309, on_core_freed. *)
Definition on_core_freed (m : mem) : outcome mem :=
  if m_deleted m then UB
  else
    let m1 := mkMem (m_blk m) (m_next m) (m_free m) (m_alloc m) (m_fsize m) (m_limit m)
                    (m_rng m) true (m_deleted m) in
    Ok (if m_alloc m1 =? 0 then destroy m1 else m1).

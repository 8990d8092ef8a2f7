(** What the reordering filters are supposed to do, in list vocabulary.
    Does not import the model. *)
From Coq Require Import ZArith List Lia Bool.
From Verif Require Import Common.
Import ListNotations.
Open Scope Z_scope.

Definition opt0 (o : option Z) : Z := match o with Some x => x | None => 0 end.

(** Trim arguments denote a non-empty interval inside a clip of [N] frames. *)
Definition trim_valid (N : Z) (first last len : option Z) : Prop :=
  0 <= opt0 first < N /\
  match last, len with
  | Some _, Some _ => False
  | Some b, None => opt0 first <= b < N
  | None, Some m => 1 <= m /\ opt0 first + m <= N
  | None, None => True
  end.

Definition trim_count (N : Z) (first last len : option Z) : Z :=
  match last, len with
  | Some b, _ => b - opt0 first + 1
  | None, Some m => m
  | None, None => N - opt0 first
  end.

Definition trim_frames {A} (first last len : option Z) (l : list A) : list A :=
  firstn (Z.to_nat (trim_count (zlength l) first last len))
         (skipn (Z.to_nat (opt0 first)) l).

(** Frames selected by SelectEvery: cycle after cycle, offsets in the given
    order, those that exist. *)
Definition select_indices (N cycle : Z) (offsets : list Z) : list Z :=
  flat_map (fun c => filter (fun j => j <? N) (map (fun o => c * cycle + o) offsets))
           (zseq (N / cycle + 1)).

(** Each index, repeated once more per occurrence in [dups]. *)
Definition dup_indices (N : Z) (dups : list Z) : list Z :=
  flat_map (fun i => repeat i (S (count_occ Z.eq_dec dups i))) (zseq N).

Definition del_indices (N : Z) (del : list Z) : list Z :=
  filter (fun i => negb (existsb (Z.eqb i) del)) (zseq N).

(** Positions of the inserted copies: the [k]-th listed frame [d] (in sorted
    order) has its extra copy at position [d + k]. *)
Definition copy_positions (frames : list Z) : list Z :=
  map (fun p => fst p + Z.of_nat (snd p)) (combine frames (seq 0 (length frames))).

(** The frame list a list of indices denotes. *)
Definition pick {A} (l : list A) (idx : list Z) : list (option A) := map (nthz l) idx.

(** Freeze: [n] lies in the (unordered) range [a,b]. *)
Definition in_range (a b n : Z) : Prop := Z.min a b <= n <= Z.max a b.

(** Freeze ranges (first, last, replacement) inside a clip of [N] frames, and
    two ranges without a common frame. *)
Definition range_ok (N : Z) (t : Z * Z * Z) : Prop :=
  let '(a, b, r) := t in 0 <= a < N /\ 0 <= b < N /\ 0 <= r < N.
Definition range_disjoint (t u : Z * Z * Z) : Prop :=
  let '(a, b, _) := t in let '(c, d, _) := u in
  Z.max a b < Z.min c d \/ Z.max c d < Z.min a b.

(** Indexing clips in Python: VideoNode.__getitem__, /repo/src/cython/vapoursynth.pyx:2579-2625.
    Clips are lists of frames, the filters those of [Reorder]. *)
From Coq Require Import ZArith List Bool.
From Verif Require Import Common Reorder.
Import ListNotations.
Open Scope Z_scope.

(** slice.indices of Python, Objects/sliceobject.c: given, not part of the repository.  Only called for steps other than 0. *)
Definition indices (start stop step : option Z) (N : Z) : Z * Z * Z :=
  let s := match step with Some s => s | None => 1 end in
  let neg := s <? 0 in
  let lower := if neg then -1 else 0 in
  let upper := if neg then N - 1 else N in
  let adjust x := if x <? 0 then (if x + N <? lower then lower else x + N) else (if upper <? x then upper else x) in
  let a := match start with None => if neg then upper else lower | Some x => adjust x end in
  let b := match stop with None => if neg then lower else upper | Some x => adjust x end in
  (a, b, s).
(** The result of an expression in Python: a value or the exception. *)
Inductive exn := ValueError | IndexError | OverflowError | FilterError.
Inductive pyres (A : Type) := POk (a : A) | PRaise (e : exn) | PUB.
Arguments POk {A} _. Arguments PRaise {A} _. Arguments PUB {A}.
Definition pbind {A B} (x : pyres A) (f : A -> pyres B) : pyres B := match x with POk a => f a | PRaise e => PRaise e | PUB => PUB end.
(** A filter applied to a clip: all its frames can be served or there is no clip. *)
Fixpoint served {A} (l : list (option A)) : option (list A) :=
  match l with [] => Some [] | Some x :: r => option_map (cons x) (served r) | None :: _ => None end.
Definition applied {A} (l : list A) (c : created filter1) : pyres (list A) :=
  match output1 l c with None => PRaise FilterError | Some o => match served o with Some r => POk r | None => PUB end end.

(** The exception for big steps comes from rangeToIntFilter, 1079-1086, passed on at 3538-3540. *)
Definition getSlice {A} (l : list A) (vstart vstop vstep : option Z) : pyres (list A) :=
  if match vstep with Some s => s =? 0 | None => false end then PRaise ValueError
  else
    let '(i0, i1, step) := indices vstart vstop vstep (zlength l) in
    let start := if 0 <? step then i0 else i1 in
    let stop := if 0 <? step then i1 else i0 in
    let stop := if 0 <? step then stop - 1 else stop in
    let start := if step <? 0 then start + 1 else start in
    pbind (applied l (trimCreate (zlength l) (Some start) (Some stop) None)) (fun ret =>
    pbind (if step <? 0 then applied ret (reverseCreate (zlength ret)) else POk ret) (fun ret =>
    if Z.abs step =? 1 then POk ret
    else if INT64_MAX <? Z.abs step then PRaise OverflowError
    else applied ret (selectEveryCreate (zlength ret) (Z.abs step) [0]))).
Definition getIndex {A} (l : list A) (val : Z) : pyres (list A) :=
  let n := if val <? 0 then zlength l + val else val in
  if (n <? 0) || ((0 <? zlength l) && (zlength l <=? n)) then PRaise IndexError
  else applied l (trimCreate (zlength l) (Some n) None (Some 1)).

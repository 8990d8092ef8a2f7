(** Frame numbers at the interface. *)
From Coq Require Import ZArith List Bool Lia.
Import ListNotations.
Open Scope Z_scope.
(** The frame served to a filter that asks for [n] of a clip of [len] frames. *)
Definition served (len n : Z) : Z := Z.min n (len - 1).
Definition refused (len n : Z) : Prop := n < 0 \/ len <= n.
(** The C string in a buffer: up to the first zero. *)
Fixpoint cstring (b : list Z) : list Z := match b with [] => [] | c :: r => if c =? 0 then [] else c :: cstring r end.

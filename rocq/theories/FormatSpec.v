(** What video and audio formats are, stated from the API documentation
    (doc/api/vapoursynth4.h.rst) without reference to the code. *)
From Coq Require Import ZArith List Lia Bool.
From Verif Require Import Common.
Import ListNotations.
Open Scope Z_scope.

(** include/VapourSynth4.h, struct VSVideoFormat. *)
Record vfmt := mkV {
  f_cf : Z;      (* colorFamily *)
  f_st : Z;      (* sampleType *)
  f_bits : Z;    (* bitsPerSample *)
  f_bytes : Z;   (* bytesPerSample *)
  f_ssw : Z;     (* subSamplingW *)
  f_ssh : Z;     (* subSamplingH *)
  f_np : Z       (* numPlanes *)
}.

Definition cfUndefined := 0.
Definition cfGray := 1.
Definition cfRGB := 2.
Definition cfYUV := 3.
Definition stInteger := 0.
Definition stFloat := 1.

(** The "no format" value. *)
Definition undefFmt : vfmt := mkV 0 0 0 0 0 0 0.

(** A sample of [bits] bits is stored in the smallest of 1, 2, 4 bytes that holds it. *)
Definition storage (bits bytes : Z) : Prop :=
  (bytes = 1 \/ bytes = 2 \/ bytes = 4) /\ bits <= 8 * bytes /\
  forall b, b = 1 \/ b = 2 \/ b = 4 -> bits <= 8 * b -> bytes <= b.

(** A concrete (not undefined) video format. *)
Definition fmt_valid (f : vfmt) : Prop :=
  (f_cf f = cfGray \/ f_cf f = cfRGB \/ f_cf f = cfYUV) /\
  (f_st f = stInteger /\ 8 <= f_bits f <= 32 \/
   f_st f = stFloat /\ (f_bits f = 16 \/ f_bits f = 32)) /\
  storage (f_bits f) (f_bytes f) /\
  (f_cf f = cfYUV /\ 0 <= f_ssw f <= 4 /\ 0 <= f_ssh f <= 4 \/
   f_cf f <> cfYUV /\ f_ssw f = 0 /\ f_ssh f = 0) /\
  (f_cf f = cfGray /\ f_np f = 1 \/ f_cf f <> cfGray /\ f_np f = 3).

Record afmt := mkA { a_st : Z; a_bits : Z; a_bytes : Z; a_nch : Z; a_layout : Z }.

(** Number of set bits among the low [n] bits. *)
Fixpoint popcount (n : nat) (x : Z) : Z :=
  match n with
  | O => 0
  | S k => popcount k x + (if Z.testbit x (Z.of_nat k) then 1 else 0)
  end.

Definition afmt_valid (a : afmt) : Prop :=
  (a_st a = stInteger /\ 16 <= a_bits a <= 32 \/ a_st a = stFloat /\ a_bits a = 32) /\
  (a_bits a <= 16 /\ a_bytes a = 2 \/ 16 < a_bits a /\ a_bytes a = 4) /\
  0 < a_layout a < 2 ^ 64 /\ a_nch a = popcount 64 (a_layout a).

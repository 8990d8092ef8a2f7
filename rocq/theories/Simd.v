(** Lane arithmetic of the x86 vector instructions used by the kernels.

    A vector register is the list of its lanes, lowest address first; a lane of
    [k] bits is the unsigned number in [0, 2^k).  The definitions transcribe the
    operation sections of Intel's intrinsics reference; they are part of the
    trusted base, as is the C++ compiler.  256 and 512 bit unpack and pack
    instructions work on each 128 bit block separately ([perBlock]). *)
From Coq Require Import ZArith List Lia Bool.
From Verif Require Import Common.
Import ListNotations.
Open Scope Z_scope.

(** ** Lanes *)

Definition s8 (x : Z) : Z := if x <? 128 then x else x - 256.
Definition s16 (x : Z) : Z := if x <? 32768 then x else x - 65536.
Definition s32 (x : Z) : Z := if x <? 2147483648 then x else x - 4294967296.
Definition clampZ (lo hi x : Z) : Z := if x <? lo then lo else if hi <? x then hi else x.

Definition add8 (a b : Z) : Z := wrapu8 (a + b).
Definition sub8 (a b : Z) : Z := wrapu8 (a - b).
Definition adds8 (a b : Z) : Z := wrapu8 (clampZ (-128) 127 (s8 a + s8 b)).
Definition subs8 (a b : Z) : Z := wrapu8 (clampZ (-128) 127 (s8 a - s8 b)).

Definition add16 (a b : Z) : Z := wrapu16 (a + b).
Definition sub16 (a b : Z) : Z := wrapu16 (a - b).
Definition adds16 (a b : Z) : Z := wrapu16 (clampZ (-32768) 32767 (s16 a + s16 b)).
Definition subs16 (a b : Z) : Z := wrapu16 (clampZ (-32768) 32767 (s16 a - s16 b)).
Definition mullo16 (a b : Z) : Z := wrapu16 (s16 a * s16 b).
Definition mulhi16 (a b : Z) : Z := wrapu16 (s16 a * s16 b / 65536).
Definition mulhiu16 (a b : Z) : Z := a * b / 65536.
(* _mm_mulhrs_epi16: ((a * b >> 14) + 1) >> 1 *)
Definition mulhrs16 (a b : Z) : Z := wrapu16 ((s16 a * s16 b / 16384 + 1) / 2).
Definition slli16 (k a : Z) : Z := wrapu16 (a * 2 ^ k).
Definition srli16 (k a : Z) : Z := a / 2 ^ k.
Definition min16 (a b : Z) : Z := if s16 a <? s16 b then a else b.
Definition max16 (a b : Z) : Z := if s16 a <? s16 b then b else a.
Definition minu16 (a b : Z) : Z := if a <? b then a else b.
Definition cmpgt16 (a b : Z) : Z := if s16 b <? s16 a then 65535 else 0.
Definition cmplt16 (a b : Z) : Z := cmpgt16 b a.

Definition add32 (a b : Z) : Z := wrapu32 (a + b).
Definition sub32 (a b : Z) : Z := wrapu32 (a - b).
Definition srai32 (k a : Z) : Z := wrapu32 (s32 a / 2 ^ k).
Definition srl32 (k a : Z) : Z := a / 2 ^ k.
(* _mm_madd_epi16: the two 16 bit halves of each 32 bit lane multiplied and added *)
Definition madd16 (a b : Z) : Z :=
  wrapu32 (s16 (a mod 65536) * s16 (b mod 65536) + s16 (a / 65536) * s16 (b / 65536)).
(* upper half of the 64 bit product of _mm_mul_epu32 *)
Definition mulhiu32 (a b : Z) : Z := a * b / 4294967296.

Definition andL (a b : Z) : Z := Z.land a b.
Definition orL (a b : Z) : Z := Z.lor a b.
Definition xorL (a b : Z) : Z := Z.lxor a b.
Definition andnot16 (a b : Z) : Z := Z.land (65535 - a) b.
Definition andnot32 (a b : Z) : Z := Z.land (4294967295 - a) b.
(* _mm256_blendv_epi8: each byte taken from [b] when the top bit of the mask byte is set *)
Definition blend8 (a b m : Z) : Z := if 128 <=? m then b else a.
Definition blendv16 (a b m : Z) : Z :=
  blend8 (a mod 256) (b mod 256) (m mod 256)
  + 256 * blend8 (a / 256) (b / 256) (m / 256).
Definition blendv32 (a b m : Z) : Z :=
  blendv16 (a mod 65536) (b mod 65536) (m mod 65536)
  + 65536 * blendv16 (a / 65536) (b / 65536) (m / 65536).

(* saturating conversions of pack instructions *)
Definition satu8of16 (x : Z) : Z := clampZ 0 255 (s16 x).
Definition sats16of32 (x : Z) : Z := wrapu16 (clampZ (-32768) 32767 (s32 x)).
Definition satu16of32 (x : Z) : Z := clampZ 0 65535 (s32 x).

(** ** Vectors *)

Fixpoint map2 (f : Z -> Z -> Z) (a b : list Z) : list Z :=
  match a, b with
  | x :: a', y :: b' => f x y :: map2 f a' b'
  | _, _ => []
  end.

Fixpoint map3 (f : Z -> Z -> Z -> Z) (a b c : list Z) : list Z :=
  match a, b, c with
  | x :: a', y :: b', z :: c' => f x y z :: map3 f a' b' c'
  | _, _, _ => []
  end.

(* a binary operation applied to each of [nb] blocks of [k] lanes *)
Fixpoint perBlock (nb k : nat) (f : list Z -> list Z -> list Z) (a b : list Z) : list Z :=
  match nb with
  | O => []
  | S nb' => f (firstn k a) (firstn k b) ++ perBlock nb' k f (skipn k a) (skipn k b)
  end.

(* join two half lanes *)
Definition join8 (lo hi : Z) : Z := lo + 256 * hi.
Definition join16 (lo hi : Z) : Z := lo + 65536 * hi.

(* result lanes are twice as wide: the interleaved halves seen as one lane *)
Definition unpacklo8 (nb : nat) : list Z -> list Z -> list Z :=
  perBlock nb 16 (fun x y => map2 join8 (firstn 8 x) (firstn 8 y)).
Definition unpackhi8 (nb : nat) : list Z -> list Z -> list Z :=
  perBlock nb 16 (fun x y => map2 join8 (skipn 8 x) (skipn 8 y)).
Definition unpacklo16 (nb : nat) : list Z -> list Z -> list Z :=
  perBlock nb 8 (fun x y => map2 join16 (firstn 4 x) (firstn 4 y)).
Definition unpackhi16 (nb : nat) : list Z -> list Z -> list Z :=
  perBlock nb 8 (fun x y => map2 join16 (skipn 4 x) (skipn 4 y)).
Definition packus16 (nb : nat) : list Z -> list Z -> list Z :=
  perBlock nb 8 (fun x y => map satu8of16 x ++ map satu8of16 y).
Definition packs32 (nb : nat) : list Z -> list Z -> list Z :=
  perBlock nb 4 (fun x y => map sats16of32 x ++ map sats16of32 y).
Definition packus32 (nb : nat) : list Z -> list Z -> list Z :=
  perBlock nb 4 (fun x y => map satu16of32 x ++ map satu16of32 y).

(* 64 bit lane [i] of a vector of bytes *)
Definition qword (v : list Z) (i : nat) : list Z := firstn 8 (skipn (8 * i) v).
(* _mm256_permute4x64_epi64 and _mm512_permutexvar_epi64 *)
Definition permute64 (idx : list nat) (v : list Z) : list Z := concat (map (qword v) idx).

(** ** Facts used by every kernel proof *)

Lemma map2_length : forall f a b, length (map2 f a b) = Nat.min (length a) (length b).
Proof. induction a; destruct b; cbn [map2 length Nat.min]; auto. Qed.

Lemma map3_length : forall f a b c,
  length (map3 f a b c) = Nat.min (length a) (Nat.min (length b) (length c)).
Proof. induction a; destruct b, c; cbn [map3 length Nat.min]; auto. Qed.

Lemma map2_ext : forall f g (P Q : Z -> Prop) a b,
  (forall x y, P x -> Q y -> f x y = g x y) ->
  Forall P a -> Forall Q b -> map2 f a b = map2 g a b.
Proof.
  intros f g P Q a b H HA; revert b. induction HA; intros b HB; [reflexivity|].
  destruct HB; [reflexivity|]. cbn [map2]. f_equal; auto.
Qed.

Lemma map3_ext : forall f g (P Q R : Z -> Prop) a b c,
  (forall x y z, P x -> Q y -> R z -> f x y z = g x y z) ->
  Forall P a -> Forall Q b -> Forall R c -> map3 f a b c = map3 g a b c.
Proof.
  intros f g P Q R a b c H HA; revert b c. induction HA; intros b c HB HC; [reflexivity|].
  destruct HB; [reflexivity|]. destruct HC; [reflexivity|]. cbn [map3]. f_equal; auto.
Qed.

Lemma map2_firstn : forall f n a b, firstn n (map2 f a b) = map2 f (firstn n a) (firstn n b).
Proof.
  induction n; intros a b; [reflexivity|]. destruct a, b; cbn [map2 firstn]; auto.
  f_equal; apply IHn.
Qed.

Lemma map3_firstn : forall f n a b c,
  firstn n (map3 f a b c) = map3 f (firstn n a) (firstn n b) (firstn n c).
Proof.
  induction n; intros a b c; [reflexivity|]. destruct a, b, c; cbn [map3 firstn]; auto.
  f_equal; apply IHn.
Qed.

Lemma map2_app : forall f a1 b1 a2 b2, length a1 = length b1 ->
  map2 f (a1 ++ a2) (b1 ++ b2) = map2 f a1 b1 ++ map2 f a2 b2.
Proof.
  induction a1; destruct b1; intros a2 b2 H; cbn [length] in H; try discriminate; [reflexivity|].
  cbn [app map2]. f_equal. apply IHa1; lia.
Qed.

Lemma map3_app : forall f a1 b1 c1 a2 b2 c2, length a1 = length b1 -> length a1 = length c1 ->
  map3 f (a1 ++ a2) (b1 ++ b2) (c1 ++ c2) = map3 f a1 b1 c1 ++ map3 f a2 b2 c2.
Proof.
  induction a1; destruct b1, c1; intros a2 b2 c2 H K; cbn [length] in H, K; try discriminate;
    [reflexivity|].
  cbn [app map3]. f_equal. apply IHa1; lia.
Qed.

(** Splitting a list of known length into its elements. *)
Ltac lanesH n l H :=
  lazymatch n with
  | O => destruct l as [|? ?]; [clear H|discriminate H]
  | S ?m => destruct l as [|? l]; [discriminate H|]; cbn [length] in H; apply Nat.succ_inj in H;
      lanesH m l H
  end.
Ltac lanes n l :=
  match goal with H : length l = n |- _ => lanesH n l H end.

(** ** Row loops

    for (i = 0; i < n; i += K) { load K lanes of each source at i; store K lanes }
    The loop always touches whole registers; [UB] when a register reaches past
    the end of a row buffer. *)
Fixpoint simdLoop (K : nat) (ker : list (list Z) -> list Z) (m : nat)
                  (src : list (list Z)) (dst : list Z) : outcome (list Z) :=
  match m with
  | O => Ok dst
  | S m' =>
      if forallb (fun r => Nat.leb K (length r)) (dst :: src) then
        obind (simdLoop K ker m' (map (skipn K) src) (skipn K dst)) (fun rest =>
        Ok (ker (map (firstn K) src) ++ rest))
      else UB
  end.

(* number of iterations for a row of n samples *)
Definition iters (K n : nat) : nat := Nat.div (n + K - 1) K.

Definition simdRow (K : nat) (ker : list (list Z) -> list Z) (n : nat)
                   (src : list (list Z)) (dst : list Z) : outcome (list Z) :=
  simdLoop K ker (iters K n) src dst.

(** for (i = 0; i < n; i++) dst[i] = f(src0[i], src1[i], ...) *)
Fixpoint cRow (f : list Z -> Z) (n : nat) (src : list (list Z)) (dst : list Z)
  : outcome (list Z) :=
  match n with
  | O => Ok dst
  | S n' =>
      if forallb (fun r => Nat.leb 1 (length r)) (dst :: src) then
        obind (cRow f n' (map (skipn 1) src) (skipn 1 dst)) (fun rest =>
        Ok (f (map (hd 0) src) :: rest))
      else UB
  end.

Definition f2 (f : Z -> Z -> Z) (l : list Z) : Z :=
  match l with [a; b] => f a b | _ => 0 end.
Definition f3 (f : Z -> Z -> Z -> Z) (l : list Z) : Z :=
  match l with [a; b; c] => f a b c | _ => 0 end.
Definition k2 (f : list Z -> list Z -> list Z) (l : list (list Z)) : list Z :=
  match l with [a; b] => f a b | _ => [] end.
Definition k3 (f : list Z -> list Z -> list Z -> list Z) (l : list (list Z)) : list Z :=
  match l with [a; b; c] => f a b c | _ => [] end.

Lemma cRow2 : forall f n a b d,
  (n <= length a)%nat -> (n <= length b)%nat -> (n <= length d)%nat ->
  cRow (f2 f) n [a; b] d = Ok (map2 f (firstn n a) (firstn n b) ++ skipn n d).
Proof.
  induction n; intros a b d HA HB HD; [reflexivity|].
  destruct a as [|x a], b as [|y b], d as [|z d]; cbn [length] in *; try lia.
  cbn [cRow forallb length Nat.leb andb map skipn hd f2].
  rewrite IHn by lia. reflexivity.
Qed.

Lemma cRow3 : forall f n a b c d,
  (n <= length a)%nat -> (n <= length b)%nat -> (n <= length c)%nat -> (n <= length d)%nat ->
  cRow (f3 f) n [a; b; c] d = Ok (map3 f (firstn n a) (firstn n b) (firstn n c) ++ skipn n d).
Proof.
  induction n; intros a b c d HA HB HC HD; [reflexivity|].
  destruct a as [|x a], b as [|y b], c as [|w c], d as [|z d]; cbn [length] in *; try lia.
  cbn [cRow forallb length Nat.leb andb map skipn hd f3].
  rewrite IHn by lia. reflexivity.
Qed.

Lemma firstn_skipn_split : forall A n k (l : list A),
  firstn (k + n) l = firstn k l ++ firstn n (skipn k l).
Proof.
  intros A n k; induction k; intros l; [reflexivity|].
  destruct l; cbn [plus firstn skipn app]; [rewrite firstn_nil; reflexivity|].
  f_equal; apply IHk.
Qed.

Lemma skipn_skipn_plus : forall A n k (l : list A), skipn n (skipn k l) = skipn (k + n) l.
Proof.
  intros A n k; induction k; intros l; [reflexivity|].
  destruct l; cbn [plus skipn]; [apply skipn_nil|]. apply IHk.
Qed.

Section Loop2.
  Variables (K : nat) (ker : list Z -> list Z -> list Z) (f : Z -> Z -> Z).
  Hypothesis ker_ok : forall a b, length a = K -> length b = K -> ker a b = map2 f a b.

  Lemma simdLoop2 : forall m a b d,
    (m * K <= length a)%nat -> (m * K <= length b)%nat -> (m * K <= length d)%nat ->
    simdLoop K (k2 ker) m [a; b] d
    = Ok (map2 f (firstn (m * K) a) (firstn (m * K) b) ++ skipn (m * K) d).
  Proof.
    induction m; intros a b d HA HB HD; [reflexivity|].
    cbn [Nat.mul] in *. cbn [simdLoop forallb].
    replace (K <=? length d)%nat with true by (symmetry; apply Nat.leb_le; lia).
    replace (K <=? length a)%nat with true by (symmetry; apply Nat.leb_le; lia).
    replace (K <=? length b)%nat with true by (symmetry; apply Nat.leb_le; lia).
    cbn [andb map k2].
    rewrite IHm; [|rewrite skipn_length; lia|rewrite skipn_length; lia|rewrite skipn_length; lia].
    cbn [obind]. rewrite ker_ok; [|rewrite firstn_length; lia|rewrite firstn_length; lia].
    rewrite app_assoc, skipn_skipn_plus, !firstn_skipn_split.
    rewrite map2_app by (rewrite !firstn_length; lia). reflexivity.
  Qed.
End Loop2.

Section Loop3.
  Variables (K : nat) (ker : list Z -> list Z -> list Z -> list Z) (f : Z -> Z -> Z -> Z).
  Hypothesis ker_ok : forall a b c, length a = K -> length b = K -> length c = K ->
    ker a b c = map3 f a b c.

  Lemma simdLoop3 : forall m a b c d,
    (m * K <= length a)%nat -> (m * K <= length b)%nat -> (m * K <= length c)%nat ->
    (m * K <= length d)%nat ->
    simdLoop K (k3 ker) m [a; b; c] d
    = Ok (map3 f (firstn (m * K) a) (firstn (m * K) b) (firstn (m * K) c) ++ skipn (m * K) d).
  Proof.
    induction m; intros a b c d HA HB HC HD; [reflexivity|].
    cbn [Nat.mul] in *. cbn [simdLoop forallb].
    replace (K <=? length d)%nat with true by (symmetry; apply Nat.leb_le; lia).
    replace (K <=? length a)%nat with true by (symmetry; apply Nat.leb_le; lia).
    replace (K <=? length b)%nat with true by (symmetry; apply Nat.leb_le; lia).
    replace (K <=? length c)%nat with true by (symmetry; apply Nat.leb_le; lia).
    cbn [andb map k3].
    rewrite IHm; [|rewrite skipn_length; lia|rewrite skipn_length; lia|rewrite skipn_length; lia
                  |rewrite skipn_length; lia].
    cbn [obind]. rewrite ker_ok;
      [|rewrite firstn_length; lia|rewrite firstn_length; lia|rewrite firstn_length; lia].
    rewrite app_assoc, skipn_skipn_plus, !firstn_skipn_split.
    rewrite map3_app by (rewrite !firstn_length; lia). reflexivity.
  Qed.
End Loop3.

Lemma iters_cover : forall K n, (0 < K)%nat -> (n <= iters K n * K)%nat.
Proof.
  intros K n HK. unfold iters. pose proof (Nat.div_mod (n + K - 1) K).
  pose proof (Nat.mod_upper_bound (n + K - 1) K). nia.
Qed.

Lemma iters_fit : forall K n L, (0 < K)%nat -> (n <= L)%nat -> Nat.modulo L K = O ->
  (iters K n * K <= L)%nat.
Proof.
  intros K n L HK HL HM. unfold iters.
  pose proof (Nat.div_mod L K). pose proof (Nat.div_mod (n + K - 1) K).
  pose proof (Nat.mod_upper_bound (n + K - 1) K).
  assert ((n + K - 1) / K <= L / K)%nat; [|nia].
  apply Nat.lt_succ_r. apply Nat.div_lt_upper_bound; nia.
Qed.

(** A vector loop on padded rows yields the same first [n] samples as the scalar
    loop, whatever the padding holds: [g] is what a lane computes, [f] the scalar
    kernel, and they need only agree on the samples of the picture. *)
Lemma simdRow2_eq_c : forall K ker g f (P Q : Z -> Prop) n a b d,
  (0 < K)%nat ->
  (forall a b, length a = K -> length b = K -> ker a b = map2 g a b) ->
  (forall x y, P x -> Q y -> g x y = f x y) ->
  (n <= length a)%nat -> length b = length a -> length d = length a ->
  Nat.modulo (length a) K = O -> Forall P (firstn n a) -> Forall Q (firstn n b) ->
  exists r rc, simdRow K (k2 ker) n [a; b] d = Ok r /\ cRow (f2 f) n [a; b] d = Ok rc /\
    length r = length d /\ length rc = length d /\ firstn n r = firstn n rc.
Proof.
  intros K ker g f P Q n a b d HK Hker Hgf Hn Hb Hd Hm PA PB.
  pose proof (iters_cover K n HK). pose proof (iters_fit K n (length a) HK Hn Hm).
  eexists; eexists. split; [|split; [|split; [|split]]].
  - apply (simdLoop2 K ker g Hker); auto; lia.
  - apply cRow2; lia.
  - rewrite app_length, map2_length, !firstn_length, skipn_length. lia.
  - rewrite app_length, map2_length, !firstn_length, skipn_length. lia.
  - rewrite !firstn_app, !map2_length, !firstn_length.
    replace (n - Nat.min (Nat.min (iters K n * K) (length a)) (Nat.min (iters K n * K) (length b)))%nat
      with O by lia.
    replace (n - Nat.min (Nat.min n (length a)) (Nat.min n (length b)))%nat with O by lia.
    cbn [firstn]. rewrite !app_nil_r, !map2_firstn, !firstn_firstn.
    replace (Nat.min n (iters K n * K)) with n by lia. rewrite Nat.min_id.
    exact (map2_ext g f P Q _ _ Hgf PA PB).
Qed.

Lemma simdRow3_eq_c : forall K ker g f (P Q R : Z -> Prop) n a b c d,
  (0 < K)%nat ->
  (forall a b c, length a = K -> length b = K -> length c = K -> ker a b c = map3 g a b c) ->
  (forall x y z, P x -> Q y -> R z -> g x y z = f x y z) ->
  (n <= length a)%nat -> length b = length a -> length c = length a -> length d = length a ->
  Nat.modulo (length a) K = O ->
  Forall P (firstn n a) -> Forall Q (firstn n b) -> Forall R (firstn n c) ->
  exists r rc, simdRow K (k3 ker) n [a; b; c] d = Ok r /\ cRow (f3 f) n [a; b; c] d = Ok rc /\
    length r = length d /\ length rc = length d /\ firstn n r = firstn n rc.
Proof.
  intros K ker g f P Q R n a b c d HK Hker Hgf Hn Hb Hc Hd Hm PA PB PC.
  pose proof (iters_cover K n HK). pose proof (iters_fit K n (length a) HK Hn Hm).
  eexists; eexists. split; [|split; [|split; [|split]]].
  - apply (simdLoop3 K ker g Hker); auto; lia.
  - apply cRow3; lia.
  - rewrite app_length, map3_length, !firstn_length, skipn_length. lia.
  - rewrite app_length, map3_length, !firstn_length, skipn_length. lia.
  - rewrite !firstn_app, !map3_length, !firstn_length.
    replace (n - Nat.min (Nat.min (iters K n * K) (length a))
                 (Nat.min (Nat.min (iters K n * K) (length b)) (Nat.min (iters K n * K) (length c))))%nat
      with O by lia.
    replace (n - Nat.min (Nat.min n (length a)) (Nat.min (Nat.min n (length b)) (Nat.min n (length c))))%nat
      with O by lia.
    cbn [firstn]. rewrite !app_nil_r, !map3_firstn, !firstn_firstn.
    replace (Nat.min n (iters K n * K)) with n by lia. rewrite Nat.min_id.
    exact (map3_ext g f P Q R _ _ _ Hgf PA PB PC).
Qed.

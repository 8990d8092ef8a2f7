(** Memory of frame planes as the filters see it: byte buffers of a fixed size,
    accessed through a start offset and a row distance.  An access outside the buffer
    is the outcome [UB]. *)
From Coq Require Import ZArith List Lia Bool.
From Verif Require Import Common ImageSpec.
Import ListNotations.
Open Scope Z_scope.

Record pbuf := mkB { b_size : Z; b_data : Z -> Z }.

(** [n] bytes from offset [o] lie inside the buffer. *)
Definition inside (b : pbuf) (o n : Z) : bool := (0 <=? o) && (o + n <=? b_size b).

(** C memcpy between different buffers; the length is a size_t, so a negative one is
    huge and out of bounds. *)
Definition memcpy (dst : pbuf) (d : Z) (src : pbuf) (s n : Z) : outcome pbuf :=
  if n =? 0 then Ok dst
  else if (0 <? n) && inside dst d n && inside src s n then
    Ok (mkB (b_size dst)
            (fun a => if (d <=? a) && (a <? d + n) then b_data src (s + (a - d)) else b_data dst a))
  else UB.

(** Byte [j] of the little endian representation. *)
Definition byteOf (v j : Z) : Z := (v / 256 ^ j) mod 256.

(** filtershared.h:189-193, vs_memset<T>: [num] elements of [k] = sizeof(T) bytes; the
    value is truncated to T. *)
Definition fill (dst : pbuf) (d k v num : Z) : outcome pbuf :=
  if num =? 0 then Ok dst
  else if (0 <? num) && inside dst d (num * k) then
    Ok (mkB (b_size dst)
            (fun a => if (d <=? a) && (a <? d + num * k) then byteOf v ((a - d) mod k) else b_data dst a))
  else UB.

(** for (i = 0; i < n; i++) s = f(i, s) *)
Fixpoint loop {S} (n : nat) (i : Z) (f : Z -> S -> outcome S) (s : S) : outcome S :=
  match n with
  | O => Ok s
  | Datatypes.S k => obind (f i s) (loop k (i + 1) f)
  end.
Definition forZ {S} (n : Z) (f : Z -> S -> outcome S) (s : S) : outcome S := loop (Z.to_nat n) 0 f s.
(** for (i = lo; i < hi; i++) *)
Definition forFrom {S} (lo hi : Z) (f : Z -> S -> outcome S) (s : S) : outcome S :=
  loop (Z.to_nat (hi - lo)) lo f s.

(** include/VSHelper4.h:185-200, bitblt; the pointers after [i] increments are written
    as products. *)
Definition bitblt (dst : pbuf) (d dstr : Z) (src : pbuf) (s sstr row h : Z) : outcome pbuf :=
  if h =? 0 then Ok dst
  else if (sstr =? dstr) && (sstr =? row) then memcpy dst d src s (row * h)
  else forZ h (fun i b => memcpy b (d + i * dstr) src (s + i * sstr) row) dst.

(** ** Samples *)

(** Little endian value of [n] bytes. *)
Fixpoint leval (n : nat) (f : Z -> Z) (o : Z) : Z :=
  match n with O => 0 | S k => f o + 256 * leval k f (o + 1) end.

(** A plane: row distance, buffer. *)
Record plane := mkPl { p_stride : Z; p_buf : pbuf }.

(** The picture in a plane of [w] by [h] samples of [k] bytes. *)
Definition imageOf (k : Z) (p : plane) (w h : Z) : image :=
  mkI w h (fun x y => leval (Z.to_nat k) (b_data (p_buf p)) (y * p_stride p + x * k)).

(** The rows fit the stride and the buffer holds all of them. *)
Definition wfPlane (k : Z) (p : plane) (w h : Z) : Prop :=
  0 <= w /\ 0 <= h /\ w * k <= p_stride p /\ b_size (p_buf p) = p_stride p * h.

(** ** Loops *)

Lemma loop_inv : forall {S} (P : Z -> S -> Prop) (f : Z -> S -> outcome S) n i s,
  P i s ->
  (forall j t, i <= j < i + Z.of_nat n -> P j t -> exists t', f j t = Ok t' /\ P (j + 1) t') ->
  exists s', loop n i f s = Ok s' /\ P (i + Z.of_nat n) s'.
Proof.
  intros S P f. induction n as [|n IH]; intros i s H0 Hs.
  - exists s. cbn [loop]. rewrite Z.add_0_r. auto.
  - destruct (Hs i s ltac:(lia) H0) as (t & Ft & Pt). cbn [loop]. rewrite Ft. cbn [obind].
    destruct (IH (i + 1) t Pt) as (s' & L & Pn).
    + intros j u Hj. apply Hs. lia.
    + exists s'. split; [exact L|]. replace (i + Z.of_nat (Datatypes.S n)) with (i + 1 + Z.of_nat n) by lia. exact Pn.
Qed.

Lemma forZ_inv : forall {S} (P : Z -> S -> Prop) (f : Z -> S -> outcome S) n s, 0 <= n ->
  P 0 s ->
  (forall j t, 0 <= j < n -> P j t -> exists t', f j t = Ok t' /\ P (j + 1) t') ->
  exists s', forZ n f s = Ok s' /\ P n s'.
Proof.
  intros S P f n s N H0 Hs. unfold forZ.
  destruct (loop_inv P f (Z.to_nat n) 0 s H0) as (s' & L & Q).
  - intros j t Hj. apply Hs. lia.
  - exists s'. split; [exact L|]. rewrite Z2Nat.id in Q by lia. exact Q.
Qed.

Lemma forFrom_inv : forall {S} (P : Z -> S -> Prop) (f : Z -> S -> outcome S) lo hi s, lo <= hi ->
  P lo s ->
  (forall j t, lo <= j < hi -> P j t -> exists t', f j t = Ok t' /\ P (j + 1) t') ->
  exists s', forFrom lo hi f s = Ok s' /\ P hi s'.
Proof.
  intros S P f lo hi s N H0 Hs. unfold forFrom.
  destruct (loop_inv P f (Z.to_nat (hi - lo)) lo s H0) as (s' & L & Q).
  - intros j t Hj. apply Hs. lia.
  - exists s'. split; [exact L|]. rewrite Z2Nat.id in Q by lia. replace (lo + (hi - lo)) with hi in Q by lia. exact Q.
Qed.

(** ** Primitive operations *)

Lemma inside_true : forall b o n, 0 <= o -> o + n <= b_size b -> inside b o n = true.
Proof. intros. unfold inside. apply andb_true_intro. split; apply Z.leb_le; lia. Qed.

Lemma memcpy_spec : forall dst d src s n, 0 <= n -> 0 <= d -> d + n <= b_size dst ->
  0 <= s -> s + n <= b_size src ->
  exists b, memcpy dst d src s n = Ok b /\ b_size b = b_size dst /\
    (forall j, 0 <= j < n -> b_data b (d + j) = b_data src (s + j)) /\
    (forall a, (forall j, 0 <= j < n -> a <> d + j) -> b_data b a = b_data dst a).
Proof.
  intros dst d src s n N D1 D2 S1 S2. unfold memcpy.
  destruct (Z.eqb_spec n 0).
  - exists dst. split; [reflexivity|]. split; [reflexivity|]. split; [intros; lia | reflexivity].
  - rewrite !inside_true by lia. destruct (Z.ltb_spec 0 n); [|lia]. cbn [andb].
    eexists. split; [reflexivity|]. cbn [b_size b_data]. split; [reflexivity|]. split.
    + intros j J. destruct (Z.leb_spec d (d + j)); [|lia]. destruct (Z.ltb_spec (d + j) (d + n)); [|lia].
      cbn [andb]. f_equal. lia.
    + intros a A. destruct (Z.leb_spec d a); [|reflexivity]. destruct (Z.ltb_spec a (d + n)); [|reflexivity].
      exfalso. apply (A (a - d)); lia.
Qed.

Lemma fill_spec : forall dst d k v num, 0 < k -> 0 <= num -> 0 <= d -> d + num * k <= b_size dst ->
  exists b, fill dst d k v num = Ok b /\ b_size b = b_size dst /\
    (forall x j, 0 <= x < num -> 0 <= j < k -> b_data b (d + x * k + j) = byteOf v j) /\
    (forall a, a < d \/ d + num * k <= a -> b_data b a = b_data dst a).
Proof.
  intros dst d k v num K N D1 D2. unfold fill.
  destruct (Z.eqb_spec num 0).
  - exists dst. split; [reflexivity|]. split; [reflexivity|]. split; [intros; lia | reflexivity].
  - rewrite inside_true by lia. destruct (Z.ltb_spec 0 num); [|lia]. cbn [andb].
    eexists. split; [reflexivity|]. cbn [b_size b_data]. split; [reflexivity|]. split.
    + intros x j X J. assert (x * k + j < num * k) by nia. assert (0 <= x * k) by nia.
      destruct (Z.leb_spec d (d + x * k + j)); [|lia].
      destruct (Z.ltb_spec (d + x * k + j) (d + num * k)); [|lia]. cbn [andb]. f_equal.
      replace (d + x * k + j - d) with (j + x * k) by lia. rewrite Z_mod_plus_full. apply Z.mod_small. lia.
    + intros a A. destruct (Z.leb_spec d a); [|reflexivity]. destruct (Z.ltb_spec a (d + num * k)); [|reflexivity].
      lia.
Qed.

(** Rows that lie at least a row length apart do not overlap. *)
Lemma rows_apart : forall str row i i' j j', row <= Z.abs str -> 0 <= j < row -> 0 <= j' < row ->
  i * str + j = i' * str + j' -> i = i' /\ j = j'.
Proof.
  intros str row i i' j j' H J J' E.
  assert (i = i').
  { destruct (Z.lt_trichotomy i i') as [L|[->|L]]; [| reflexivity |].
    - assert ((i' - i) * str = j - j') by lia.
      destruct (Z.abs_eq_or_opp str) as [A|A]; rewrite A in H; nia.
    - assert ((i - i') * str = j' - j) by lia.
      destruct (Z.abs_eq_or_opp str) as [A|A]; rewrite A in H; nia. }
  subst. lia.
Qed.

(** What copying [h] rows of [row] bytes does. *)
Definition rowsCopied (dst : pbuf) (d dstr : Z) (src : pbuf) (s sstr row h : Z) (b : pbuf) : Prop :=
  b_size b = b_size dst /\
  (forall i j, 0 <= i < h -> 0 <= j < row -> b_data b (d + i * dstr + j) = b_data src (s + i * sstr + j)) /\
  (forall a, (forall i j, 0 <= i < h -> 0 <= j < row -> a <> d + i * dstr + j) -> b_data b a = b_data dst a).

Lemma copyRows_spec : forall dst d dstr src s sstr row h,
  0 <= row -> 0 <= h -> row <= Z.abs dstr ->
  (forall i, 0 <= i < h -> 0 <= d + i * dstr /\ d + i * dstr + row <= b_size dst) ->
  (forall i, 0 <= i < h -> 0 <= s + i * sstr /\ s + i * sstr + row <= b_size src) ->
  exists b, forZ h (fun i b => memcpy b (d + i * dstr) src (s + i * sstr) row) dst = Ok b /\
            rowsCopied dst d dstr src s sstr row h b.
Proof.
  intros dst d dstr src s sstr row h R H A D S.
  apply (forZ_inv (fun i b => rowsCopied dst d dstr src s sstr row i b)); [lia | |].
  - split; [reflexivity|]. split; [intros; lia | reflexivity].
  - intros i t I (T1 & T2 & T3). destruct (D i I) as (D1 & D2). destruct (S i I) as (S1 & S2).
    destruct (memcpy_spec t (d + i * dstr) src (s + i * sstr) row R D1 ltac:(lia) S1 S2) as (b & E & B1 & B2 & B3).
    exists b. split; [exact E|]. split; [lia|]. split.
    + intros i' j I' J. destruct (Z.eq_dec i' i) as [->|N].
      * apply B2; lia.
      * rewrite B3; [apply T2; lia|]. intros j' J' Q. apply N.
        apply (rows_apart dstr row i' i j j' A J J'). lia.
    + intros a Ha. rewrite B3; [apply T3|].
      * intros i' j I' J. apply Ha; lia.
      * intros j J. apply Ha; lia.
Qed.

Lemma bitblt_spec : forall dst d dstr src s sstr row h,
  0 <= row -> 0 <= h -> row <= Z.abs dstr ->
  (forall i, 0 <= i < h -> 0 <= d + i * dstr /\ d + i * dstr + row <= b_size dst) ->
  (forall i, 0 <= i < h -> 0 <= s + i * sstr /\ s + i * sstr + row <= b_size src) ->
  exists b, bitblt dst d dstr src s sstr row h = Ok b /\ rowsCopied dst d dstr src s sstr row h b.
Proof.
  intros dst d dstr src s sstr row h R H A D S. unfold bitblt. destruct (Z.eqb_spec h 0).
  - exists dst. split; [reflexivity|]. split; [reflexivity|]. split; [intros; lia | reflexivity].
  - destruct (Z.eqb_spec sstr dstr); [|apply copyRows_spec; assumption].
    destruct (Z.eqb_spec sstr row); [|apply copyRows_spec; assumption].
    cbn [andb]. assert (DR : dstr = row) by lia. rewrite DR in *. clear DR dstr.
    assert (SR : sstr = row) by lia. rewrite SR in *. clear SR sstr.
    destruct (D 0 ltac:(lia)) as (D1 & _). destruct (D (h - 1) ltac:(lia)) as (_ & D2).
    destruct (S 0 ltac:(lia)) as (S1 & _). destruct (S (h - 1) ltac:(lia)) as (_ & S2).
    destruct (memcpy_spec dst d src s (row * h)) as (b & E & B1 & B2 & B3); [nia | lia | nia | lia | nia |].
    exists b. split; [exact E|]. split; [exact B1|]. split.
    + intros i j I J. replace (d + i * row + j) with (d + (i * row + j)) by lia.
      replace (s + i * row + j) with (s + (i * row + j)) by lia. apply B2. nia.
    + intros a Ha. apply B3. intros q Q.
      destruct (Z.eq_dec row 0) as [->|RN]; [lia|].
      pose proof (Z.div_mod q row RN). pose proof (Z.mod_pos_bound q row ltac:(lia)).
      replace (d + q) with (d + (q / row) * row + q mod row) by lia. apply Ha; [|lia].
      split; [apply Z.div_pos; lia | apply Z.div_lt_upper_bound; lia].
Qed.

(** ** Samples *)

Lemma leval_ext : forall n f g o p, (forall j, 0 <= j < Z.of_nat n -> f (o + j) = g (p + j)) ->
  leval n f o = leval n g p.
Proof.
  induction n as [|n IH]; intros f g o p H; [reflexivity|]. cbn [leval].
  rewrite (IH f g (o + 1) (p + 1)).
  - specialize (H 0 ltac:(lia)). rewrite !Z.add_0_r in H. rewrite H. reflexivity.
  - intros j J. rewrite <- !Z.add_assoc. apply H. lia.
Qed.

Lemma leval_bytes : forall n f o v, 0 <= v < 256 ^ Z.of_nat n ->
  (forall j, 0 <= j < Z.of_nat n -> f (o + j) = byteOf v j) -> leval n f o = v.
Proof.
  induction n as [|n IH]; intros f o v V H.
  - change (256 ^ Z.of_nat 0) with 1 in V. cbn [leval]. lia.
  - cbn [leval]. rewrite Nat2Z.inj_succ, Z.pow_succ_r in V by lia.
    rewrite (IH f (o + 1) (v / 256)).
    + specialize (H 0 ltac:(lia)). rewrite Z.add_0_r in H. rewrite H. unfold byteOf.
      rewrite Z.pow_0_r, Z.div_1_r. pose proof (Z.div_mod v 256 ltac:(lia)). lia.
    + split; [apply Z.div_pos; lia | apply Z.div_lt_upper_bound; lia].
    + intros j J. rewrite <- Z.add_assoc. rewrite H by lia. unfold byteOf.
      rewrite Z.add_comm, Z.pow_add_r by lia. rewrite Z.mul_comm, Z.pow_1_r, Z.div_div by lia. reflexivity.
Qed.

Example mem_ex :
  let s := mkB 8 (fun a => a * 11) in
  let d := mkB 6 (fun _ => 0) in
  match bitblt d 0 3 s 1 4 2 2 with
  | Ok b => map (b_data b) (zseq 6) = [11; 22; 0; 55; 66; 0]
  | _ => False
  end /\ bitblt d 0 3 s 1 4 2 3 = UB.
Proof. vm_compute. auto. Qed.

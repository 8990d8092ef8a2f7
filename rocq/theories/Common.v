(** Shared vocabulary of all models: machine integer ranges and wrap-around,
    outcomes with an explicit undefined-behaviour case, list access by [Z]. *)
From Coq Require Import ZArith List Lia Bool.
Import ListNotations.
Open Scope Z_scope.

(** ** Machine integers *)

Definition INT_MAX : Z := 2147483647.
Definition INT_MIN : Z := -2147483648.
Definition INT64_MAX : Z := 9223372036854775807.
Definition INT64_MIN : Z := -9223372036854775808.
Definition UINT32_MAX : Z := 4294967295.

Definition in_int (x : Z) : Prop := INT_MIN <= x <= INT_MAX.
Definition in_int64 (x : Z) : Prop := INT64_MIN <= x <= INT64_MAX.
Definition in_intb (x : Z) : bool := (INT_MIN <=? x) && (x <=? INT_MAX).
Definition in_int64b (x : Z) : bool := (INT64_MIN <=? x) && (x <=? INT64_MAX).

(** Two's complement wrap-around to 32 and 64 bits (what the machine does with
    signed overflow when the compiler does not exploit that it is undefined). *)
Definition wrap32 (x : Z) : Z := (x + 2147483648) mod 4294967296 - 2147483648.
Definition wrap64 (x : Z) : Z :=
  (x + 9223372036854775808) mod 18446744073709551616 - 9223372036854775808.
Definition wrapu8 (x : Z) : Z := x mod 256.
Definition wrapu16 (x : Z) : Z := x mod 65536.
Definition wrapu32 (x : Z) : Z := x mod 4294967296.
Definition wrapu64 (x : Z) : Z := x mod 18446744073709551616.

(** include/VSHelper4.h:171-177, int64ToIntS: saturating conversion. *)
Definition sat32 (x : Z) : Z :=
  if INT_MAX <? x then INT_MAX else if x <? INT_MIN then INT_MIN else x.

(** ** Outcomes *)

Inductive outcome (A : Type) : Type :=
| Ok (a : A)      (* normal result *)
| Err             (* the code reports an error *)
| UB.             (* the code executes undefined behaviour *)
Arguments Ok {A} _.
Arguments Err {A}.
Arguments UB {A}.

Definition obind {A B} (o : outcome A) (f : A -> outcome B) : outcome B :=
  match o with Ok a => f a | Err => Err | UB => UB end.

(** ** Lists indexed by Z *)

Definition zlength {A} (l : list A) : Z := Z.of_nat (length l).

Definition nthz {A} (l : list A) (i : Z) : option A :=
  if i <? 0 then None else nth_error l (Z.to_nat i).

(** [0; 1; ...; n-1] *)
Definition zseq (n : Z) : list Z := map Z.of_nat (seq 0 (Z.to_nat n)).

Lemma zlength_nonneg : forall A (l : list A), 0 <= zlength l.
Proof. intros; unfold zlength; lia. Qed.

Lemma zlength_nil : forall A, zlength (@nil A) = 0.
Proof. reflexivity. Qed.

Lemma zlength_cons : forall A (a : A) l, zlength (a :: l) = 1 + zlength l.
Proof. intros; unfold zlength; simpl length; lia. Qed.

Lemma zlength_app : forall A (l1 l2 : list A), zlength (l1 ++ l2) = zlength l1 + zlength l2.
Proof. intros; unfold zlength; rewrite app_length; lia. Qed.

Lemma zlength_map : forall A B (f : A -> B) l, zlength (map f l) = zlength l.
Proof. intros; unfold zlength; rewrite map_length; reflexivity. Qed.

Lemma zlength_rev : forall A (l : list A), zlength (rev l) = zlength l.
Proof. intros; unfold zlength; rewrite rev_length; reflexivity. Qed.

Lemma zlength_zseq : forall n, zlength (zseq n) = Z.max 0 n.
Proof. intros; unfold zlength, zseq. rewrite map_length, seq_length. lia. Qed.

Lemma nthz_In : forall A (l : list A) i a, nthz l i = Some a -> In a l.
Proof.
  intros A l i a; unfold nthz; destruct (i <? 0); try discriminate.
  apply nth_error_In.
Qed.

Lemma nthz_range : forall A (l : list A) i a, nthz l i = Some a -> 0 <= i < zlength l.
Proof.
  intros A l i a; unfold nthz, zlength.
  destruct (Z.ltb_spec i 0); try discriminate. intros H1.
  assert (Z.to_nat i < length l)%nat by (apply nth_error_Some; congruence). lia.
Qed.

Lemma nthz_Some_iff : forall A (l : list A) i,
  (exists a, nthz l i = Some a) <-> 0 <= i < zlength l.
Proof.
  intros; split.
  - intros [a H]; eapply nthz_range; eauto.
  - unfold nthz, zlength; intros H. destruct (Z.ltb_spec i 0); try lia.
    destruct (nth_error l (Z.to_nat i)) eqn:E; eauto.
    apply nth_error_None in E. lia.
Qed.

Lemma nthz_None_iff : forall A (l : list A) i,
  nthz l i = None <-> i < 0 \/ zlength l <= i.
Proof.
  intros; unfold nthz, zlength; destruct (Z.ltb_spec i 0).
  - split; auto.
  - rewrite nth_error_None. lia.
Qed.

Lemma nthz_map : forall A B (f : A -> B) l i, nthz (map f l) i = option_map f (nthz l i).
Proof.
  intros; unfold nthz; destruct (i <? 0); auto. apply nth_error_map.
Qed.

Lemma nthz_app1 : forall A (l1 l2 : list A) i,
  i < zlength l1 -> nthz (l1 ++ l2) i = nthz l1 i.
Proof.
  intros A l1 l2 i; unfold nthz, zlength; intros.
  destruct (Z.ltb_spec i 0); auto. apply nth_error_app1; lia.
Qed.

Lemma nthz_app2 : forall A (l1 l2 : list A) i,
  zlength l1 <= i -> nthz (l1 ++ l2) i = nthz l2 (i - zlength l1).
Proof.
  intros A l1 l2 i; unfold nthz, zlength; intros.
  destruct (Z.ltb_spec i 0); try lia.
  destruct (Z.ltb_spec (i - Z.of_nat (length l1)) 0); try lia.
  rewrite nth_error_app2 by lia. f_equal; lia.
Qed.

Lemma nthz_cons_0 : forall A (a : A) l, nthz (a :: l) 0 = Some a.
Proof. reflexivity. Qed.

Lemma nthz_cons_S : forall A (a : A) l i, 0 < i -> nthz (a :: l) i = nthz l (i - 1).
Proof.
  intros; unfold nthz.
  destruct (Z.ltb_spec i 0); try lia. destruct (Z.ltb_spec (i - 1) 0); try lia.
  replace (Z.to_nat i) with (S (Z.to_nat (i - 1))) by lia. reflexivity.
Qed.

Lemma nthz_zseq : forall n i, 0 <= i < n -> nthz (zseq n) i = Some i.
Proof.
  intros; unfold zseq. rewrite nthz_map. unfold nthz.
  destruct (Z.ltb_spec i 0); try lia.
  rewrite nth_error_nth' with (d := O) by (rewrite seq_length; lia).
  rewrite seq_nth by lia. simpl. f_equal; lia.
Qed.

Lemma In_zseq : forall n i, In i (zseq n) <-> 0 <= i < n.
Proof.
  intros; unfold zseq; rewrite in_map_iff; split.
  - intros [x [Hx Hin]]; apply in_seq in Hin; lia.
  - intros H; exists (Z.to_nat i); split; [lia|]. apply in_seq; lia.
Qed.

Lemma nthz_ext : forall A (l1 l2 : list A),
  zlength l1 = zlength l2 ->
  (forall i, 0 <= i < zlength l1 -> nthz l1 i = nthz l2 i) -> l1 = l2.
Proof.
  induction l1 as [|a l1 IH]; intros l2 Hlen Hn.
  - destruct l2; auto. rewrite zlength_cons, zlength_nil in Hlen.
    pose proof (zlength_nonneg _ l2); lia.
  - destruct l2 as [|b l2].
    + rewrite zlength_cons, zlength_nil in Hlen. pose proof (zlength_nonneg _ l1); lia.
    + rewrite !zlength_cons in Hlen. pose proof (zlength_nonneg _ l1) as Hnn. f_equal.
      * specialize (Hn 0). rewrite zlength_cons in Hn.
        rewrite !nthz_cons_0 in Hn. assert (Some a = Some b) by (apply Hn; lia). congruence.
      * apply IH; [lia|]. intros i Hi. specialize (Hn (i + 1)).
        rewrite zlength_cons, !nthz_cons_S in Hn by lia.
        replace (i + 1 - 1) with i in Hn by lia. apply Hn; lia.
Qed.

Lemma nthz_rev : forall A (l : list A) i,
  0 <= i < zlength l -> nthz (rev l) i = nthz l (zlength l - 1 - i).
Proof.
  induction l as [|a l IH]; intros i Hi.
  - rewrite zlength_nil in Hi; lia.
  - rewrite zlength_cons in *. cbn [rev].
    destruct (Z.ltb_spec i (zlength l)).
    + rewrite nthz_app1 by (rewrite zlength_rev; lia).
      rewrite IH by lia. rewrite nthz_cons_S by lia. f_equal; lia.
    + rewrite nthz_app2 by (rewrite zlength_rev; lia). rewrite zlength_rev.
      replace (i - zlength l) with 0 by lia.
      replace (1 + zlength l - 1 - i) with 0 by lia. reflexivity.
Qed.

Lemma nthz_firstn : forall A (l : list A) k i,
  0 <= k -> i < k -> nthz (firstn (Z.to_nat k) l) i = nthz l i.
Proof.
  intros A l k i Hk Hi. unfold nthz. destruct (Z.ltb_spec i 0); auto.
  assert (Hn : (Z.to_nat i < Z.to_nat k)%nat) by lia. clear - Hn.
  revert l Hn. generalize (Z.to_nat i) as m, (Z.to_nat k) as n.
  induction m; destruct n; intros l Hn; try lia; destruct l; simpl; auto.
  apply IHm; lia.
Qed.

Lemma nthz_skipn : forall A (l : list A) k i,
  0 <= k -> 0 <= i -> nthz (skipn (Z.to_nat k) l) i = nthz l (k + i).
Proof.
  intros A l k i Hk Hi. unfold nthz.
  destruct (Z.ltb_spec i 0); try lia. destruct (Z.ltb_spec (k + i) 0); try lia.
  rewrite Z2Nat.inj_add by lia. generalize (Z.to_nat k) as n, (Z.to_nat i) as m.
  clear. intros n m. revert l. induction n; intros l; simpl; auto.
  destruct l; simpl; auto. destruct m; reflexivity.
Qed.

Lemma zlength_firstn : forall A (l : list A) k,
  0 <= k <= zlength l -> zlength (firstn (Z.to_nat k) l) = k.
Proof. intros; unfold zlength in *; rewrite firstn_length; lia. Qed.

Lemma zlength_skipn : forall A (l : list A) k,
  0 <= k <= zlength l -> zlength (skipn (Z.to_nat k) l) = zlength l - k.
Proof. intros; unfold zlength in *; rewrite skipn_length; lia. Qed.

Lemma zseq_nonpos : forall n, n <= 0 -> zseq n = [].
Proof. intros; unfold zseq; replace (Z.to_nat n) with O by lia; reflexivity. Qed.

Lemma zseq_succ : forall n, 0 <= n -> zseq (n + 1) = zseq n ++ [n].
Proof.
  intros; unfold zseq. replace (Z.to_nat (n + 1)) with (S (Z.to_nat n)) by lia.
  rewrite seq_S, map_app. simpl. do 2 f_equal. lia.
Qed.

Lemma zseq_cons : forall n, 0 <= n -> zseq (n + 1) = 0 :: map (fun i => i + 1) (zseq n).
Proof.
  intros; unfold zseq. replace (Z.to_nat (n + 1)) with (S (Z.to_nat n)) by lia.
  cbn [seq map]. f_equal. rewrite <- seq_shift, !map_map.
  apply map_ext; intros; lia.
Qed.

(** Comparing a computed sequence with a list position by position. *)
Lemma map_zseq_eq : forall A (f : Z -> option A) (l : list A),
  (forall i, 0 <= i < zlength l -> f i = nthz l i) ->
  map f (zseq (zlength l)) = map Some l.
Proof.
  intros A f l H. apply nthz_ext.
  - rewrite !zlength_map, zlength_zseq. pose proof (zlength_nonneg _ l); lia.
  - rewrite zlength_map, zlength_zseq. intros i Hi.
    pose proof (zlength_nonneg _ l).
    rewrite !nthz_map, nthz_zseq by lia. simpl.
    rewrite H by lia. destruct (proj2 (nthz_Some_iff _ l i)) as [a Ha]; [lia|].
    rewrite Ha; reflexivity.
Qed.

Lemma wrap32_id : forall x, in_int x -> wrap32 x = x.
Proof. unfold in_int, INT_MIN, INT_MAX, wrap32; intros; rewrite Z.mod_small; lia. Qed.

Lemma wrap64_id : forall x, in_int64 x -> wrap64 x = x.
Proof. unfold in_int64, INT64_MIN, INT64_MAX, wrap64; intros; rewrite Z.mod_small; lia. Qed.

Lemma in_intb_spec : forall x, in_intb x = true <-> in_int x.
Proof. intros; unfold in_intb, in_int; rewrite andb_true_iff; lia. Qed.

Lemma in_int64b_spec : forall x, in_int64b x = true <-> in_int64 x.
Proof. intros; unfold in_int64b, in_int64; rewrite andb_true_iff; lia. Qed.

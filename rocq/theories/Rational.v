(** Rational helpers of include/VSHelper4.h.
    Source: include/VSHelper4.h:116-168 (muldivRational, reduceRational, addRational).
    Modelled: every statement; signed overflow, INT64_MIN % -1 and failed asserts
    are the outcome [UB].  C's [%] and [/] on int64_t are [Z.rem] and [Z.quot]. *)
From Coq Require Import ZArith List Lia Bool Znumtheory.
From Verif Require Import Common.
Import ListNotations.
Open Scope Z_scope.

(** VSHelper4.h:129-133: [while (b != 0) { t = a; a = b; b = t % b; }].
    The loop is run with fuel; running out of fuel is reported as [UB]
    (lemma [gcd_loop_total] shows that it never happens with [gcd_fuel]). *)
Fixpoint gcd_loop (fuel : nat) (a b : Z) : outcome Z :=
  match fuel with
  | O => UB
  | S fuel =>
    if b =? 0 then Ok a
    else if (a =? INT64_MIN) && (b =? -1) then UB
    else gcd_loop fuel b (Z.rem a b)
  end.

Definition gcd_fuel : nat := 200.

(** VSHelper4.h:116-139. *)
Definition muldivRational (num den mul div : Z) : outcome (Z * Z) :=
  if den =? 0 then Ok (num, den)
  else if div =? 0 then UB
  else
    let n := num * mul in
    let d := den * div in
    if negb (in_int64b n && in_int64b d) then UB
    else obind (gcd_loop gcd_fuel n d) (fun a =>
      if a =? INT64_MIN then UB
      else let a := if a <? 0 then - a else a in
           Ok (Z.quot n a, Z.quot d a)).

(** VSHelper4.h:142-144. *)
Definition reduceRational (num den : Z) : outcome (Z * Z) := muldivRational num den 1 1.

(** VSHelper4.h:147-168. *)
Definition addRational (num den addnum addden : Z) : outcome (Z * Z) :=
  if den =? 0 then Ok (num, den)
  else if addden =? 0 then UB
  else if den =? addden then
    if in_int64b (num + addnum) then Ok (num + addnum, den) else UB
  else
    let temp := addden in
    let addnum' := addnum * den in
    let addden' := addden * den in
    let num' := num * temp in
    let den' := den * temp in
    if negb (in_int64b addnum' && in_int64b addden' && in_int64b num' && in_int64b den'
             && in_int64b (num' + addnum')) then UB
    else reduceRational (num' + addnum') den'.

(** ** Lemmas *)

Lemma rem_gcd : forall a b, b <> 0 -> Z.gcd b (Z.rem a b) = Z.gcd a b.
Proof.
  intros a b Hb. rewrite (Z.gcd_comm a b).
  pose proof (Z.quot_rem' a b) as E.
  rewrite E at 2. rewrite Z.add_comm, Z.mul_comm.
  symmetry. apply Z.gcd_add_mult_diag_r.
Qed.

Lemma rem_min : forall a b, INT64_MIN < a -> b <> 0 -> INT64_MIN < Z.rem a b.
Proof.
  intros a b Ha Hnz. destruct (Z.leb_spec 0 a).
  - pose proof (Z.rem_nonneg a b Hnz ltac:(lia)). unfold INT64_MIN in *; lia.
  - pose proof (Z.rem_opp_l a b Hnz) as E.
    pose proof (Z.rem_nonneg (-a) b Hnz ltac:(lia)).
    destruct (Z.leb_spec 0 b).
    + pose proof (Z.rem_le (-a) b ltac:(lia) ltac:(lia)). lia.
    + pose proof (Z.rem_opp_r (-a) b Hnz) as E2.
      pose proof (Z.rem_le (-a) (-b) ltac:(lia) ltac:(lia)). lia.
Qed.

Lemma gcd_loop_total : forall k fuel a b,
  Z.abs b < 2 ^ (Z.of_nat k) -> (2 * k + 1 <= fuel)%nat ->
  INT64_MIN < a -> INT64_MIN < b ->
  exists g, gcd_loop fuel a b = Ok g /\ Z.abs g = Z.gcd a b /\ INT64_MIN < g.
Proof.
  induction k as [|k IH]; intros fuel a b Hb Hf Ha Hb2.
  - assert (b = 0) by (simpl in Hb; lia). subst b.
    destruct fuel; [lia|]. simpl. exists a. rewrite Z.gcd_0_r. auto.
  - destruct fuel as [|[|fuel]]; try lia. cbn [gcd_loop].
    destruct (Z.eqb_spec b 0) as [->|Hnz].
    { exists a. rewrite Z.gcd_0_r. auto. }
    destruct (Z.eqb_spec a INT64_MIN); [lia|]. cbn [andb].
    pose proof (Z.rem_bound_abs a b Hnz) as Hr.
    assert (Hrmin : INT64_MIN < Z.rem a b).
    { apply rem_min; auto. }
    destruct (Z.eqb_spec (Z.rem a b) 0) as [E0|Hrnz].
    { exists b. rewrite <- (rem_gcd a b Hnz), E0, Z.gcd_0_r. auto. }
    destruct (Z.eqb_spec b INT64_MIN); [lia|]. cbn [andb].
    set (r := Z.rem a b) in *. set (s := Z.rem b r) in *.
    assert (Hs : 2 * Z.abs s < Z.abs b).
    { pose proof (Z.rem_bound_abs b r Hrnz) as Hs1. fold s in Hs1.
      pose proof (Z.quot_rem' (Z.abs b) (Z.abs r)) as E.
      rewrite Z.rem_abs in E by auto. fold s in E.
      set (q := Z.abs b ÷ Z.abs r) in *.
      assert (Hra : 0 < Z.abs r) by lia.
      assert (Hsa : 0 <= Z.abs s) by lia.
      clear - Hr Hs1 E Hra Hsa.
      destruct (Z.leb_spec q 0) as [Hq|Hq].
      - assert (Z.abs r * q <= 0) by nia. lia.
      - assert (Z.abs r * 1 <= Z.abs r * q) by (apply Z.mul_le_mono_nonneg_l; lia). lia. }
    assert (Hsmin : INT64_MIN < s) by (apply rem_min; auto).
    destruct (IH fuel r s) as [g [Hg1 [Hg2 Hg3]]]; auto.
    { rewrite Nat2Z.inj_succ, Z.pow_succ_r in Hb by lia. lia. }
    { lia. }
    exists g. split; [exact Hg1|]. split; auto.
    rewrite Hg2. unfold s. rewrite rem_gcd by auto. unfold r.
    rewrite Z.gcd_comm. rewrite (Z.gcd_comm _ b). apply rem_gcd; auto.
Qed.

Lemma gcd_loop_ok : forall a b,
  INT64_MIN < a -> INT64_MIN < b <= INT64_MAX ->
  exists g, gcd_loop gcd_fuel a b = Ok g /\ Z.abs g = Z.gcd a b /\ INT64_MIN < g.
Proof.
  intros a b Ha Hb. apply (gcd_loop_total 63); auto; try (unfold gcd_fuel; lia).
  change (2 ^ Z.of_nat 63) with 9223372036854775808. unfold INT64_MIN, INT64_MAX in *. lia.
Qed.

Lemma muldivRational_spec : forall num den mul div,
  den <> 0 -> div <> 0 ->
  INT64_MIN < num * mul <= INT64_MAX -> INT64_MIN < den * div <= INT64_MAX ->
  exists n d, muldivRational num den mul div = Ok (n, d) /\
    n * (den * div) = (num * mul) * d /\
    Z.gcd n d = 1 /\ Z.sgn d = Z.sgn (den * div) /\ d <> 0.
Proof.
  intros num den mul div Hden Hdiv Hn Hd. unfold muldivRational.
  destruct (Z.eqb_spec den 0); [lia|]. destruct (Z.eqb_spec div 0); [lia|].
  set (N := num * mul) in *. set (D := den * div) in *.
  assert (HD : D <> 0) by (unfold D; nia).
  replace (in_int64b N) with true
    by (symmetry; apply in_int64b_spec; unfold in_int64; lia).
  replace (in_int64b D) with true
    by (symmetry; apply in_int64b_spec; unfold in_int64; lia).
  cbn [andb negb].
  destruct (gcd_loop_ok N D) as [g [Hg [Habs Hmin]]]; try lia.
  rewrite Hg. cbn [obind].
  destruct (Z.eqb_spec g INT64_MIN); [lia|].
  assert (Hga : (if g <? 0 then - g else g) = Z.gcd N D).
  { rewrite <- Habs. destruct (Z.ltb_spec g 0); lia. }
  rewrite Hga.
  assert (Hpos : 0 < Z.gcd N D).
  { pose proof (Z.gcd_nonneg N D). destruct (Z.eq_dec (Z.gcd N D) 0) as [Z0|]; [|lia].
    apply Z.gcd_eq_0_r in Z0. contradiction. }
  destruct (Z.gcd_divide_l N D) as [n' En]. destruct (Z.gcd_divide_r N D) as [d' Ed].
  exists n', d'.
  assert (Hq1 : Z.quot N (Z.gcd N D) = n').
  { rewrite En at 1. apply Z.quot_mul. lia. }
  assert (Hq2 : Z.quot D (Z.gcd N D) = d').
  { rewrite Ed at 1. apply Z.quot_mul. lia. }
  rewrite Hq1, Hq2. repeat split; auto.
  - rewrite Ed at 1. rewrite En at 2. ring.
  - pose proof (Z.gcd_mul_mono_r n' d' (Z.gcd N D)) as E.
    rewrite <- En, <- Ed in E. rewrite (Z.abs_eq (Z.gcd N D)) in E by lia. nia.
  - rewrite Ed at 1. rewrite Z.sgn_mul. rewrite (Z.sgn_pos (Z.gcd N D)) by lia. lia.
  - intro; subst d'. rewrite H in Ed. lia.
Qed.

Lemma addRational_spec_neq : forall num den addnum addden,
  den <> 0 -> addden <> 0 -> den <> addden ->
  INT64_MIN < num * addden <= INT64_MAX -> INT64_MIN < addnum * den <= INT64_MAX ->
  INT64_MIN < den * addden <= INT64_MAX ->
  INT64_MIN < num * addden + addnum * den <= INT64_MAX ->
  exists n d, addRational num den addnum addden = Ok (n, d) /\
    n * (den * addden) = (num * addden + addnum * den) * d /\
    Z.gcd n d = 1 /\ d <> 0.
Proof.
  intros num den addnum addden Hd Ha Hne H1 H2 H3 H4. unfold addRational.
  destruct (Z.eqb_spec den 0); [lia|]. destruct (Z.eqb_spec addden 0); [lia|].
  destruct (Z.eqb_spec den addden); [lia|].
  replace (in_int64b (addnum * den)) with true
    by (symmetry; apply in_int64b_spec; unfold in_int64; lia).
  replace (in_int64b (addden * den)) with true
    by (symmetry; apply in_int64b_spec; unfold in_int64; lia).
  replace (in_int64b (num * addden)) with true
    by (symmetry; apply in_int64b_spec; unfold in_int64; lia).
  replace (in_int64b (den * addden)) with true
    by (symmetry; apply in_int64b_spec; unfold in_int64; lia).
  replace (in_int64b (num * addden + addnum * den)) with true
    by (symmetry; apply in_int64b_spec; unfold in_int64; lia).
  cbn [andb negb].
  destruct (muldivRational_spec (num * addden + addnum * den) (den * addden) 1 1)
    as [n' [d' [E [Ev [Eg [_ Ed]]]]]]; try lia.
  exists n', d'. split; [exact E|]. rewrite !Z.mul_1_r in Ev. auto.
Qed.

Lemma addRational_spec_eq : forall num den addnum,
  den <> 0 -> in_int64 (num + addnum) ->
  addRational num den addnum den = Ok (num + addnum, den).
Proof.
  intros. unfold addRational. destruct (Z.eqb_spec den 0); [lia|].
  rewrite Z.eqb_refl. apply in_int64b_spec in H0. rewrite H0. reflexivity.
Qed.

Lemma muldivRational_invalid : forall num mul div, muldivRational num 0 mul div = Ok (num, 0).
Proof. reflexivity. Qed.

(** The operations on a neighbourhood compute what is specified, without overflow. *)
From Coq Require Import ZArith List Lia Bool.
From Coq Require Import SpecFloat.
From Verif Require Import Common ImageSpec PixelSpec Soft GenericSpec Generic.
Import ListNotations.
Open Scope Z_scope.

Ltac nine_of L := match type of L with zlength ?l = 9 =>
  destruct l as [|a00 [|a01 [|a02 [|a10 [|a11 [|a12 [|a20 [|a21 [|a22 [|? ?]]]]]]]]]];
  try (exfalso; unfold zlength in L; cbn [length] in L; lia); clear L end.

Lemma chk32_ok : forall v, - 2 ^ 31 <= v < 2 ^ 31 -> chk32 v = Ok v.
Proof. intros v V. unfold chk32. replace (in_intb v) with true; [reflexivity|]. symmetry. apply in_intb_spec. unfold in_int, INT_MIN, INT_MAX. lia. Qed.
Lemma chk64_ok : forall v, - 2 ^ 63 <= v < 2 ^ 63 -> chk64 v = Ok v.
Proof. intros v V. unfold chk64. replace (in_int64b v) with true; [reflexivity|]. symmetry. apply in_int64b_spec. unfold in_int64, INT64_MIN, INT64_MAX. lia. Qed.

(** Sample sizes of integer formats of at most 16 bits. *)
Definition smallk (k : Z) : Prop := k = 1 \/ k = 2.
Lemma smallk_pow : forall k, smallk k -> 256 <= 256 ^ k <= 65536.
Proof. intros k [->| ->]; vm_compute; split; discriminate. Qed.

Lemma limitS_spec : forall k maxval x, smallk k -> 0 <= maxval < 256 ^ k -> 0 <= x < 256 ^ k -> limitS k maxval x = Z.min x maxval.
Proof.
  intros k maxval x K M X. pose proof (smallk_pow k K). unfold limitS. rewrite (Z.mod_small x) by lia. apply Z.mod_small. lia.
Qed.

(** ** Minimum and maximum *)

Definition maskOf (st : Z) : list bool := map (Z.testbit st) (zseq 8).

Lemma largest_fold : forall mask l c, fold_left (fun v (ba : bool * Z) => Z.max v (if fst ba then snd ba else v)) (combine mask l) c = largest c (picked mask l).
Proof.
  assert (A : forall l c v, Z.max v (largest c l) = largest (Z.max c v) l).
  { induction l as [|x l IH]; intros c v; cbn [largest fold_right]; [lia|]. fold (largest c l). fold (largest (Z.max c v) l). rewrite <- IH. lia. }
  induction mask as [|b mask IH]; intros l c; [reflexivity|]. destruct l as [|x l]; [destruct b; reflexivity|].
  cbn [combine fold_left fst snd picked]. rewrite IH. destruct b.
  - cbn [largest fold_right]. fold (largest c (picked mask l)). rewrite A. reflexivity.
  - f_equal. lia.
Qed.
Lemma smallest_fold : forall mask l c, fold_left (fun v (ba : bool * Z) => Z.min v (if fst ba then snd ba else v)) (combine mask l) c = smallest c (picked mask l).
Proof.
  assert (A : forall l c v, Z.min v (smallest c l) = smallest (Z.min c v) l).
  { induction l as [|x l IH]; intros c v; cbn [smallest fold_right]; [lia|]. fold (smallest c l). fold (smallest (Z.min c v) l). rewrite <- IH. lia. }
  induction mask as [|b mask IH]; intros l c; [reflexivity|]. destruct l as [|x l]; [destruct b; reflexivity|].
  cbn [combine fold_left fst snd picked]. rewrite IH. destruct b.
  - cbn [smallest fold_right]. fold (smallest c (picked mask l)). rewrite A. reflexivity.
  - f_equal. lia.
Qed.

Lemma picked_in : forall mask l v, In v (picked mask l) -> In v l.
Proof.
  induction mask as [|b mask IH]; intros [|x l] v H; cbn [picked] in H; try contradiction.
  destruct b; [destruct H as [->|H]; [left; reflexivity|] |]; right; apply IH; exact H.
Qed.
Lemma largest_bound : forall l c B, c <= B -> Forall (fun v => v <= B) l -> largest c l <= B.
Proof. induction l as [|x l IH]; intros c B C F; cbn [largest fold_right]; [exact C|]. inversion F; subst. apply Z.max_lub; [assumption | apply IH; assumption]. Qed.
Lemma largest_ge : forall l c, c <= largest c l.
Proof. induction l as [|x l IH]; intros c; cbn [largest fold_right]; [lia|]. specialize (IH c). unfold largest in IH. lia. Qed.
Lemma largest_in : forall l c v, In v l -> v <= largest c l.
Proof.
  induction l as [|x l IH]; intros c v H; [contradiction|]. cbn [largest fold_right]. destruct H as [->|H]; [lia|].
  specialize (IH c v H). unfold largest in IH. lia.
Qed.
Lemma largest_is : forall l c, largest c l = c \/ In (largest c l) l.
Proof.
  induction l as [|x l IH]; intros c; [left; reflexivity|]. cbn [largest fold_right]. fold (largest c l).
  destruct (Z.max_spec x (largest c l)) as [(_ & ->)|(_ & ->)]; [|right; left; reflexivity].
  destruct (IH c) as [->|H]; [left; reflexivity | right; right; exact H].
Qed.
Lemma smallest_bound : forall l c B, B <= c -> Forall (fun v => B <= v) l -> B <= smallest c l.
Proof. induction l as [|x l IH]; intros c B C F; cbn [smallest fold_right]; [exact C|]. inversion F; subst. apply Z.min_glb; [assumption | apply IH; assumption]. Qed.
Lemma smallest_le : forall l c, smallest c l <= c.
Proof. induction l as [|x l IH]; intros c; cbn [smallest fold_right]; [lia|]. specialize (IH c). unfold smallest in IH. lia. Qed.
Lemma smallest_in : forall l c v, In v l -> smallest c l <= v.
Proof.
  induction l as [|x l IH]; intros c v H; [contradiction|]. cbn [smallest fold_right]. destruct H as [->|H]; [lia|].
  specialize (IH c v H). unfold smallest in IH. lia.
Qed.
Lemma smallest_is : forall l c, smallest c l = c \/ In (smallest c l) l.
Proof.
  induction l as [|x l IH]; intros c; [left; reflexivity|]. cbn [smallest fold_right]. fold (smallest c l).
  destruct (Z.min_spec x (smallest c l)) as [(_ & ->)|(_ & ->)]; [right; left; reflexivity|].
  destruct (IH c) as [->|H]; [left; reflexivity | right; right; exact H].
Qed.

Definition samples (k : Z) (l : list Z) : Prop := Forall (fun v => 0 <= v < 256 ^ k) l.

Lemma picked_samples : forall k mask l, samples k l -> zlength l = 9 -> samples k (picked mask (neighbours l)).
Proof.
  intros k mask l S L. unfold samples in *. rewrite Forall_forall in *. intros v V. apply picked_in in V. apply S.
  unfold neighbours in V. apply in_app_or in V. destruct V as [V|V].
  - rewrite <- (firstn_skipn 4 l). apply in_or_app. left. exact V.
  - rewrite <- (firstn_skipn 5 l). apply in_or_app. right. exact V.
Qed.
Lemma centre_sample : forall k l, samples k l -> zlength l = 9 -> 0 <= centre l < 256 ^ k.
Proof.
  intros k l S L. unfold samples in S. rewrite Forall_forall in S. apply S. unfold centre. apply nth_In. unfold zlength in L. lia.
Qed.

Lemma maximumOp_spec : forall k g l, smallk k -> 0 <= g_th g < 256 ^ k -> zlength l = 9 -> samples k l ->
  minMaxOp true k g l = Ok (maximumOf (maskOf (g_stencil g)) (g_th g) l) /\ 0 <= maximumOf (maskOf (g_stencil g)) (g_th g) l < 256 ^ k.
Proof.
  intros k g l K TH L S. pose proof (smallk_pow k K) as P. pose proof (centre_sample k l S L) as C.
  pose proof (picked_samples k (maskOf (g_stencil g)) l S L) as PS.
  assert (R : 0 <= maximumOf (maskOf (g_stencil g)) (g_th g) l < 256 ^ k).
  { unfold maximumOf. pose proof (largest_ge (picked (maskOf (g_stencil g)) (neighbours l)) (centre l)).
    pose proof (largest_bound (picked (maskOf (g_stencil g)) (neighbours l)) (centre l) (256 ^ k - 1) ltac:(lia)) as B.
    specialize (B ltac:(eapply Forall_impl; [|exact PS]; cbv beta; intros; lia)). lia. }
  split; [|exact R]. clear PS S. rewrite <- (Z.mod_small _ _ R). clear R. revert C. nine_of L. intros C. unfold centre in C. cbn [nth] in C.
  unfold minMaxOp. cbv zeta. rewrite (Z.mod_small (g_th g)) by lia. rewrite chk32_ok by lia. cbn [obind].
  unfold maximumOf. rewrite <- largest_fold. reflexivity.
Qed.

Lemma minimumOp_spec : forall k g l, smallk k -> 0 <= g_th g < 256 ^ k -> zlength l = 9 -> samples k l ->
  minMaxOp false k g l = Ok (Z.max 0 (minimumOf (maskOf (g_stencil g)) (g_th g) l)) /\ 0 <= minimumOf (maskOf (g_stencil g)) (g_th g) l < 256 ^ k.
Proof.
  intros k g l K TH L S. pose proof (smallk_pow k K) as P. pose proof (centre_sample k l S L) as C.
  pose proof (picked_samples k (maskOf (g_stencil g)) l S L) as PS.
  assert (SB : 0 <= smallest (centre l) (picked (maskOf (g_stencil g)) (neighbours l)) <= centre l).
  { split; [|apply smallest_le]. apply smallest_bound; [lia|]. eapply Forall_impl; [|exact PS]. cbv beta. intros. lia. }
  assert (R : 0 <= minimumOf (maskOf (g_stencil g)) (g_th g) l < 256 ^ k) by (unfold minimumOf; lia).
  split; [|exact R]. rewrite (Z.max_r 0) by lia. clear PS S. rewrite <- (Z.mod_small _ _ R). clear R. revert C SB. nine_of L. intros C SB.
  unfold centre in C. cbn [nth] in C.
  unfold minMaxOp. cbv zeta. rewrite (Z.mod_small (g_th g)) by lia. rewrite chk32_ok by lia. cbn [obind].
  unfold minimumOf in *. rewrite <- smallest_fold in *. 
  change (centre [a00; a01; a02; a10; a11; a12; a20; a21; a22]) with a11 in *.
  change (neighbours [a00; a01; a02; a10; a11; a12; a20; a21; a22]) with [a00; a01; a02; a10; a12; a20; a21; a22] in *.
  match goal with |- Ok (?a mod _) = Ok (?b mod _) => enough (E : a = b) by (rewrite E; reflexivity) end.
  match goal with |- _ = Z.max ?v _ => match goal with |- Z.max ?u _ = _ => change u with v; set (s := v) in * end end. lia.
Qed.

(** ** Deflate and inflate *)

Lemma mean8_bounds : forall k l, smallk k -> zlength l = 9 -> samples k l -> 0 <= mean8 l < 256 ^ k /\ mean8 l = (sumL (neighbours l) + 4) / 8 /\ 0 <= sumL (neighbours l) <= 8 * (256 ^ k - 1).
Proof.
  intros k l K L S. nine_of L. unfold mean8.
  change (neighbours [a00; a01; a02; a10; a11; a12; a20; a21; a22]) with [a00; a01; a02; a10; a12; a20; a21; a22].
  unfold samples in S. repeat match goal with H : Forall _ (_ :: _) |- _ => apply Forall_cons_iff in H; destruct H end.
  unfold sumL. cbn [fold_right]. set (s := a00 + _) in *. assert (B : 0 <= s <= 8 * (256 ^ k - 1)) by (subst s; lia).
  assert (E : (2 * s + 8) / 16 = (s + 4) / 8).
  { replace (2 * s + 8) with ((s + 4) * 2) by lia. replace 16 with (8 * 2) by reflexivity. apply Z.div_mul_cancel_r; lia. }
  rewrite E. split; [|split; [reflexivity | exact B]]. split; [apply Z.div_pos; lia|]. apply Z.div_lt_upper_bound; lia.
Qed.

Lemma flateOp_spec : forall (inflate : bool) k g l, smallk k -> 0 <= g_th g < 256 ^ k -> zlength l = 9 -> samples k l ->
  let r := if inflate then inflateOf (g_th g) l else deflateOf (g_th g) l in
  flateOp inflate k g l = Ok r /\ 0 <= r < 256 ^ k.
Proof.
  intros inflate k g l K TH L S. cbv zeta. pose proof (smallk_pow k K) as P. pose proof (centre_sample k l S L) as C.
  destruct (mean8_bounds k l K L S) as (M & ME & SB).
  set (r := if inflate then inflateOf (g_th g) l else deflateOf (g_th g) l).
  assert (R : 0 <= r < 256 ^ k).
  { subst r. unfold inflateOf, deflateOf. destruct inflate; lia. }
  split; [|exact R]. rewrite <- (Z.mod_small _ _ R). subst r. clear R. revert C M ME SB. clear S. nine_of L. unfold centre.
  change (neighbours [a00; a01; a02; a10; a11; a12; a20; a21; a22]) with [a00; a01; a02; a10; a12; a20; a21; a22].
  cbn [nth]. unfold flateOp. cbv zeta. intros C M ME SB. rewrite (Z.mod_small (g_th g)) by lia.
  unfold inflateOf, deflateOf, centre. cbn [nth]. unfold sumL in *. cbn [fold_right] in *.
  replace (a00 + a01 + a02 + a10 + a12 + a20 + a21 + a22 + 4) with (a00 + (a01 + (a02 + (a10 + (a12 + (a20 + (a21 + (a22 + 0))))))) + 4) by lia.
  set (s := a00 + (a01 + _)) in *.
  unfold wrapu32. rewrite (Z.mod_small (s + 4)) by lia. rewrite <- ME. rewrite wrap32_id by (unfold in_int, INT_MIN, INT_MAX; lia).
  destruct inflate; rewrite chk32_ok by lia; cbn [obind];
    match goal with |- Ok (?a mod ?m) = Ok (?b mod ?m) => apply (f_equal (fun z => Ok (z mod m)) (x := a) (y := b)) end; lia.
Qed.

(** ** Weighted sums *)

Lemma sumL_app : forall a b, sumL (a ++ b) = sumL a + sumL b.
Proof. unfold sumL. induction a as [|x a IH]; intros b; [reflexivity|]. cbn [app fold_right]. rewrite IH. ring. Qed.

Definition cells (M : Z) (l : list (Z * Z)) : Prop := Forall (fun cv : Z * Z => -1023 <= fst cv <= 1023 /\ 0 <= snd cv <= M) l.

Lemma dot_spec : forall (wide : bool) M l, 0 <= M -> cells M l -> zlength l * (1023 * M) < (if wide then 2 ^ 63 else 2 ^ 31) ->
  dot wide l = Ok (sumL (map (fun cv : Z * Z => fst cv * snd cv) l)).
Proof.
  intros wide M l M0 F B. unfold dot.
  set (chk := if wide then chk64 else chk32). set (lim := if wide then 2 ^ 63 else 2 ^ 31) in *.
  assert (C : forall v, - lim < v < lim -> chk v = Ok v) by (intros v V; subst chk lim; destruct wide; [apply chk64_ok | apply chk32_ok]; lia).
  assert (G : forall l s n, cells M l -> 0 <= n -> Z.abs s <= n * (1023 * M) -> (n + zlength l) * (1023 * M) < lim ->
    fold_left (fun acc (cv : Z * Z) => obind acc (fun s => obind (chk (fst cv * snd cv)) (fun p => chk (s + p)))) l (Ok s) =
    Ok (s + sumL (map (fun cv : Z * Z => fst cv * snd cv) l))).
  { clear l F B. induction l as [|(c, v) l IH]; intros s n F N S B; [cbn; f_equal; lia|].
    inversion F as [|? ? F1 F2]; subst. cbn [fst snd] in F1. rewrite zlength_cons in B. pose proof (zlength_nonneg _ l) as Lp.
    cbn [fold_left obind fst snd map].
    assert (P : Z.abs (c * v) <= 1023 * M) by (rewrite Z.abs_mul; nia).
    assert (Q1 : 0 <= n * (1023 * M)) by nia. assert (Q2 : 0 <= zlength l * (1023 * M)) by nia.
    assert (Q3 : (n + (1 + zlength l)) * (1023 * M) = n * (1023 * M) + 1023 * M + zlength l * (1023 * M)) by ring.
    rewrite C by lia. cbn [obind]. rewrite C by lia.
    rewrite (IH (s + c * v) (n + 1) F2); [| lia | lia | replace (n + 1 + zlength l) with (n + (1 + zlength l)) by lia; exact B].
    unfold sumL. cbn [fold_right]. f_equal. ring. }
  rewrite (G l 0 0 F); [f_equal; lia | lia | lia | exact B].
Qed.

(** ** Finishing a sum *)

Lemma xrint_range : forall k x v, 0 <= k -> xrint k x = Ok v -> 0 <= v < 256 ^ k.
Proof.
  intros k x v K E. unfold xrint in E. destruct (lrint _); [|discriminate|discriminate]. cbn [obind] in E.
  assert (Q : forall u w : Z, Ok u = Ok w -> u = w) by (intros u w [= H]; exact H).
  apply Q in E. rewrite <- E. apply Z.mod_pos_bound. apply Z.pow_pos_nonneg; lia.
Qed.
Lemma finish_range : forall k g a v, 0 <= k -> finish k g a = Ok v -> 0 <= v < 256 ^ k.
Proof. intros k g a v K E. unfold finish in E. eapply xrint_range; eassumption. Qed.

(** Facts about slices of clips. *)
From Coq Require Import ZArith List Bool Lia.
From Verif Require Import Common Reorder PySlice PySliceSpec.
Import ListNotations.
Open Scope Z_scope.

Lemma served_map : forall A B (f : B -> option A) l, (forall x, In x l -> exists y, f x = Some y) ->
  exists r, served (map f l) = Some r /\ map Some r = map f l.
Proof.
  induction l; intros H; simpl.
  - exists []; auto.
  - destruct (H a) as [y E]; [now left|]. rewrite E. destruct IHl as (r & E1 & E2); [intros; apply H; now right|].
    rewrite E1. exists (y :: r). simpl. now rewrite E2.
Qed.
Lemma served_some : forall A (l : list A), served (map Some l) = Some l.
Proof. induction l; simpl; [reflexivity | now rewrite IHl]. Qed.
Lemma nthz_in : forall A (l : list A) i, 0 <= i < zlength l -> exists y, nthz l i = Some y.
Proof.
  intros A l i H. unfold nthz, zlength in *. destruct (Z.ltb_spec i 0); [lia|].
  destruct (nth_error l (Z.to_nat i)) eqn:E; [eauto|]. apply nth_error_None in E. lia.
Qed.
Lemma zlength_mapS : forall A B (f : A -> B) l, zlength (map f l) = zlength l.
Proof. intros; unfold zlength; now rewrite map_length. Qed.
Lemma fetch_in : forall A (l : list A) i, 0 <= i < zlength l -> fetch l i = nthz l i.
Proof. intros A l i H. unfold fetch, clampFrame. f_equal. repeat (match goal with |- context[if ?c then _ else _] => destruct c eqn:? end); rewrite ?andb_true_iff, ?Z.ltb_lt, ?Z.leb_le in *; lia. Qed.

Lemma applied_filter : forall A (l : list A) f, 0 <= f_len f -> (forall n, 0 <= n < f_len f -> 0 <= f_src f n < zlength l) ->
  exists r, applied l (CFilter f) = POk r /\ zlength r = f_len f /\ forall n, 0 <= n < f_len f -> nthz r n = nthz l (f_src f n).
Proof.
  intros A l f H0 H. unfold applied, output1.
  destruct (served_map A Z (fun n => fetch l (f_src f n)) (zseq (f_len f))) as (r & E1 & E2).
  { intros x I. apply In_zseq in I. rewrite fetch_in by (apply H; lia). apply nthz_in. apply H. lia. }
  rewrite E1. exists r. split; [reflexivity|]. split.
  - rewrite <- (zlength_mapS _ _ Some r), E2, zlength_mapS, zlength_zseq. lia.
  - intros n Hn. assert (E3 := f_equal (fun q => nthz q n) E2). simpl in E3. rewrite !nthz_map, nthz_zseq in E3 by lia. simpl in E3.
    rewrite fetch_in in E3 by (apply H; lia). destruct (nthz r n), (nthz l (f_src f n)); simpl in E3; congruence.
Qed.
Lemma applied_pass : forall A (l : list A), applied l CPass = POk l.
Proof. intros. unfold applied, output1. now rewrite served_some. Qed.

Lemma sat32_in : forall x, -1 <= x <= INT_MAX -> sat32 x = x.
Proof. intros x H. unfold sat32, INT_MIN, INT_MAX in *. repeat (match goal with |- context[if ?c then _ else _] => destruct c eqn:? end); rewrite ?Z.ltb_lt, ?Z.leb_le in *; lia. Qed.
Lemma sat32_big : forall x, INT_MAX < x -> sat32 x = INT_MAX.
Proof. intros x H. unfold sat32, INT_MIN, INT_MAX in *. repeat (match goal with |- context[if ?c then _ else _] => destruct c eqn:? end); rewrite ?Z.ltb_lt, ?Z.ltb_ge, ?Z.leb_le, ?Z.leb_gt in *; lia. Qed.

Ltac ifs := repeat (match goal with |- context[if ?c then _ else _] => destruct c eqn:? end);
  rewrite ?orb_true_iff, ?orb_false_iff, ?andb_true_iff, ?andb_false_iff, ?negb_true_iff, ?negb_false_iff, ?Z.ltb_lt, ?Z.ltb_ge, ?Z.leb_le, ?Z.leb_gt, ?Z.eqb_eq, ?Z.eqb_neq in *.

Ltac flt A l r E1 E2 E3 := match goal with |- context[applied _ (CFilter ?f)] => destruct (applied_filter A l f) as (r & E1 & E2 & E3) end.

(** Trim from [a] to [b]. *)
Lemma trim_ok : forall A (l : list A) a b, zlength l <= INT_MAX -> 0 <= a <= b -> b < zlength l ->
  exists r, applied l (trimCreate (zlength l) (Some a) (Some b) None) = POk r /\ zlength r = b - a + 1 /\ forall n, 0 <= n <= b - a -> nthz r n = nthz l (a + n).
Proof.
  intros A l a b HN Ha Hb. unfold trimCreate, argd, isset. rewrite !sat32_in by lia. cbn [negb andb orb]. ifs; try lia.
  all: try (rewrite applied_pass; exists l; split; [reflexivity|]; split; [lia|]; intros; f_equal; lia).
  all: flt A l r E1 E2 E3; [cbn [f_len f_src]; intros; lia | cbn [f_len f_src]; intros; lia |]; cbn [f_len f_src] in *; exists r; split; [exact E1|]; split; [lia|]; intros n Hn; rewrite E3 by lia; f_equal; lia.
Qed.
Lemma trim_err : forall A (l : list A) a b, zlength l <= INT_MAX -> 0 <= a <= zlength l -> -1 <= b < a -> 
  applied l (trimCreate (zlength l) (Some a) (Some b) None) = PRaise FilterError.
Proof.
  intros A l a b HN Ha Hb. unfold trimCreate, argd, isset. rewrite !sat32_in by lia. cbn [negb andb orb]. ifs; try lia; reflexivity.
Qed.
Lemma trim_one : forall A (l : list A) a, zlength l <= INT_MAX -> 0 <= a < zlength l ->
  exists x, applied l (trimCreate (zlength l) (Some a) None (Some 1)) = POk [x] /\ nthz l a = Some x.
Proof.
  intros A l a HN Ha. assert (G : exists r, applied l (trimCreate (zlength l) (Some a) None (Some 1)) = POk r /\ zlength r = 1 /\ nthz r 0 = nthz l a).
  { unfold trimCreate, argd, isset. rewrite !sat32_in by (unfold INT_MAX in *; lia). cbn [negb andb orb]. ifs; try lia.
    all: try (rewrite applied_pass; exists l; split; [reflexivity|]; split; [lia|]; f_equal; lia).
    all: flt A l r E1 E2 E3; [cbn [f_len f_src]; intros; lia | cbn [f_len f_src]; intros; lia |]; cbn [f_len f_src] in *; exists r; split; [exact E1|]; split; [lia|]; rewrite E3 by lia; f_equal; lia. }
  destruct G as (r & E1 & E2 & E3). destruct r as [|x [|y r]]; unfold zlength in E2; simpl in E2; try lia.
  exists x. rewrite <- E3. auto.
Qed.
Lemma rev_ok : forall A (l : list A), exists r, applied l (reverseCreate (zlength l)) = POk r /\ zlength r = zlength l /\
  forall n, 0 <= n < zlength l -> nthz r n = nthz l (zlength l - 1 - n).
Proof.
  intros A l. unfold reverseCreate. pose proof (zlength_nonneg A l).
  flt A l r E1 E2 E3; [cbn [f_len f_src]; intros; lia | cbn [f_len f_src]; intros; lia |]; cbn [f_len f_src] in *; exists r; split; [exact E1|]; split; [lia|].
  intros n Hn. rewrite E3 by lia. f_equal. lia.
Qed.
(** SelectEvery of the first frame of each cycle. *)
Lemma every_ok : forall A (l : list A) c, 0 < zlength l <= INT_MAX -> 2 <= c ->
  exists r, applied l (selectEveryCreate (zlength l) c [0]) = POk r /\
    (forall n, 0 <= n -> (n * c < zlength l <-> n < zlength r)) /\ forall n, 0 <= n < zlength r -> nthz r n = nthz l (n * c).
Proof.
  intros A l c HN Hc. set (N := zlength l) in *.
  assert (G : forall k, 2 <= k <= INT_MAX -> exists r, applied l (match sat32 k with k => selectEveryCreate N k [0] end) = POk r /\
    (forall n, 0 <= n -> (n * k < N <-> n < zlength r)) /\ forall n, 0 <= n < zlength r -> nthz r n = nthz l (n * k)).
  { intros k Hk. rewrite sat32_in by lia. unfold selectEveryCreate. cbn [map]. rewrite (sat32_in k), (sat32_in 0) by (unfold INT_MAX in *; lia).
    cbn [forallb filter]. change (zlength [0]) with 1.
    pose proof (Z.div_mod N k ltac:(lia)) as D. pose proof (Z.mod_pos_bound N k ltac:(lia)) as M.
    set (q := N / k) in *. set (m := N mod k) in *.
    assert (Q : 0 <= q) by (apply Z.div_pos; lia). assert (Q2 : 2 * q <= N) by nia.
    destruct (Z.leb_spec k 1); [lia|]. destruct (Z.ltb_spec 0 k); [|lia]. cbn [Z.leb andb negb Z.compare].
    destruct (Z.ltb_spec 0 m); [change (zlength [0]) with 1 | change (zlength (@nil Z)) with 0].
    - destruct (Z.ltb_spec INT_MAX (q * 1 + 1)); [lia|]. destruct (Z.eqb_spec (q * 1 + 1) 0) as [?|NZ]; [lia|].
      flt A l r E1 E2 E3; [cbn [f_len]; lia | cbn [f_len f_src] | cbn [f_len f_src] in *; exists r; split; [exact E1|]].
      + intros n Hn. rewrite Z.div_1_r, Z.mod_1_r. cbn. fold N. destruct (Z.eqb_spec n q); nia.
      + split; [intros n Hn; rewrite E2; split; nia|]. intros n Hn. rewrite E3 by lia. rewrite Z.div_1_r, Z.mod_1_r. cbn. destruct (n =? q); f_equal; lia.
    - destruct (Z.ltb_spec INT_MAX (q * 1 + 0)); [lia|]. destruct (Z.eqb_spec (q * 1 + 0) 0) as [?|NZ]; [nia|].
      flt A l r E1 E2 E3; [cbn [f_len]; lia | cbn [f_len f_src] | cbn [f_len f_src] in *; exists r; split; [exact E1|]].
      + intros n Hn. rewrite Z.div_1_r, Z.mod_1_r. cbn. fold N. destruct (Z.eqb_spec n q); nia.
      + split; [intros n Hn; rewrite E2; split; nia|]. intros n Hn. rewrite E3 by lia. rewrite Z.div_1_r, Z.mod_1_r. cbn. destruct (n =? q); f_equal; lia. }
  destruct (Z.le_gt_cases c INT_MAX).
  - destruct (G c) as (r & E1 & E2 & E3); [lia|]. rewrite sat32_in in E1 by lia. eauto.
  - destruct (G INT_MAX) as (r & E1 & E2 & E3); [unfold INT_MAX; lia|]. exists r.
    assert (L : zlength r = 1). { pose proof (proj1 (E2 0 ltac:(lia)) ltac:(lia)). pose proof (proj2 (E2 1 ltac:(lia))). lia. }
    split; [|split].
    + rewrite <- E1. unfold selectEveryCreate. rewrite (sat32_big c) by lia. rewrite !(sat32_in INT_MAX) by (unfold INT_MAX; lia). reflexivity.
    + intros n Hn. rewrite L. split; nia.
    + intros n Hn. rewrite E3 by lia. f_equal. replace n with 0 by lia. lia.
Qed.

Lemma indices_eq : forall N start stop step, 0 < N -> let s := match step with Some s => s | None => 1 end in s <> 0 ->
  indices start stop step N = (sliceStart N s start, sliceStop N s stop, s).
Proof.
  intros N start stop step HN s Hs. unfold indices, sliceStart, sliceStop, bound. fold s.
  destruct start, stop; destruct (Z.ltb_spec s 0), (Z.ltb_spec 0 s); try lia; repeat f_equal; ifs; lia.
Qed.
Lemma start_range : forall N s o, 0 < N -> s <> 0 -> (0 < s -> 0 <= sliceStart N s o <= N) /\ (s < 0 -> -1 <= sliceStart N s o <= N - 1).
Proof. intros. unfold sliceStart, bound. destruct o; ifs; lia. Qed.
Lemma stop_range : forall N s o, 0 < N -> s <> 0 -> (0 < s -> 0 <= sliceStop N s o <= N) /\ (s < 0 -> -1 <= sliceStop N s o <= N - 1).
Proof. intros. unfold sliceStop, bound. destruct o; ifs; lia. Qed.

Definition stepOf (o : option Z) : Z := match o with Some s => s | None => 1 end.

(** The slice, whenever it is not empty. *)
Lemma getSlice_ok : forall A (l : list A) start stop step, 0 < zlength l <= INT_MAX -> stepOf step <> 0 -> Z.abs (stepOf step) <= INT64_MAX ->
  inSlice (zlength l) (stepOf step) start stop 0 ->
  exists out, getSlice l start stop step = POk out /\ isSlice l out (stepOf step) start stop.
Proof.
  intros A l start stop step HN Hs Hb [_ Hin]. unfold getSlice.
  replace (match step with Some s => s =? 0 | None => false end) with false by (destruct step; simpl in *; [symmetry; now apply Z.eqb_neq | reflexivity]).
  rewrite indices_eq by (try exact Hs; lia). fold (stepOf step). set (s := stepOf step) in *.
  pose proof (start_range (zlength l) s start ltac:(lia) Hs) as RA. pose proof (stop_range (zlength l) s stop ltac:(lia) Hs) as RB.
  unfold isSlice, inSlice, sliceItem. set (a := sliceStart (zlength l) s start) in *. set (b := sliceStop (zlength l) s stop) in *.
  destruct (Z.ltb_spec 0 s) as [P|P].
  - destruct (Z.ltb_spec s 0); [lia|]. destruct (trim_ok A l a (b - 1)) as (r & E1 & E2 & E3); [lia..|]. rewrite E1. cbn [pbind].
    destruct (Z.eqb_spec (Z.abs s) 1).
    + exists r. split; [reflexivity|]. assert (s = 1) by lia. intros i. split; [intros [H1 H2] | intros H1 H2]; [|nia].
      split; [nia|]. split; [nia|]. rewrite E3 by nia. f_equal. nia.
    + destruct (Z.ltb_spec INT64_MAX (Z.abs s)); [lia|]. destruct (every_ok A r (Z.abs s)) as (r' & F1 & F2 & F3); [lia..|].
      rewrite F1. exists r'. split; [reflexivity|]. rewrite Z.abs_eq in * by lia. intros i. split; [intros [H1 H2] | intros H1 H2].
      * assert (i < zlength r') by (apply F2; lia). split; [nia|]. split; [lia|]. rewrite F3 by lia. rewrite E3 by nia. reflexivity.
      * destruct (Z.le_gt_cases (zlength r') i) as [|G]; [assumption|]. apply F2 in G; [|lia]. lia.
  - destruct (Z.ltb_spec s 0); [|lia]. destruct (trim_ok A l (b + 1) a) as (r & E1 & E2 & E3); [lia..|]. rewrite E1. cbn [pbind].
    destruct (rev_ok A r) as (r1 & G1 & G2 & G3). rewrite G1. cbn [pbind].
    destruct (Z.eqb_spec (Z.abs s) 1).
    + exists r1. split; [reflexivity|]. assert (s = -1) by lia. intros i. split; [intros [H1 H2] | intros H1 H2]; [|nia].
      split; [nia|]. split; [nia|]. rewrite G3 by nia. rewrite E3 by nia. f_equal. nia.
    + destruct (Z.ltb_spec INT64_MAX (Z.abs s)); [lia|]. destruct (every_ok A r1 (Z.abs s)) as (r' & F1 & F2 & F3); [lia..|].
      rewrite F1. exists r'. split; [reflexivity|]. rewrite Z.abs_neq in * by lia. intros i. split; [intros [H1 H2] | intros H1 H2].
      * assert (i < zlength r') by (apply F2; lia). split; [nia|]. split; [lia|]. rewrite F3 by lia. rewrite G3 by nia. rewrite E3 by nia. f_equal. lia.
      * destruct (Z.le_gt_cases (zlength r') i) as [|G]; [assumption|]. apply F2 in G; [|lia]. lia.
Qed.
Lemma getSlice_empty : forall A (l : list A) start stop step, 0 < zlength l <= INT_MAX ->
  ~ inSlice (zlength l) (stepOf step) start stop 0 -> stepOf step <> 0 -> getSlice l start stop step = PRaise FilterError.
Proof.
  intros A l start stop step HN Hin Hs. unfold getSlice.
  replace (match step with Some s => s =? 0 | None => false end) with false by (destruct step; simpl in *; [symmetry; now apply Z.eqb_neq | reflexivity]).
  rewrite indices_eq by (try exact Hs; lia). fold (stepOf step). set (s := stepOf step) in *.
  pose proof (start_range (zlength l) s start ltac:(lia) Hs) as RA. pose proof (stop_range (zlength l) s stop ltac:(lia) Hs) as RB.
  unfold inSlice in Hin. set (a := sliceStart (zlength l) s start) in *. set (b := sliceStop (zlength l) s stop) in *.
  destruct (Z.ltb_spec 0 s) as [P|P]; destruct (Z.ltb_spec s 0); try lia; rewrite trim_err by lia; reflexivity.
Qed.
Lemma getSlice_overflow : forall A (l : list A) start stop step, 0 < zlength l <= INT_MAX -> INT64_MAX < Z.abs (stepOf step) ->
  inSlice (zlength l) (stepOf step) start stop 0 -> getSlice l start stop step = PRaise OverflowError.
Proof.
  intros A l start stop step HN Hb [_ Hin]. assert (Hs : stepOf step <> 0) by (unfold INT64_MAX in *; lia). unfold getSlice.
  replace (match step with Some s => s =? 0 | None => false end) with false by (destruct step; simpl in *; [symmetry; now apply Z.eqb_neq | reflexivity]).
  rewrite indices_eq by (try exact Hs; lia). fold (stepOf step). set (s := stepOf step) in *.
  pose proof (start_range (zlength l) s start ltac:(lia) Hs) as RA. pose proof (stop_range (zlength l) s stop ltac:(lia) Hs) as RB.
  set (a := sliceStart (zlength l) s start) in *. set (b := sliceStop (zlength l) s stop) in *.
  assert (Hn : (Z.abs s =? 1) = false) by (apply Z.eqb_neq; unfold INT64_MAX in *; lia).
  assert (Hl : (INT64_MAX <? Z.abs s) = true) by (apply Z.ltb_lt; lia).
  destruct (Z.ltb_spec 0 s) as [P|P].
  - destruct (Z.ltb_spec s 0); [lia|]. destruct (trim_ok A l a (b - 1)) as (r & E1 & E2 & E3); [lia..|]. rewrite E1. cbn [pbind]. now rewrite Hn, Hl.
  - destruct (Z.ltb_spec s 0); [|lia]. destruct (trim_ok A l (b + 1) a) as (r & E1 & E2 & E3); [lia..|]. rewrite E1. cbn [pbind].
    destruct (rev_ok A r) as (r1 & G1 & G2 & G3). rewrite G1. cbn [pbind]. now rewrite Hn, Hl.
Qed.
Lemma getSlice_zero : forall A (l : list A) start stop, getSlice l start stop (Some 0) = PRaise ValueError.
Proof. reflexivity. Qed.
Lemma getIndex_spec : forall A (l : list A) v, 0 < zlength l <= INT_MAX ->
  (- zlength l <= v < zlength l -> exists x, getIndex l v = POk [x] /\ nthz l (if v <? 0 then zlength l + v else v) = Some x) /\
  (~ (- zlength l <= v < zlength l) -> getIndex l v = PRaise IndexError).
Proof.
  intros A l v HN. unfold getIndex. set (n := if v <? 0 then _ else v). assert (Hn : n = if v <? 0 then zlength l + v else v) by reflexivity.
  clearbody n. split; intros H.
  - assert (0 <= n < zlength l) by (destruct (Z.ltb_spec v 0); lia). destruct ((n <? 0) || _) eqn:E.
    + rewrite orb_true_iff, andb_true_iff, Z.ltb_lt, Z.leb_le in E. lia.
    + apply trim_one; lia.
  - assert (n < 0 \/ zlength l <= n) by (destruct (Z.ltb_spec v 0); lia). destruct ((n <? 0) || _) eqn:E; [reflexivity|].
    rewrite orb_false_iff, andb_false_iff, !Z.ltb_ge, Z.leb_gt in E. lia.
Qed.

(** Variables passed to scripts and read back. *)
From Coq Require Import ZArith List Bool String Lia.
From Verif Require Import Common PyMapSpec PyMap.
Import ListNotations.
Local Open Scope string_scope.
Local Open Scope list_scope.
Open Scope Z_scope.

Lemma lookup_same : forall A (m : list (string * A)) k a, lookup (assign m k a) k = Some a.
Proof.
  induction m as [|(x, b) m IH]; intros k a; cbn [assign lookup]; [rewrite String.eqb_refl; reflexivity|].
  destruct (String.eqb x k) eqn:E; cbn [lookup]; rewrite E; [reflexivity | apply IH].
Qed.
Lemma lookup_other : forall A (m : list (string * A)) k j a, j <> k -> lookup (assign m k a) j = lookup m j.
Proof.
  induction m as [|(x, b) m IH]; intros k j a N; cbn [assign lookup].
  - destruct (String.eqb_spec k j); [congruence | reflexivity].
  - destruct (String.eqb_spec x k) as [-> | D]; cbn [lookup].
    + destruct (String.eqb_spec k j); [congruence | reflexivity].
    + destruct (String.eqb x j); [reflexivity | apply IH; exact N].
Qed.
Lemma update_other : forall d env k, ~ In k (map fst d) -> lookup (update env d) k = lookup env k.
Proof.
  induction d as [|(x, v) d IH]; intros env k N; [reflexivity|]. cbn [update]. cbn [map fst In] in N. rewrite IH by tauto. apply lookup_other. intros ->. apply N. left. reflexivity.
Qed.
Lemma update_in : forall d env k v, NoDup (map fst d) -> In (k, v) d -> lookup (update env d) k = Some v.
Proof.
  induction d as [|(x, w) d IH]; intros env k v N I; [destruct I|]. cbn [map fst] in N. inversion N as [|? ? A B]; subst. cbn [update]. destruct I as [E | I].
  - injection E as -> ->. rewrite update_other by exact A. apply lookup_same.
  - apply IH; assumption.
Qed.
Lemma etypeEqb_refl : forall t, etypeEqb t t = true.
Proof. intros [| | |[]]; reflexivity. Qed.

Section Facts.
Variable utf8 : list Z -> bool.
Variable validKey : string -> bool.
Lemma elem_py : forall k t e, elemOk utf8 t e -> exists v, elemToPy utf8 k e = Ok v /\ (k <> "_ColorRange" -> forall m, setOne validKey m k v = append validKey m k (sameElem e)).
Proof.
  intros k t e (T & U). destruct e as [z|f|h b|o i]; cbn [elemToPy].
  - eexists. split; [reflexivity|]. intros N m. apply String.eqb_neq in N. unfold intToRange. rewrite N. cbn [andb]. rewrite !orb_false_r.
    destruct (String.eqb_spec k "_Range") as [-> | R]; cbn [andb].
    + unfold RANGE_FULL, RANGE_LIMITED. destruct (Z.eqb_spec z 1) as [-> | D]; [reflexivity|]. destruct (Z.eqb_spec z 0) as [-> | D0]; reflexivity.
    + cbn [setOne rangeToInt sameElem]. unfold mapSetInt, remap. rewrite N. reflexivity.
  - eexists. split; [reflexivity|]. reflexivity.
  - destruct h; [| |rewrite U]; eexists; (split; [reflexivity | reflexivity]).
  - eexists. split; [reflexivity|]. reflexivity.
Qed.
Lemma same_type : forall e, typeOf (sameElem e) = typeOf e.
Proof. intros [z|f|[] b|o i]; reflexivity. Qed.
Lemma elems_py : forall k t es, Forall (elemOk utf8 t) es -> exists vs, elemsToPy utf8 k es = Ok vs /\ List.length vs = List.length es /\
  (k <> "_ColorRange" -> validKey k = true -> forall l0, setAll validKey [(k, (t, l0))] k vs = Ok [(k, (t, l0 ++ map sameElem es))]).
Proof.
  intros k t es F. induction F as [|e es E F IH].
  - exists []. repeat split. intros _ _ l0. cbn. rewrite app_nil_r. reflexivity.
  - destruct (elem_py k t e E) as (v & P & S). destruct IH as (vs & Q & L & R). exists (v :: vs). cbn [elemsToPy]. rewrite P. cbn [obind]. rewrite Q. cbn [obind].
    repeat split; [cbn [List.length]; congruence|]. intros N V l0. cbn [setAll]. rewrite S by exact N. unfold append. rewrite V. cbn [negb lookup]. rewrite String.eqb_refl.
    rewrite same_type. replace (typeOf e) with t by (symmetry; apply E). rewrite etypeEqb_refl. cbn [obind assign]. rewrite String.eqb_refl. rewrite R by assumption. rewrite <- app_assoc. reflexivity.
Qed.
Lemma back : forall k p, k <> "_ColorRange" -> validKey k = true -> propOk utf8 p -> snd p <> [] ->
  exists vs, elemsToPy utf8 k (snd p) = Ok vs /\ dictToMap validKey [(k, vval vs)] [] = Ok [(k, sameProp p)].
Proof.
  intros k (t, es) N V P E. cbn [snd] in *. destruct es as [|e es]; [contradiction|]. unfold propOk in P. cbn [fst snd] in P. inversion P as [|? ? A B]; subst.
  destruct (elem_py k t e A) as (v & Q & S). destruct (elems_py k t es B) as (vs & R & L & W). exists (v :: vs). cbn [elemsToPy]. rewrite Q. cbn [obind]. rewrite R. cbn [obind].
  split; [reflexivity|]. cbn [dictToMap]. assert (LV : listOf (vval (v :: vs)) = v :: vs) by (destruct vs; reflexivity). rewrite LV. cbn [setAll]. rewrite S by exact N.
  unfold append. rewrite V. cbn [negb lookup obind assign]. rewrite same_type. replace (typeOf e) with t by (symmetry; apply A). rewrite W by assumption. reflexivity.
Qed.
Lemma dict_ok : forall vars, Forall (fun kp => propOk utf8 (snd kp)) vars ->
  exists d, mapToDict utf8 vars = Ok d /\ map fst d = map fst vars /\ forall k p, In (k, p) vars -> exists vs, elemsToPy utf8 k (snd p) = Ok vs /\ In (k, vval vs) d.
Proof.
  intros vars F. induction F as [|(k, p) vars P F IH]; [exists []; repeat split; intros k p []|]. destruct IH as (d & D & K & H). cbn [snd] in P. cbn [mapToDict].
  destruct (elems_py k (fst p) (snd p) P) as (vs & E & _). rewrite E. cbn [obind]. rewrite D. cbn [obind]. eexists. split; [reflexivity|]. split; [cbn [map fst]; congruence|].
  intros j q [X | I].
  - injection X as <- <-. exists vs. split; [exact E | left; reflexivity].
  - destruct (H j q I) as (ws & A & B). exists ws. split; [exact A | right; exact B].
Qed.
Lemma variables : forall vars env, NoDup (map fst vars) -> Forall (fun kp => propOk utf8 (snd kp)) vars ->
  exists env', setVariables utf8 vars env = (0, env') /\
    (forall k p, In (k, p) vars -> k <> "_ColorRange" -> validKey k = true -> snd p <> [] -> getVariable validKey env' k = Some [(k, sameProp p)]) /\
    (forall k, ~ In k (map fst vars) -> getVariable validKey env' k = getVariable validKey env k).
Proof.
  intros vars env N F. destruct (dict_ok vars F) as (d & D & K & H). unfold setVariables. rewrite D. eexists. split; [reflexivity|]. split.
  - intros k p I C V E. destruct (H k p I) as (vs & A & B). unfold getVariable. rewrite (update_in d env k (vval vs)); [|rewrite K; exact N | exact B].
    assert (P : propOk utf8 p) by (rewrite Forall_forall in F; exact (F (k, p) I)). destruct (back k p C V P E) as (ws & A' & W). rewrite A in A'. injection A' as <-. rewrite W. reflexivity.
  - intros k I. unfold getVariable. rewrite update_other by (rewrite K; exact I). reflexivity.
Qed.
Lemma range_names : forall full k, k = "_Range" \/ k = "_ColorRange" -> validKey "_Range" = true ->
  dictToMap validKey [(k, One (PRange full))] [] = Ok [("_Range", (tInt, [EInt (if full then 1 else 0)]))] /\
  mapToDict utf8 [("_Range", (tInt, [EInt (if full then 1 else 0)]))] = Ok [("_Range", One (PRange full))].
Proof.
  intros full k [-> | ->] V; (split; [|destruct full; reflexivity]); cbn [dictToMap listOf setAll setOne rangeToInt]; unfold mapSetInt, append; cbn [remap String.eqb Ascii.eqb Bool.eqb]; cbn; rewrite V; destruct full; reflexivity.
Qed.
Lemma empty_lost : validKey "x" = true -> exists env', setVariables utf8 [("x", (tInt, []))] [] = (0, env') /\ getVariable validKey env' "x" = Some [].
Proof. intros V. eexists. split; reflexivity. Qed.
Lemma elems_bad : forall k es b, In (EData dtUtf8 b) es -> utf8 b = false -> elemsToPy utf8 k es = Err.
Proof.
  induction es as [|e es IH]; intros b I U; [destruct I|]. cbn [elemsToPy]. destruct I as [-> | I].
  - cbn [elemToPy]. rewrite U. reflexivity.
  - rewrite (IH b I U). destruct e as [z|f|h x|o i]; cbn [elemToPy]; try reflexivity. destruct h; cbn [obind]; try reflexivity. destruct (utf8 x); reflexivity.
Qed.
Lemma elems_noUB : forall k es, elemsToPy utf8 k es <> UB.
Proof.
  induction es as [|e es IH]; cbn [elemsToPy]; [discriminate|]. destruct e as [z|f|h x|o i]; cbn [elemToPy]; try (destruct h); try destruct (utf8 x); cbn [obind]; try discriminate;
  destruct (elemsToPy utf8 k es); cbn [obind]; congruence.
Qed.
Lemma refused : forall vars env k p b, In (k, p) vars -> In (EData dtUtf8 b) (snd p) -> utf8 b = false -> setVariables utf8 vars env = (1, env).
Proof.
  intros vars env k p b I J U. unfold setVariables. assert (E : mapToDict utf8 vars = Err); [|rewrite E; reflexivity].
  induction vars as [|(j, q) vars IH]; [destruct I|]. cbn [mapToDict]. destruct I as [X | I].
  - injection X as -> ->. rewrite (elems_bad k _ b J U). reflexivity.
  - rewrite (IH I). pose proof (elems_noUB j (snd q)) as N. destruct (elemsToPy utf8 j (snd q)); cbn [obind]; congruence.
Qed.
Lemma set_elem : forall k v, k <> "_ColorRange" -> exists e, typeOf e = pyType v /\ forall m, setOne validKey m k v = append validKey m k e.
Proof.
  intros k v N. apply String.eqb_neq in N. destruct v as [z|f|f|b|b|t i]; cbn [setOne rangeToInt pyType]; unfold mapSetInt, remap; rewrite ?N; eexists; (split; [|intros m; reflexivity]); reflexivity.
Qed.
Lemma etypeEqb_eq : forall a b, etypeEqb a b = true -> a = b.
Proof. intros [| | |[]] [| | |[]] E; try discriminate E; reflexivity. Qed.
Lemma mixed_list : forall k t l l0, k <> "_ColorRange" -> Exists (fun w => pyType w <> t) l -> setAll validKey [(k, (t, l0))] k l = Err.
Proof.
  intros k t l l0 N X. revert l0. induction l as [|w l IH]; intros l0; [inversion X|]. cbn [setAll]. destruct (set_elem k w N) as (e & T & S). rewrite S. unfold append.
  destruct (validKey k); [|reflexivity]. cbn [negb lookup]. rewrite String.eqb_refl, T. destruct (etypeEqb t (pyType w)) eqn:E; [|reflexivity].
  apply etypeEqb_eq in E. cbn [obind assign]. rewrite String.eqb_refl. apply IH. inversion X as [? ? A | ? ? A]; subst; [congruence | exact A].
Qed.
Lemma mixed : forall env k v l, k <> "_ColorRange" -> lookup env k = Some (Many (v :: l)) -> Exists (fun w => pyType w <> pyType v) l -> getVariable validKey env k = None.
Proof.
  intros env k v l N E X. unfold getVariable. rewrite E. cbn [dictToMap listOf setAll]. destruct (set_elem k v N) as (e & T & S). rewrite S. unfold append.
  destruct (validKey k); [|reflexivity]. cbn [negb lookup obind assign]. rewrite T, mixed_list by assumption. reflexivity.
Qed.
End Facts.

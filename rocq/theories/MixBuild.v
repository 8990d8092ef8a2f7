(** The loops of the mixing matrix. *)
From Coq Require Import ZArith List Bool Lia.
From Coq Require Import SpecFloat.
From Verif Require Import Common PlaneMem Soft MixSpec Mix MixLemmas.
Import ListNotations.
Open Scope Z_scope.

Lemma nthz_some : forall A (l : list A) i, 0 <= i < zlength l -> exists a, nthz l i = Some a.
Proof. intros A l i H. apply nthz_Some_iff in H. exact H. Qed.
Lemma number_zero : forall l, add64 (S754_zero false) (number l) = number l.
Proof. intros [[]|]; reflexivity. Qed.
Lemma number_abs : forall l, SFabs (number l) = number l.
Proof. intros [[]|]; reflexivity. Qed.
Lemma number_none : forall l, SFeqb (number l) (S754_zero false) = match l with None => true | Some _ => false end.
Proof. intros [[]|]; reflexivity. Qed.
Lemma forZ_fold : forall {S} n (f : Z -> S -> outcome S) (g : S -> Z -> S) s, 0 <= n -> (forall i t, 0 <= i < n -> f i t = Ok (g t i)) -> forZ n f s = Ok (fold_left g (zseq n) s).
Proof.
  intros S n f g s N H. destruct (forZ_inv (fun j t => t = fold_left g (zseq j) s) f n s N) as (t & E & P); [reflexivity| |rewrite E, P; reflexivity].
  intros i t I ->. eexists. split; [apply H; exact I|]. rewrite zseq_succ, fold_left_app by lia. reflexivity.
Qed.
Lemma fold_map : forall {A B S} (g : S -> B -> S) (h : A -> B) l s, fold_left (fun t a => g t (h a)) l s = fold_left g (map h l) s.
Proof. intros A B S g h l. induction l as [|a l IH]; intros s; [reflexivity|]. cbn [fold_left map]. apply IH. Qed.
Lemma fold_ext : forall {A S} (g h : S -> A -> S) l s, (forall a t, In a l -> g t a = h t a) -> fold_left g l s = fold_left h l s.
Proof. intros A S g h l. induction l as [|a l IH]; intros s E; [reflexivity|]. cbn [fold_left]. rewrite E by (left; reflexivity). apply IH. intros b t I. apply E. right. exact I. Qed.
(** A map over indices is a map over the list. *)
Lemma map_index : forall {A B} (l : list A) (f : Z -> B) (g : A -> B), (forall i a, nthz l i = Some a -> f i = g a) -> map f (zseq (zlength l)) = map g l.
Proof.
  intros A B l f g H. assert (E : map Some (map f (zseq (zlength l))) = map Some (map g l)).
  { rewrite !map_map. rewrite <- (map_map g Some), <- (map_zseq_eq _ (nthz (map g l))); [|reflexivity]. rewrite zlength_map. apply map_ext_in. intros i I. apply In_zseq in I. rewrite nthz_map. destruct (nthz_some _ l i I) as (a & Ha). rewrite Ha. cbn [option_map]. rewrite (H i a Ha). reflexivity. }
  assert (INJ : forall u v : list B, map Some u = map Some v -> u = v). { induction u as [|a u IH]; intros [|b v] Q; cbn [map] in Q; try discriminate; [reflexivity|]. injection Q as -> Q. f_equal. apply IH. exact Q. }
  apply INJ. exact E.
Qed.

Section Layout.
Variables inL outL : Z.
Notation ins := (channelsOf inL).
Notation outs := (channelsOf outL).
Notation numIn := (zlength (channelsOf inL)).
Notation numOut := (zlength (channelsOf outL)).
Definition indexed (outIndex : Z -> Z) : Prop := (forall i c, nthz outs i = Some c -> outIndex c = i) /\ (forall c, 0 <= outIndex c -> nthz outs (outIndex c) = Some c).
Lemma index_loop : exists f, forZ numOut (fun i (f : Z -> Z) => match nthz outs i with Some c => if (0 <=? c) && (c <? 64) then Ok (fun x => if x =? c then i else f x) else UB | None => UB end) (fun _ => -1) = Ok f /\ indexed f.
Proof.
  destruct (forZ_inv (fun j f => (forall i c, i < j -> nthz outs i = Some c -> f c = i) /\ (forall c, 0 <= f c -> f c < j /\ nthz outs (f c) = Some c)) (fun i (f : Z -> Z) => match nthz outs i with Some c => if (0 <=? c) && (c <? 64) then Ok (fun x => if x =? c then i else f x) else UB | None => UB end) numOut (fun _ => -1) (zlength_nonneg _ _)) as (f & E & A & B).
  - split; [intros i c I H; pose proof (nthz_range _ _ _ _ H); lia|intros; lia].
  - intros j f J (A & B). destruct (nthz_some _ outs j J) as (c & C). rewrite C. assert (IC : In c outs) by (unfold nthz in C; destruct (j <? 0); [discriminate|apply nth_error_In in C; exact C]). apply channels_in in IC. unfold inLayout in IC. apply andb_prop in IC. destruct IC as (-> & _). eexists. split; [reflexivity|]. split.
    + intros i d I H. destruct (Z.eqb_spec d c) as [->|N]; [apply (nthz_inj outs _ _ c); [apply channels_nodup|exact C|exact H]|]. apply A; [|exact H]. destruct (Z.eq_dec i j) as [->|]; [congruence|lia].
    + intros d. destruct (Z.eqb_spec d c) as [->|N]; intros P; [split; [lia|exact C]|]. destruct (B d P). split; [lia|assumption].
  - exists f. split; [exact E|]. split; [intros i c H; apply A; [apply (nthz_range _ _ _ _ H)|exact H]|intros c P; apply B; exact P].
Qed.
Section Index.
Variable outIndex : Z -> Z.
Hypothesis IX : indexed outIndex.
Lemma has_layout : forall c, has outIndex c = inLayout outL c.
Proof.
  intros c. unfold has. destruct (inLayout outL c) eqn:L.
  - assert (IC : In c outs) by (apply channels_in; exact L). destruct (In_nthz _ _ IC) as (i & I). rewrite (proj1 IX i c I). pose proof (nthz_range _ _ _ _ I). unfold inLayout in L. apply andb_prop in L. destruct L as (-> & _). cbn [andb]. apply Z.leb_le. lia.
  - destruct (Z.leb_spec 0 (outIndex c)) as [P|]; [|apply andb_false_r]. exfalso. pose proof (proj2 IX c P) as H. assert (IC : In c outs) by (unfold nthz in H; destruct (outIndex c <? 0); [discriminate|apply nth_error_In in H; exact H]). apply channels_in in IC. congruence.
Qed.
Lemma cell_inj : forall o i o' i', 0 <= i < numIn -> 0 <= i' < numIn -> o * numIn + i = o' * numIn + i' -> o = o' /\ i = i'.
Proof. intros o i o' i' I I' E. assert (o = o') by nia. subst. lia. Qed.
Lemma cell_range : forall o i, 0 <= o < numOut -> 0 <= i < numIn -> 0 <= o * numIn + i < numOut * numIn.
Proof. intros. nia. Qed.
Lemma adds_ok : forall inIdx l m, 0 <= inIdx < numIn -> NoDup (map fst l) -> (forall t, In t l -> inLayout outL (fst t) = true) ->
  (forall t, In t l -> m (outIndex (fst t) * numIn + inIdx) = S754_zero false) ->
  exists m', adds numIn numOut outIndex inIdx l m = Ok m' /\ forall o co i, nthz outs o = Some co -> 0 <= i < numIn ->
    m' (o * numIn + i) = if i =? inIdx then match find (fun t => fst t =? co) l with Some t => number (Some (snd t)) | None => m (o * numIn + i) end else m (o * numIn + i).
Proof.
  intros inIdx l. induction l as [|t l IH]; intros m I N H Z0.
  - exists m. split; [reflexivity|]. intros o co i O J. cbn [find]. destruct (i =? inIdx); reflexivity.
  - cbn [map] in N. inversion N as [|? ? N1 N2]; subst. cbn [adds]. assert (HT : nthz outs (outIndex (fst t)) = Some (fst t)). { apply (proj2 IX). pose proof (H t (or_introl eq_refl)) as L. rewrite <- has_layout in L. unfold has in L. apply andb_prop in L. destruct L as (_ & L). apply Z.leb_le. exact L. }
    pose proof (nthz_range _ _ _ _ HT) as RT. pose proof (cell_range _ _ RT I) as CR. unfold add, getCell, setCell. destruct (Z.leb_spec 0 (outIndex (fst t) * numIn + inIdx)); [|lia]. destruct (Z.ltb_spec (outIndex (fst t) * numIn + inIdx) (numOut * numIn)); [|lia]. cbn [andb obind].
    rewrite (Z0 t (or_introl eq_refl)), number_zero. destruct (IH (fun j => if j =? outIndex (fst t) * numIn + inIdx then number (Some (snd t)) else m j) I N2) as (m' & E & P).
    + intros u U. apply H. right. exact U.
    + intros u U. destruct (Z.eqb_spec (outIndex (fst u) * numIn + inIdx) (outIndex (fst t) * numIn + inIdx)) as [Q|_]; [|apply Z0; right; exact U]. exfalso. apply cell_inj in Q; [|exact I|exact I]. destruct Q as (Q & _). apply N1. replace (fst t) with (fst u); [apply in_map; exact U|]. assert (HU : nthz outs (outIndex (fst u)) = Some (fst u)). { apply (proj2 IX). rewrite Q. lia. } rewrite Q in HU. congruence.
    + exists m'. split; [exact E|]. intros o co i O J. rewrite (P o co i O J). cbn [find]. destruct (Z.eqb_spec i inIdx) as [->|NI].
      * destruct (Z.eqb_spec (fst t) co) as [C|C].
        -- destruct (find (fun t0 : Z * lev => fst t0 =? co) l) as [u|] eqn:F; [exfalso; apply find_some in F; destruct F as (F1 & F2); apply Z.eqb_eq in F2; apply N1; rewrite C, <- F2; apply in_map; exact F1|]. assert (o = outIndex (fst t)) as -> by (rewrite C; symmetry; apply (proj1 IX); exact O). rewrite Z.eqb_refl. reflexivity.
        -- destruct (find (fun t0 : Z * lev => fst t0 =? co) l); [reflexivity|]. destruct (Z.eqb_spec (o * numIn + inIdx) (outIndex (fst t) * numIn + inIdx)) as [Q|]; [|reflexivity]. exfalso. apply cell_inj in Q; [|exact I|exact I]. destruct Q as (-> & _). congruence.
      * destruct (Z.eqb_spec (o * numIn + i) (outIndex (fst t) * numIn + inIdx)) as [Q|]; [|reflexivity]. exfalso. apply cell_inj in Q; [|exact J|exact I]. lia.
Qed.
Definition filled (n : Z) (m : cells) : Prop := forall o co i ci, nthz outs o = Some co -> nthz ins i = Some ci -> m (o * numIn + i) = if i <? n then number (gain (inLayout outL) ci co) else S754_zero false.
Lemma feed_loop : exists m, forZ numIn (fun i m => match nthz ins i with Some c => feed numIn numOut outIndex i c m | None => UB end) (fun _ => S754_zero false) = Ok m /\ filled numIn m.
Proof.
  apply (forZ_inv filled); [apply zlength_nonneg| |].
  - intros o co i ci O J. pose proof (nthz_range _ _ _ _ J). destruct (Z.ltb_spec i 0); [lia|reflexivity].
  - intros j m J F. destruct (nthz_some _ ins j J) as (c & C). rewrite C, feed_targets. rewrite (targets_ext _ _ c has_layout).
    destruct (adds_ok j (targets (inLayout outL) c) m J (targets_nodup _ _)) as (m' & E & P).
    + intros t T. apply (targets_has _ _ _ T).
    + intros t T. apply targets_has in T. rewrite <- has_layout in T. assert (HT : nthz outs (outIndex (fst t)) = Some (fst t)). { apply (proj2 IX). unfold has in T. apply andb_prop in T. destruct T as (_ & T). apply Z.leb_le. exact T. } rewrite (F _ _ _ _ HT C). rewrite Z.ltb_irrefl. reflexivity.
    + exists m'. split; [exact E|]. intros o co i ci O I. rewrite (P o co i O (nthz_range _ _ _ _ I)), (F _ _ _ _ O I). destruct (Z.eqb_spec i j) as [->|N].
      * rewrite Z.ltb_irrefl. destruct (Z.ltb_spec j (j + 1)); [|lia]. assert (ci = c) as -> by congruence. unfold gain. destruct (find _ _); reflexivity.
      * destruct (Z.ltb_spec i j), (Z.ltb_spec i (j + 1)); try lia; reflexivity.
Qed.
Section Filled.
Variable m : cells.
Hypothesis FI : filled numIn m.
Lemma cell_is : forall o co i ci, nthz outs o = Some co -> nthz ins i = Some ci -> m (o * numIn + i) = number (gain (inLayout outL) ci co).
Proof. intros o co i ci O I. rewrite (FI _ _ _ _ O I). destruct (Z.ltb_spec i numIn) as [|L]; [reflexivity|]. pose proof (nthz_range _ _ _ _ I). lia. Qed.
Lemma peak_is : peak numIn numOut m = Ok (peakOf (map (plainRow inL outL) outs)).
Proof.
  unfold peak. rewrite (forZ_fold _ _ (fun p o => fmax p (fold_left (fun s i => add64 s (SFabs (m (o * numIn + i)))) (zseq numIn) (S754_zero false)))); [| apply zlength_nonneg|].
  - f_equal. rewrite (fold_map fmax (fun o => fold_left (fun s i => add64 s (SFabs (m (o * numIn + i)))) (zseq numIn) (S754_zero false))). unfold peakOf. f_equal. rewrite map_map. apply map_index. intros o co O. rewrite (fold_map add64 (fun i => SFabs (m (o * numIn + i)))). unfold rowSum, plainRow. f_equal.
    apply map_index. intros i ci I. rewrite (cell_is _ _ _ _ O I). apply number_abs.
  - intros o p O. erewrite forZ_fold; [cbn [obind]; reflexivity|apply zlength_nonneg|]. intros i s I. pose proof (cell_range _ _ O I) as CR. unfold getCell. destruct (Z.leb_spec 0 (o * numIn + i)); [|lia]. destruct (Z.ltb_spec (o * numIn + i) (numOut * numIn)); [|lia]. reflexivity.
Qed.
End Filled.
Lemma silent_is : forall (m : cells) o, 0 <= o < numOut -> silentRow numIn numOut m o = Ok (forallb (fun i => SFeqb (m (o * numIn + i)) (S754_zero false)) (zseq numIn)).
Proof.
  intros m o O. unfold silentRow. rewrite (forZ_fold _ _ (fun b i => b && SFeqb (m (o * numIn + i)) (S754_zero false))); [|apply zlength_nonneg|].
  - f_equal. assert (G : forall l b, fold_left (fun b i => b && SFeqb (m (o * numIn + i)) (S754_zero false)) l b = b && forallb (fun i => SFeqb (m (o * numIn + i)) (S754_zero false)) l). { induction l as [|i l IH]; intros b; [symmetry; apply andb_true_r|]. cbn [fold_left forallb]. rewrite IH, andb_assoc. reflexivity. } rewrite G. apply andb_true_l.
  - intros i b I. pose proof (cell_range _ _ O I) as CR. unfold getCell. destruct (Z.leb_spec 0 (o * numIn + i)); [|lia]. destruct (Z.ltb_spec (o * numIn + i) (numOut * numIn)); [|lia]. reflexivity.
Qed.
End Index.
End Layout.

(** The mixing matrix follows the table. *)
From Coq Require Import ZArith List Bool Lia FinFun.
From Coq Require Import SpecFloat.
From Verif Require Import Common PlaneMem Soft MixSpec Mix.
Import ListNotations.
Open Scope Z_scope.

(** *** Layouts *)
Lemma channels_eq : forall layout, layoutChannels layout = channelsOf layout.
Proof.
  intros layout. unfold layoutChannels, channelsOf. apply filter_ext_in. intros i I. apply In_zseq in I. unfold inLayout. rewrite Z.shiftr_spec by lia. cbn [Z.add]. destruct (Z.leb_spec 0 i); [|lia]. destruct (Z.ltb_spec i 64); [|lia]. reflexivity.
Qed.
Lemma zseq_nodup : forall n, NoDup (zseq n).
Proof. intros n. unfold zseq. apply FinFun.Injective_map_NoDup; [intros a b; lia|apply seq_NoDup]. Qed.
Lemma channels_nodup : forall layout, NoDup (channelsOf layout).
Proof. intros. apply NoDup_filter, zseq_nodup. Qed.
Lemma channels_in : forall layout c, In c (channelsOf layout) <-> inLayout layout c = true.
Proof.
  intros layout c. unfold channelsOf. rewrite filter_In, In_zseq. unfold inLayout. split; [tauto|]. intros H. split; [|exact H]. apply andb_prop in H. destruct H as (H & _). apply andb_prop in H. destruct H as (A & B). apply Z.leb_le in A. apply Z.ltb_lt in B. lia.
Qed.
Lemma nthz_inj : forall {A} (l : list A) i j a, NoDup l -> nthz l i = Some a -> nthz l j = Some a -> i = j.
Proof.
  intros A l i j a N I J. pose proof (nthz_range _ _ _ _ I). pose proof (nthz_range _ _ _ _ J). unfold nthz, zlength in *. destruct (Z.ltb_spec i 0); [lia|]. destruct (Z.ltb_spec j 0); [lia|].
  assert (Z.to_nat i = Z.to_nat j); [|lia]. apply (proj1 (NoDup_nth_error l) N); [lia|congruence].
Qed.
Lemma In_nthz : forall {A} (l : list A) a, In a l -> exists i, nthz l i = Some a.
Proof. intros A l a H. apply In_nth_error in H. destruct H as (n & H). exists (Z.of_nat n). unfold nthz. destruct (Z.ltb_spec (Z.of_nat n) 0); [lia|]. rewrite Nat2Z.id. exact H. Qed.
Lemma filter_len : forall {A} (f : A -> bool) l, (length (filter f l) <= length l)%nat.
Proof. intros A f l. induction l as [|a l IH]; [cbn; lia|]. cbn [filter]. destruct (f a); cbn [length]; lia. Qed.
Lemma channels_count : forall layout, zlength (channelsOf layout) <= 64.
Proof. intros. unfold zlength, channelsOf. pose proof (filter_len (inLayout layout) (zseq 64)) as H. change (length (zseq 64)) with 64%nat in H. lia. Qed.

(** *** The rules *)
Lemma ground_eq : forall c, groundEquivalent c = ground c.
Proof.
  intros c. unfold groundEquivalent, ground. cbn [existsb]. unfold acTopFrontLeft, acWideLeft, acStereoLeft, acTopFrontRight, acWideRight, acStereoRight, acTopFrontCenter, acTopCenter, acTopBackLeft, acSurroundDirectLeft, acTopBackRight, acSurroundDirectRight, acTopBackCenter.
  rewrite !orb_false_r. rewrite (orb_comm (c =? 13) (c =? 11)). rewrite <- !orb_assoc. rewrite (orb_comm (c =? 31) (c =? 29)), (orb_comm (c =? 32) (c =? 30)). reflexivity.
Qed.
Lemma obind_id : forall {A} (x : outcome A), obind x Ok = x.
Proof. intros A []; reflexivity. Qed.
Section Rules.
Variables numIn numOut : Z.
Variable outIndex : Z -> Z.
Notation has := (Mix.has outIndex).
Fixpoint adds (inIdx : Z) (l : list (Z * lev)) (m : cells) : outcome cells :=
  match l with [] => Ok m | t :: r => obind (add numIn numOut outIndex (fst t) inIdx (number (Some (snd t))) m) (adds inIdx r) end.
Definition pick (ls : list (list (Z * lev))) : list (Z * lev) := match find (forallb (fun t => has (fst t))) ls with Some l => l | None => [] end.
Lemma pick_cons : forall l ls, pick (l :: ls) = if forallb (fun t => has (fst t)) l then l else pick ls.
Proof. intros. unfold pick. cbn [find]. destruct (forallb _ l); reflexivity. Qed.
Lemma adds1 : forall i o l m, adds i [(o, l)] m = add numIn numOut outIndex o i (number (Some l)) m.
Proof. intros. cbn [adds fst snd]. apply obind_id. Qed.
Lemma adds2 : forall i o l o' l' m, adds i [(o, l); (o', l')] m = obind (add numIn numOut outIndex o i (number (Some l)) m) (add numIn numOut outIndex o' i (number (Some l'))).
Proof. intros. cbn [adds fst snd]. destruct (add numIn numOut outIndex o i (number (Some l)) m); cbn [obind]; try reflexivity. apply obind_id. Qed.
Lemma feed_targets : forall i c m, feed numIn numOut outIndex i c m = adds i (targets has c) m.
Proof.
  intros i c m. unfold feed, targets. fold (pick ([(c, Unity)] :: [(ground c, Unity)] :: lines (ground c))). rewrite !pick_cons. cbn [forallb fst]. rewrite !andb_true_r. destruct (has c) eqn:HC; [rewrite adds1; reflexivity|].
  cbv zeta. rewrite ground_eq. generalize (ground c). intros g. destruct (has g) eqn:HG; [rewrite adds1; reflexivity|]. clear HC c.
  unfold lines, FL, FR, FC, BL, BR, SL, SR, BC, FLC, FRC, LFE, LFE2, acFrontCenter, acFrontLeft, acFrontRight, acBackLeft, acSideLeft, acBackRight, acSideRight, acBackCenter, acFrontLeftOFCenter, acFrontRightOFCenter, acLowFrequency, acLowFrequency2 in *.
  destruct (Z.eqb_spec g 2) as [->|N2]. { rewrite !pick_cons. cbn [forallb fst]. rewrite !andb_true_r. destruct (has 0), (has 1); cbn [andb]; rewrite ?adds1, ?adds2; reflexivity. }
  destruct (Z.eqb_spec g 0) as [->|N0]. { cbn [orb]. rewrite !pick_cons. cbn [forallb fst]. rewrite !andb_true_r. unfold acFrontCenter. destruct (has 2), (has 1); rewrite ?adds1; reflexivity. }
  destruct (Z.eqb_spec g 1) as [->|N1]. { cbn [orb]. rewrite !pick_cons. cbn [forallb fst]. rewrite !andb_true_r. destruct (has 2), (has 0); rewrite ?adds1; reflexivity. }
  cbn [orb]. destruct (Z.eqb_spec g 4) as [->|N4]. { cbn [orb]. unfold foldSurround. rewrite !pick_cons. cbn [forallb fst]. rewrite !andb_true_r. unfold acFrontCenter. destruct (has 9), (has 0), (has 2); rewrite ?adds1; reflexivity. }
  destruct (Z.eqb_spec g 5) as [->|N5]. { cbn [Z.eqb Pos.eqb orb]. unfold foldSurround. rewrite !pick_cons. cbn [forallb fst]. rewrite !andb_true_r. unfold acFrontCenter. destruct (has 10), (has 1), (has 2); rewrite ?adds1; reflexivity. }
  destruct (Z.eqb_spec g 9) as [->|N9]. { cbn [orb]. unfold foldSurround. rewrite !pick_cons. cbn [forallb fst]. rewrite !andb_true_r. unfold acFrontCenter. destruct (has 4), (has 0), (has 2); rewrite ?adds1; reflexivity. }
  destruct (Z.eqb_spec g 10) as [->|N10]. { cbn [orb]. unfold foldSurround. rewrite !pick_cons. cbn [forallb fst]. rewrite !andb_true_r. unfold acFrontCenter. destruct (has 5), (has 1), (has 2); rewrite ?adds1; reflexivity. }
  cbn [orb]. destruct (Z.eqb_spec g 8) as [->|N8]. { rewrite !pick_cons. cbn [forallb fst]. rewrite !andb_true_r. destruct (has 4), (has 5), (has 9), (has 10), (has 0), (has 1), (has 2); cbn [andb]; rewrite ?adds1, ?adds2; reflexivity. }
  destruct (Z.eqb_spec g 6) as [->|N6]. { cbn [orb]. rewrite !pick_cons. cbn [forallb fst]. rewrite !andb_true_r. destruct (has 0), (has 2); cbn [andb]; rewrite ?adds1, ?adds2; reflexivity. }
  destruct (Z.eqb_spec g 7) as [->|N7]. { cbn [orb]. rewrite !pick_cons. cbn [forallb fst]. rewrite !andb_true_r. destruct (has 1), (has 2); cbn [andb]; rewrite ?adds1, ?adds2; reflexivity. }
  cbn [orb]. destruct (Z.eqb_spec g 3) as [->|N3]. { cbn [orb]. rewrite !pick_cons. cbn [forallb fst]. rewrite !andb_true_r. destruct (has 35); rewrite ?adds1; reflexivity. }
  destruct (Z.eqb_spec g 35) as [->|N35]. { cbn [orb]. rewrite !pick_cons. cbn [forallb fst]. rewrite !andb_true_r. destruct (has 3); rewrite ?adds1; reflexivity. }
  reflexivity.
Qed.
End Rules.

(** *** Facts about the table *)
Lemma find_in : forall {A} (p : A -> bool) l, match find p l with Some x => In x l /\ p x = true | None => True end.
Proof. intros A p l. destruct (find p l) eqn:E; [|exact I]. apply find_some in E. exact E. Qed.
Lemma targets_cases : forall h c, targets h c = [] \/ (In (targets h c) ([(c, Unity)] :: [(ground c, Unity)] :: lines (ground c)) /\ forallb (fun t => h (fst t)) (targets h c) = true).
Proof. intros h c. unfold targets. pose proof (find_in (forallb (fun t => h (fst t))) ([(c, Unity)] :: [(ground c, Unity)] :: lines (ground c))) as F. destruct (find _ _); [right; exact F|left; reflexivity]. Qed.
Definition small (l : list (Z * lev)) : bool := (fold_right (fun t a => power (snd t) + a) 0 l <=? 4) && match l with [a; b] => negb (fst a =? fst b) | _ => (length l <=? 1)%nat end.
Lemma lines_small : forall g, forallb small (lines g) = true.
Proof. intros g. unfold lines. repeat match goal with |- context [if ?b then _ else _] => destruct b; [reflexivity|] end. reflexivity. Qed.
Lemma targets_small : forall h c, small (targets h c) = true.
Proof.
  intros h c. destruct (targets_cases h c) as [->|(I & _)]; [reflexivity|]. destruct I as [<-|[<-|I]]; try reflexivity. pose proof (lines_small (ground c)) as L. rewrite forallb_forall in L. apply L. exact I.
Qed.
Lemma targets_nodup : forall h c, NoDup (map fst (targets h c)).
Proof.
  intros h c. pose proof (targets_small h c) as S. unfold small in S. apply andb_prop in S. destruct S as (_ & S). destruct (targets h c) as [|a [|b [|d l]]]; cbn [map] in *; try discriminate S.
  - constructor.
  - constructor; [intros []|constructor].
  - apply negb_true_iff, Z.eqb_neq in S. constructor; [intros [Q|[]]; congruence|]. constructor; [intros []|constructor].
Qed.
Lemma targets_has : forall h c t, In t (targets h c) -> h (fst t) = true.
Proof. intros h c t I. destruct (targets_cases h c) as [E|(_ & F)]; [rewrite E in I; destruct I|]. rewrite forallb_forall in F. apply F. exact I. Qed.
Lemma targets_ext : forall h k c, (forall x, h x = k x) -> targets h c = targets k c.
Proof.
  intros h k c E. unfold targets. assert (F : forall l, find (forallb (fun t : Z * lev => h (fst t))) l = find (forallb (fun t => k (fst t))) l).
  { induction l as [|x l IH]; [reflexivity|]. cbn [find]. replace (forallb (fun t : Z * lev => h (fst t)) x) with (forallb (fun t : Z * lev => k (fst t)) x); [rewrite IH; reflexivity|]. induction x as [|y x IHx]; [reflexivity|]. cbn [forallb]. rewrite IHx, E. reflexivity. }
  rewrite F. reflexivity.
Qed.

Theorem gain_same : forall h c o, h c = true -> gain h c o = if o =? c then Some Unity else None.
Proof. intros h c o H. unfold gain, targets. cbn [find forallb fst]. rewrite H. cbn [andb find fst snd]. rewrite (Z.eqb_sym c o). destruct (o =? c); reflexivity. Qed.
Lemma gain_in : forall h c o l, gain h c o = Some l -> In (o, l) (targets h c).
Proof. intros h c o l G. unfold gain in G. pose proof (find_in (fun t => fst t =? o) (targets h c)) as F. destruct (find _ _) as [t|]; [|discriminate]. injection G as <-. destruct F as (I & E). apply Z.eqb_eq in E. subst. destruct t. exact I. Qed.
Theorem gain_exists : forall h c o l, gain h c o = Some l -> h o = true.
Proof. intros h c o l G. apply gain_in in G. apply targets_has in G. exact G. Qed.
Lemma lines_lfe : forall g, forallb (forallb (fun t : Z * lev => Bool.eqb (isLfe (fst t)) (isLfe g))) (lines g) = true.
Proof.
  intros g. unfold lines. repeat match goal with |- context [if ?a =? ?b then _ else _] => destruct (Z.eqb_spec a b) as [->|]; [reflexivity|] end. reflexivity.
Qed.
Lemma ground_lfe : forall c, isLfe (ground c) = isLfe c.
Proof.
  intros c. unfold ground. cbn [existsb]. repeat match goal with |- context [?a =? ?b] => match a with c => destruct (Z.eqb_spec a b) as [->|]; [reflexivity|] end end; reflexivity.
Qed.
Theorem gain_lfe : forall h c o l, gain h c o = Some l -> isLfe o = isLfe c.
Proof.
  intros h c o l G. apply gain_in in G. destruct (targets_cases h c) as [E|(I & _)]; [rewrite E in G; destruct G|]. destruct I as [E|[E|I]].
  - rewrite <- E in G. destruct G as [G|[]]. injection G as <- _. reflexivity.
  - rewrite <- E in G. destruct G as [G|[]]. injection G as <- _. apply ground_lfe.
  - pose proof (lines_lfe (ground c)) as L. rewrite forallb_forall in L. specialize (L _ I). rewrite forallb_forall in L. specialize (L _ G). apply eqb_prop in L. cbn [fst] in L. rewrite L. apply ground_lfe.
Qed.
(** The power that reaches the outputs is at most that of the channel. *)
Lemma power_targets : forall l os, NoDup os -> NoDup (map fst l) ->
  fold_right (fun o a => powerOf (match find (fun t : Z * lev => fst t =? o) l with Some t => Some (snd t) | None => None end) + a) 0 os <= fold_right (fun t a => power (snd t) + a) 0 l.
Proof.
  induction l as [|t l IH]; intros os NO NL.
  - cbn [fold_right]. induction os as [|o os IHo]; [cbn; lia|]. cbn [fold_right find]. inversion NO; subst. specialize (IHo H2). cbn [powerOf find] in *. lia.
  - cbn [map] in NL. inversion NL as [|? ? NI NL']; subst. cbn [fold_right]. destruct (in_dec Z.eq_dec (fst t) os) as [I|I].
    + apply in_split in I. destruct I as (a & b & ->). pose proof (NoDup_remove_1 _ _ _ NO) as NO1. pose proof (NoDup_remove_2 _ _ _ NO) as NO2. specialize (IH (a ++ b) NO1 NL').
      assert (SPL : forall (f : Z -> Z) u v, fold_right (fun o x => f o + x) 0 (u ++ v) = fold_right (fun o x => f o + x) 0 u + fold_right (fun o x => f o + x) 0 v) by (intros f u v; induction u as [|y u IHu]; cbn [app fold_right]; lia).
      rewrite (SPL (fun o => powerOf (match find (fun t0 : Z * lev => fst t0 =? o) (t :: l) with Some t0 => Some (snd t0) | None => None end))). cbn [fold_right]. rewrite (SPL (fun o => powerOf (match find (fun t0 : Z * lev => fst t0 =? o) l with Some t0 => Some (snd t0) | None => None end))) in IH.
      assert (OUT : forall u, ~ In (fst t) u -> fold_right (fun o x => powerOf (match find (fun t0 : Z * lev => fst t0 =? o) (t :: l) with Some t0 => Some (snd t0) | None => None end) + x) 0 u = fold_right (fun o x => powerOf (match find (fun t0 : Z * lev => fst t0 =? o) l with Some t0 => Some (snd t0) | None => None end) + x) 0 u).
      { induction u as [|y u IHu]; intros NU; [reflexivity|]. cbn [fold_right]. rewrite IHu by (intros Q; apply NU; right; exact Q). f_equal. cbn [find]. destruct (Z.eqb_spec (fst t) y) as [E|_]; [exfalso; apply NU; left; symmetry; exact E|reflexivity]. }
      rewrite in_app_iff in NO2. rewrite OUT by tauto. rewrite OUT by tauto. cbn [find]. rewrite Z.eqb_refl. cbn [powerOf]. lia.
    + specialize (IH os NO NL'). assert (P : 0 <= power (snd t)) by (destruct (snd t); cbn; lia).
      assert (OUT : forall u, ~ In (fst t) u -> fold_right (fun o x => powerOf (match find (fun t0 : Z * lev => fst t0 =? o) (t :: l) with Some t0 => Some (snd t0) | None => None end) + x) 0 u = fold_right (fun o x => powerOf (match find (fun t0 : Z * lev => fst t0 =? o) l with Some t0 => Some (snd t0) | None => None end) + x) 0 u).
      { induction u as [|y u IHu]; intros NU; [reflexivity|]. cbn [fold_right]. rewrite IHu by (intros Q; apply NU; right; exact Q). f_equal. cbn [find]. destruct (Z.eqb_spec (fst t) y) as [E|_]; [exfalso; apply NU; left; symmetry; exact E|reflexivity]. }
      rewrite OUT by exact I. lia.
Qed.
Theorem gain_power : forall h c os, NoDup os -> fold_right (fun o a => powerOf (gain h c o) + a) 0 os <= 4.
Proof.
  intros h c os N. pose proof (power_targets (targets h c) os N (targets_nodup h c)) as P. pose proof (targets_small h c) as S. unfold small in S. apply andb_prop in S. destruct S as (S & _). apply Z.leb_le in S. unfold gain. lia.
Qed.
(** Left and right are treated alike. *)
Lemma mirror_mirror : forall c, mirror (mirror c) = c.
Proof.
  intros c. unfold mirror at 2. cbn [find pairs fst snd]. repeat match goal with |- context [?a =? c] => destruct (Z.eqb_spec a c) as [<-|]; [reflexivity|] end. cbn [orb]. unfold mirror. cbn [find pairs fst snd]. repeat match goal with |- context [?a =? c] => destruct (Z.eqb_spec a c) as [<-|]; [congruence|] end. reflexivity.
Qed.
Lemma mirror_ground : forall c, ground (mirror c) = mirror (ground c).
Proof.
  intros c. unfold mirror at 1. cbn [find pairs fst snd]. repeat match goal with |- context [?a =? c] => destruct (Z.eqb_spec a c) as [<-|]; [reflexivity|] end. cbn [orb].
  unfold ground. cbn [existsb]. repeat match goal with |- context [c =? ?a] => destruct (Z.eqb_spec c a) as [->|]; [reflexivity || congruence|] end. cbn [orb]. unfold mirror. cbn [find pairs fst snd]. repeat match goal with |- context [?a =? c] => destruct (Z.eqb_spec a c) as [<-|]; [congruence|] end. reflexivity.
Qed.
Lemma mirror_eqb : forall a b, (mirror a =? mirror b) = (a =? b).
Proof. intros a b. destruct (Z.eqb_spec a b) as [->|N]; [apply Z.eqb_refl|]. apply Z.eqb_neq. intros E. apply N. rewrite <- (mirror_mirror a), <- (mirror_mirror b), E. reflexivity. Qed.
Definition look (l : list (Z * lev)) (o : Z) : option lev := match find (fun t => fst t =? o) l with Some t => Some (snd t) | None => None end.
Definition lev_at (h : Z -> bool) (ls : list (list (Z * lev))) (o : Z) : option lev := look (match find (forallb (fun t => h (fst t))) ls with Some l => l | None => [] end) o.
Theorem gain_mirror : forall h c o, gain (fun x => h (mirror x)) (mirror c) (mirror o) = gain h c o.
Proof.
  intros h c o. unfold gain, targets. cbn [find forallb fst]. rewrite mirror_mirror, !andb_true_r. destruct (h c). { cbn [find fst snd]. rewrite mirror_eqb. destruct (c =? o); reflexivity. }
  rewrite mirror_ground, mirror_mirror. generalize (ground c). intros g. destruct (h g). { cbn [find fst snd]. rewrite mirror_eqb. destruct (g =? o); reflexivity. }
  assert (SYM : lev_at (fun x => h (mirror x)) (lines (mirror g)) (mirror o) = lev_at h (lines g) o); [|exact SYM].
  unfold lev_at, lines, FL, FR, FC, BL, BR, SL, SR, BC, FLC, FRC, LFE, LFE2.
  assert (E : forall k, (mirror g =? k) = (g =? mirror k)) by (intros k; rewrite <- (mirror_mirror k) at 1; apply mirror_eqb). rewrite !E.
  change (mirror 0) with 1. change (mirror 1) with 0. change (mirror 2) with 2. change (mirror 4) with 5. change (mirror 5) with 4. change (mirror 9) with 10. change (mirror 10) with 9. change (mirror 8) with 8. change (mirror 6) with 7. change (mirror 7) with 6. change (mirror 3) with 3. change (mirror 35) with 35.
  assert (L : forall a, (a =? mirror o) = (mirror a =? o)) by (intros a; rewrite <- (mirror_mirror a) at 1; apply mirror_eqb).
  repeat match goal with |- context [g =? ?k] => destruct (Z.eqb_spec g k) as [->|];
    [cbn [find forallb fst Z.eqb Pos.eqb]; change (mirror 0) with 1; change (mirror 1) with 0; change (mirror 2) with 2; change (mirror 4) with 5; change (mirror 5) with 4; change (mirror 9) with 10; change (mirror 10) with 9; change (mirror 3) with 3; change (mirror 35) with 35;
     repeat match goal with |- context [h ?k] => destruct (h k); cbn [andb] end; unfold look; cbn [find fst snd]; rewrite ?L; repeat match goal with |- context [mirror ?k] => change (mirror k) with (ltac:(let v := eval vm_compute in (mirror k) in exact v)) end; repeat match goal with |- context [?k =? o] => destruct (Z.eqb_spec k o) as [<-|]; [try reflexivity|] end; reflexivity|] end. reflexivity.
Qed.
(** Nothing but the bass is lost when there is a front pair. *)
Theorem gain_heard : forall h c, In c positions -> isLfe c = false -> h FL = true -> h FR = true -> exists o, gain h c o <> None.
Proof.
  intros h c P L HL HR. assert (T : targets h c <> []). { unfold targets. cbn [find forallb fst]. rewrite !andb_true_r. destruct (h c); [discriminate|]. destruct (h (ground c)) eqn:HG; [discriminate|]. unfold positions in P. cbn [In] in P.
    unfold FL, FR in *. repeat (destruct P as [P|P]; [subst c; try discriminate L; cbn in HG; try congruence; cbn; unfold FL, FR; rewrite ?HL, ?HR; cbn; repeat match goal with |- context [h ?k] => destruct (h k); cbn end; discriminate|]). destruct P. }
  destruct (targets h c) as [|t l] eqn:E; [congruence|]. exists (fst t). unfold gain. rewrite E. cbn [find]. rewrite Z.eqb_refl. discriminate.
Qed.

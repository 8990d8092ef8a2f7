(** Reference counting and ownership invariant of the frame heap. *)
From Coq Require Import ZArith List Lia Bool.
From Verif Require Import Common Sums Memory MemoryLemmas FormatSpec FrameSpec Frame.
Import ListNotations.
Open Scope Z_scope.

Definition wF (o : option frame) (p : nat) : Z := match o with Some fr => cntl p (fr_data fr) | None => 0 end.

(** Number of plane slots of live frames that point to plane [p]. *)
Definition cntP (s : fst_) (p : nat) : Z := sumto (nF s) (fun g => wF (frames s g) p).

Definition psz (s : fst_) (p : nat) : Z :=
  match planes s p with Some x => osz (liveB (mm s) (p_blk x)) | None => 0 end.

(** [e p] counts pointers to plane [p] held in local variables. *)
Record inv (s : fst_) (e : nat -> Z) : Prop := {
  iP : forall p, match planes s p with
       | Some x => p_ref x = cntP s p + e p /\ 0 < p_ref x /\ 0 <= p_size x /\
                   exists bs, liveB (mm s) (p_blk x) = Some bs /\ p_size x + 64 <= bs
       | None => cntP s p + e p = 0
       end;
  iPn : forall p, (nP s <= p)%nat -> planes s p = None;
  iFn : forall g, (nF s <= g)%nat -> frames s g = None;
  iFr : forall g fr, frames s g = Some fr -> 0 < fr_ref fr;
  iInj : forall p q x y, planes s p = Some x -> planes s q = Some y -> p_blk x = p_blk y -> p = q;
  iOwn : forall b sz, liveB (mm s) b = Some sz -> exists p x, planes s p = Some x /\ p_blk x = b;
  iMem : minv (mm s);
  iCore : mcore (mm s);
  iCf : m_cfreed (mm s) = negb (core s);
  iSum : m_alloc (mm s) = sumto (nP s) (psz s)
}.

Definition zero : nat -> Z := fun _ => 0.

Lemma wF_nonneg : forall o p, 0 <= wF o p.
Proof. intros. unfold wF. destruct o; [apply cntl_nonneg|lia]. Qed.

Lemma cntP_nonneg : forall s p, 0 <= cntP s p.
Proof. intros. apply sumto_nonneg. intros. apply wF_nonneg. Qed.

Lemma inv_ext : forall s e e', inv s e -> (forall p, e p = e' p) -> inv s e'.
Proof.
  intros s e e' I E. destruct I. constructor; auto.
  intro p. specialize (iP0 p). rewrite <- E. exact iP0.
Qed.

Lemma init_inv : forall limit rng, inv (finit limit rng) zero.
Proof.
  intros. constructor; cbn; auto; try discriminate.
  apply mem0_inv.
Qed.

Lemma cntP_in : forall s e g fr p, inv s e -> frames s g = Some fr -> In p (fr_data fr) -> 1 <= cntP s p.
Proof.
  intros s e g fr p I Hf Hp.
  assert (Hg : (g < nF s)%nat).
  { destruct (Nat.lt_ge_cases g (nF s)); [auto|]. rewrite (iFn _ _ I) in Hf by auto. discriminate. }
  pose proof (sumto_ge (nF s) g (fun g => wF (frames s g) p) (fun _ => wF_nonneg _ _) Hg) as H.
  cbn beta in H. rewrite Hf in H. cbn [wF] in H. apply cntl_in in Hp. unfold cntP. lia.
Qed.

Lemma frame_lt : forall s e g fr, inv s e -> frames s g = Some fr -> (g < nF s)%nat.
Proof.
  intros s e g fr I Hf. destruct (Nat.lt_ge_cases g (nF s)); [auto|].
  rewrite (iFn _ _ I) in Hf by auto. discriminate.
Qed.

Lemma plane_lt : forall s e p x, inv s e -> planes s p = Some x -> (p < nP s)%nat.
Proof.
  intros s e p x I H. destruct (Nat.lt_ge_cases p (nP s)); [auto|].
  rewrite (iPn _ _ I) in H by auto. discriminate.
Qed.

Lemma plane_alive : forall s e p, inv s e -> 0 < cntP s p + e p -> exists x, planes s p = Some x.
Proof.
  intros s e p I H. pose proof (iP _ _ I p) as Hp. destruct (planes s p) as [x|]; [eauto|lia].
Qed.

Lemma frame_plane_alive : forall s e g fr p, inv s e -> (forall q, 0 <= e q) -> frames s g = Some fr -> In p (fr_data fr) ->
  exists x, planes s p = Some x.
Proof.
  intros s e g fr p I E Hf Hp. apply (plane_alive s e p I). pose proof (cntP_in _ _ _ _ _ I Hf Hp).
  specialize (E p). lia.
Qed.

(** A live plane keeps the allocator object alive. *)
Lemma plane_not_deleted : forall s e p x, inv s e -> planes s p = Some x -> m_deleted (mm s) = false.
Proof.
  intros s e p x I H. destruct (m_deleted (mm s)) eqn:D; [|reflexivity].
  destruct (mi_del _ (iMem _ _ I) D) as (_ & A & _).
  pose proof (iP _ _ I p) as Hp. rewrite H in Hp. destruct Hp as (_ & _ & _ & bs & L & _).
  pose proof (live_le_alloc _ _ _ (iMem _ _ I) L). pose proof (proj2 (liveB_next _ _ _ (iMem _ _ I) L)). lia.
Qed.

Lemma core_not_deleted : forall s e, inv s e -> core s = true -> m_deleted (mm s) = false.
Proof.
  intros s e I C. destruct (m_deleted (mm s)) eqn:D; [|reflexivity].
  destruct (mi_del _ (iMem _ _ I) D) as (A & _). rewrite (iCf _ _ I), C in A. discriminate.
Qed.

(** *** Adding a plane *)
Definition pdat (s : fst_) (p : nat) : option (Z * (Z -> option Z)) :=
  match planes s p with Some x => Some (p_size x, p_data x) | None => None end.

Lemma addPlane_ok : forall s e size dat, inv s e -> m_deleted (mm s) = false -> 0 <= size ->
  exists m' b, allocate (mm s) size = Ok (m', b) /\
    let s' := mkSt (S (nP s)) (fset (planes s) (nP s) (Some (mkP 1 b size dat))) (nF s) (frames s) m' (core s) in
    inv s' (fun q => e q + d q (nP s)) /\ cntP s (nP s) + e (nP s) = 0.
Proof.
  intros s e size dat I D S0.
  destruct (allocate_ok (mm s) size (iMem _ _ I) D S0) as (m' & b & bs & Ea & Mi & Ln & Lu & Al & Sz & _ & D' & Cf).
  exists m', b. split; [exact Ea|]. cbv zeta.
  pose proof (iPn _ _ I (nP s) (le_n _)) as Pn.
  pose proof (iP _ _ I (nP s)) as Pc. rewrite Pn in Pc. split; [|exact Pc].
  assert (Other : forall p x, planes s p = Some x -> liveB m' (p_blk x) = liveB (mm s) (p_blk x)).
  { intros p x Hx. rewrite Lu. destruct (Nat.eqb_spec (p_blk x) b) as [Q|Q]; [|reflexivity].
    pose proof (iP _ _ I p) as Hp. rewrite Hx in Hp. destruct Hp as (_ & _ & _ & z & L & _).
    rewrite Q, Ln in L. discriminate. }
  constructor; cbn [planes nP nF frames mm core].
  - intro p. unfold fset. change (cntP _ p) with (cntP s p). destruct (Nat.eqb_spec p (nP s)) as [Q|Q].
    + subst p. rewrite d_same. cbn [p_ref p_size p_blk]. split; [lia|]. split; [lia|]. split; [lia|].
      exists bs. rewrite Lu, Nat.eqb_refl. auto.
    + rewrite d_other by auto. rewrite Z.add_0_r. pose proof (iP _ _ I p) as Hp.
      destruct (planes s p) as [x|] eqn:Hx; [|exact Hp].
      rewrite (Other p x Hx). exact Hp.
  - intros p Hp. unfold fset. destruct (Nat.eqb_spec p (nP s)); [lia|]. apply (iPn _ _ I). lia.
  - apply (iFn _ _ I).
  - apply (iFr _ _ I).
  - intros p q x y. unfold fset.
    destruct (Nat.eqb_spec p (nP s)) as [P1|P1], (Nat.eqb_spec q (nP s)) as [P2|P2]; intros Hx Hy Hb.
    + congruence.
    + exfalso. injection Hx as <-. cbn [p_blk] in Hb. pose proof (iP _ _ I q) as Hq. rewrite Hy in Hq.
      destruct Hq as (_ & _ & _ & z & L & _). rewrite <- Hb, Ln in L. discriminate.
    + exfalso. injection Hy as <-. cbn [p_blk] in Hb. pose proof (iP _ _ I p) as Hq. rewrite Hx in Hq.
      destruct Hq as (_ & _ & _ & z & L & _). rewrite Hb, Ln in L. discriminate.
    + eapply (iInj _ _ I); eauto.
  - intros b' sz L. rewrite Lu in L. destruct (Nat.eqb_spec b' b) as [Q|Q].
    + exists (nP s). eexists. rewrite fset_same. split; [reflexivity|]. cbn. auto.
    + destruct (iOwn _ _ I b' sz L) as (p & x & Hx & Hb). exists p, x. split; [|exact Hb].
      rewrite fset_other; [exact Hx|]. intro; subst. congruence.
  - exact Mi.
  - unfold mcore. intros C A. rewrite Al in A. pose proof (alloc_nonneg _ (iMem _ _ I)). lia.
  - rewrite Cf. apply (iCf _ _ I).
  - rewrite Al, (iSum _ _ I). cbn [sumto]. f_equal.
    + apply sumto_ext. intros p Hp. unfold psz; cbn [planes mm]. rewrite fset_other by lia.
      destruct (planes s p) as [x|] eqn:Hx; [|reflexivity]. rewrite (Other p x Hx). reflexivity.
    + unfold psz; cbn [planes mm]. rewrite fset_same. cbn [p_blk]. rewrite Lu, Nat.eqb_refl. reflexivity.
Qed.

(** What an operation on planes leaves alone. *)
Definition keepsF (s s' : fst_) : Prop :=
  nF s' = nF s /\ frames s' = frames s /\ core s' = core s.

Lemma newPlane_ok : forall s e size, inv s e -> m_deleted (mm s) = false -> 0 <= size ->
  exists s', newPlane s size = Ok (s', nP s) /\ inv s' (fun q => e q + d q (nP s)) /\ keepsF s s' /\
    pdat s' (nP s) = Some (size, fun _ => None) /\ pdat s (nP s) = None /\
    (forall q, q <> nP s -> pdat s' q = pdat s q) /\ m_deleted (mm s') = false.
Proof.
  intros s e size I D S0. destruct (addPlane_ok s e size (fun _ => None) I D S0) as (m' & b & Ea & I' & _).
  cbv zeta in I'. unfold newPlane. rewrite Ea. cbn [obind fst snd].
  eexists; split; [reflexivity|]. split; [exact I'|]. split; [repeat split|].
  split; [unfold pdat; cbn [planes]; rewrite fset_same; reflexivity|].
  split; [unfold pdat; rewrite (iPn _ _ I) by lia; reflexivity|].
  split; [intros q Hq; unfold pdat; cbn [planes]; rewrite fset_other by auto; reflexivity|].
  eapply plane_not_deleted; [exact I'|]. cbn [planes]. apply fset_same.
Qed.

Lemma copyPlane_ok : forall s e p x, inv s e -> planes s p = Some x ->
  exists s', copyPlane s p = Ok (s', nP s) /\ inv s' (fun q => e q + d q (nP s)) /\ keepsF s s' /\
    pdat s' (nP s) = Some (p_size x, p_data x) /\ pdat s (nP s) = None /\
    (forall q, q <> nP s -> pdat s' q = pdat s q).
Proof.
  intros s e p x I Hx. pose proof (plane_not_deleted _ _ _ _ I Hx) as D.
  pose proof (iP _ _ I p) as Hp. rewrite Hx in Hp. destruct Hp as (_ & _ & Sz & _).
  destruct (addPlane_ok s e (p_size x) (p_data x) I D Sz) as (m' & b & Ea & I' & _).
  cbv zeta in I'. unfold copyPlane. rewrite Hx, Ea. cbn [obind fst snd].
  eexists; split; [reflexivity|]. split; [exact I'|]. split; [repeat split|].
  split; [unfold pdat; cbn [planes]; rewrite fset_same; reflexivity|].
  split; [unfold pdat; rewrite (iPn _ _ I) by lia; reflexivity|].
  intros q Hq; unfold pdat; cbn [planes]; rewrite fset_other by auto; reflexivity.
Qed.

(** Replacing the reference count or the contents of a plane. *)
Lemma setPlane_ok : forall s e p x x' k, inv s e -> planes s p = Some x ->
  p_blk x' = p_blk x -> p_size x' = p_size x -> p_ref x' = p_ref x + k -> 0 < p_ref x' ->
  inv (setPlane s p (Some x')) (fun q => e q + k * d q p).
Proof.
  intros s e p x x' k I Hx Hb Hs Hr Hpos.
  constructor; cbn [setPlane planes nP nF frames mm core].
  - intro q. change (cntP _ q) with (cntP s q). unfold fset. destruct (Nat.eqb_spec q p) as [Q|Q].
    + subst q. rewrite d_same. pose proof (iP _ _ I p) as Hp. rewrite Hx in Hp.
      rewrite Hb, Hs. destruct Hp as (H1 & H2 & H3 & H4). split; [lia|]. auto.
    + rewrite d_other by auto. replace (e q + k * 0) with (e q) by lia. apply (iP _ _ I).
  - intros q Hq. unfold fset. destruct (Nat.eqb_spec q p); [|apply (iPn _ _ I); auto].
    subst. rewrite (iPn _ _ I) in Hx by auto. discriminate.
  - apply (iFn _ _ I).
  - apply (iFr _ _ I).
  - intros a b y z. unfold fset.
    assert (R : forall q w, (if Nat.eqb q p then Some x' else planes s q) = Some w ->
              exists w', planes s q = Some w' /\ p_blk w' = p_blk w).
    { intros q w. destruct (Nat.eqb_spec q p); [|intro; exists w; auto].
      intro W. injection W as <-. subst. exists x. auto. }
    intros Ha Hb' Hq. destruct (R _ _ Ha) as (y' & Y1 & Y2). destruct (R _ _ Hb') as (z' & Z1 & Z2).
    eapply (iInj _ _ I); eauto. congruence.
  - intros b sz L. destruct (iOwn _ _ I b sz L) as (q & y & Hy & Hq). unfold fset.
    destruct (Nat.eq_dec q p) as [->|N].
    + exists p, x'. rewrite Nat.eqb_refl. split; [reflexivity|]. congruence.
    + exists q, y. apply Nat.eqb_neq in N. rewrite N. auto.
  - apply (iMem _ _ I).
  - apply (iCore _ _ I).
  - apply (iCf _ _ I).
  - rewrite (iSum _ _ I). apply sumto_ext. intros q _. unfold psz; cbn [setPlane planes mm]. unfold fset.
    destruct (Nat.eqb_spec q p); [|reflexivity]. subst. rewrite Hx, Hb. reflexivity.
Qed.

Lemma addrefP_ok : forall s e p x, inv s e -> planes s p = Some x ->
  exists s', addrefP s p = Ok s' /\ inv s' (fun q => e q + d q p) /\ keepsF s s' /\
    (forall q, pdat s' q = pdat s q) /\ mm s' = mm s.
Proof.
  intros s e p x I Hx. unfold addrefP. rewrite Hx. eexists; split; [reflexivity|].
  pose proof (iP _ _ I p) as Hp. rewrite Hx in Hp. destruct Hp as (H1 & H2 & _).
  split; [|split; [repeat split|split; [|reflexivity]]].
  - eapply inv_ext; [apply (setPlane_ok s e p x (mkP (p_ref x + 1) (p_blk x) (p_size x) (p_data x)) 1 I Hx); cbn; auto; lia|].
    intro q; cbn beta; nia.
  - intro q. unfold pdat; cbn [planes]. unfold fset. destruct (Nat.eqb_spec q p); [|reflexivity].
    subst. rewrite Hx. reflexivity.
Qed.

Lemma releaseP_ok : forall s e p, inv s e -> (forall q, 0 <= e q) -> 1 <= e p ->
  exists s', releaseP s p = Ok s' /\ inv s' (fun q => e q - d q p) /\ keepsF s s' /\
    (forall q, 0 < cntP s q + e q - d q p -> pdat s' q = pdat s q).
Proof.
  intros s e p I Enn Ep. pose proof (cntP_nonneg s p) as Cn.
  destruct (plane_alive s e p I ltac:(lia)) as (x & Hx).
  pose proof (iP _ _ I p) as Hp. rewrite Hx in Hp. destruct Hp as (H1 & H2 & H3 & bs & L & H4).
  unfold releaseP. rewrite Hx. destruct (Z.eqb_spec (p_ref x) 1) as [R|R].
  - destruct (deallocate_ok (mm s) (p_blk x) bs (iMem _ _ I) L) as (m' & Ed & Mi & Lu & Al & Cf & De & _).
    rewrite Ed. cbn [obind]. eexists; split; [reflexivity|].
    assert (Other : forall q y, q <> p -> planes s q = Some y -> liveB m' (p_blk y) = liveB (mm s) (p_blk y)).
    { intros q y Q Hy. rewrite Lu. destruct (Nat.eqb_spec (p_blk y) (p_blk x)) as [B|B]; [|reflexivity].
      exfalso. apply Q. eapply (iInj _ _ I); eauto. }
    split; [|split; [repeat split|]].
    + constructor; cbn [planes nP nF frames mm core].
      * intro q. change (cntP _ q) with (cntP s q). unfold fset. destruct (Nat.eqb_spec q p) as [Q|Q].
        -- subst q. rewrite d_same. lia.
        -- rewrite d_other by auto. replace (e q - 0) with (e q) by lia.
           pose proof (iP _ _ I q) as Hq. destruct (planes s q) as [y|] eqn:Hy; [|exact Hq].
           rewrite (Other q y Q Hy). exact Hq.
      * intros q Hq. unfold fset. destruct (Nat.eqb q p); [reflexivity|]. apply (iPn _ _ I); auto.
      * apply (iFn _ _ I).
      * apply (iFr _ _ I).
      * intros a b y z. unfold fset. destruct (Nat.eqb a p), (Nat.eqb b p); try discriminate. apply (iInj _ _ I).
      * intros b sz Lb. rewrite Lu in Lb. destruct (Nat.eqb_spec b (p_blk x)); [discriminate|].
        destruct (iOwn _ _ I b sz Lb) as (q & y & Hy & Hq). exists q, y. split; [|exact Hq].
        rewrite fset_other; [exact Hy|]. intro; subst. congruence.
      * exact Mi.
      * unfold mcore. intros C A. rewrite Cf in C. rewrite Al in A. rewrite De, C, A. reflexivity.
      * rewrite Cf. apply (iCf _ _ I).
      * rewrite Al, (iSum _ _ I).
        match goal with |- _ = sumto _ ?g => pose proof (sumto_upd (nP s) p (psz s) g) as U end.
        rewrite U; [|eapply plane_lt; eauto|].
        -- assert (Q1 : psz s p = bs) by (unfold psz; rewrite Hx, L; reflexivity). rewrite Q1.
           match goal with |- context [psz ?st p] => assert (Q2 : psz st p = 0) by (unfold psz; cbn [planes mm]; rewrite fset_same; reflexivity); rewrite Q2 end. lia.
        -- intros q Hq. unfold psz; cbn [planes mm]. rewrite fset_other by auto.
           destruct (planes s q) as [y|] eqn:Hy; [|reflexivity]. rewrite (Other q y Hq Hy). reflexivity.
    + intros q Hq. unfold pdat; cbn [planes]. unfold fset. destruct (Nat.eqb_spec q p); [|reflexivity].
      subst. rewrite d_same in Hq. lia.
  - eexists; split; [reflexivity|]. split; [|split; [repeat split|]].
    + eapply inv_ext; [apply (setPlane_ok s e p x (mkP (p_ref x - 1) (p_blk x) (p_size x) (p_data x)) (-1) I Hx); cbn; auto; lia|].
      intro q; cbn beta; nia.
    + intros q _. unfold pdat; cbn [planes]. unfold fset. destruct (Nat.eqb_spec q p); [|reflexivity].
      subst. rewrite Hx. reflexivity.
Qed.

Lemma keepsF_refl : forall s, keepsF s s.
Proof. intros; repeat split. Qed.
Lemma keepsF_trans : forall a b c, keepsF a b -> keepsF b c -> keepsF a c.
Proof. unfold keepsF; intros a b c (A & B & C) (D & E & F). repeat split; congruence. Qed.
Lemma keepsF_cntP : forall s s' p, keepsF s s' -> cntP s' p = cntP s p.
Proof. intros s s' p (A & B & _). unfold cntP. rewrite A, B. reflexivity. Qed.

Lemma addrefPs_ok : forall l s e, inv s e -> (forall q, 0 <= e q) ->
  (forall p, In p l -> exists x, planes s p = Some x) ->
  exists s', addrefPs s l = Ok s' /\ inv s' (fun q => e q + cntl q l) /\ keepsF s s' /\
    (forall q, pdat s' q = pdat s q).
Proof.
  induction l as [|p l IH]; intros s e I En Al; cbn [addrefPs].
  - exists s. split; [reflexivity|]. split; [eapply inv_ext; [exact I|]; intro q; unfold cntl; cbn; lia|].
    split; [apply keepsF_refl|auto].
  - destruct (Al p (or_introl eq_refl)) as (x & Hx).
    destruct (addrefP_ok s e p x I Hx) as (s1 & E1 & I1 & K1 & P1 & _). rewrite E1. cbn [obind].
    destruct (IH s1 _ I1) as (s2 & E2 & I2 & K2 & P2).
    { intro q. pose proof (d_nonneg q p). specialize (En q). lia. }
    { intros q Hq. destruct (Al q (or_intror Hq)) as (y & Hy). specialize (P1 q). unfold pdat in P1. rewrite Hy in P1.
      destruct (planes s1 q); [eauto|discriminate]. }
    exists s2. split; [exact E2|]. split; [|split; [eapply keepsF_trans; eauto|]].
    + eapply inv_ext; [exact I2|]. intro q. cbn beta. rewrite cntl_cons. lia.
    + intro q. rewrite P2. apply P1.
Qed.

Lemma releasePs_ok : forall l s e, inv s e -> (forall q, cntl q l <= e q) ->
  exists s', releasePs s l = Ok s' /\ inv s' (fun q => e q - cntl q l) /\ keepsF s s' /\
    (forall q, 0 < cntP s q + e q - cntl q l -> pdat s' q = pdat s q).
Proof.
  induction l as [|p l IH]; intros s e I En; cbn [releasePs].
  - exists s. split; [reflexivity|]. split; [eapply inv_ext; [exact I|]; intro q; unfold cntl; cbn; lia|].
    split; [apply keepsF_refl|auto].
  - assert (Enn : forall q, 0 <= e q) by (intro q; pose proof (En q); pose proof (cntl_nonneg q (p :: l)); lia).
    assert (Ep : 1 <= e p) by (pose proof (En p) as Q; rewrite cntl_cons, d_same in Q; pose proof (cntl_nonneg p l); lia).
    destruct (releaseP_ok s e p I Enn Ep) as (s1 & E1 & I1 & K1 & P1). rewrite E1. cbn [obind].
    destruct (IH s1 _ I1) as (s2 & E2 & I2 & K2 & P2).
    { intro q. cbn beta. pose proof (En q) as Q; rewrite cntl_cons in Q. lia. }
    exists s2. split; [exact E2|]. split; [|split; [eapply keepsF_trans; eauto|]].
    + eapply inv_ext; [exact I2|]. intro q. cbn beta. rewrite cntl_cons. lia.
    + intros q Hq. rewrite cntl_cons in Hq. rewrite P2; [apply P1|rewrite (keepsF_cntP _ _ _ K1)];
      pose proof (cntl_nonneg q l); lia.
Qed.

(** *** Frames *)
Lemma setFrame_ok : forall s e g v e', inv s e -> (g < nF s)%nat ->
  (match v with Some fr => 0 < fr_ref fr | None => True end) ->
  (forall p, e' p = e p + wF (frames s g) p - wF v p) ->
  inv (setFrame s g v) e'.
Proof.
  intros s e g v e' I Hg Hv He.
  assert (C : forall p, cntP (setFrame s g v) p = cntP s p - wF (frames s g) p + wF v p).
  { intro p. unfold cntP; cbn [setFrame nF frames].
    rewrite (sumto_upd (nF s) g (fun g => wF (frames s g) p)); [|exact Hg|].
    - cbn beta. rewrite fset_same. reflexivity.
    - intros y Hy. cbn beta. rewrite fset_other by auto. reflexivity. }
  constructor; cbn [setFrame planes nP nF frames mm core].
  - intro p. pose proof (iP _ _ I p) as Hp.
    change (mkSt (nP s) (planes s) (nF s) (fset (frames s) g v) (mm s) (core s)) with (setFrame s g v).
    rewrite C, He. destruct (planes s p) as [x|]; [|lia].
    destruct Hp as (H1 & H2). split; [lia|exact H2].
  - apply (iPn _ _ I).
  - intros y Hy. rewrite fset_other by lia. apply (iFn _ _ I); auto.
  - intros y fr. unfold fset. destruct (Nat.eqb y g); [|apply (iFr _ _ I)].
    intros ->. exact Hv.
  - apply (iInj _ _ I).
  - apply (iOwn _ _ I).
  - apply (iMem _ _ I).
  - apply (iCore _ _ I).
  - apply (iCf _ _ I).
  - rewrite (iSum _ _ I). apply sumto_ext. reflexivity.
Qed.

Lemma addFrame_ok : forall s e v e', inv s e -> 0 < fr_ref v ->
  (forall p, e' p = e p - cntl p (fr_data v)) ->
  inv (fst (addFrame s v)) e'.
Proof.
  intros s e v e' I Hv He. cbn [addFrame fst].
  assert (C : forall p, cntP (fst (addFrame s v)) p = cntP s p + cntl p (fr_data v)).
  { intro p. unfold cntP; cbn [addFrame fst nF frames sumto]. f_equal.
    - apply sumto_ext. intros y Hy. rewrite fset_other by lia. reflexivity.
    - rewrite fset_same. reflexivity. }
  constructor; cbn [planes nP nF frames mm core].
  - intro p. pose proof (iP _ _ I p) as Hp. specialize (C p). cbn [addFrame fst] in C. rewrite C, He.
    destruct (planes s p) as [x|]; [|lia]. destruct Hp as (H1 & H2). split; [lia|exact H2].
  - apply (iPn _ _ I).
  - intros y Hy. rewrite fset_other by lia. apply (iFn _ _ I); lia.
  - intros y fr. unfold fset. destruct (Nat.eqb y (nF s)); [|apply (iFr _ _ I)].
    intros E; injection E as <-. exact Hv.
  - apply (iInj _ _ I).
  - apply (iOwn _ _ I).
  - apply (iMem _ _ I).
  - apply (iCore _ _ I).
  - apply (iCf _ _ I).
  - rewrite (iSum _ _ I). apply sumto_ext. reflexivity.
Qed.

(** *** Uniqueness: reference count one means one slot *)
Lemma cntl_two : forall (l : list nat) i j p, i <> j -> nth_error l i = Some p -> nth_error l j = Some p ->
  2 <= cntl p l.
Proof.
  induction l as [|x l IH]; intros i j p N Hi Hj; [destruct i; discriminate|].
  rewrite cntl_cons. destruct i as [|i], j as [|j]; cbn in Hi, Hj.
  - congruence.
  - injection Hi as ->. rewrite d_same. apply nth_error_In in Hj. apply cntl_in in Hj. lia.
  - injection Hj as ->. rewrite d_same. apply nth_error_In in Hi. apply cntl_in in Hi. lia.
  - assert (i <> j) by congruence. specialize (IH i j p H Hi Hj). pose proof (d_nonneg p x). lia.
Qed.

Lemma cntP_unique : forall s e g h fr fr' i j p, inv s e -> cntP s p <= 1 ->
  frames s g = Some fr -> frames s h = Some fr' ->
  nth_error (fr_data fr) i = Some p -> nth_error (fr_data fr') j = Some p -> g = h /\ i = j.
Proof.
  intros s e g h fr fr' i j p I C Hg Hh Hi Hj.
  pose proof (frame_lt _ _ _ _ I Hg) as Lg. pose proof (frame_lt _ _ _ _ I Hh) as Lh.
  pose proof (nth_error_In _ _ Hi) as Ii. pose proof (nth_error_In _ _ Hj) as Ij.
  apply cntl_in in Ii. apply cntl_in in Ij.
  destruct (Nat.eq_dec g h) as [->|N].
  - split; [reflexivity|]. assert (fr = fr') by congruence. subst fr'.
    destruct (Nat.eq_dec i j) as [|M]; [auto|]. pose proof (cntl_two _ _ _ _ M Hi Hj).
    pose proof (sumto_ge (nF s) h (fun g => wF (frames s g) p) (fun _ => wF_nonneg _ _) Lh) as G.
    cbn beta in G. rewrite Hh in G. cbn [wF] in G. unfold cntP in C. lia.
  - pose proof (sumto_ge2 (nF s) g h (fun g => wF (frames s g) p) (fun _ => wF_nonneg _ _) Lg Lh N) as G.
    cbn beta in G. rewrite Hg, Hh in G. cbn [wF] in G. unfold cntP in C. lia.
Qed.

Lemma cntl_upd : forall l i p x q, nth_error l i = Some x ->
  cntl q (upd l i p) = cntl q l - d q x + d q p.
Proof.
  induction l as [|y l IH]; intros i p x q H; [destruct i; discriminate|].
  destruct i as [|i]; cbn [upd nth_error] in *.
  - injection H as ->. rewrite !cntl_cons. lia.
  - rewrite !cntl_cons, (IH i p x q H). lia.
Qed.

Lemma upd_nth_same : forall l i p, (i < length l)%nat -> nth_error (upd l i p) i = Some p.
Proof.
  induction l as [|y l IH]; intros i p H; cbn [length] in H; [lia|].
  destruct i; cbn [upd nth_error]; [reflexivity|]. apply IH. lia.
Qed.
Lemma upd_nth_other : forall l i j p, i <> j -> nth_error (upd l i p) j = nth_error l j.
Proof.
  induction l as [|y l IH]; intros i j p H; [destruct i; reflexivity|].
  destruct i, j; cbn [upd nth_error]; try reflexivity; [congruence|]. apply IH. congruence.
Qed.
Lemma upd_length : forall l i p, length (upd l i p) = length l.
Proof. induction l as [|y l IH]; intros i p; destruct i; cbn [upd length]; auto. Qed.

From Coq Require Import ZArith List Lia Bool Sorting.
From Verif Require Import Common Sums Memory.
Import ListNotations.
Open Scope Z_scope.

(** Size of block [b] if it is in use. *)
Definition liveB (m : mem) (b : nat) : option Z :=
  match m_blk m b with Some (mkB s true) => Some s | _ => None end.

Definition osz (o : option Z) : Z := match o with Some s => s | None => 0 end.

Definition liveSum (m : mem) : Z := sumto (m_next m) (fun b => osz (liveB m b)).

Fixpoint fsum (l : list (Z * nat)) : Z := match l with [] => 0 | e :: r => fst e + fsum r end.

Definition szle (a b : Z * nat) := fst a <= fst b.

Record minv (m : mem) : Prop := {
  mi_next : forall b k, m_blk m b = Some k -> (b < m_next m)%nat;
  mi_pos : forall b k, m_blk m b = Some k -> 0 < b_size k;
  mi_free : forall sz b, In (sz, b) (m_free m) <-> m_blk m b = Some (mkB sz false);
  mi_nodup : NoDup (map snd (m_free m));
  mi_sorted : StronglySorted szle (m_free m);
  mi_big : forall sz b, In (sz, b) (m_free m) -> THRESHOLD < sz;
  mi_alloc : m_alloc m = liveSum m;
  mi_fsize : m_fsize m = fsum (m_free m);
  mi_del : m_deleted m = true -> m_cfreed m = true /\ m_alloc m = 0 /\ m_free m = []
}.

(** The allocator object is gone once the core and all buffers are. *)
Definition mcore (m : mem) : Prop :=
  m_cfreed m = true -> m_alloc m = 0 -> m_deleted m = true.

(** *** alignUp *)
Lemma alignUp_spec : forall x k n, k = 2 ^ n -> 0 <= n -> 0 <= x ->
  alignUp x k = k * ((x + k - 1) / k).
Proof.
  intros x k n -> Hn Hx. unfold alignUp. replace (2 ^ n - 1) with (Z.ones n) by (rewrite Z.ones_equiv; lia).
  assert (P : 0 < 2 ^ n) by (apply Z.pow_pos_nonneg; lia).
  assert (E : forall y, Z.land y (Z.lnot (Z.ones n)) = 2 ^ n * (y / 2 ^ n)).
  { intro y. rewrite <- Z.ldiff_land. rewrite Z.ldiff_ones_r by lia.
    rewrite Z.shiftr_div_pow2, Z.shiftl_mul_pow2 by lia. ring. }
  rewrite E. f_equal. f_equal. rewrite Z.ones_equiv. lia.
Qed.

Lemma alignUp_bounds : forall x k n, k = 2 ^ n -> 0 <= n -> 0 <= x ->
  x <= alignUp x k < x + k /\ alignUp x k mod k = 0.
Proof.
  intros x k n Hk Hn Hx. rewrite (alignUp_spec x k n) by assumption.
  assert (P : 0 < k) by (subst; apply Z.pow_pos_nonneg; lia).
  split; [|rewrite Z.mul_comm; apply Z_mod_mult].
  pose proof (Z.div_mod (x + k - 1) k ltac:(lia)). pose proof (Z.mod_pos_bound (x + k - 1) k P). lia.
Qed.

(** *** free list *)
Lemma lower_bound_in : forall s l e, lower_bound s l = Some e -> In e l /\ s <= fst e.
Proof.
  intros s l e; induction l as [|x l IH]; cbn [lower_bound]; [discriminate|].
  destruct (Z.leb_spec s (fst x)); [intro E; injection E as ->; split; [left; auto|auto]|].
  intro E; destruct (IH E); split; [right; auto|auto].
Qed.

Lemma lower_bound_least : forall s l e, StronglySorted szle l -> lower_bound s l = Some e ->
  forall x, In x l -> s <= fst x -> fst e <= fst x.
Proof.
  intros s l e S; induction S as [|y l S IH F]; cbn [lower_bound]; [discriminate|].
  destruct (Z.leb_spec s (fst y)).
  - intro E; injection E as ->. intros x [->|Hx] _; [lia|].
    rewrite Forall_forall in F. apply (F x Hx).
  - intros E x [->|Hx] L; [lia|eauto].
Qed.

Lemma lower_bound_none : forall s l, lower_bound s l = None -> forall x, In x l -> fst x < s.
Proof.
  intros s l; induction l as [|y l IH]; cbn [lower_bound]; intros E x Hx; [destruct Hx|].
  destruct (Z.leb_spec s (fst y)); [discriminate|]. destruct Hx as [->|Hx]; [lia|eauto].
Qed.

Lemma erase_in : forall b l x, NoDup (map snd l) -> In x (eraseB b l) <-> In x l /\ snd x <> b.
Proof.
  intros b l; induction l as [|y l IH]; intros x N; cbn [eraseB].
  - cbn; tauto.
  - cbn [map] in N. inversion N; subst. destruct (Nat.eqb_spec (snd y) b) as [E|E].
    + split.
      * intro Hx. split; [right; auto|]. intro Q. apply H1. rewrite E, <- Q. apply in_map. auto.
      * intros ([->|Hx] & Q); [contradiction|auto].
    + cbn [In]. rewrite IH by auto. split; [intros [->|(A & B)]; auto|intros ([->|A] & B); auto].
Qed.

Lemma erase_snd : forall b l x, In x (map snd (eraseB b l)) -> In x (map snd l).
Proof.
  intros b l; induction l as [|y l IH]; cbn [eraseB]; intros x Hx; [exact Hx|].
  destruct (Nat.eqb (snd y) b); cbn [map In] in *; [auto|]. destruct Hx; auto.
Qed.

Lemma erase_nodup : forall b l, NoDup (map snd l) -> NoDup (map snd (eraseB b l)).
Proof.
  intros b l; induction l as [|y l IH]; intros N; cbn [eraseB]; [exact N|].
  cbn [map] in N; inversion N; subst. destruct (Nat.eqb (snd y) b); [auto|].
  cbn [map]. constructor; [|auto]. intro Q. apply erase_snd in Q. contradiction.
Qed.

Lemma erase_in_sub : forall b l x, In x (eraseB b l) -> In x l.
Proof.
  intros b l; induction l as [|y l IH]; cbn [eraseB]; intros x Hx; [exact Hx|].
  destruct (Nat.eqb (snd y) b); cbn [In] in *; [auto|]. destruct Hx; auto.
Qed.

Lemma erase_sorted : forall b l, StronglySorted szle l -> StronglySorted szle (eraseB b l).
Proof.
  intros b l S; induction S as [|y l S IH F]; cbn [eraseB]; [constructor|].
  destruct (Nat.eqb (snd y) b); [auto|]. constructor; [auto|].
  rewrite Forall_forall in *. intros x Hx. apply F. eapply erase_in_sub; eauto.
Qed.

Lemma erase_sum : forall b l sz, NoDup (map snd l) -> In (sz, b) l -> fsum (eraseB b l) = fsum l - sz.
Proof.
  intros b l sz; induction l as [|y l IH]; intros N I; [destruct I|].
  cbn [map] in N; inversion N; subst. cbn [eraseB].
  destruct I as [->|I].
  - cbn [snd]. rewrite Nat.eqb_refl. cbn [fsum fst]. lia.
  - destruct (Nat.eqb_spec (snd y) b) as [E|E].
    + exfalso. apply H1. rewrite E. change b with (snd (sz, b)). apply in_map; auto.
    + cbn [fsum]. rewrite IH by auto. lia.
Qed.

Lemma erase_length : forall b l sz, In (sz, b) l -> S (length (eraseB b l)) = length l.
Proof.
  intros b l sz; induction l as [|y l IH]; intros I; [destruct I|]. cbn [eraseB].
  destruct (Nat.eqb_spec (snd y) b) as [E|E]; [reflexivity|].
  destruct I as [->|I]; [cbn in E; congruence|]. cbn [length]. rewrite IH; auto.
Qed.

Lemma emplace_in : forall e l x, In x (emplace e l) <-> x = e \/ In x l.
Proof.
  intros e l; induction l as [|y l IH]; intros x; cbn [emplace]; [cbn; split; intros [A|A]; auto; destruct A|].
  destruct (fst e <? fst y); cbn [In]; [split; intros [A|[A|A]]; auto|].
  rewrite IH. split; intros [A|[A|A]]; auto.
Qed.

Lemma emplace_sorted : forall e l, StronglySorted szle l -> StronglySorted szle (emplace e l).
Proof.
  intros e l S; induction S as [|y l S IH F]; cbn [emplace]; [repeat constructor|].
  destruct (Z.ltb_spec (fst e) (fst y)).
  - constructor; [constructor; auto|]. constructor; [unfold szle; lia|].
    rewrite Forall_forall in *. intros x Hx. specialize (F x Hx). unfold szle in *. lia.
  - constructor; [auto|]. rewrite Forall_forall in *. intros x Hx. apply emplace_in in Hx.
    destruct Hx as [->|Hx]; [unfold szle; lia|auto].
Qed.

Lemma emplace_nodup : forall e l, NoDup (map snd l) -> ~ In (snd e) (map snd l) ->
  NoDup (map snd (emplace e l)).
Proof.
  intros e l; induction l as [|y l IH]; intros N I; cbn [emplace].
  - cbn. constructor; auto.
  - destruct (fst e <? fst y); [cbn [map]; constructor; auto|].
    cbn [map] in *. inversion N; subst. constructor.
    + intro Q. apply in_map_iff in Q. destruct Q as (x & Ex & Hx). apply emplace_in in Hx.
      destruct Hx as [->|Hx]; [apply I; left; auto|]. apply H1. rewrite <- Ex. apply in_map; auto.
    + apply IH; auto. intro Q; apply I; right; auto.
Qed.

Lemma emplace_sum : forall e l, fsum (emplace e l) = fst e + fsum l.
Proof.
  intros e l; induction l as [|y l IH]; cbn [emplace fsum]; [reflexivity|].
  destruct (fst e <? fst y); cbn [fsum]; [lia|]. rewrite IH. lia.
Qed.

Lemma fsum_nonneg : forall l, (forall sz b, In (sz, b) l -> 0 <= sz) -> 0 <= fsum l.
Proof.
  induction l as [|(s, b) l IH]; intros H; cbn [fsum fst]; [lia|].
  pose proof (H s b (or_introl eq_refl)).
  assert (0 <= fsum l); [|lia]. apply IH. intros; eapply H; right; eauto.
Qed.

(** *** Live sums *)
Lemma liveB_next : forall m b s, minv m -> liveB m b = Some s -> (b < m_next m)%nat /\ 0 < s.
Proof.
  intros m b s I E. unfold liveB in E. destruct (m_blk m b) as [[sz l]|] eqn:B; [|discriminate].
  split; [eapply mi_next; eauto|]. pose proof (mi_pos _ I b _ B) as P. cbn in P.
  destruct l; [|discriminate]. congruence.
Qed.

Lemma liveB_osz_nonneg : forall m, minv m -> forall b, 0 <= osz (liveB m b).
Proof.
  intros m I b. destruct (liveB m b) eqn:E; cbn; [|lia]. apply liveB_next in E; [lia|auto].
Qed.

Lemma alloc_nonneg : forall m, minv m -> 0 <= m_alloc m.
Proof.
  intros m I. rewrite (mi_alloc _ I). apply sumto_nonneg. apply liveB_osz_nonneg; auto.
Qed.

Lemma live_le_alloc : forall m b s, minv m -> liveB m b = Some s -> s <= m_alloc m.
Proof.
  intros m b s I E. rewrite (mi_alloc _ I). unfold liveSum.
  pose proof (sumto_ge (m_next m) b (fun b => osz (liveB m b)) (liveB_osz_nonneg m I)
      (proj1 (liveB_next _ _ _ I E))) as H. cbn beta in H. rewrite E in H. exact H.
Qed.

Lemma alloc_zero_no_live : forall m, minv m -> m_alloc m = 0 -> forall b, liveB m b = None.
Proof.
  intros m I Z0 b. destruct (liveB m b) eqn:E; [|reflexivity].
  pose proof (live_le_alloc _ _ _ I E). pose proof (proj2 (liveB_next _ _ _ I E)). lia.
Qed.

(** [live_after m m' b o]: exactly block [b] changed, to liveness [o]. *)
Definition live_upd (m m' : mem) (b : nat) (o : option Z) : Prop :=
  forall x, liveB m' x = if Nat.eqb x b then o else liveB m x.

Lemma mem0_inv : forall limit rng, minv (mem0 limit rng).
Proof.
  intros. constructor; cbn; try discriminate; auto.
  - intros; split; [tauto|discriminate].
  - constructor.
  - constructor.
  - intros sz b [].
Qed.

Lemma from_system_ok : forall m size m' b, minv m -> m_deleted m = false -> 0 < size ->
  allocate_from_system m size = (m', b) ->
  minv m' /\ liveB m b = None /\ live_upd m m' b (Some size) /\ m_deleted m' = false /\
  m_cfreed m' = m_cfreed m /\ m_alloc m' = m_alloc m + size.
Proof.
  intros m size m' b I D S E. unfold allocate_from_system in E. injection E as Em Eb. subst b.
  assert (Fresh : m_blk m (m_next m) = None).
  { destruct (m_blk m (m_next m)) eqn:Q; [|reflexivity]. apply (mi_next _ I) in Q. lia. }
  assert (LU : live_upd m m' (m_next m) (Some size)).
  { subst m'. intro x. unfold liveB. cbn [m_blk]. unfold fset. destruct (Nat.eqb x (m_next m)); reflexivity. }
  assert (LN : liveB m (m_next m) = None) by (unfold liveB; rewrite Fresh; reflexivity).
  split; [|subst m'; cbn; auto].
  assert (LS : liveSum m' = liveSum m + size).
  { unfold liveSum. subst m'. cbn [m_next sumto]. f_equal.
    - apply sumto_ext. intros x Hx. rewrite LU. destruct (Nat.eqb_spec x (m_next m)); [lia|reflexivity].
    - rewrite LU, Nat.eqb_refl. reflexivity. }
  pose proof (alloc_nonneg _ I) as AN.
  subst m'. constructor; cbn [m_blk m_next m_free m_alloc m_fsize m_limit m_rng m_cfreed m_deleted].
  - intros b k. unfold fset. destruct (Nat.eqb_spec b (m_next m)); [lia|].
    intro Q. apply (mi_next _ I) in Q. lia.
  - intros b k. unfold fset. destruct (Nat.eqb_spec b (m_next m)).
    + intro Q; injection Q as <-. cbn. lia.
    + apply (mi_pos _ I).
  - intros sz b. rewrite (mi_free _ I). unfold fset. destruct (Nat.eqb_spec b (m_next m)); [|tauto].
    subst b. rewrite Fresh. split; discriminate.
  - apply I.
  - apply I.
  - apply I.
  - rewrite LS, (mi_alloc _ I). reflexivity.
  - apply I.
  - congruence.
Qed.

Lemma from_freelist_ok : forall m size m' b, minv m -> m_deleted m = false ->
  allocate_from_freelist m size = Some (m', b) ->
  minv m' /\ liveB m b = None /\ (exists s, size <= s /\ s - size <= size / 8 /\
    live_upd m m' b (Some s) /\ m_alloc m' = m_alloc m + s /\ In (s, b) (m_free m) /\
    (forall x, In x (m_free m) -> size <= fst x -> s <= fst x)) /\
  m_deleted m' = false /\ m_cfreed m' = m_cfreed m.
Proof.
  intros m size m' b I D E. unfold allocate_from_freelist in E.
  destruct (lower_bound size (m_free m)) as [(bs, b')|] eqn:LB; [|discriminate].
  destruct (is_good_fit size bs) eqn:GF; [|discriminate]. injection E as Em Eb. subst b'.
  unfold is_good_fit in GF. apply Z.leb_le in GF.
  pose proof (lower_bound_least _ _ _ (mi_sorted _ I) LB) as Least.
  apply lower_bound_in in LB. destruct LB as (In1 & Le). cbn [fst] in *.
  pose proof (proj1 (mi_free _ I bs b) In1) as Bk.
  assert (LN : liveB m b = None) by (unfold liveB; rewrite Bk; reflexivity).
  assert (LU : live_upd m m' b (Some bs)).
  { subst m'. intro x. unfold liveB. cbn [m_blk]. unfold fset. destruct (Nat.eqb x b); reflexivity. }
  pose proof (mi_next _ I _ _ Bk) as Bn. pose proof (mi_pos _ I _ _ Bk) as Bp. cbn [b_size] in Bp.
  assert (LS : liveSum m' = liveSum m + bs).
  { unfold liveSum. replace (m_next m') with (m_next m) by (subst m'; reflexivity).
    rewrite (sumto_upd _ b (fun b => osz (liveB m b))); [|exact Bn|].
    - cbn beta. rewrite LN, LU, Nat.eqb_refl. cbn. lia.
    - intros x Hx. cbn beta. rewrite LU. apply Nat.eqb_neq in Hx; rewrite Hx. reflexivity. }
  pose proof (alloc_nonneg _ I) as AN.
  split; [|split; [exact LN|split; [|subst m'; cbn; auto]]].
  - subst m'. constructor; cbn [m_blk m_next m_free m_alloc m_fsize m_limit m_rng m_cfreed m_deleted].
    + intros x k. unfold fset. destruct (Nat.eqb_spec x b); [intros; subst; auto|]. apply (mi_next _ I).
    + intros x k. unfold fset. destruct (Nat.eqb_spec x b); [|apply (mi_pos _ I)].
      intro Q; injection Q as <-; cbn; lia.
    + intros sz x. rewrite erase_in by apply I. cbn [snd]. rewrite (mi_free _ I). unfold fset.
      destruct (Nat.eqb_spec x b).
      * subst. split; [intros (_ & Q); contradiction|discriminate].
      * tauto.
    + apply erase_nodup. apply I.
    + apply erase_sorted. apply I.
    + intros sz x Hx. apply erase_in_sub in Hx. eapply mi_big; eauto.
    + rewrite LS, (mi_alloc _ I). reflexivity.
    + rewrite (erase_sum _ _ bs), (mi_fsize _ I); auto. apply I.
    + congruence.
  - exists bs. subst m'; cbn [m_alloc]. split; [exact Le|]. split; [exact GF|]. split; [exact LU|].
    split; [reflexivity|]. split; [exact In1|]. intros x Hx L. apply (Least x Hx L).
Qed.

(** The size of the block handed out for a request. *)
Definition request_size (size s : Z) : Prop :=
  let aligned := alignUp (size + 64) 64 in let page := alignUp aligned 4096 in
  (page <= THRESHOLD /\ s = aligned) \/
  (THRESHOLD < page /\ page <= s /\ s - page <= page / 8).

Lemma allocate_ok : forall m size, minv m -> m_deleted m = false -> 0 <= size ->
  exists m' b s, allocate m size = Ok (m', b) /\ minv m' /\ liveB m b = None /\
    live_upd m m' b (Some s) /\ m_alloc m' = m_alloc m + s /\ size + 64 <= s /\
    request_size size s /\ m_deleted m' = false /\ m_cfreed m' = m_cfreed m.
Proof.
  intros m size I D S. unfold allocate, request_size, ALIGNMENT. rewrite D. cbv zeta.
  remember (alignUp (size + 64) 64) as al eqn:Eal. remember (alignUp al 4096) as pg eqn:Epg.
  pose proof (alignUp_bounds (size + 64) 64 6 eq_refl ltac:(lia) ltac:(lia)) as (A1 & _).
  rewrite <- Eal in A1.
  pose proof (alignUp_bounds al 4096 12 eq_refl ltac:(lia) ltac:(lia)) as (A2 & _). rewrite <- Epg in A2.
  destruct (Z.leb_spec pg THRESHOLD).
  - destruct (allocate_from_system m al) as (m', b) eqn:E.
    destruct (from_system_ok m al m' b I D ltac:(lia) E) as (P1 & P2 & P3 & P4 & P5 & P6).
    exists m', b, al. split; [reflexivity|]. do 4 (split; [assumption|]). split; [lia|]. split; [left; lia|]. auto.
  - destruct (allocate_from_freelist m pg) as [(m', b)|] eqn:E.
    + destruct (from_freelist_ok _ _ _ _ I D E) as (P1 & P2 & (s & Q1 & Q2 & Q3 & Q4 & _) & P3 & P4).
      exists m', b, s. split; [reflexivity|]. do 4 (split; [assumption|]). split; [lia|]. split; [right; lia|]. auto.
    + destruct (allocate_from_system m pg) as (m', b) eqn:E2.
      destruct (from_system_ok m pg m' b I D ltac:(lia) E2) as (P1 & P2 & P3 & P4 & P5 & P6).
      exists m', b, pg. split; [reflexivity|]. do 4 (split; [assumption|]). split; [lia|].
      split; [right; split; [lia|split; [lia|]]|auto].
      assert (0 <= pg / 8) by (apply Z.div_pos; lia). lia.
Qed.

(** Garbage collection only touches the free list. *)
Definition same_live (m m' : mem) : Prop :=
  (forall x, liveB m' x = liveB m x) /\ m_alloc m' = m_alloc m /\ m_next m' = m_next m /\
  m_limit m' = m_limit m /\ m_cfreed m' = m_cfreed m /\ m_deleted m' = m_deleted m.

Lemma gc_ok : forall fuel m, minv m -> (length (m_free m) < fuel)%nat ->
  minv (gc fuel m) /\ same_live m (gc fuel m) /\
  (m_alloc (gc fuel m) + m_fsize (gc fuel m) <= m_limit m \/ m_free (gc fuel m) = []) /\
  (forall x, In x (m_free (gc fuel m)) -> In x (m_free m)).
Proof.
  induction fuel as [|k IH]; intros m I L; [lia|]. cbn [gc].
  assert (Same : same_live m m) by (unfold same_live; auto 10).
  destruct (Z.ltb_spec (m_limit m) (m_alloc m + m_fsize m)).
  2:{ split; [exact I|]. split; [exact Same|]. split; [left; lia|auto]. }
  destruct (m_free m) as [|e fr] eqn:F.
  { split; [exact I|]. split; [exact Same|]. split; [right; exact F|]. rewrite F; auto. }
  assert (Hne : length (m_free m) <> O) by (rewrite F; discriminate).
  rewrite <- F in *. clear fr F.
  destruct (nth_error (m_free m) (Nat.modulo (hd O (m_rng m)) (length (m_free m)))) as [(sz, b)|] eqn:N.
  2:{ apply nth_error_None in N.
      pose proof (Nat.mod_upper_bound (hd O (m_rng m)) (length (m_free m)) Hne). lia. }
  apply nth_error_In in N. pose proof (proj1 (mi_free _ I sz b) N) as Bk.
  set (m1 := mkMem (fset (m_blk m) b None) (m_next m) (eraseB b (m_free m)) (m_alloc m)
                   (m_fsize m - sz) (m_limit m) (tl (m_rng m)) (m_cfreed m) (m_deleted m)).
  assert (LV : forall x, liveB m1 x = liveB m x).
  { intro x. unfold liveB, m1; cbn [m_blk]. unfold fset. destruct (Nat.eqb_spec x b); [|reflexivity].
    subst. rewrite Bk. reflexivity. }
  assert (LS : liveSum m1 = liveSum m).
  { unfold liveSum. change (m_next m1) with (m_next m). apply sumto_ext. intros x _. rewrite LV. reflexivity. }
  assert (I1 : minv m1).
  { constructor; unfold m1; cbn [m_blk m_next m_free m_alloc m_fsize m_limit m_rng m_cfreed m_deleted].
    - intros x kk. unfold fset. destruct (Nat.eqb x b); [discriminate|apply (mi_next _ I)].
    - intros x kk. unfold fset. destruct (Nat.eqb x b); [discriminate|apply (mi_pos _ I)].
    - intros s x. rewrite erase_in by apply I. cbn [snd]. rewrite (mi_free _ I). unfold fset.
      destruct (Nat.eqb_spec x b); [|tauto]. subst. split; [intros (_ & Q); contradiction|discriminate].
    - apply erase_nodup, I.
    - apply erase_sorted, I.
    - intros s x Hx. apply erase_in_sub in Hx. eapply mi_big; eauto.
    - transitivity (liveSum m1); [|reflexivity]. rewrite LS. apply I.
    - rewrite (erase_sum _ _ sz), (mi_fsize _ I); auto. apply I.
    - intros Q. destruct (mi_del _ I Q) as (_ & _ & Q2). rewrite Q2 in N. destruct N. }
  assert (L1 : (length (m_free m1) < k)%nat).
  { unfold m1; cbn [m_free]. pose proof (erase_length b (m_free m) sz N). lia. }
  destruct (IH m1 I1 L1) as (R1 & (R2 & R3 & R4 & R5 & R6 & R7) & R8 & R9).
  split; [exact R1|]. split; [|split].
  - unfold same_live. split; [intro x; rewrite R2; apply LV|]. auto 10.
  - exact R8.
  - intros x Hx. apply R9 in Hx. unfold m1 in Hx; cbn [m_free] in Hx. eapply erase_in_sub; eauto.
Qed.

Lemma gc_freelist_ok : forall m, minv m ->
  minv (gc_freelist m) /\ same_live m (gc_freelist m) /\
  (m_alloc (gc_freelist m) + m_fsize (gc_freelist m) <= m_limit m \/ m_free (gc_freelist m) = []).
Proof.
  intros m I. unfold gc_freelist.
  destruct (gc_ok (S (length (m_free m))) m I ltac:(lia)) as (A & B & C & _). auto.
Qed.

Lemma destroy_ok : forall m, minv m -> m_cfreed m = true -> m_alloc m = 0 -> m_deleted m = false ->
  minv (destroy m) /\ (forall x, liveB (destroy m) x = liveB m x) /\ (forall x, m_blk (destroy m) x = None).
Proof.
  intros m I C A D.
  assert (NL : forall b, liveB m b = None) by (apply alloc_zero_no_live; auto).
  assert (F : forall l f x, fold_left (fun (f : nat -> option blk) (e : Z * nat) => fset f (snd e) None) l f x
             = if existsb (fun e => Nat.eqb (snd e) x) l then None else f x).
  { induction l as [|e l IH]; intros f x; cbn [fold_left existsb]; [reflexivity|].
    rewrite IH. destruct (existsb _ l); [rewrite orb_true_r; reflexivity|]. rewrite orb_false_r.
    unfold fset. rewrite Nat.eqb_sym. reflexivity. }
  assert (BN : forall x, m_blk (destroy m) x = None).
  { intro x. unfold destroy; cbn [m_blk]. rewrite F.
    destruct (existsb (fun e => Nat.eqb (snd e) x) (m_free m)) eqn:E; [reflexivity|].
    destruct (m_blk m x) as [[sz l]|] eqn:B; [|reflexivity]. destruct l.
    - specialize (NL x). unfold liveB in NL. rewrite B in NL. discriminate.
    - apply (mi_free _ I) in B. exfalso.
      assert (T : existsb (fun e => Nat.eqb (snd e) x) (m_free m) = true); [|congruence].
      apply existsb_exists. exists (sz, x). split; [exact B|apply Nat.eqb_refl]. }
  split; [|split; [|exact BN]].
  - constructor.
    + intros b k Q. rewrite BN in Q. discriminate.
    + intros b k Q. rewrite BN in Q. discriminate.
    + intros sz b. rewrite BN. unfold destroy; cbn [m_free]. split; [intros []|discriminate].
    + constructor.
    + constructor.
    + intros sz b [].
    + unfold destroy; cbn [m_alloc]. rewrite A. symmetry. unfold liveSum.
      apply sumto_zero. intros x _. unfold liveB. change (m_blk _ x) with (m_blk (destroy m) x). rewrite BN. reflexivity.
    + reflexivity.
    + unfold destroy; cbn. auto.
  - intro x. rewrite NL. unfold liveB. rewrite BN. reflexivity.
Qed.

(** Deallocation of a live block. *)
Lemma deallocate_ok : forall m b s, minv m -> liveB m b = Some s ->
  exists m', deallocate m b = Ok m' /\ minv m' /\ live_upd m m' b None /\
    m_alloc m' = m_alloc m - s /\ m_cfreed m' = m_cfreed m /\
    m_deleted m' = (m_cfreed m && (m_alloc m - s =? 0)) /\
    (THRESHOLD < s -> m_alloc m' + m_fsize m' <= m_limit m \/ m_free m' = []).
Proof.
  intros m b s I E. pose proof E as E0. unfold liveB in E0.
  destruct (m_blk m b) as [[sz l]|] eqn:B; [|discriminate]. destruct l; [|discriminate].
  injection E0 as ->.
  pose proof (liveB_next _ _ _ I E) as (Bn & Sp). pose proof (live_le_alloc _ _ _ I E) as Le.
  assert (D : m_deleted m = false).
  { destruct (m_deleted m) eqn:D; [|reflexivity]. destruct (mi_del _ I D) as (_ & A & _). lia. }
  unfold deallocate. rewrite D, B.
  set (m1 := if THRESHOLD <? s then _ else _).
  assert (K : minv m1 /\ live_upd m m1 b None /\ m_alloc m1 = m_alloc m - s /\
              m_cfreed m1 = m_cfreed m /\ m_deleted m1 = false /\
              (THRESHOLD < s -> m_alloc m1 + m_fsize m1 <= m_limit m \/ m_free m1 = [])).
  { assert (LS : forall m' : mem, live_upd m m' b None -> m_next m' = m_next m -> liveSum m' = liveSum m - s).
    { intros m' LU En. unfold liveSum. rewrite En.
      rewrite (sumto_upd _ b (fun b => osz (liveB m b))); [|exact Bn|].
      - cbn beta. rewrite E, LU, Nat.eqb_refl. cbn. lia.
      - intros x Hx. cbn beta. rewrite LU. apply Nat.eqb_neq in Hx; rewrite Hx. reflexivity. }
    unfold m1. destruct (Z.ltb_spec THRESHOLD s) as [Big|Small].
    - set (m2 := mkMem (fset (m_blk m) b (Some (mkB s false))) (m_next m) _ _ _ _ _ _ _).
      assert (LU : live_upd m m2 b None).
      { intro x. unfold liveB, m2; cbn [m_blk]. unfold fset. destruct (Nat.eqb x b); reflexivity. }
      assert (NI : ~ In b (map snd (m_free m))).
      { intro Q. apply in_map_iff in Q. destruct Q as ((sz, x) & Ex & Hx). cbn in Ex. subst x.
        apply (mi_free _ I) in Hx. congruence. }
      assert (I2 : minv m2).
      { constructor; unfold m2; cbn [m_blk m_next m_free m_alloc m_fsize m_limit m_rng m_cfreed m_deleted].
        - intros x k. unfold fset. destruct (Nat.eqb_spec x b); [intros; subst; auto|apply (mi_next _ I)].
        - intros x k. unfold fset. destruct (Nat.eqb_spec x b); [|apply (mi_pos _ I)].
          intro Q; injection Q as <-; cbn; lia.
        - intros sz x. rewrite emplace_in, (mi_free _ I). unfold fset. destruct (Nat.eqb_spec x b).
          + subst x. rewrite B. split; [intros [Q|Q]; congruence|intro Q; left; congruence].
          + split; [intros [Q|Q]; [congruence|exact Q]|auto].
        - apply emplace_nodup; [apply I|exact NI].
        - apply emplace_sorted, I.
        - intros sz x Hx. apply emplace_in in Hx. destruct Hx as [Q|Q]; [|eapply mi_big; eauto].
          injection Q as -> ->. exact Big.
        - transitivity (liveSum m2); [|reflexivity]. rewrite (LS m2 LU eq_refl), (mi_alloc _ I). reflexivity.
        - rewrite emplace_sum, (mi_fsize _ I). cbn [fst]. lia.
        - congruence. }
      destruct (gc_freelist_ok m2 I2) as (G1 & (G2 & G3 & G4 & G5 & G6 & G7) & G8).
      split; [exact G1|]. split; [intro x; rewrite G2; apply LU|]. split; [rewrite G3; reflexivity|].
      split; [rewrite G6; reflexivity|]. split; [rewrite G7; reflexivity|]. intros _. exact G8.
    - set (m2 := mkMem (fset (m_blk m) b None) _ _ _ _ _ _ _ _).
      assert (LU : live_upd m m2 b None).
      { intro x. unfold liveB, m2; cbn [m_blk]. unfold fset. destruct (Nat.eqb x b); reflexivity. }
      split; [|split; [exact LU|split; [reflexivity|split; [reflexivity|split; [reflexivity|lia]]]]].
      constructor; unfold m2; cbn [m_blk m_next m_free m_alloc m_fsize m_limit m_rng m_cfreed m_deleted].
      + intros x k. unfold fset. destruct (Nat.eqb x b); [discriminate|apply (mi_next _ I)].
      + intros x k. unfold fset. destruct (Nat.eqb x b); [discriminate|apply (mi_pos _ I)].
      + intros sz x. rewrite (mi_free _ I). unfold fset. destruct (Nat.eqb_spec x b); [|tauto].
        subst. rewrite B. split; [congruence|discriminate].
      + apply I.
      + apply I.
      + apply I.
      + transitivity (liveSum m2); [|reflexivity]. rewrite (LS m2 LU eq_refl), (mi_alloc _ I). reflexivity.
      + apply I.
      + congruence. }
  clearbody m1. destruct K as (K1 & K2 & K3 & K4 & K5 & K6).
  eexists; split; [reflexivity|]. rewrite <- K3, <- K4.
  destruct (m_cfreed m1 && (m_alloc m1 =? 0)) eqn:Q.
  - apply andb_true_iff in Q. destruct Q as (Q1 & Q2). apply Z.eqb_eq in Q2.
    destruct (destroy_ok m1 K1 Q1 Q2 K5) as (D1 & D2 & D3).
    split; [exact D1|]. split; [intro x; rewrite D2; apply K2|].
    split; [reflexivity|]. split; [reflexivity|]. split; [reflexivity|]. intros _. right. reflexivity.
  - split; [exact K1|]. split; [exact K2|]. split; [reflexivity|]. split; [reflexivity|].
    split; [exact K5|]. exact K6.
Qed.

Lemma set_limit_ok : forall m l, minv m -> m_deleted m = false ->
  exists m', set_limit m l = Ok m' /\ minv m' /\ (forall x, liveB m' x = liveB m x) /\
    m_alloc m' = m_alloc m /\ m_cfreed m' = m_cfreed m /\ m_deleted m' = false /\ m_limit m' = l /\
    (m_alloc m' + m_fsize m' <= l \/ m_free m' = []).
Proof.
  intros m l I D. unfold set_limit. rewrite D.
  set (m1 := mkMem _ _ _ _ _ _ _ _ _).
  assert (I1 : minv m1).
  { constructor; unfold m1; cbn [m_blk m_next m_free m_alloc m_fsize m_limit m_rng m_cfreed m_deleted]; try apply I.
    congruence. }
  destruct (gc_freelist_ok m1 I1) as (G1 & (G2 & G3 & G4 & G5 & G6 & G7) & G8).
  eexists; split; [reflexivity|]. split; [exact G1|]. split; [intro x; rewrite G2; reflexivity|].
  split; [rewrite G3; reflexivity|]. split; [rewrite G6; reflexivity|].
  split; [rewrite G7; reflexivity|]. split; [rewrite G5; reflexivity|]. exact G8.
Qed.

Lemma core_freed_ok : forall m, minv m -> m_deleted m = false ->
  exists m', on_core_freed m = Ok m' /\ minv m' /\ (forall x, liveB m' x = liveB m x) /\
    m_alloc m' = m_alloc m /\ m_cfreed m' = true /\ m_deleted m' = (m_alloc m =? 0).
Proof.
  intros m I D. unfold on_core_freed. rewrite D.
  set (m1 := mkMem _ _ _ _ _ _ _ true _).
  assert (I1 : minv m1).
  { constructor; unfold m1; cbn [m_blk m_next m_free m_alloc m_fsize m_limit m_rng m_cfreed m_deleted]; try apply I.
    congruence. }
  eexists; split; [reflexivity|]. change (m_alloc m1) with (m_alloc m).
  destruct (Z.eqb_spec (m_alloc m) 0) as [Q|Q].
  - destruct (destroy_ok m1 I1 eq_refl Q eq_refl) as (D1 & D2 & D3).
    split; [exact D1|]. split; [intro x; rewrite D2; reflexivity|]. auto.
  - split; [exact I1|]. split; [reflexivity|]. auto.
Qed.

(** Bits, ranks, sorting; ShuffleChannels, SplitChannels, AudioMix routing. *)
From Coq Require Import ZArith List Bool Lia Permutation Sorted.
From Verif Require Import Common FormatSpec Format ReqPat AudioSpec Audio AudioLemmas AudioLemmas2
  AudioChanSpec AudioChan.
Import ListNotations.
Open Scope Z_scope.

(** *** Bits *)

Lemma land_bit : forall l j, 0 <= j -> (Z.land (Z.shiftl 1 j) l =? 0) = negb (Z.testbit l j).
Proof.
  intros l j H. rewrite Z.shiftl_1_l. destruct (Z.testbit l j) eqn:T; cbn [negb].
  - apply Z.eqb_neq. intros E.
    assert (X : Z.testbit (Z.land (2 ^ j) l) j = true).
    { rewrite Z.land_spec, T, Z.pow2_bits_true by lia. reflexivity. }
    rewrite E, Z.bits_0 in X. discriminate.
  - apply Z.eqb_eq. apply Z.bits_inj'. intros n Hn. rewrite Z.land_spec, Z.bits_0.
    destruct (Z.eq_dec n j) as [->|NE]; [rewrite T; apply andb_false_r|].
    rewrite Z.pow2_bits_false by lia. reflexivity.
Qed.

Lemma rankLoop_end : forall k j l pos, 0 <= j ->
  rankLoop (S k) j l pos = rankLoop k j l pos + (if Z.testbit l (j + Z.of_nat k) then 1 else 0).
Proof.
  induction k as [|k IH]; intros j l pos H.
  - cbn [rankLoop]. rewrite land_bit by lia. rewrite Z.add_0_r. destruct (Z.testbit l j); cbn [negb]; lia.
  - change (rankLoop (S (S k)) j l pos) with
      (rankLoop (S k) (j + 1) l (if Z.land (Z.shiftl 1 j) l =? 0 then pos else pos + 1)).
    rewrite IH by lia. cbn [rankLoop]. replace (j + 1 + Z.of_nat k) with (j + Z.of_nat (S k)) by lia.
    reflexivity.
Qed.

Lemma rankLoop_popcount : forall k l, rankLoop k 0 l 0 = popcount k l.
Proof.
  induction k as [|k IH]; intros l; [reflexivity|]. rewrite rankLoop_end by lia.
  rewrite IH. cbn [popcount]. rewrite Z.add_0_l. reflexivity.
Qed.

Lemma rank_plane : forall l ch, rank l ch = planeOf l ch.
Proof. intros; apply rankLoop_popcount. Qed.

Lemma popcount_ext : forall k a b, (forall j, 0 <= j < Z.of_nat k -> Z.testbit a j = Z.testbit b j) ->
  popcount k a = popcount k b.
Proof.
  induction k as [|k IH]; intros a b H; [reflexivity|]. cbn [popcount].
  rewrite (IH a b) by (intros; apply H; lia). rewrite (H (Z.of_nat k)) by lia. reflexivity.
Qed.

Definition nonneg (l : list Z) : Prop := Forall (fun c => 0 <= c) l.

Lemma orBits_layoutOf : forall l, nonneg l -> orBits l = layoutOf l.
Proof.
  induction 1 as [|c l H _ IH]; [reflexivity|]. cbn [orBits layoutOf]. rewrite IH, Z.shiftl_1_l. reflexivity.
Qed.

Lemma layoutOf_bit : forall l k, nonneg l -> 0 <= k -> Z.testbit (layoutOf l) k = existsb (Z.eqb k) l.
Proof.
  intros l k H Hk. induction H as [|c l Hc _ IH]; cbn [layoutOf existsb]; [apply Z.bits_0|].
  rewrite Z.lor_spec, IH. f_equal. destruct (Z.eqb_spec k c) as [->|NE].
  - apply Z.pow2_bits_true; lia.
  - apply Z.pow2_bits_false; lia.
Qed.

Lemma existsb_eqb_In : forall l k, existsb (Z.eqb k) l = true <-> In k l.
Proof.
  intros. rewrite existsb_exists. split.
  - intros (x & I & E). apply Z.eqb_eq in E. subst; exact I.
  - intros I. exists k. rewrite Z.eqb_refl. auto.
Qed.

Lemma popcount_layoutOf : forall l k, nonneg l -> NoDup l ->
  popcount k (layoutOf l) = zlength (filter (fun x => x <? Z.of_nat k) l).
Proof.
  intros l k H ND. induction k as [|k IH].
  - cbn [popcount]. clear ND. induction H as [|c l Hc _ IH]; [reflexivity|]. cbn [filter].
    destruct (Z.ltb_spec c (Z.of_nat 0)); [lia|exact IH].
  - cbn [popcount]. rewrite IH, layoutOf_bit by (auto; lia). clear IH.
    induction H as [|c l Hc Hl IH]; [reflexivity|]. cbn [existsb filter].
    inversion ND as [|? ? NI ND']; subst. specialize (IH ND').
    destruct (Z.eqb_spec (Z.of_nat k) c) as [E|NE].
    + assert (EX : existsb (Z.eqb (Z.of_nat k)) l = false).
      { apply not_true_iff_false. rewrite existsb_eqb_In. rewrite E. exact NI. }
      rewrite EX in IH. cbn [orb]. destruct (Z.ltb_spec c (Z.of_nat k)); [lia|].
      destruct (Z.ltb_spec c (Z.of_nat (S k))); [|lia]. rewrite zlength_cons. lia.
    + cbn [orb]. destruct (Z.ltb_spec c (Z.of_nat k)).
      * destruct (Z.ltb_spec c (Z.of_nat (S k))); [|lia]. rewrite !zlength_cons. lia.
      * destruct (Z.ltb_spec c (Z.of_nat (S k))); [lia|]. exact IH.
Qed.

Lemma chanOk_nonneg : forall l, Forall chanOk l -> nonneg l.
Proof. intros l H. eapply Forall_impl; [|exact H]. unfold chanOk; cbn; lia. Qed.

Lemma popcount_full : forall l, Forall chanOk l -> NoDup l -> popcount 64 (layoutOf l) = zlength l.
Proof.
  intros l H ND. rewrite popcount_layoutOf by (auto using chanOk_nonneg). f_equal.
  induction H as [|c l Hc _ IH]; [reflexivity|]. cbn [filter]. unfold chanOk in Hc.
  destruct (Z.ltb_spec c (Z.of_nat 64)); [|lia]. f_equal. apply IH. inversion ND; auto.
Qed.

Lemma popcount_dup : forall l, Forall chanOk l -> ~ NoDup l -> popcount 64 (layoutOf l) < zlength l.
Proof.
  intros l H ND.
  assert (P1 : forall x, In x (nodup Z.eq_dec l) <-> In x l) by (intros; apply nodup_In).
  assert (H' : Forall chanOk (nodup Z.eq_dec l)).
  { rewrite Forall_forall in *. intros x Hx. apply H, P1, Hx. }
  rewrite (popcount_ext 64 (layoutOf l) (layoutOf (nodup Z.eq_dec l))).
  - rewrite popcount_full by (auto using NoDup_nodup).
    unfold zlength. apply inj_lt.
    clear -ND. induction l as [|x l IH]; [exfalso; apply ND; constructor|]. cbn [nodup length].
    destruct (in_dec Z.eq_dec x l) as [I|NI].
    + clear. pose proof (NoDup_nodup Z.eq_dec l) as N1.
      assert (I1 : incl (nodup Z.eq_dec l) l) by (intros y Hy; apply nodup_In in Hy; exact Hy).
      pose proof (NoDup_incl_length N1 I1). lia.
    + cbn [length]. apply -> Nat.succ_lt_mono. apply IH. intros N. apply ND. constructor; auto.
  - intros j Hj. rewrite !layoutOf_bit by (auto using chanOk_nonneg; lia).
    destruct (existsb (Z.eqb j) l) eqn:E.
    + symmetry. apply existsb_eqb_In. apply P1. apply existsb_eqb_In. exact E.
    + symmetry. apply not_true_iff_false. rewrite existsb_eqb_In, P1, <- existsb_eqb_In. rewrite E. discriminate.
Qed.

Lemma popcount_iff : forall l, Forall chanOk l -> (popcount 64 (layoutOf l) = zlength l <-> NoDup l).
Proof.
  intros l H. split; [|apply popcount_full; exact H]. intros E.
  destruct (ListDec.NoDup_dec Z.eq_dec l) as [N|N]; [exact N|].
  pose proof (popcount_dup l H N). lia.
Qed.

Lemma layoutOf_range : forall l, Forall chanOk l -> 0 <= layoutOf l < 2 ^ 64.
Proof.
  intros l H.
  assert (N : 0 <= layoutOf l).
  { induction H as [|c l Hc _ IH]; cbn [layoutOf]; [lia|]. apply Z.lor_nonneg. split; [|exact IH].
    apply Z.pow_nonneg; lia. }
  split; [exact N|].
  destruct (Z.eq_dec (layoutOf l) 0) as [->|NZ]; [reflexivity|].
  apply Z.log2_lt_pow2; [lia|].
  destruct (Z.lt_ge_cases (Z.log2 (layoutOf l)) 64) as [L|G]; [exact L|exfalso].
  assert (T : Z.testbit (layoutOf l) (Z.log2 (layoutOf l)) = true) by (apply Z.bit_log2; lia).
  rewrite layoutOf_bit in T by (auto using chanOk_nonneg; lia).
  apply existsb_eqb_In in T. rewrite Forall_forall in H. specialize (H _ T). unfold chanOk in H. lia.
Qed.

Lemma layoutOf_zero : forall l, Forall chanOk l -> l <> [] -> layoutOf l <> 0.
Proof.
  intros l H NE E. destruct l as [|c l]; [congruence|].
  assert (T : Z.testbit (layoutOf (c :: l)) c = true).
  { rewrite layoutOf_bit; [|apply chanOk_nonneg; exact H|inversion H; unfold chanOk in *; lia].
    cbn [existsb]. rewrite Z.eqb_refl. reflexivity. }
  rewrite E, Z.bits_0 in T. discriminate.
Qed.

(** *** Position in a sorted list *)

Lemma filter_lt_nil : forall l x, Forall (fun y => x <= y) l -> filter (fun y => y <? x) l = [].
Proof.
  intros l x H. induction H as [|y l Hy _ IH]; [reflexivity|]. cbn [filter].
  destruct (Z.ltb_spec y x); [lia|exact IH].
Qed.

Lemma sorted_rank : forall l i x, StronglySorted Z.lt l -> nth_error l i = Some x ->
  zlength (filter (fun y => y <? x) l) = Z.of_nat i.
Proof.
  intros l i x H. revert i. induction H as [|y l Hs IH Hy]; intros i E; [destruct i; discriminate|].
  cbn [filter]. destruct i as [|i]; cbn [nth_error] in E.
  - injection E as ->. rewrite Z.ltb_irrefl. rewrite filter_lt_nil; [reflexivity|].
    eapply Forall_impl; [|exact Hy]. cbn; lia.
  - assert (y < x). { rewrite Forall_forall in Hy. apply Hy. eapply nth_error_In; exact E. }
    destruct (Z.ltb_spec y x); [|lia]. rewrite zlength_cons, (IH i E). lia.
Qed.

Lemma sorted_NoDup : forall l, StronglySorted Z.lt l -> NoDup l.
Proof.
  induction 1 as [|x l _ IH H]; constructor; auto. intros I. rewrite Forall_forall in H.
  specialize (H x I). lia.
Qed.

Lemma sorted_plane : forall l i x, Forall chanOk l -> StronglySorted Z.lt l -> nth_error l i = Some x ->
  planeOf (layoutOf l) x = Z.of_nat i.
Proof.
  intros l i x H S E. unfold planeOf. rewrite popcount_layoutOf.
  - assert (0 <= x).
    { rewrite Forall_forall in H. apply nth_error_In in E. specialize (H _ E). unfold chanOk in H; lia. }
    rewrite Z2Nat.id by lia. eapply sorted_rank; eauto.
  - apply chanOk_nonneg; exact H.
  - apply sorted_NoDup; exact S.
Qed.

Section E.
Context {B : Type}.
Variable zero : B.
Implicit Types (e : entry (B:=B)) (l : list (entry (B:=B))).

Lemma insertE_perm : forall e l, Permutation (insertE e l) (e :: l).
Proof.
  intros e; induction l as [|x l IH]; [apply Permutation_refl|]. cbn [insertE].
  destruct (snd x <? snd e); [|apply Permutation_refl].
  eapply Permutation_trans; [apply perm_skip, IH|apply perm_swap].
Qed.

Lemma sortE_perm : forall l, Permutation (sortE l) l.
Proof.
  induction l as [|e l IH]; [apply Permutation_refl|]. cbn [sortE].
  eapply Permutation_trans; [apply insertE_perm|]. apply perm_skip, IH.
Qed.

Lemma insertE_sorted : forall e l, StronglySorted (fun a b => snd a <= snd b) l ->
  StronglySorted (fun a b => snd a <= snd b) (insertE e l).
Proof.
  intros e l H. induction H as [|x l Hs IH Hx]; cbn [insertE]; [repeat constructor|].
  destruct (Z.ltb_spec (snd x) (snd e)) as [LT|GE].
  - constructor; [exact IH|]. rewrite Forall_forall in *. intros y Hy.
    apply (Permutation_in y (insertE_perm e l)) in Hy. destruct Hy as [<-|Hy]; [lia|apply Hx, Hy].
  - constructor; [constructor; assumption|]. constructor; [exact GE|].
    eapply Forall_impl; [|exact Hx]. cbn; intros; lia.
Qed.

Lemma sortE_sorted : forall l, StronglySorted (fun a b => snd a <= snd b) (sortE l).
Proof. induction l; cbn [sortE]; [constructor|apply insertE_sorted; assumption]. Qed.

Lemma sorted_strict : forall l, StronglySorted (fun a b => snd a <= snd b) l ->
  NoDup (map (fun e => snd e) l) -> StronglySorted Z.lt (map (fun e => snd e) l).
Proof.
  intros l H ND. induction H as [|x l Hs IH Hx]; cbn [map] in *; [constructor|].
  inversion ND as [|? ? NI ND']; subst. constructor; [apply IH; exact ND'|].
  rewrite Forall_forall in *. intros y Hy.
  assert (y <> snd x) by (intros ->; contradiction).
  apply in_map_iff in Hy as (z & <- & Hz). specialize (Hx z Hz). lia.
Qed.

(** *** Source channels *)

Lemma resolve_picks : forall (nd : anode B) c, -64 <= c < 64 ->
  resolve nd c = picks (an_layout nd) c.
Proof.
  intros nd c H. unfold resolve, picks. destruct (Z.ltb_spec c 0) as [N|P].
  - destruct (Z.leb_spec (popcount 64 (an_layout nd)) (- c - 1));
    destruct (Z.ltb_spec (- c - 1) (popcount 64 (an_layout nd))); try lia; reflexivity.
  - rewrite Z.land_comm, land_bit by lia. rewrite rank_plane.
    destruct (Z.eqb_spec c 0) as [->|NZ]; [reflexivity|].
    destruct (Z.ltb_spec 0 c); [|lia]. cbn [andb]. destruct (Z.testbit (an_layout nd) c); reflexivity.
Qed.

Lemma popcount_S : forall k (l : Z),
  popcount (S k) l = popcount k l + (if Z.testbit l (Z.of_nat k) then 1 else 0).
Proof. reflexivity. Qed.

Lemma popcount_nonneg : forall k (l : Z), 0 <= popcount k l.
Proof. induction k; intros l; cbn [popcount]; [lia|]. specialize (IHk l). destruct (Z.testbit l _); lia. Qed.

Lemma popcount_mono : forall k m (l : Z), (k <= m)%nat -> popcount k l <= popcount m l.
Proof. induction 1; [lia|]. cbn [popcount]. destruct (Z.testbit l _); lia. Qed.

Lemma popcount_pos : forall l : Z, 0 < l < 2 ^ 64 -> 1 <= popcount 64 l.
Proof.
  intros l H. pose proof (Z.bit_log2 l ltac:(lia)) as T.
  assert (LB : 0 <= Z.log2 l < 64) by (split; [apply Z.log2_nonneg|apply Z.log2_lt_pow2; lia]).
  pose proof (popcount_mono (S (Z.to_nat (Z.log2 l))) 64 l ltac:(lia)) as M.
  rewrite popcount_S, Z2Nat.id, T in M by lia.
  pose proof (popcount_nonneg (Z.to_nat (Z.log2 l)) l).
  generalize dependent (popcount 64 l). intros; lia.
Qed.

Lemma planeOf_lt : forall layout c, 0 <= c < 64 -> Z.testbit layout c = true ->
  planeOf layout c < popcount 64 layout.
Proof.
  intros layout c H T. unfold planeOf.
  pose proof (popcount_mono (S (Z.to_nat c)) 64 layout ltac:(lia)) as M.
  rewrite popcount_S, Z2Nat.id, T in M by lia.
  generalize dependent (popcount 64 layout). intros; lia.
Qed.

Lemma picks_range : forall layout c p, 0 < layout < 2 ^ 64 -> -64 <= c < 64 ->
  picks layout c = Some p -> 0 <= p < popcount 64 layout.
Proof.
  intros layout c p HL HC. unfold picks. pose proof (popcount_pos _ HL).
  destruct (Z.ltb_spec c 0).
  - destruct (Z.ltb_spec (- c - 1) (popcount 64 layout)); [|discriminate]. intros E; injection E as <-. lia.
  - destruct (Z.eqb_spec c 0).
    + intros E; injection E as <-. lia.
    + destruct (Z.testbit layout c) eqn:T; [|discriminate]. intros E; injection E as <-.
      split; [apply popcount_nonneg|]. apply planeOf_lt; auto; lia.
Qed.

(** *** One output channel *)

Lemma nodeServes_chan : forall (nd : anode B) L ss p s, nodeServes nd L ss -> nthz ss p = Some s ->
  exists c, nthz (an_chans nd) p = Some c /\ serves c L s /\ c_frames c = an_frames nd.
Proof.
  intros nd L ss p s (_ & _ & _ & FF & H) E. unfold nthz in *. destruct (p <? 0); [discriminate|].
  revert E. generalize (Z.to_nat p). induction H as [|c s' cs ss' SV _ IH]; intros [|i] E; try discriminate.
  - injection E as ->. exists c. split; [reflexivity|]. split; [exact SV|].
    destruct SV as (_ & _ & FF' & _). apply framesFor_val in FF, FF'. congruence.
  - apply IH; exact E.
Qed.

Lemma shuffleChan_get : forall nd L0 ss p s L n, nodeServes nd L0 ss -> nthz ss p = Some s ->
  L0 <= L <= INT_MAX * AFS -> 0 <= n -> AFS * n < L ->
  exists f, shuffleChan zero nd p L n = Ok f /\ holds L (padded zero L0 s) n f.
Proof.
  intros nd L0 ss p s L n NS E HL H1 H2.
  destruct (nodeServes_chan _ _ _ _ _ NS E) as (c & Ec & SV & NF).
  unfold shuffleChan. rewrite Ec. set (len := Z.min AFS (L - AFS * n)).
  replace (wrap32 (Z.min (L - n * AFS) AFS)) with len.
  2:{ unfold len. rewrite w32; unfold AFS, INT_MAX in *; lia. }
  assert (LB : 0 < len <= AFS) by (unfold len, AFS in *; lia).
  pose proof SV as (EL & BL & FF & HG). pose proof (framesFor_bound _ _ FF BL) as FB.
  assert (CL : 0 <= clampN c n < c_frames c).
  { unfold clampN. destruct (Z.leb_spec (c_frames c) n); lia. }
  destruct (HG _ CL) as (f & G & EF & BF & CF). rewrite G. cbn [obind].
  set (sl := if n <? an_frames nd then af_len f else 0).
  set (cl := Z.min len sl).
  assert (ESL : sl = Z.max 0 (Z.min AFS (L0 - AFS * n))).
  { unfold sl. rewrite <- NF. destruct (Z.ltb_spec n (c_frames c)) as [LT|GE].
    - rewrite EF. unfold clampN. destruct (Z.leb_spec (c_frames c) n); [lia|].
      unfold framesFor, AFS in *; lia.
    - unfold framesFor, AFS in *; lia. }
  assert (CLB : 0 <= cl <= len) by (unfold cl; lia).
  rewrite newFrame_ok by lia. cbn [obind af_buf].
  assert (P0 : filled (repeat None (Z.to_nat AFS)) 0 (AFS * n) (padded zero L0 s)) by apply empty_filled.
  assert (S1 : exists b, (if 0 <? cl then copyTo (repeat None (Z.to_nat AFS)) 0 (af_buf f) 0 cl
                          else Ok (repeat None (Z.to_nat AFS))) = Ok b /\
                         filled b cl (AFS * n) (padded zero L0 s)).
  { destruct (Z.ltb_spec 0 cl) as [LT|GE].
    - assert (NLT : n < an_frames nd).
      { rewrite <- NF. unfold framesFor, cl, AFS in *; lia. }
      assert (clampN c n = n) as CN.
      { unfold clampN. destruct (Z.leb_spec (c_frames c) n); lia. }
      rewrite CN in *.
      destruct (copyTo_fill (repeat None (Z.to_nat AFS)) 0 (AFS * n) (padded zero L0 s) (af_buf f) 0 cl)
        as (b & EB & FB'); auto; try lia.
      { intros i Hi. destruct (CF i) as (a & X & Y); [rewrite EF; unfold cl in *; lia|].
        exists a. split; [exact X|]. unfold padded.
        destruct (Z.leb_spec 0 (AFS * n + 0 + i)); [|unfold AFS in *; lia].
        destruct (Z.ltb_spec (AFS * n + 0 + i) L0); [|unfold cl in *; lia].
        cbn [andb]. rewrite <- Y. f_equal; lia. }
      exists b. rewrite Z.add_0_l in FB'. auto.
    - assert (cl = 0) by lia. exists (repeat None (Z.to_nat AFS)). split; [reflexivity|].
      replace cl with 0 by lia. exact P0. }
  destruct S1 as (b & EB & FB'). rewrite EB. cbn [obind].
  destruct (Z.ltb_spec 0 (len - cl)) as [LT|GE].
  - destruct (copyTo_fill b cl (AFS * n) (padded zero L0 s) (repeat (Some zero) (Z.to_nat AFS)) 0 (len - cl))
      as (b' & EB' & FB''); auto; try lia.
    { intros i Hi. exists zero. split.
      - unfold nthz. destruct (Z.ltb_spec (0 + i) 0); [lia|]. apply nth_error_repeat.
        unfold AFS in *. lia.
      - unfold padded. destruct (Z.ltb_spec (AFS * n + cl + i) L0); [|rewrite andb_false_r; reflexivity].
        exfalso. unfold cl, len in *. lia. }
    rewrite EB'. cbn [obind]. eexists; split; [reflexivity|]. apply filled_holds; [reflexivity|].
    replace (cl + (len - cl)) with len in FB'' by lia. exact FB''.
  - cbn [obind]. eexists; split; [reflexivity|]. apply filled_holds; [reflexivity|].
    replace len with cl by lia. exact FB'.
Qed.

Lemma newNode_chan : forall nd L0 ss p s L, nodeServes nd L0 ss -> nthz ss p = Some s ->
  L0 <= L <= INT_MAX * AFS ->
  exists c, newNode L (shuffleChan zero nd p L) = Ok c /\ serves c L (padded zero L0 s).
Proof.
  intros nd L0 ss p s L NS E HL.
  assert (1 <= L0).
  { destruct (nodeServes_chan _ _ _ _ _ NS E) as (c & _ & (_ & B1 & _) & _). lia. }
  apply newNode_serves; [lia|]. intros n H1 H2. eapply shuffleChan_get; eauto.
Qed.

(** *** Argument handling *)

Fixpoint mkEntries (nodes : list (anode B)) (i : Z) (cin cout : list Z) : list (entry (B:=B)) :=
  match cin, cout with
  | c :: cin', d :: cout' =>
      match nodeAt nodes i with
      | Some nd => (nd, c, d) :: mkEntries nodes (i + 1) cin' cout'
      | None => []
      end
  | _, _ => []
  end.

Lemma nodeAt_some : forall (nodes : list (anode B)) i, nodes <> [] -> 0 <= i -> exists nd, nodeAt nodes i = Some nd.
Proof.
  intros nodes i NE H. unfold nodeAt. pose proof (zlength_nonneg _ nodes).
  assert (zlength nodes <> 0).
  { destruct nodes; [congruence|]. rewrite zlength_cons. pose proof (zlength_nonneg _ nodes). lia. }
  apply nthz_Some_iff. lia.
Qed.

Lemma shuffleEntries_spec : forall nodes cin cout i, nodes <> [] -> 0 <= i ->
  zlength cin = zlength cout ->
  (Forall2 inRange cin cout /\ shuffleEntries nodes i cin cout = Ok (mkEntries nodes i cin cout)) \/
  (~ Forall2 inRange cin cout /\ shuffleEntries nodes i cin cout = Err).
Proof.
  intros nodes cin. induction cin as [|c cin IH]; intros [|d cout] i NE Hi LE.
  - left. split; [constructor|reflexivity].
  - exfalso. rewrite zlength_cons in LE. pose proof (zlength_nonneg _ cout). change (zlength (@nil Z)) with 0 in LE. lia.
  - exfalso. rewrite zlength_cons in LE. pose proof (zlength_nonneg _ cin). change (zlength (@nil Z)) with 0 in LE. lia.
  - rewrite !zlength_cons in LE. cbn [shuffleEntries mkEntries].
    assert (D : (sat32 d <? 0) || (64 <=? sat32 d) || (sat32 c <? -64) || (64 <=? sat32 c) = false <-> inRange c d).
    { unfold inRange, sat32, INT_MIN, INT_MAX. rewrite !orb_false_iff.
      split; intros X; repeat split; try (destruct X as (((X1 & X2) & X3) & X4));
      repeat match goal with
      | H : context [if ?t then _ else _] |- _ => destruct t eqn:?T
      | |- context [if ?t then _ else _] => destruct t eqn:?T end; lia. }
    destruct ((sat32 d <? 0) || (64 <=? sat32 d) || (sat32 c <? -64) || (64 <=? sat32 c)) eqn:T.
    + right. split; [|reflexivity]. intros F. inversion F; subst.
      assert (true = false) by (apply D; assumption). discriminate.
    + assert (R : inRange c d) by (apply D; reflexivity).
      assert (SC : sat32 c = c) by (unfold inRange in R; unfold sat32, INT_MIN, INT_MAX;
        repeat match goal with |- context [if ?t then _ else _] => destruct t eqn:?T end; lia).
      assert (SD : sat32 d = d) by (unfold inRange in R; unfold sat32, INT_MIN, INT_MAX;
        repeat match goal with |- context [if ?t then _ else _] => destruct t eqn:?T end; lia).
      destruct (nodeAt_some nodes i NE Hi) as (nd & EN). rewrite EN. unfold nodeAt in EN. rewrite EN, SC, SD.
      destruct (IH cout (i + 1) NE ltac:(lia) ltac:(lia)) as [(F & ->)|(F & ->)].
      * left. split; [constructor; assumption|reflexivity].
      * right. split; [|reflexivity]. intros F'. inversion F'; auto.
Qed.

Lemma mkEntries_nth : forall nodes cin cout i k c d, nodes <> [] -> 0 <= i ->
  nth_error cin k = Some c -> nth_error cout k = Some d ->
  exists nd, nodeAt nodes (i + Z.of_nat k) = Some nd /\ nth_error (mkEntries nodes i cin cout) k = Some (nd, c, d).
Proof.
  intros nodes cin. induction cin as [|c0 cin IH]; intros [|d0 cout] i k c d NE Hi E1 E2;
    try (destruct k; discriminate).
  cbn [mkEntries]. destruct (nodeAt_some nodes i NE Hi) as (nd & EN). rewrite EN.
  destruct k as [|k]; cbn [nth_error] in *.
  - injection E1 as ->. injection E2 as ->. exists nd. rewrite Z.add_0_r. auto.
  - destruct (IH cout (i + 1) k c d) as (nd' & EN' & X); auto; try lia.
    exists nd'. split; [|exact X]. rewrite <- EN'. f_equal. lia.
Qed.

Lemma mkEntries_len : forall nodes cin cout i, nodes <> [] -> 0 <= i -> zlength cin = zlength cout ->
  map (fun e => snd e) (mkEntries nodes i cin cout) = cout.
Proof.
  intros nodes cin. induction cin as [|c cin IH]; intros [|d cout] i NE Hi LE; try reflexivity.
  - unfold zlength in LE; cbn in LE; lia.
  - cbn [mkEntries]. destruct (nodeAt_some nodes i NE Hi) as (nd & ->). cbn [map snd]. f_equal.
    apply IH; auto; try lia. rewrite !zlength_cons in LE. lia.
Qed.

Lemma mkEntries_In : forall nodes cin cout i nd c d, nodes <> [] -> 0 <= i ->
  In (nd, c, d) (mkEntries nodes i cin cout) ->
  exists k, nth_error cin k = Some c /\ nth_error cout k = Some d /\ nodeAt nodes (i + Z.of_nat k) = Some nd.
Proof.
  intros nodes cin. induction cin as [|c0 cin IH]; intros [|d0 cout] i nd c d NE Hi I; try destruct I.
  cbn [mkEntries] in I. destruct (nodeAt_some nodes i NE Hi) as (nd' & EN). rewrite EN in I.
  destruct I as [E|I].
  - injection E as -> -> ->. exists 0%nat. rewrite Z.add_0_r. auto.
  - destruct (IH cout (i + 1) nd c d) as (k & X1 & X2 & X3); auto; try lia.
    exists (S k). cbn [nth_error]. split; [exact X1|]. split; [exact X2|]. rewrite <- X3. f_equal; lia.
Qed.

(** *** Resolving *)

Definition resolvesTo (fmt : Z) (e : entry (B:=B)) (x : anode B * Z) : Prop :=
  an_fmt (fst (fst e)) = fmt /\ fst x = fst (fst e) /\ resolve (fst (fst e)) (snd (fst e)) = Some (snd x).

Fixpoint maxLen (l : list (entry (B:=B))) (L : Z) : Z :=
  match l with [] => L | e :: t => maxLen t (Z.max L (an_samples (fst (fst e)))) end.

Lemma maxLen_spec : forall l L, L <= maxLen l L /\
  (forall e, In e l -> an_samples (fst (fst e)) <= maxLen l L) /\
  (maxLen l L = L \/ exists e, In e l /\ an_samples (fst (fst e)) = maxLen l L).
Proof.
  induction l as [|e l IH]; intros L; cbn [maxLen].
  - split; [lia|]. split; [intros e []|left; reflexivity].
  - destruct (IH (Z.max L (an_samples (fst (fst e))))) as (A1 & A2 & A3). split; [lia|]. split.
    + intros x [<-|I]; [lia|apply A2; exact I].
    + destruct A3 as [->|(x & I & E)].
      * destruct (Z.max_spec L (an_samples (fst (fst e)))) as [(_ & E)|(_ & E)]; rewrite E; [|left; reflexivity].
        right. exists e. split; [left; reflexivity|reflexivity].
      * right. exists x. split; [right; exact I|exact E].
Qed.

Lemma resolveAll_spec : forall fmt l L,
  (exists src, resolveAll fmt l L = Some (src, maxLen l L) /\ Forall2 (resolvesTo fmt) l src) \/
  (resolveAll fmt l L = None /\ exists e, In e l /\
     (an_fmt (fst (fst e)) <> fmt \/ resolve (fst (fst e)) (snd (fst e)) = None)).
Proof.
  intros fmt l. induction l as [|[[nd c] d] l IH]; intros L.
  - left. exists []. split; [reflexivity|constructor].
  - cbn [resolveAll maxLen fst snd]. destruct (Z.eqb_spec (an_fmt nd) fmt) as [EF|NF]; cbn [negb].
    + destruct (resolve nd c) as [idx|] eqn:ER.
      * destruct (IH (Z.max L (an_samples nd))) as [(src & -> & F)|(-> & e & I & X)].
        -- left. exists ((nd, idx) :: src). split; [reflexivity|]. constructor; [|exact F].
           split; [exact EF|]. split; [reflexivity|exact ER].
        -- right. split; [reflexivity|]. exists e. split; [right; exact I|exact X].
      * right. split; [reflexivity|]. exists (nd, c, d). split; [left; reflexivity|]. right. exact ER.
    + right. split; [reflexivity|]. exists (nd, c, d). split; [left; reflexivity|]. left. exact NF.
Qed.

Lemma planes_ok : forall (src : list (anode B * Z)) L,
  Forall (fun x => exists c, newNode L (shuffleChan zero (fst x) (snd x) L) = Ok c) src ->
  exists cs, planes zero src L = Ok cs /\
    Forall2 (fun x c => newNode L (shuffleChan zero (fst x) (snd x) L) = Ok c) src cs.
Proof.
  intros src L F. induction F as [|[nd idx] src (c & EC) _ IH].
  - exists []. split; [reflexivity|constructor].
  - destruct IH as (cs & EP & F'). cbn [fst snd] in EC. cbn [planes]. rewrite EC. cbn [obind]. rewrite EP.
    cbn [obind]. exists (c :: cs). split; [reflexivity|]. constructor; assumption.
Qed.

End E.

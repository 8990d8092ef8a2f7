(** StackVertical and StackHorizontal. *)
From Coq Require Import String.
From Coq Require Import ZArith List Lia Bool.
From Verif Require Import Common FormatSpec Format FrameSpec Frame FrameLemmas FrameGeom ImageSpec PlaneMem Spatial
  SpatialLemmas SpatialFrames.
Import ListNotations.
Open Scope Z_scope.

Lemma sumL_nonneg : forall l, Forall (fun x => 0 <= x) l -> 0 <= sumL l.
Proof. induction 1; cbn [sumL fold_right]; [lia|]. unfold sumL in IHForall. lia. Qed.

Lemma sumL_cons : forall x l, sumL (x :: l) = x + sumL l.
Proof. reflexivity. Qed.

Lemma sumL_firstn : forall l j x, Forall (fun x => 0 <= x) l -> nth_error l j = Some x ->
  0 <= sumL (firstn j l) /\ sumL (firstn j l) + x <= sumL l.
Proof.
  induction l as [|a l IH]; intros j x F E; [destruct j; discriminate|].
  inversion F as [|? ? A F']; subst. destruct j.
  - cbn [firstn nth_error] in *. injection E as <-. rewrite sumL_cons. pose proof (sumL_nonneg l F').
    change (sumL []) with 0. lia.
  - cbn [firstn nth_error] in *. rewrite !sumL_cons. destruct (IH j x F' E). lia.
Qed.

Lemma storage_unique : forall bits b b', storage bits b -> storage bits b' -> b = b'.
Proof.
  intros bits b b' (C & L & M) (C' & L' & M').
  pose proof (M b' C' L'). pose proof (M' b C L). lia.
Qed.

Lemma sameFormat_eq : forall a b, fmt_valid a -> fmt_valid b -> sameFormat a b = true -> a = b.
Proof.
  intros a b VA VB E. unfold sameFormat in E. rewrite !andb_true_iff, !Z.eqb_eq in E.
  destruct E as ((((E1 & E2) & E3) & E4) & E5).
  destruct VA as (_ & _ & SA & _ & NA). destruct VB as (_ & _ & SB & _ & NB).
  rewrite E3 in SA. pose proof (storage_unique _ _ _ SA SB) as EB.
  assert (EN : f_np a = f_np b) by (rewrite E1 in NA; lia).
  destruct a as [a1 a2 a3 a4 a5 a6 a7], b as [b1 b2 b3 b4 b5 b6 b7]; cbn in *. congruence.
Qed.

(** ** Creation *)

Definition okInfo (vi : vinfo) : Prop := fmt_valid (vi_fmt vi) /\ 1 <= vi_w vi /\ 1 <= vi_h vi.

Lemma stack_fold_bad : forall v r x, x = Err \/ x = UB ->
  fold_left (stackStep v) r x = Err \/ fold_left (stackStep v) r x = UB.
Proof.
  induction r as [|a r IH]; intros x X; [exact X|]. cbn [fold_left]. apply IH.
  destruct X as [-> | ->]; [left | right]; reflexivity.
Qed.

Lemma constantFormat_inv : forall vi, constantFormat vi = true -> 1 <= vi_w vi /\ 1 <= vi_h vi.
Proof.
  intros vi E. unfold constantFormat in E. rewrite !andb_true_iff, !Z.ltb_lt in E. lia.
Qed.

Lemma stackV_inv : forall r v vi, Forall (fun x => fmt_valid (vi_fmt x)) (v :: r) ->
  fold_left (stackStep true) r (Ok v) = Ok vi ->
  vi_fmt vi = vi_fmt v /\ vi_w vi = vi_w v /\ vi_h vi = vi_h v + sumL (map vi_h r) /\
  Forall (fun x => vi_fmt x = vi_fmt v /\ vi_w x = vi_w v /\ 1 <= vi_w x /\ 1 <= vi_h x) r /\
  vi_n v <= vi_n vi /\ Forall (fun x => vi_n x <= vi_n vi) r.
Proof.
  induction r as [|a r IH]; intros v vi F E.
  - cbn in E. injection E as <-. cbn. repeat split; auto; lia.
  - inversion F as [|? ? F1 F2]; subst. inversion F2 as [|? ? F3 F4]; subst.
    cbn [fold_left] in E. unfold stackStep at 2 in E. cbn [obind andb negb] in E. rewrite orb_false_r in E.
    destruct (constantFormat a) eqn:CF; cbn [negb orb] in E.
    2: { destruct (stack_fold_bad true r Err ltac:(auto)) as [Q|Q]; congruence. }
    destruct (sameFormat (vi_fmt a) (vi_fmt v)) eqn:SF; cbn [negb orb] in E.
    2: { destruct (stack_fold_bad true r Err ltac:(auto)) as [Q|Q]; congruence. }
    destruct (Z.eqb_spec (vi_w a) (vi_w v)) as [EW|]; cbn [negb] in E.
    2: { destruct (stack_fold_bad true r Err ltac:(auto)) as [Q|Q]; congruence. }
    apply constantFormat_inv in CF. apply sameFormat_eq in SF; [|exact F3|exact F1].
    destruct (addI (vi_h v) (vi_h a)) as [h| |] eqn:EH; cbn [obind] in E.
    2,3: match type of E with fold_left _ _ ?x = _ => destruct (stack_fold_bad true r x ltac:(auto)) as [Q|Q]; congruence end.
    apply addI_inv in EH. destruct EH as (EH & _).
    match type of E with fold_left _ _ (Ok ?x) = _ =>
      destruct (IH x vi (Forall_cons x (F1 : fmt_valid (vi_fmt x)) F4) E) as (I1 & I2 & I3 & I4 & I5 & I6) end.
    cbn [vi_fmt vi_w vi_h vi_n] in *.
    split; [exact I1|]. split; [exact I2|]. split; [cbn [map]; rewrite sumL_cons; lia|].
    assert (MX : vi_n v <= vi_n vi /\ vi_n a <= vi_n vi) by (destruct (Z.ltb_spec (vi_n v) (vi_n a)); lia).
    split; [constructor; [repeat split; auto; lia | exact I4]|]. split; [lia|]. constructor; [lia | exact I6].
Qed.

Lemma stackH_inv : forall r v vi, Forall (fun x => fmt_valid (vi_fmt x)) (v :: r) ->
  fold_left (stackStep false) r (Ok v) = Ok vi ->
  vi_fmt vi = vi_fmt v /\ vi_h vi = vi_h v /\ vi_w vi = vi_w v + sumL (map vi_w r) /\
  Forall (fun x => vi_fmt x = vi_fmt v /\ vi_h x = vi_h v /\ 1 <= vi_w x /\ 1 <= vi_h x) r /\
  vi_n v <= vi_n vi /\ Forall (fun x => vi_n x <= vi_n vi) r.
Proof.
  induction r as [|a r IH]; intros v vi F E.
  - cbn in E. injection E as <-. cbn. repeat split; auto; lia.
  - inversion F as [|? ? F1 F2]; subst. inversion F2 as [|? ? F3 F4]; subst.
    cbn [fold_left] in E. unfold stackStep at 2 in E. cbn [obind andb negb] in E. rewrite orb_false_r in E.
    destruct (constantFormat a) eqn:CF; cbn [negb orb] in E.
    2: { destruct (stack_fold_bad false r Err ltac:(auto)) as [Q|Q]; congruence. }
    destruct (sameFormat (vi_fmt a) (vi_fmt v)) eqn:SF; cbn [negb orb] in E.
    2: { destruct (stack_fold_bad false r Err ltac:(auto)) as [Q|Q]; congruence. }
    destruct (Z.eqb_spec (vi_h a) (vi_h v)) as [EW|]; cbn [negb] in E.
    2: { destruct (stack_fold_bad false r Err ltac:(auto)) as [Q|Q]; congruence. }
    apply constantFormat_inv in CF. apply sameFormat_eq in SF; [|exact F3|exact F1].
    destruct (addI (vi_w v) (vi_w a)) as [h| |] eqn:EH; cbn [obind] in E.
    2,3: match type of E with fold_left _ _ ?x = _ => destruct (stack_fold_bad false r x ltac:(auto)) as [Q|Q]; congruence end.
    apply addI_inv in EH. destruct EH as (EH & _).
    match type of E with fold_left _ _ (Ok ?x) = _ =>
      destruct (IH x vi (Forall_cons x (F1 : fmt_valid (vi_fmt x)) F4) E) as (I1 & I2 & I3 & I4 & I5 & I6) end.
    cbn [vi_fmt vi_w vi_h vi_n] in *.
    split; [exact I1|]. split; [exact I2|]. split; [cbn [map]; rewrite sumL_cons; lia|].
    assert (MX : vi_n v <= vi_n vi /\ vi_n a <= vi_n vi) by (destruct (Z.ltb_spec (vi_n v) (vi_n a)); lia).
    split; [constructor; [repeat split; auto; lia | exact I4]|]. split; [lia|]. constructor; [lia | exact I6].
Qed.

(** ** One plane *)

Definition vStep (f : vfmt) (vertical : bool) (i : Z) (q : plane) : outcome (Z * pbuf) -> vframe -> outcome (Z * pbuf) :=
  fun acc src =>
    obind acc (fun st => let '(d, m) := st in
      match nthz (vf_planes src) i with
      | None => UB
      | Some p =>
          if vertical then
            let size := p_stride q * getHeight (vf_fmt src) (vf_h src) i in
            obind (memcpy m d (p_buf p) 0 size) (fun m' => Ok (d + size, m'))
          else
            let row := getWidth (vf_fmt src) (vf_w src) i * f_bytes f in
            obind (bitblt m d (p_stride q) (p_buf p) 0 (p_stride p) row (getHeight (vf_fmt src) (vf_h src) i))
                  (fun m' => Ok (d + row, m'))
      end).

Lemma stackPlane_fold : forall vertical f srcs i q,
  stackPlane vertical f srcs i q =
  obind (fold_left (vStep f vertical i q) srcs (Ok (0, p_buf q))) (fun st => Ok (snd st)).
Proof. reflexivity. Qed.

Lemma foldV : forall al f w i q, isAl al -> fmt_valid f -> 1 <= w -> 0 <= i < f_np f ->
  p_stride q = strideOf al f w i ->
  forall srcs r0 m, Forall (fun s => wfFrame al s /\ vf_fmt s = f /\ vf_w s = w) srcs -> 0 <= r0 ->
  let S := p_stride q in
  let hs := map (fun s => planeH f (vf_h s) i) srcs in
  S * (r0 + sumL hs) <= b_size m ->
  exists m', fold_left (vStep f true i q) srcs (Ok (S * r0, m)) = Ok (S * (r0 + sumL hs), m') /\
    b_size m' = b_size m /\
    (forall a, a < S * r0 -> b_data m' a = b_data m a) /\
    (forall j s p, nth_error srcs j = Some s -> nthz (vf_planes s) i = Some p ->
       forall y b, 0 <= y < planeH f (vf_h s) i -> 0 <= b < S ->
       b_data m' (S * (r0 + sumL (firstn j hs) + y) + b) = b_data (p_buf p) (y * S + b)).
Proof.
  intros al f w i q A V W I QS srcs. induction srcs as [|s srcs IH]; intros r0 m F R0 S hs SZ.
  - exists m. subst hs. cbn [map fold_left]. change (sumL []) with 0. rewrite Z.add_0_r.
    split; [reflexivity|]. split; [reflexivity|]. split; [reflexivity|]. intros [|]; discriminate.
  - inversion F as [|? ? (Ws & Fs & Xs) F']; subst.
    destruct (wf_plane al s i A Ws ltac:(lia)) as (p & Ep & P1 & P2 & P3 & P4).
    pose proof Ws as (_ & _ & HS & _ & PS). destruct (PS i p Ep) as (PS1 & _).
    assert (EQS : p_stride p = S) by (subst S; congruence).
    subst hs. cbn [map] in SZ |- *. rewrite sumL_cons in SZ |- *.
    remember (map (fun s0 => planeH (vf_fmt s) (vf_h s0) i) srcs) as hs eqn:HSE.
    assert (NN : Forall (fun x => 0 <= x) hs).
    { subst hs. apply Forall_map. apply Forall_forall. intros x X. rewrite Forall_forall in F'.
      destruct (F' x X) as (Wx & Fx & _). destruct Wx as (_ & _ & Hx & _). apply planeH_bounds; [exact V|lia]. }
    pose proof (sumL_nonneg hs NN) as SN.
    assert (S0 : 0 <= S) by (subst S; rewrite QS; apply strideOf_nonneg; [apply isAl_pos; exact A|exact V|lia]).
    pose proof (planeH_bounds (vf_fmt s) (vf_h s) i V ltac:(lia)) as HB.
    remember (planeH (vf_fmt s) (vf_h s) i) as h0 eqn:H0E.
    cbn [fold_left]. unfold vStep at 2. cbn [obind]. rewrite Ep.
    rewrite getHeight_planeH by exact V. rewrite <- H0E. cbv zeta. fold S.
    destruct (memcpy_spec m (S * r0) (p_buf p) 0 (S * h0)) as (m1 & E1 & A1 & A2 & A3);
      [nia | nia | nia | lia | rewrite P4, EQS; lia |].
    rewrite E1. cbn [obind]. replace (S * r0 + S * h0) with (S * (r0 + h0)) by ring.
    destruct (IH (r0 + h0) m1 F' ltac:(lia)) as (m' & E2 & B1 & B2 & B3).
    { cbv zeta. fold S. rewrite A1. replace (r0 + h0 + sumL hs) with (r0 + (h0 + sumL hs)) by ring. exact SZ. }
    cbv zeta in E2, B2, B3. fold S in E2, B2, B3. rewrite <- ?HSE in *.
    exists m'. split; [replace (r0 + (h0 + sumL hs)) with (r0 + h0 + sumL hs) by ring; exact E2|].
    split; [lia|]. split.
    + intros a Ha. rewrite B2 by nia. apply A3. intros; lia.
    + intros j s' p' Ej Ep' y b Y B. destruct j as [|j].
      * cbn [nth_error] in Ej. injection Ej as <-. rewrite Ep in Ep'. injection Ep' as <-.
        cbn [firstn]. change (sumL []) with 0. rewrite <- H0E in Y. rewrite B2 by nia.
        replace (S * (r0 + 0 + y) + b) with (S * r0 + (y * S + b)) by ring. rewrite A2 by nia. f_equal.
      * cbn [nth_error] in Ej. cbn [firstn]. rewrite sumL_cons.
        replace (r0 + (h0 + sumL (firstn j hs)) + y) with (r0 + h0 + sumL (firstn j hs) + y) by ring.
        apply (B3 j s' p' Ej Ep' y b Y B).
Qed.

Lemma foldH : forall al f h i q, isAl al -> fmt_valid f -> 1 <= h -> 0 <= i < f_np f ->
  let S := p_stride q in
  forall srcs c0 m, Forall (fun s => wfFrame al s /\ vf_fmt s = f /\ vf_h s = h) srcs -> 0 <= c0 ->
  let k := f_bytes f in
  let ws := map (fun s => planeW f (vf_w s) i) srcs in
  (c0 + sumL ws) * k <= S -> S * planeH f h i <= b_size m ->
  exists m', fold_left (vStep f false i q) srcs (Ok (c0 * k, m)) = Ok ((c0 + sumL ws) * k, m') /\
    b_size m' = b_size m /\
    (forall y b, 0 <= y < planeH f h i -> 0 <= b < c0 * k -> b_data m' (y * S + b) = b_data m (y * S + b)) /\
    (forall j s p, nth_error srcs j = Some s -> nthz (vf_planes s) i = Some p ->
       forall y b, 0 <= y < planeH f h i -> 0 <= b < planeW f (vf_w s) i * k ->
       b_data m' (y * S + (c0 + sumL (firstn j ws)) * k + b) = b_data (p_buf p) (y * p_stride p + b)).
Proof.
  intros al f h i q A V H I S srcs. induction srcs as [|s srcs IH]; intros c0 m F C0 k ws CW SZ.
  - exists m. subst ws. cbn [map fold_left]. change (sumL []) with 0. rewrite Z.add_0_r.
    split; [reflexivity|]. split; [reflexivity|]. split; [reflexivity|]. intros [|]; discriminate.
  - inversion F as [|? ? (Ws & Fs & Hs) F']; subst.
    destruct (wf_plane al s i A Ws ltac:(lia)) as (p & Ep & P1 & P2 & P3 & P4).
    pose proof Ws as (_ & WS & HS & _ & PS).
    subst ws. cbn [map] in CW |- *. rewrite sumL_cons in CW |- *.
    remember (map (fun s0 => planeW (vf_fmt s) (vf_w s0) i) srcs) as ws eqn:WSE.
    assert (NN : Forall (fun x => 0 <= x) ws).
    { subst ws. apply Forall_map. apply Forall_forall. intros x X. rewrite Forall_forall in F'.
      destruct (F' x X) as (Wx & Fx & _). destruct Wx as (_ & Hx & _ & _). apply planeW_bounds; [exact V|lia]. }
    pose proof (sumL_nonneg ws NN) as SN. pose proof (valid_bytes _ V) as KB. fold k in KB.
    remember (planeW (vf_fmt s) (vf_w s) i) as w0 eqn:W0E. remember (planeH (vf_fmt s) (vf_h s) i) as hh eqn:HHE.
    fold k in P3. assert (S0 : 0 <= S) by nia. assert (0 <= p_stride p) by nia.
    cbn [fold_left]. unfold vStep at 2. cbn [obind]. rewrite Ep.
    rewrite getHeight_planeH, getWidth_planeW by exact V. rewrite <- W0E, <- HHE. cbv zeta. fold S. fold k.
    assert (K0 : 0 <= c0 * k /\ 0 <= w0 * k /\ c0 * k + w0 * k <= S) by nia.
    destruct (bitblt_spec m (c0 * k) S (p_buf p) 0 (p_stride p) (w0 * k) hh) as (m1 & E1 & A1 & A2 & A3);
      [lia | lia | lia | intros y Y; split; nia | intros y Y; rewrite P4; split; nia |].
    rewrite E1. cbn [obind]. replace (c0 * k + w0 * k) with ((c0 + w0) * k) by ring.
    destruct (IH (c0 + w0) m1 F' ltac:(lia)) as (m' & E2 & B1 & B2 & B3).
    { cbv zeta. fold k. replace (c0 + w0 + sumL ws) with (c0 + (w0 + sumL ws)) by ring. exact CW. }
    { rewrite A1. exact SZ. }
    cbv zeta in E2, B2, B3. fold k in E2, B2, B3. rewrite <- ?WSE in *.
    exists m'. split; [replace (c0 + (w0 + sumL ws)) with (c0 + w0 + sumL ws) by ring; exact E2|].
    split; [lia|]. split.
    + intros y b Y B. rewrite B2 by lia. apply A3. intros y' j Y' J Q.
      assert (Q' : y * S + b = y' * S + (c0 * k + j)) by lia.
      destruct (rows_apart S S y y' b (c0 * k + j)) as (_ & Q2); [lia | lia | lia | exact Q' |]. lia.
    + intros j s' p' Ej Ep' y b Y B. destruct j as [|j].
      * cbn [nth_error] in Ej. injection Ej as <-. rewrite Ep in Ep'. injection Ep' as <-.
        cbn [firstn]. change (sumL []) with 0. rewrite <- W0E in B.
        replace (y * S + (c0 + 0) * k + b) with (y * S + (c0 * k + b)) by ring. rewrite B2 by lia.
        replace (y * S + (c0 * k + b)) with (c0 * k + y * S + b) by ring. rewrite A2 by lia. f_equal.
      * cbn [nth_error] in Ej. cbn [firstn]. rewrite sumL_cons.
        replace (c0 + (w0 + sumL (firstn j ws))) with (c0 + w0 + sumL (firstn j ws)) by ring.
        apply (B3 j s' p' Ej Ep' y b Y B).
Qed.

(** ** Frames *)

(** The frames of the clips, in order. *)
Definition matches (s : vframe) (vi : vinfo) : Prop :=
  vf_fmt s = vi_fmt vi /\ vf_w s = vi_w vi /\ vf_h s = vi_h vi.

(** The parts of a stacked plane. *)
Definition partsOf (srcs : list vframe) (i : Z) (parts : list image) : Prop :=
  Forall2 (fun s a => planeImg s i = Some a) srcs parts.

Lemma partsOf_exists : forall al f srcs i, isAl al -> Forall (fun s => wfFrame al s /\ vf_fmt s = f) srcs ->
  0 <= i < f_np f ->
  exists parts, partsOf srcs i parts /\
    map i_h parts = map (fun s => planeH f (vf_h s) i) srcs /\
    map i_w parts = map (fun s => planeW f (vf_w s) i) srcs.
Proof.
  intros al f srcs i A F I. induction F as [|s srcs (Ws & Fs) F IH].
  - exists []. split; [constructor|]. split; reflexivity.
  - destruct IH as (parts & P & H & W). subst f.
    destruct (wf_plane al s i A Ws I) as (p & Ep & _).
    exists (imageOf (f_bytes (vf_fmt s)) p (planeW (vf_fmt s) (vf_w s) i) (planeH (vf_fmt s) (vf_h s) i) :: parts).
    split; [constructor; [unfold planeImg; rewrite Ep; reflexivity | exact P]|].
    cbn [map imageOf i_w i_h]. rewrite H, W. split; reflexivity.
Qed.

Lemma partsOf_nth : forall srcs i parts j a, partsOf srcs i parts -> nth_error parts j = Some a ->
  exists s, nth_error srcs j = Some s /\ planeImg s i = Some a.
Proof.
  intros srcs i parts j a P. revert j. induction P as [|s x srcs parts E P IH]; intros j Ej.
  - destruct j; discriminate.
  - destruct j; cbn [nth_error] in *.
    + injection Ej as <-. exists s. auto.
    + apply IH. exact Ej.
Qed.

Lemma firstn_map_i : forall (A B : Type) (g : A -> B) n l, firstn n (map g l) = map g (firstn n l).
Proof. intros A B g n l. revert n. induction l; intros [|n]; cbn; congruence. Qed.

Lemma sum_planeH : forall f i l, fmt_valid f -> Forall (fun h => (2 ^ f_ssh f | h)) l ->
  planeH f (sumL l) i = sumL (map (fun h => planeH f h i) l).
Proof.
  intros f i l V. induction 1 as [|h l D F IH].
  - cbn. unfold planeH. destruct (i =? 0); [reflexivity|]. apply Z.div_0_l.
    pose proof (valid_ss f V). pose proof (pow_ss (f_ssh f) ltac:(lia)). lia.
  - cbn [map]. rewrite !sumL_cons, planeH_add by assumption. rewrite IH. reflexivity.
Qed.
Lemma sum_planeW : forall f i l, fmt_valid f -> Forall (fun h => (2 ^ f_ssw f | h)) l ->
  planeW f (sumL l) i = sumL (map (fun h => planeW f h i) l).
Proof.
  intros f i l V. induction 1 as [|h l D F IH].
  - cbn. unfold planeW. destruct (i =? 0); [reflexivity|]. apply Z.div_0_l.
    pose proof (valid_ss f V). pose proof (pow_ss (f_ssw f) ltac:(lia)). lia.
  - cbn [map]. rewrite !sumL_cons, planeW_add by assumption. rewrite IH. reflexivity.
Qed.

Lemma stackPlaneV : forall al f w srcs i q total, isAl al -> fmt_valid f -> 1 <= w -> 0 <= i < f_np f ->
  Forall (fun s => wfFrame al s /\ vf_fmt s = f /\ vf_w s = w) srcs ->
  Forall (fun s => (2 ^ f_ssh f | vf_h s)) srcs ->
  p_stride q = strideOf al f w i -> total = sumL (map vf_h srcs) ->
  b_size (p_buf q) = p_stride q * planeH f total i ->
  exists b parts, stackPlane true f srcs i q = Ok b /\ b_size b = b_size (p_buf q) /\ partsOf srcs i parts /\
    stackedV parts (imageOf (f_bytes f) (mkPl (p_stride q) b) (planeW f w i) (planeH f total i)).
Proof.
  intros al f w srcs i q total A V W I F D QS TE SZ.
  assert (HT : planeH f total i = sumL (map (fun s => planeH f (vf_h s) i) srcs)).
  { rewrite TE, sum_planeH; [|exact V|apply Forall_map; exact D]. rewrite map_map. reflexivity. }
  destruct (foldV al f w i q A V W I QS srcs 0 (p_buf q) F ltac:(lia)) as (m & E & M1 & _ & M3).
  { cbv zeta. rewrite SZ, HT. lia. }
  cbv zeta in E, M3. rewrite Z.mul_0_r in E.
  destruct (partsOf_exists al f srcs i A) as (parts & P & PH & PW); [|exact I|].
  { eapply Forall_impl; [|exact F]. cbn. tauto. }
  exists m, parts. rewrite stackPlane_fold, E. cbn [obind snd]. split; [reflexivity|]. split; [exact M1|].
  split; [exact P|]. split.
  - cbn [imageOf i_h]. rewrite PH. exact HT.
  - intros j a Ej. destruct (partsOf_nth _ _ _ _ _ P Ej) as (s & Es & Ea).
    pose proof (nth_error_In _ _ Es) as In_s. rewrite Forall_forall in F. destruct (F s In_s) as (Ws & Fs & Xs).
    destruct (wf_plane al s i A Ws ltac:(rewrite Fs; exact I)) as (p & Ep & P1 & P2 & P3 & P4).
    unfold planeImg in Ea. rewrite Ep in Ea. injection Ea as <-. rewrite Fs, Xs in *.
    destruct Ws as (_ & _ & _ & _ & PS). destruct (PS i p Ep) as (PS1 & _). rewrite Fs, Xs in PS1.
    cbn [imageOf i_w i_h]. split; [reflexivity|]. split; [reflexivity|]. split; [reflexivity|].
    cbn [crop i_w i_h i_at p_stride p_buf]. intros x y X Y. pose proof (valid_bytes f V) as KB.
    apply sample_ext; [lia|]. intros b B.
    rewrite <- firstn_map_i, PH. cbn [p_stride p_buf]. specialize (M3 j s p Es Ep y (x * f_bytes f + b) Y).
    replace ((sumL (firstn j (map (fun s0 => planeH f (vf_h s0) i) srcs)) + y) * p_stride q + (0 + x) * f_bytes f + b)
      with (p_stride q * (0 + sumL (firstn j (map (fun s0 => planeH f (vf_h s0) i) srcs)) + y) + (x * f_bytes f + b)) by ring.
    rewrite M3.
    + f_equal. rewrite PS1, <- QS. ring.
    + split; [nia|]. rewrite QS, <- PS1. nia.
Qed.

Lemma stackPlaneH : forall al f h srcs i q total, isAl al -> fmt_valid f -> 1 <= h -> 0 <= i < f_np f ->
  Forall (fun s => wfFrame al s /\ vf_fmt s = f /\ vf_h s = h) srcs ->
  Forall (fun s => (2 ^ f_ssw f | vf_w s)) srcs -> 0 <= total ->
  p_stride q = strideOf al f total i -> total = sumL (map vf_w srcs) ->
  b_size (p_buf q) = p_stride q * planeH f h i ->
  exists b parts, stackPlane false f srcs i q = Ok b /\ b_size b = b_size (p_buf q) /\ partsOf srcs i parts /\
    stackedH parts (imageOf (f_bytes f) (mkPl (p_stride q) b) (planeW f total i) (planeH f h i)).
Proof.
  intros al f h srcs i q total A V H I F D T0 QS TE SZ.
  assert (HT : planeW f total i = sumL (map (fun s => planeW f (vf_w s) i) srcs)).
  { rewrite TE, sum_planeW; [|exact V|apply Forall_map; exact D]. rewrite map_map. reflexivity. }
  destruct (foldH al f h i q A V H I srcs 0 (p_buf q) F ltac:(lia)) as (m & E & M1 & _ & M3).
  { cbv zeta. rewrite Z.add_0_l, <- HT, QS. apply stride_row; assumption. }
  { rewrite SZ. lia. }
  cbv zeta in E, M3. rewrite Z.mul_0_l in E.
  destruct (partsOf_exists al f srcs i A) as (parts & P & PH & PW); [|exact I|].
  { eapply Forall_impl; [|exact F]. cbn. tauto. }
  exists m, parts. rewrite stackPlane_fold, E. cbn [obind snd]. split; [reflexivity|]. split; [exact M1|].
  split; [exact P|]. split.
  - cbn [imageOf i_w]. rewrite PW. exact HT.
  - intros j a Ej. destruct (partsOf_nth _ _ _ _ _ P Ej) as (s & Es & Ea).
    pose proof (nth_error_In _ _ Es) as In_s. rewrite Forall_forall in F. destruct (F s In_s) as (Ws & Fs & Xs).
    destruct (wf_plane al s i A Ws ltac:(rewrite Fs; exact I)) as (p & Ep & P1 & P2 & P3 & P4).
    unfold planeImg in Ea. rewrite Ep in Ea. injection Ea as <-. rewrite Fs, Xs in *.
    cbn [imageOf i_w i_h]. split; [reflexivity|]. split; [reflexivity|]. split; [reflexivity|].
    cbn [crop i_w i_h i_at p_stride p_buf]. intros x y X Y. pose proof (valid_bytes f V) as KB.
    apply sample_ext; [lia|]. intros b B.
    rewrite <- firstn_map_i, PW. cbn [p_stride p_buf]. specialize (M3 j s p Es Ep y (x * f_bytes f + b) Y).
    replace ((0 + y) * p_stride q + (sumL (firstn j (map (fun s0 => planeW f (vf_w s0) i) srcs)) + x) * f_bytes f + b)
      with (y * p_stride q + (0 + sumL (firstn j (map (fun s0 => planeW f (vf_w s0) i) srcs))) * f_bytes f + (x * f_bytes f + b)) by ring.
    rewrite M3 by nia. f_equal. ring.
Qed.

(** Every plane of the result consists of the planes of the sources. *)
Definition stackedFrames (st : list image -> image -> Prop) (srcs : list vframe) (r : vframe) : Prop :=
  forall i, 0 <= i < f_np (vf_fmt r) -> exists parts out,
    partsOf srcs i parts /\ planeImg r i = Some out /\ st parts out.

Lemma stack_assemble : forall al g vertical vi first rest (st : list image -> image -> Prop), isAl al -> okInfo vi ->
  (forall i q, 0 <= i < f_np (vi_fmt vi) ->
     p_stride q = strideOf al (vi_fmt vi) (vi_w vi) i -> b_size (p_buf q) = p_stride q * planeH (vi_fmt vi) (vi_h vi) i ->
     exists b parts, stackPlane vertical (vi_fmt vi) (first :: rest) i q = Ok b /\ b_size b = b_size (p_buf q) /\
       partsOf (first :: rest) i parts /\
       st parts (imageOf (f_bytes (vi_fmt vi)) (mkPl (p_stride q) b) (planeW (vi_fmt vi) (vi_w vi) i) (planeH (vi_fmt vi) (vi_h vi) i))) ->
  exists r, stackGetFrame al g vertical vi (first :: rest) = Ok r /\ wfFrame al r /\
    vf_fmt r = vi_fmt vi /\ vf_w r = vi_w vi /\ vf_h r = vi_h vi /\ vf_props r = vf_props first /\
    stackedFrames st (first :: rest) r.
Proof.
  intros al g vertical vi first rest st A (V & W & H) HP. unfold stackGetFrame.
  destruct (newFrame_spec al g (vi_fmt vi) (vi_w vi) (vi_h vi) (vf_props first) A V W H)
    as (dst & En & WD & G1 & G2 & G3 & G4).
  rewrite En. cbn [obind].
  destruct (eachPlane_spec (fun i pl =>
      p_stride pl = strideOf al (vi_fmt vi) (vi_w vi) i /\
      b_size (p_buf pl) = p_stride pl * planeH (vi_fmt vi) (vi_h vi) i /\
      exists parts, partsOf (first :: rest) i parts /\
       st parts (imageOf (f_bytes (vi_fmt vi)) pl (planeW (vi_fmt vi) (vi_w vi) i) (planeH (vi_fmt vi) (vi_h vi) i)))
      (fun i => match nthz (vf_planes dst) i with
                 | Some q => obind (stackPlane vertical (vi_fmt vi) (first :: rest) i q) (fun b => Ok (mkPl (p_stride q) b))
                 | None => UB
                 end) (Z.to_nat (f_np (vi_fmt vi))) 0) as (l & E & L & P).
  - intros i I. destruct (wf_plane al dst i A WD ltac:(rewrite G1; lia)) as (q & Eq & Wq). rewrite Eq.
    destruct WD as (_ & _ & _ & _ & PD). destruct (PD i q Eq) as (Pq & Pq'). rewrite G1, G2 in Pq. rewrite G1, G3 in Pq'.
    destruct (HP i q ltac:(lia) Pq Pq') as (b & parts & Eb & Sb & Pb & Stb).
    rewrite Eb. cbn [obind]. eexists. split; [reflexivity|]. cbn [p_stride p_buf].
    split; [exact Pq|]. split; [congruence|]. exists parts. auto.
  - rewrite E. cbn [obind]. eexists. split; [reflexivity|]. cbn [vf_fmt vf_w vf_h vf_props vf_planes].
    pose proof (valid_np _ V). assert (ZL : zlength l = f_np (vi_fmt vi)) by (unfold zlength; lia).
    split; [|split; [exact G1|split; [exact G2|split; [exact G3|split; [exact G4|]]]]].
    + split; cbn [vf_fmt vf_w vf_h vf_planes]; rewrite ?G1, ?G2, ?G3; [exact V|]. split; [lia|]. split; [lia|].
      split; [exact ZL|]. intros i p Ip. destruct (P i p Ip) as (P1 & P2 & _). rewrite Z.add_0_l in *. auto.
    + intros i I. cbn [vf_fmt vf_w vf_h vf_planes] in I. rewrite G1 in I.
      destruct (nthz l i) as [pl|] eqn:Ei.
      * destruct (P i pl Ei) as (P1 & P2 & parts & Pp & Sp). rewrite Z.add_0_l in *.
        unfold planeImg. cbn [vf_fmt vf_w vf_h vf_planes]. rewrite Ei, G1, G2, G3.
        exists parts. eexists. split; [exact Pp|]. split; [reflexivity|]. exact Sp.
      * apply nthz_None_iff in Ei. lia.
Qed.

Lemma matches_map : forall (fld : vinfo -> Z) (gld : vframe -> Z) srcs vis,
  (forall s v, matches s v -> gld s = fld v) -> Forall2 matches srcs vis -> map gld srcs = map fld vis.
Proof. intros fld gld srcs vis H F. induction F; cbn [map]; [reflexivity|]. rewrite IHF, (H _ _ H0). reflexivity. Qed.

Lemma stackV_frame : forall al g v rest vi srcs, isAl al ->
  Forall (fun x => fmt_valid (vi_fmt x)) (v :: rest) -> 1 <= vi_w v -> 1 <= vi_h v ->
  stackCreate true (v :: rest) = Ok vi ->
  Forall2 matches srcs (v :: rest) -> Forall (wfFrame al) srcs ->
  Forall (fun x => (2 ^ f_ssh (vi_fmt v) | vi_h x)) (v :: rest) ->
  exists r, stackGetFrame al g true vi srcs = Ok r /\ wfFrame al r /\
    vf_fmt r = vi_fmt v /\ vf_w r = vi_w v /\ vf_h r = sumL (map vi_h (v :: rest)) /\
    stackedFrames stackedV srcs r.
Proof.
  intros al g v rest vi srcs A F W1 H1 C M WF D.
  destruct (stackV_inv rest v vi F C) as (I1 & I2 & I3 & I4 & _ & _).
  inversion M as [|s ? srest ? Ms Mr]; subst.
  assert (V : fmt_valid (vi_fmt v)) by (inversion F; assumption).
  assert (ALL : Forall (fun s => wfFrame al s /\ vf_fmt s = vi_fmt v /\ vf_w s = vi_w v) (s :: srest)).
  { constructor.
    - inversion WF; subst. destruct Ms as (M1 & M2 & _). auto.
    - inversion WF as [|? ? _ WF']; subst. clear - I4 Mr WF'. revert I4 WF'. induction Mr as [|a b la lb Mab Mr IH]; intros I4 WF'; [constructor|].
      inversion I4 as [|? ? (X1 & X2 & _) X3]; subst. inversion WF'; subst. constructor; [|auto].
      destruct Mab as (N1 & N2 & _). split; [assumption|]. split; congruence. }
  assert (SH : map vf_h (s :: srest) = map vi_h (v :: rest)).
  { apply matches_map; [intros ? ? (_ & _ & Q); exact Q | exact M]. }
  assert (DS : Forall (fun s0 => (2 ^ f_ssh (vi_fmt v) | vf_h s0)) (s :: srest)).
  { apply (Forall_map vf_h (fun h => (2 ^ f_ssh (vi_fmt v) | h))). rewrite SH. apply Forall_map. exact D. }
  assert (VH : vi_h vi = sumL (map vi_h (v :: rest))) by (cbn [map]; rewrite sumL_cons; lia).
  assert (NNR : 0 <= sumL (map vi_h rest)).
  { apply sumL_nonneg. apply Forall_map. eapply Forall_impl; [|exact I4]. cbn. intros x Q. lia. }
  destruct (stack_assemble al g true vi s srest stackedV A) as (r & E & WR & R1 & R2 & R3 & R4 & R5).
  { split; [rewrite I1; exact V|]. split; [lia|]. lia. }
  { intros i q I Q1 Q2. rewrite I1, I2 in *.
    apply (stackPlaneV al (vi_fmt v) (vi_w v) (s :: srest) i q (vi_h vi)); auto. rewrite SH. exact VH. }
  exists r. split; [exact E|]. split; [exact WR|]. split; [congruence|]. split; [congruence|]. split; [congruence|]. exact R5.
Qed.

Lemma stackH_frame : forall al g v rest vi srcs, isAl al ->
  Forall (fun x => fmt_valid (vi_fmt x)) (v :: rest) -> 1 <= vi_w v -> 1 <= vi_h v ->
  stackCreate false (v :: rest) = Ok vi ->
  Forall2 matches srcs (v :: rest) -> Forall (wfFrame al) srcs ->
  Forall (fun x => (2 ^ f_ssw (vi_fmt v) | vi_w x)) (v :: rest) ->
  exists r, stackGetFrame al g false vi srcs = Ok r /\ wfFrame al r /\
    vf_fmt r = vi_fmt v /\ vf_w r = sumL (map vi_w (v :: rest)) /\ vf_h r = vi_h v /\
    stackedFrames stackedH srcs r.
Proof.
  intros al g v rest vi srcs A F W1 H1 C M WF D.
  destruct (stackH_inv rest v vi F C) as (I1 & I2 & I3 & I4 & _ & _).
  inversion M as [|s ? srest ? Ms Mr]; subst.
  assert (V : fmt_valid (vi_fmt v)) by (inversion F; assumption).
  assert (ALL : Forall (fun s => wfFrame al s /\ vf_fmt s = vi_fmt v /\ vf_h s = vi_h v) (s :: srest)).
  { constructor.
    - inversion WF; subst. destruct Ms as (M1 & _ & M2). auto.
    - inversion WF as [|? ? _ WF']; subst. clear - I4 Mr WF'. revert I4 WF'. induction Mr as [|a b la lb Mab Mr IH]; intros I4 WF'; [constructor|].
      inversion I4 as [|? ? (X1 & X2 & _) X3]; subst. inversion WF'; subst. constructor; [|auto].
      destruct Mab as (N1 & _ & N2). split; [assumption|]. split; congruence. }
  assert (SH : map vf_w (s :: srest) = map vi_w (v :: rest)).
  { apply matches_map; [intros ? ? (_ & Q & _); exact Q | exact M]. }
  assert (DS : Forall (fun s0 => (2 ^ f_ssw (vi_fmt v) | vf_w s0)) (s :: srest)).
  { apply (Forall_map vf_w (fun h => (2 ^ f_ssw (vi_fmt v) | h))). rewrite SH. apply Forall_map. exact D. }
  assert (VH : vi_w vi = sumL (map vi_w (v :: rest))) by (cbn [map]; rewrite sumL_cons; lia).
  assert (NNR : 0 <= sumL (map vi_w rest)).
  { apply sumL_nonneg. apply Forall_map. eapply Forall_impl; [|exact I4]. cbn. intros x Q. lia. }
  destruct (stack_assemble al g false vi s srest stackedH A) as (r & E & WR & R1 & R2 & R3 & R4 & R5).
  { split; [rewrite I1; exact V|]. split; [lia|]. lia. }
  { intros i q I Q1 Q2. rewrite I1, I2 in *.
    apply (stackPlaneH al (vi_fmt v) (vi_h v) (s :: srest) i q (vi_w vi)); auto; [lia|]. rewrite SH. exact VH. }
  exists r. split; [exact E|]. split; [exact WR|]. split; [congruence|]. split; [congruence|]. split; [congruence|]. exact R5.
Qed.

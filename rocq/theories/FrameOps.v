(** Every frame operation keeps the ownership invariant; what it does to contents. *)
From Coq Require Import ZArith List Lia Bool.
From Verif Require Import Common Sums Memory MemoryLemmas FormatSpec FrameSpec Frame FrameLemmas FrameGeom.
Import ListNotations.
Open Scope Z_scope.

Lemma obind_ok : forall A B (o : outcome A) (f : A -> outcome B) b, obind o f = Ok b -> exists a, o = Ok a /\ f a = Ok b.
Proof. intros A B o f b H. destruct o; try discriminate. eauto. Qed.

Lemma mul64_inv : forall a b c, mul64 a b = Ok c -> c = a * b.
Proof. intros a b c. unfold mul64. destruct (in_int64b (a * b)); congruence. Qed.

(** What the loop over the plane sources does. *)
Inductive shared (al : Z) (s s' : fst_) (f : vfmt) (w h : Z) : Z -> list (option (nat * Z)) -> list nat -> Prop :=
| sh_nil : forall i, shared al s s' f w h i [] []
| sh_src : forall i g k rest l p fr f' w' h',
    frames s g = Some fr -> fr_kind fr = Video f' w' h' -> 0 <= k < f_np f' ->
    getHeight f' h' k = getHeight f h i -> getWidth f' w' k = getWidth f w i ->
    nthz (fr_data fr) k = Some p ->
    shared al s s' f w h (i + 1) rest l -> shared al s s' f w h i (Some (g, k) :: rest) (p :: l)
| sh_new : forall i rest l p,
    pdat s' p = Some (planeBytes al (Video f w h) i, fun _ => None) ->
    shared al s s' f w h (i + 1) rest l -> shared al s s' f w h i (None :: rest) (p :: l).

Lemma shared_ext : forall al s t s' f w h i src l, frames s = frames t ->
  shared al s s' f w h i src l -> shared al t s' f w h i src l.
Proof.
  intros al s t s' f w h i src l E H. induction H.
  - constructor.
  - rewrite E in H. econstructor; eauto.
  - econstructor; eauto.
Qed.

Lemma shared_ext2 : forall al s s' s'' f w h i src l, (forall p, pdat s'' p = pdat s' p) ->
  shared al s s' f w h i src l -> shared al s s'' f w h i src l.
Proof.
  intros al s t s' f w h i src l E H. induction H.
  - constructor.
  - econstructor; eauto.
  - constructor; [|auto]. rewrite E. auto.
Qed.

Lemma shared_length : forall al s s' f w h i src l, shared al s s' f w h i src l -> zlength l = zlength src.
Proof. intros until 1. induction H; rewrite ?zlength_cons; [reflexivity|lia|lia]. Qed.

Lemma newPlane_size_ok : forall al f w h i c, isAl al -> fmt_valid f -> 0 < w -> 0 < h -> 0 <= i ->
  (if i =? 0 then mul64 (stride0 al f w) h else mul64 (stride12 al f w) (Z.shiftr h (f_ssh f))) = Ok c ->
  c = planeBytes al (Video f w h) i /\ 0 <= c.
Proof.
  intros al f w h i c A V W H Hi E.
  pose proof (planeBytes_bounds al f w h i (isAl_pos _ A) V W H) as (B & _).
  destruct (Z.eqb_spec i 0) as [->|N]; apply mul64_inv in E.
  - rewrite (stride0_spec al f w A V) in E by lia. subst c. split; [|exact B]. reflexivity.
  - rewrite (stride12_spec al f w i A V) in E by lia.
    pose proof (getHeight_planeH f h i V) as G. unfold getHeight in G. pose proof N as N'. apply Z.eqb_neq in N'. rewrite N' in G.
    rewrite G in E. subst c. split; [|exact B]. reflexivity.
Qed.

Lemma sharePlanes_ok : forall al f w h, isAl al -> fmt_valid f -> 0 < w -> 0 < h ->
  forall src s e i s' l, inv s e -> (forall q, 0 <= e q) -> core s = true -> 0 <= i ->
  sharePlanes al s f w h i src = Ok (s', l) ->
  inv s' (fun q => e q + cntl q l) /\ keepsF s s' /\
  (forall q, 0 < cntP s q + e q -> pdat s' q = pdat s q) /\ shared al s s' f w h i src l.
Proof.
  intros al f w h A V W H. induction src as [|o rest IH]; intros s e i s' l I En C Hi E; cbn [sharePlanes] in E.
  - injection E as <- <-. split; [eapply inv_ext; [exact I|]; intro q; unfold cntl; cbn; lia|].
    split; [apply keepsF_refl|]. split; [auto|constructor].
  - apply obind_ok in E. destruct E as ((s1 & p) & E1 & E2). cbn [fst snd] in E2.
    apply obind_ok in E2. destruct E2 as ((s2 & l2) & E2 & E3). cbn [fst snd] in E3. injection E3 as <- <-.
    assert (X : inv s1 (fun q => e q + d q p) /\ keepsF s s1 /\
                (forall q, 0 < cntP s q + e q -> pdat s1 q = pdat s q) /\
                (match o with
                 | Some (g, k) => exists fr f' w' h',
                     frames s g = Some fr /\ fr_kind fr = Video f' w' h' /\ 0 <= k < f_np f' /\
                     getHeight f' h' k = getHeight f h i /\ getWidth f' w' k = getWidth f w i /\
                     nthz (fr_data fr) k = Some p
                 | None => pdat s1 p = Some (planeBytes al (Video f w h) i, fun _ => None)
                 end)).
    { destruct o as [(g, k)|].
      - destruct (frames s g) as [[r kd st data]|] eqn:Hf; [|discriminate].
        destruct kd as [f' w' h'|]; [|discriminate].
        destruct ((k <? 0) || (f_np f' <=? k)) eqn:K; [discriminate|].
        destruct (negb (getHeight f' h' k =? getHeight f h i) || negb (getWidth f' w' k =? getWidth f w i)) eqn:G; [discriminate|].
        destruct (nthz data k) as [q|] eqn:Hq; [|discriminate].
        apply obind_ok in E1. destruct E1 as (s1' & E1 & E1'). injection E1' as -> ->.
        unfold addrefP in E1. destruct (planes s p) as [x|] eqn:Hx; [|discriminate].
        destruct (addrefP_ok s e p x I Hx) as (s1'' & Ea & I1 & K1 & P1 & _).
        unfold addrefP in Ea. rewrite Hx in Ea. rewrite E1 in Ea. injection Ea as <-.
        split; [exact I1|]. split; [exact K1|]. split; [intros; apply P1|].
        exists (mkF r (Video f' w' h') st data), f', w', h'.
        apply orb_false_iff in K. apply orb_false_iff in G. rewrite !negb_false_iff in G.
        split; [reflexivity|]. split; [reflexivity|]. split; [lia|]. split; [lia|]. split; [lia|exact Hq].
      - assert (E1' : obind (if i =? 0 then mul64 (stride0 al f w) h
                             else mul64 (stride12 al f w) (Z.shiftr h (f_ssh f))) (newPlane s) = Ok (s1, p))
          by (destruct (i =? 0); exact E1).
        apply obind_ok in E1'. destruct E1' as (c & Ec & En1).
        destruct (newPlane_size_ok al f w h i c A V W H Hi Ec) as (-> & Hc).
        destruct (newPlane_ok s e _ I (core_not_deleted _ _ I C) Hc) as (s1'' & Ea & I1 & K1 & P1 & P1' & P2 & _).
        rewrite En1 in Ea. injection Ea as <- ->.
        split; [exact I1|]. split; [exact K1|]. split; [|exact P1].
        intros q Hq. apply P2. intros ->. pose proof (iP _ _ I (nP s)) as Z0.
        rewrite (iPn _ _ I (nP s) (le_n _)) in Z0. lia. }
    destruct X as (I1 & K1 & P1 & X).
    assert (C1 : core s1 = true) by (destruct K1 as (_ & _ & ->); exact C).
    destruct (IH s1 _ (i + 1) s2 l2 I1) as (I2 & K2 & P2 & S2); auto.
    { intro q. pose proof (d_nonneg q p). specialize (En q). lia. }
    { lia. }
    split; [eapply inv_ext; [exact I2|]; intro q; cbn beta; rewrite cntl_cons; lia|].
    split; [eapply keepsF_trans; eauto|].
    split.
    + intros q Hq. rewrite P2.
      * apply P1; exact Hq.
      * rewrite (keepsF_cntP _ _ _ K1). pose proof (d_nonneg q p). lia.
    + assert (S3 : shared al s s2 f w h (i + 1) rest l2).
      { eapply shared_ext; [|exact S2]. apply K1. }
      destruct o as [(g, k)|].
      * destruct X as (fr & f' & w' & h' & X1 & X2 & X3 & X4 & X5 & X6). econstructor; eauto.
      * constructor; [|exact S3]. rewrite P2; [exact X|].
        rewrite d_same. pose proof (cntP_nonneg s1 p). specialize (En p). lia.
Qed.

(** The plain constructor is the sharing one without sources. *)
Lemma newVideo_newVideo2 : forall al s f w h, fmt_valid f ->
  newVideoFrame al s f w h = newVideoFrame2 al s f w h (repeat None (Z.to_nat (f_np f))).
Proof.
  intros al s f w h V. unfold newVideoFrame, newVideoFrame2.
  destruct (core s); [cbn [negb]|reflexivity].
  destruct ((w <=? 0) || (h <=? 0)); [reflexivity|].
  assert (L : zlength (repeat (@None (nat * Z)) (Z.to_nat (f_np f))) = f_np f).
  { unfold zlength. rewrite repeat_length. destruct (valid_np f V); lia. }
  rewrite L, Z.eqb_refl. cbn [negb].
  destruct (valid_np f V) as [N|N]; rewrite N.
  - change (Z.to_nat 1) with 1%nat. cbn [repeat sharePlanes Z.eqb negb andb].
    destruct (mul64 (stride0 al f w) h) as [c| |]; cbn [obind]; try reflexivity.
    destruct (newPlane s c) as [(s1, p1)| |]; cbn [obind fst snd]; reflexivity.
  - change (Z.to_nat 3) with 3%nat. cbn [repeat sharePlanes Z.eqb negb andb].
    destruct (mul64 (stride0 al f w) h) as [c| |]; cbn [obind]; try reflexivity.
    destruct (newPlane s c) as [(s1, p1)| |]; cbn [obind fst snd]; try reflexivity.
    change (0 + 1 =? 0) with false. change (0 + 1 + 1 =? 0) with false. cbn iota.
    destruct (mul64 (stride12 al f w) (Z.shiftr h (f_ssh f))) as [c2| |]; cbn [obind]; try reflexivity.
    destruct (newPlane s1 c2) as [(s2, p2)| |]; cbn [obind fst snd]; try reflexivity.
    destruct (newPlane s2 c2) as [(s3, p3)| |]; cbn [obind fst snd]; reflexivity.
Qed.

Definition others (s s' : fst_) (g : nat) : Prop :=
  forall q, 0 < cntP s q -> pdat s' q = pdat s q.

Lemma newVideo2_ok : forall al s f w h src s' g, isAl al -> fmt_valid f -> inv s zero ->
  newVideoFrame2 al s f w h src = Ok (s', g) ->
  exists l, core s = true /\ 0 < w /\ 0 < h /\ g = nF s /\ nF s' = S (nF s) /\ core s' = core s /\
    frames s' = fset (frames s) (nF s) (Some (mkF 1 (Video f w h) (strides al f w) l)) /\
    inv s' zero /\ (forall q, 0 < cntP s q -> pdat s' q = pdat s q) /\
    zlength src = f_np f /\ shared al s s' f w h 0 src l.
Proof.
  intros al s f w h src s' g A V I E. unfold newVideoFrame2 in E.
  destruct (core s) eqn:C; [cbn [negb] in E|discriminate].
  destruct ((w <=? 0) || (h <=? 0)) eqn:WH; [discriminate|]. apply orb_false_iff in WH.
  destruct (zlength src =? f_np f) eqn:L; [cbn [negb] in E|discriminate].
  destruct (negb (f_np f =? 3) && negb (f_np f =? 1)); [discriminate|].
  apply obind_ok in E. destruct E as ((s1 & l) & E1 & E2). cbn [fst snd] in E2. injection E2 as <- <-.
  destruct (sharePlanes_ok al f w h A V ltac:(lia) ltac:(lia) src s zero 0 s1 l I) as (I1 & (K1 & K2 & K3) & P1 & S1); auto.
  { intro; unfold zero; lia. } { lia. }
  exists l. cbn [nF frames core]. rewrite K1, K2, K3, C.
  split; [reflexivity|]. split; [lia|]. split; [lia|]. do 4 (split; [reflexivity|]).
  split; [|split; [|split; [lia|]]].
  - apply (inv_ext _ zero zero); [|auto].
    pose proof (addFrame_ok s1 _ (mkF 1 (Video f w h) (strides al f w) l) zero I1) as Z1.
    cbn [addFrame fst] in Z1. rewrite K1, K2, K3, C in Z1. apply Z1; [cbn; lia|].
    intro p. cbn [fr_data]. unfold zero. lia.
  - intros q Hq. rewrite <- (P1 q); [reflexivity|]. unfold zero. lia.
  - eapply shared_ext2; [|exact S1]. reflexivity.
Qed.

(** *** Audio *)
Definition chanOf (s : fst_) (o : option (nat * Z)) (off : Z) (dflt : option Z) : option Z :=
  match o with
  | Some (g, k) =>
      match frames s g with
      | Some fr => match fr_data fr, fr_stride fr with
                   | q :: _, t :: _ => match pdat s q with Some (_, y) => y (k * t + off) | None => None end
                   | _, _ => None
                   end
      | None => None
      end
  | None => dflt
  end.

Lemma copyBytes_ok : forall s e p x q y doff soff len s', inv s e -> planes s p = Some x -> planes s q = Some y ->
  copyBytes s p doff q soff len = Ok s' ->
  inv s' e /\ keepsF s s' /\ (forall r, r <> p -> pdat s' r = pdat s r) /\
  pdat s' p = Some (p_size x, fun o => if (doff <=? o) && (o <? doff + len) then p_data y (o - doff + soff) else p_data x o) /\
  0 <= doff /\ doff + len <= p_size x /\ 0 <= soff /\ soff + len <= p_size y.
Proof.
  intros s e p x q y doff soff len s' I Hp Hq E. unfold copyBytes in E. rewrite Hp, Hq in E.
  destruct ((0 <=? doff) && (doff + len <=? p_size x) && (0 <=? soff) && (soff + len <=? p_size y)) eqn:B; [|discriminate].
  injection E as <-. rewrite !andb_true_iff in B.
  split; [|split; [repeat split|split; [|split; [|lia]]]].
  - match goal with |- inv (setPlane _ _ (Some ?x')) _ => pose proof (setPlane_ok s e p x x' 0 I Hp) as S0 end.
    cbn [p_blk p_size p_ref] in S0. eapply inv_ext; [apply S0; auto; try lia|intro; cbn beta; lia].
    pose proof (iP _ _ I p) as Z0. rewrite Hp in Z0. lia.
  - intros r Hr. unfold pdat; cbn [setPlane planes]. rewrite fset_other by auto. reflexivity.
  - unfold pdat; cbn [setPlane planes]. rewrite fset_same. reflexivity.
Qed.

Lemma copyChannels_ok : forall a n p, 0 <= n * a_bytes a ->
  forall src s e i s' sz dat, inv s e -> (forall q, 0 <= e q) -> 0 <= i -> cntP s p = 0 ->
  pdat s p = Some (sz, dat) ->
  copyChannels s a n i p src = Ok s' ->
  inv s' e /\ keepsF s s' /\ (forall r, r <> p -> pdat s' r = pdat s r) /\
  exists dat', pdat s' p = Some (sz, dat') /\
    (forall o, o < i * (a_bytes a * AUDIO_FRAME_SAMPLES) -> n * a_bytes a <= a_bytes a * AUDIO_FRAME_SAMPLES -> dat' o = dat o) /\
    (forall j off, n * a_bytes a <= a_bytes a * AUDIO_FRAME_SAMPLES -> 0 <= off < n * a_bytes a -> i <= j < i + zlength src ->
       dat' (j * (a_bytes a * AUDIO_FRAME_SAMPLES) + off) =
       match nthz src (j - i) with
       | Some o => chanOf s o off (dat (j * (a_bytes a * AUDIO_FRAME_SAMPLES) + off))
       | None => None
       end).
Proof.
  intros a n p Nb. set (T := a_bytes a * AUDIO_FRAME_SAMPLES).
  induction src as [|o rest IH]; intros s e i s' sz dat I En Hi Cp Hp E; cbn [copyChannels] in E.
  - injection E as <-. split; [exact I|]. split; [apply keepsF_refl|]. split; [auto|].
    exists dat. split; [exact Hp|]. split; [auto|]. intros j off _ _ Hj. rewrite zlength_nil in Hj. lia.
  - apply obind_ok in E. destruct E as (s1 & E1 & E2). fold T in E1.
    assert (X : inv s1 e /\ keepsF s s1 /\ (forall r, r <> p -> pdat s1 r = pdat s r) /\
       exists dat1, pdat s1 p = Some (sz, dat1) /\
         (forall x, ~ (i * T <= x < i * T + n * a_bytes a) -> dat1 x = dat x) /\
         (forall off, 0 <= off < n * a_bytes a -> dat1 (i * T + off) = chanOf s o off (dat (i * T + off)))).
    { destruct o as [(g, k)|].
      - destruct (frames s g) as [fr|] eqn:Hf; [|discriminate].
        pose proof Hf as Hf0. destruct fr as [r kd st data].
        destruct kd as [|a' n']; [discriminate|].
        destruct ((k <? 0) || (a_nch a' <=? k)) eqn:K; [discriminate|].
        destruct (negb (n' =? n)) eqn:NN; [discriminate|].
        destruct data as [|q data]; [discriminate|]. destruct st as [|t st]; [discriminate|].
        assert (Hqp : q <> p).
        { intros ->. pose proof (cntP_in s e g _ p I Hf0 ltac:(left; reflexivity)). lia. }
        destruct (frame_plane_alive s e g _ q I En Hf0 ltac:(left; reflexivity)) as (y & Hy).
        assert (exists x, planes s p = Some x /\ p_size x = sz /\ p_data x = dat) as (x & Hx & Xs & Xd).
        { unfold pdat in Hp. destruct (planes s p) as [x|]; [|discriminate]. injection Hp as E3 E4. eauto. }
        destruct (copyBytes_ok s e p x q y _ _ _ s1 I Hx Hy E1) as (I1 & K1 & P1 & P2 & B1 & B2 & B3 & B4).
        split; [exact I1|]. split; [exact K1|]. split; [exact P1|].
        eexists. split; [rewrite P2, Xs; reflexivity|]. split.
        + intros z Hz. cbn beta. rewrite Xd.
          destruct ((i * T <=? z) && (z <? i * T + n * a_bytes a)) eqn:Q; [|reflexivity].
          apply andb_true_iff in Q. lia.
        + intros off Ho. cbn beta.
          destruct ((i * T <=? i * T + off) && (i * T + off <? i * T + n * a_bytes a)) eqn:Q;
            [|apply andb_false_iff in Q; lia].
          unfold chanOf. rewrite Hf0. cbn [fr_data fr_stride]. unfold pdat. rewrite Hy. f_equal. lia.
      - injection E1 as <-. split; [exact I|]. split; [apply keepsF_refl|]. split; [auto|].
        exists dat. split; [exact Hp|]. split; [auto|]. intros off Ho. reflexivity. }
    destruct X as (I1 & K1 & P1 & dat1 & D1 & D2 & D3).
    destruct (IH s1 e (i + 1) s' sz dat1 I1 En ltac:(lia)) as (I2 & K2 & P2 & dat2 & G1 & G2 & G3); auto.
    { rewrite (keepsF_cntP _ _ _ K1). exact Cp. }
    split; [exact I2|]. split; [eapply keepsF_trans; eauto|].
    split; [intros r Hr; rewrite P2, P1 by auto; reflexivity|].
    exists dat2. split; [exact G1|]. split.
    + intros z Hz L. rewrite G2 by nia. apply D2. lia.
    + intros j off L Ho Hj. rewrite zlength_cons in Hj.
      destruct (Z.eq_dec j i) as [->|N].
      * replace (i - i) with 0 by lia. rewrite nthz_cons_0. rewrite G2 by nia. apply D3. exact Ho.
      * rewrite G3 by lia. rewrite nthz_cons_S by lia. replace (j - (i + 1)) with (j - i - 1) by lia.
        destruct (nthz rest (j - i - 1)) as [o'|]; [|reflexivity].
        destruct o' as [(g, k)|]; cbn [chanOf].
        -- rewrite (proj1 (proj2 K1)). destruct (frames s g) as [fr|] eqn:Hf; [|reflexivity].
           destruct (fr_data fr) as [|q dd] eqn:Hd; [reflexivity|]. destruct (fr_stride fr) as [|t tt]; [reflexivity|].
           rewrite P1; [reflexivity|]. intros ->.
           pose proof (cntP_in s e g _ p I Hf ltac:(rewrite Hd; left; reflexivity)). lia.
        -- apply D2. nia.
Qed.

Lemma popcount_bounds : forall n x, 0 <= popcount n x <= Z.of_nat n.
Proof.
  induction n; intro x; [cbn; lia|]. cbn [popcount]. specialize (IHn x).
  destruct (Z.testbit x (Z.of_nat n)); lia.
Qed.

Lemma valid_a : forall a, afmt_valid a -> (a_bytes a = 2 \/ a_bytes a = 4) /\ 0 <= a_nch a <= 64.
Proof.
  intros a (_ & B & _ & N). split; [lia|]. rewrite N. apply (popcount_bounds 64).
Qed.

Lemma copyChannels_none : forall a n p m s i, copyChannels s a n i p (repeat None m) = Ok s.
Proof. induction m; intros; cbn [repeat copyChannels]; [reflexivity|]. cbn [obind]. apply IHm. Qed.

Lemma newAudio_newAudio2 : forall s a n, afmt_valid a ->
  newAudioFrame s a n = newAudioFrame2 s a n (repeat None (Z.to_nat (a_nch a))).
Proof.
  intros s a n V. unfold newAudioFrame, newAudioFrame2. destruct (core s); [cbn [negb]|reflexivity].
  destruct (n <=? 0); [reflexivity|].
  assert (L : zlength (repeat (@None (nat * Z)) (Z.to_nat (a_nch a))) = a_nch a).
  { unfold zlength. rewrite repeat_length. destruct (valid_a a V). lia. }
  rewrite L, Z.eqb_refl. cbn [negb]. destruct (newPlane s _) as [(s1, p)| |]; cbn [obind fst snd]; try reflexivity.
  rewrite copyChannels_none. reflexivity.
Qed.

Lemma newAudio2_ok : forall s a n src s' g, afmt_valid a -> inv s zero ->
  newAudioFrame2 s a n src = Ok (s', g) ->
  exists p dat, core s = true /\ 0 < n /\ g = nF s /\ nF s' = S (nF s) /\ core s' = core s /\
    frames s' = fset (frames s) (nF s) (Some (mkF 1 (Audio a n) [a_bytes a * AUDIO_FRAME_SAMPLES; 0; 0] [p])) /\
    inv s' zero /\ (forall q, 0 < cntP s q -> pdat s' q = pdat s q) /\
    zlength src = a_nch a /\ pdat s' p = Some (a_bytes a * AUDIO_FRAME_SAMPLES * a_nch a, dat) /\
    (n <= AUDIO_FRAME_SAMPLES -> forall j off, 0 <= j < a_nch a -> 0 <= off < n * a_bytes a ->
       dat (j * (a_bytes a * AUDIO_FRAME_SAMPLES) + off) =
       match nthz src j with Some o => chanOf s o off None | None => None end).
Proof.
  intros s a n src s' g V I E. unfold newAudioFrame2 in E.
  destruct (core s) eqn:C; [cbn [negb] in E|discriminate].
  destruct (n <=? 0) eqn:Hn; [discriminate|].
  destruct (zlength src =? a_nch a) eqn:L; [cbn [negb] in E|discriminate].
  destruct (valid_a a V) as (Vb & Vn).
  destruct (newPlane_ok s zero (a_bytes a * AUDIO_FRAME_SAMPLES * a_nch a) I (core_not_deleted _ _ I C))
    as (s1 & E1 & I1 & K1 & P1 & P1' & P2 & _).
  { unfold AUDIO_FRAME_SAMPLES. nia. }
  rewrite E1 in E. cbn [obind fst snd] in E. apply obind_ok in E. destruct E as (s2 & E2 & E3). injection E3 as <- <-.
  assert (Cp : cntP s (nP s) = 0).
  { pose proof (iP _ _ I (nP s)) as Z0. rewrite (iPn _ _ I (nP s) (le_n _)) in Z0. unfold zero in Z0. lia. }
  assert (En1 : forall q, 0 <= zero q + d q (nP s)) by (intro q; unfold zero; pose proof (d_nonneg q (nP s)); lia).
  assert (Cp1 : cntP s1 (nP s) = 0) by (rewrite (keepsF_cntP _ _ _ K1); exact Cp).
  assert (Nb : 0 <= n * a_bytes a) by nia.
  destruct (copyChannels_ok a n (nP s) Nb src s1 _ 0 s2 _ _ I1 En1 (Z.le_refl 0) Cp1 P1 E2)
    as (I2 & K2 & P3 & dat & G1 & _ & G3).
  destruct (keepsF_trans _ _ _ K1 K2) as (F1 & F2 & F3).
  exists (nP s), dat. cbn [nF frames core]. rewrite F1, F2, F3, C.
  split; [reflexivity|]. split; [lia|]. do 4 (split; [reflexivity|]).
  split; [|split; [|split; [lia|split; [exact G1|]]]].
  - pose proof (addFrame_ok s2 _ (mkF 1 (Audio a n) [a_bytes a * AUDIO_FRAME_SAMPLES; 0; 0] [nP s]) zero I2) as Z1.
    cbn [addFrame fst] in Z1. rewrite F1, F2, F3, C in Z1. apply Z1; [cbn; lia|].
    intro p. cbn [fr_data]. rewrite cntl_cons. unfold zero, cntl. cbn. lia.
  - intros q Hq. assert (q <> nP s) by (intros ->; lia). rewrite <- (P2 q) by auto. rewrite <- (P3 q) by auto. reflexivity.
  - intros Hs j off Hj Ho. rewrite (G3 j off); [|unfold AUDIO_FRAME_SAMPLES in *; nia|lia|lia].
    rewrite Z.sub_0_r. destruct (nthz src j) as [o|]; [|reflexivity].
    destruct o as [(g, k)|]; [|reflexivity]. cbn [chanOf]. rewrite (proj1 (proj2 K1)).
    destruct (frames s g) as [fr|] eqn:Hf; [|reflexivity].
    destruct (fr_data fr) as [|q dd] eqn:Hd; [reflexivity|]. destruct (fr_stride fr) as [|t tt]; [reflexivity|].
    rewrite P2; [reflexivity|]. intros ->.
    pose proof (cntP_in s zero g _ (nP s) I Hf ltac:(rewrite Hd; left; reflexivity)). lia.
Qed.

(** *** Copy, reference counting *)
Lemma copyFrame_ok : forall s g s' h, inv s zero -> copyFrame s g = Ok (s', h) ->
  exists fr, core s = true /\ frames s g = Some fr /\ h = nF s /\ nF s' = S (nF s) /\ core s' = core s /\
    frames s' = fset (frames s) (nF s) (Some (mkF 1 (fr_kind fr) (fr_stride fr) (fr_data fr))) /\
    inv s' zero /\ (forall q, pdat s' q = pdat s q).
Proof.
  intros s g s' h I E. unfold copyFrame in E. destruct (core s) eqn:C; [cbn [negb] in E|discriminate].
  destruct (frames s g) as [fr|] eqn:Hf; [|discriminate].
  destruct (addrefPs_ok (fr_data fr) s zero I) as (s1 & E1 & I1 & (K1 & K2 & K3) & P1).
  { intro; unfold zero; lia. }
  { intros p Hp. eapply frame_plane_alive; eauto. intro; unfold zero; lia. }
  rewrite E1 in E. cbn [obind] in E. injection E as <- <-.
  exists fr. cbn [nF frames core]. rewrite K1, K2, K3, C. do 6 (split; [reflexivity|]).
  split.
  - pose proof (addFrame_ok s1 _ (mkF 1 (fr_kind fr) (fr_stride fr) (fr_data fr)) zero I1) as Z1.
    cbn [addFrame fst] in Z1. rewrite K1, K2, K3, C in Z1. apply Z1; [cbn; lia|].
    intro p. cbn [fr_data]. unfold zero. lia.
  - intro q. rewrite <- P1. reflexivity.
Qed.

Lemma copyFrame_total : forall s g fr, inv s zero -> core s = true -> frames s g = Some fr ->
  exists s' h, copyFrame s g = Ok (s', h).
Proof.
  intros s g fr I C Hf. unfold copyFrame. rewrite C, Hf. cbn [negb].
  destruct (addrefPs_ok (fr_data fr) s zero I) as (s1 & E1 & _).
  { intro; unfold zero; lia. }
  { intros p Hp. eapply frame_plane_alive; eauto. intro; unfold zero; lia. }
  rewrite E1. cbn [obind addFrame]. eexists; eexists; reflexivity.
Qed.

Lemma addrefF_ok : forall s g fr, inv s zero -> frames s g = Some fr ->
  addrefF s g = Ok (setFrame s g (Some (mkF (fr_ref fr + 1) (fr_kind fr) (fr_stride fr) (fr_data fr)))) /\
  inv (setFrame s g (Some (mkF (fr_ref fr + 1) (fr_kind fr) (fr_stride fr) (fr_data fr)))) zero.
Proof.
  intros s g fr I Hf. unfold addrefF. rewrite Hf. split; [reflexivity|].
  eapply setFrame_ok; [exact I|eapply frame_lt; eauto| |].
  - cbn. pose proof (iFr _ _ I _ _ Hf). lia.
  - intro p. rewrite Hf. cbn [wF fr_data]. lia.
Qed.

Lemma releaseF_ok : forall s g fr, inv s zero -> frames s g = Some fr ->
  exists s', releaseF s g = Ok s' /\ inv s' zero /\ nF s' = nF s /\ core s' = core s /\
    frames s' = fset (frames s) g (if fr_ref fr =? 1 then None
                                   else Some (mkF (fr_ref fr - 1) (fr_kind fr) (fr_stride fr) (fr_data fr))) /\
    (forall q, 0 < cntP s' q -> pdat s' q = pdat s q).
Proof.
  intros s g fr I Hf. unfold releaseF. rewrite Hf. pose proof (frame_lt _ _ _ _ I Hf) as Lg.
  destruct (Z.eqb_spec (fr_ref fr) 1) as [R|R].
  - assert (I1 : inv (setFrame s g None) (fun q => cntl q (fr_data fr))).
    { eapply setFrame_ok; [exact I|exact Lg|exact Logic.I|]. intro p. rewrite Hf. cbn [wF]. unfold zero. lia. }
    destruct (releasePs_ok (fr_data fr) _ _ I1) as (s2 & E2 & I2 & K2 & P2); [intro; lia|].
    exists s2. split; [exact E2|]. split; [eapply inv_ext; [exact I2|]; intro q; cbn beta; unfold zero; lia|].
    destruct K2 as (K1 & K2 & K3). split; [exact K1|]. split; [exact K3|]. split; [exact K2|].
    intros q Hq. rewrite P2; [reflexivity|].
    replace (cntP (setFrame s g None) q) with (cntP s2 q); [lia|]. unfold cntP. rewrite K1, K2. reflexivity.
  - eexists. split; [reflexivity|]. split; [|do 3 (split; [reflexivity|]); intros; reflexivity].
    eapply setFrame_ok; [exact I|exact Lg| |].
    + cbn. pose proof (iFr _ _ I _ _ Hf). lia.
    + intro p. rewrite Hf. cbn [wF fr_data]. lia.
Qed.

(** *** getWritePtr *)
Definition slot (k : kind) (i : Z) : nat := match k with Video _ _ _ => Z.to_nat i | Audio _ _ => O end.
Definition base (k : kind) (st : list Z) (i : Z) : Z := match k with Video _ _ _ => 0 | Audio _ _ => i * hd 0 st end.

Lemma getWritePtr_ok : forall s g fr i, inv s zero -> frames s g = Some fr ->
  0 <= i < k_np (fr_kind fr) -> (slot (fr_kind fr) i < length (fr_data fr))%nat ->
  exists s' p p', getWritePtr s g i = Ok (s', Some (p', base (fr_kind fr) (fr_stride fr) i)) /\
    nth_error (fr_data fr) (slot (fr_kind fr) i) = Some p /\
    inv s' zero /\ nF s' = nF s /\ core s' = core s /\
    (forall y, frames s' y = fset (frames s) g (Some (mkF (fr_ref fr) (fr_kind fr) (fr_stride fr)
                                             (upd (fr_data fr) (slot (fr_kind fr) i) p'))) y) /\
    cntP s' p' = 1 /\ pdat s' p' = pdat s p /\
    (forall q, q <> p' -> 0 < cntP s' q -> pdat s' q = pdat s q).
Proof.
  intros s g fr i I Hf Hi Hlen. unfold getWritePtr. rewrite Hf.
  destruct ((i <? 0) || (k_np (fr_kind fr) <=? i)) eqn:B; [apply orb_true_iff in B; lia|]. cbv zeta.
  fold (slot (fr_kind fr) i). fold (base (fr_kind fr) (fr_stride fr) i).
  destruct (nth_error (fr_data fr) (slot (fr_kind fr) i)) as [p|] eqn:Hp; [|apply nth_error_None in Hp; lia].
  pose proof (nth_error_In _ _ Hp) as Inp.
  destruct (frame_plane_alive s zero g fr p I ltac:(intro; unfold zero; lia) Hf Inp) as (x & Hx).
  rewrite Hx. unfold uniqueP. pose proof (iP _ _ I p) as Ip. rewrite Hx in Ip. unfold zero in Ip.
  pose proof (frame_lt _ _ _ _ I Hf) as Lg.
  destruct (Z.eqb_spec (p_ref x) 1) as [R|R].
  - assert (U : upd (fr_data fr) (slot (fr_kind fr) i) p = fr_data fr).
    { clear - Hp. revert Hp. generalize (slot (fr_kind fr) i) as m, (fr_data fr) as l.
      induction m; destruct l; cbn; intros; try discriminate; [congruence|]. f_equal. auto. }
    exists s, p, p. split; [reflexivity|]. split; [reflexivity|]. split; [exact I|]. do 2 (split; [reflexivity|]).
    split.
    { intro y. rewrite U. unfold fset. destruct (Nat.eqb_spec y g) as [->|]; [|reflexivity].
      rewrite Hf. destruct fr; reflexivity. }
    split; [lia|]. split; [reflexivity|]. auto.
  - destruct (copyPlane_ok s zero p x I Hx) as (s1 & E1 & I1 & K1 & P1 & P1' & P2).
    rewrite E1. cbn [obind fst snd]. set (sl := slot (fr_kind fr) i) in *.
    set (fr2 := mkF (fr_ref fr) (fr_kind fr) (fr_stride fr) (upd (fr_data fr) sl (nP s))).
    assert (Npn : nP s <> p) by (pose proof (plane_lt _ _ _ _ I Hx); lia).
    assert (I2 : inv (setFrame s1 g (Some fr2)) (fun q => d q p)).
    { destruct K1 as (K1 & K2 & K3). eapply setFrame_ok; [exact I1|rewrite K1; exact Lg| |].
      - cbn. exact (iFr _ _ I _ _ Hf).
      - intro q. cbn beta. rewrite K2, Hf. cbn [wF fr2 fr_data]. unfold fr2; cbn [fr_data].
        rewrite (cntl_upd _ _ _ _ _ Hp). unfold zero. lia. }
    destruct (releaseP_ok _ _ p I2) as (s3 & E3 & I3 & (K3 & K4 & K5) & P3).
    { intro q. apply d_nonneg. } { rewrite d_same. lia. }
    rewrite E3. cbn [obind].
    assert (I4 : inv s3 zero) by (eapply inv_ext; [exact I3|]; intro q; cbn beta; unfold zero; lia).
    assert (C2 : forall q, cntP (setFrame s1 g (Some fr2)) q = cntP s3 q).
    { intro q. unfold cntP. rewrite K3, K4. reflexivity. }
    exists s3, p, (nP s). split; [reflexivity|]. split; [reflexivity|]. split; [exact I4|].
    destruct K1 as (K1 & K2 & K2').
    split; [rewrite K3; exact K1|]. split; [rewrite K5; exact K2'|].
    split; [intro y; rewrite K4; cbn [setFrame frames]; rewrite K2; reflexivity|].
    assert (Cn : cntP s3 (nP s) = 1).
    { rewrite <- C2. unfold cntP; cbn [setFrame nF frames]. rewrite K1, K2.
      match goal with |- sumto _ ?F = 1 => pose proof (sumto_upd (nF s) g (fun y => wF (frames s y) (nP s)) F Lg) as U end.
      cbn beta in U. rewrite U.
      - rewrite fset_same, Hf. cbn [wF]. unfold fr2; cbn [fr_data]. rewrite (cntl_upd _ _ _ _ _ Hp), d_same, d_other by auto.
        pose proof (iP _ _ I (nP s)) as Z0. rewrite (iPn _ _ I (nP s) (le_n _)) in Z0. unfold zero, cntP in Z0. lia.
      - intros y Hy. rewrite fset_other by auto. reflexivity. }
    split; [exact Cn|]. split.
    + rewrite P3; [|rewrite C2, Cn, d_other by auto; lia].
      unfold pdat at 1. cbn [setFrame planes]. fold (pdat s1 (nP s)). rewrite P1. unfold pdat. rewrite Hx. reflexivity.
    + intros q Hq Hc. rewrite P3; [|rewrite C2; lia].
      unfold pdat at 1. cbn [setFrame planes]. fold (pdat s1 q). apply P2. exact Hq.
Qed.

Lemma poke_ok : forall s p off v sz dat, inv s zero -> pdat s p = Some (sz, dat) -> 0 <= off < sz ->
  exists s', poke s p off v = Ok s' /\ inv s' zero /\ keepsF s s' /\
    pdat s' p = Some (sz, fun o => if o =? off then Some v else dat o) /\
    (forall q, q <> p -> pdat s' q = pdat s q).
Proof.
  intros s p off v sz dat I Hp Ho. unfold poke. unfold pdat in Hp.
  destruct (planes s p) as [x|] eqn:Hx; [|discriminate]. injection Hp as Es Ed. rewrite Es, Ed.
  destruct ((0 <=? off) && (off <? sz)) eqn:B; [|apply andb_false_iff in B; lia].
  eexists. split; [reflexivity|]. split; [|split; [repeat split|split]].
  - match goal with |- inv (setPlane _ _ (Some ?x')) _ => pose proof (setPlane_ok s zero p x x' 0 I Hx) as S0 end.
    cbn [p_blk p_size p_ref] in S0. eapply inv_ext; [apply S0; auto; try lia|intro; cbn beta; lia].
    pose proof (iP _ _ I p) as Z0. rewrite Hx in Z0. lia.
  - unfold pdat; cbn [setPlane planes]. rewrite fset_same. reflexivity.
  - intros q Hq. unfold pdat; cbn [setPlane planes]. rewrite fset_other by auto. reflexivity.
Qed.

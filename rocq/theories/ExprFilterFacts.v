(** Expr: proofs about creation and frames. *)
From Coq Require Import String.
From Coq Require Import ZArith List Lia Bool.
From Verif Require Import Common FormatSpec Format FormatLemmas FrameSpec Frame FrameGeom FrameFacts ImageSpec PlaneMem Spatial
  SpatialLemmas SpatialStack SpatialShuffle Pixel PixelLemmas PixelSpec Lut LutLemmas LutFrames ExprFilter ExprFilterSpec.
Import ListNotations.
Open Scope Z_scope.

Lemma mapO_inv : forall {A B} (f : A -> outcome B) l m, mapO f l = Ok m ->
  zlength m = zlength l /\ forall i x, nthz l i = Some x -> exists y, nthz m i = Some y /\ f x = Ok y.
Proof.
  intros A B f. induction l as [|a l IH]; intros m E; cbn [mapO] in E.
  - injection E as <-. split; [reflexivity|]. intros i x N. pose proof (nthz_range _ _ _ _ N) as R. cbn in R. lia.
  - destruct (f a) as [b| | ] eqn:F; try discriminate E. cbn [obind] in E. destruct (mapO f l) as [m'| | ] eqn:M; try discriminate E.
    cbn [obind] in E. injection E as <-. destruct (IH m' eq_refl) as (L & P). split; [rewrite !zlength_cons; lia|].
    intros i x N. pose proof (nthz_range _ _ _ _ N) as R. destruct (Z.eq_dec i 0) as [-> | NZ].
    + rewrite nthz_cons_0 in *. injection N as <-. eauto.
    + rewrite nthz_cons_S in N by lia. rewrite nthz_cons_S by lia. apply P. exact N.
Qed.

Lemma mapO_total : forall {A B} (f : A -> outcome B) l, (forall x, In x l -> exists y, f x = Ok y) -> exists m, mapO f l = Ok m.
Proof.
  intros A B f. induction l as [|a l IH]; intros H; [eexists; reflexivity|]. cbn [mapO].
  destruct (H a (or_introl eq_refl)) as (b & ->). cbn [obind]. destruct IH as (m & ->); [intros; apply H; right; assumption|].
  eexists; reflexivity.
Qed.

Lemma exprFor_nthz : forall exprs i, exprs <> [] -> 0 <= i ->
  nthz exprs (if i <? zlength exprs then i else zlength exprs - 1) = Some (exprFor exprs i).
Proof.
  intros exprs i NE I. unfold exprFor, nthz, zlength. destruct (Z.ltb_spec i (Z.of_nat (length exprs))) as [L|L].
  - destruct (Z.ltb_spec i 0); [lia|]. apply nth_error_nth'. lia.
  - assert (length exprs <> 0%nat) by (destruct exprs; [contradiction|cbn; lia]).
    destruct (Z.ltb_spec (Z.of_nat (length exprs) - 1) 0); [lia|]. rewrite (nth_overflow exprs) by lia.
    rewrite (app_removelast_last ""%string NE) at 1. rewrite nth_error_app2.
    + replace (Z.to_nat (Z.of_nat (length exprs) - 1) - length (removelast exprs))%nat with 0%nat; [reflexivity|].
      pose proof (f_equal (@length string) (app_removelast_last ""%string NE)) as Q. rewrite app_length in Q. cbn [length] in Q. lia.
    + pose proof (f_equal (@length string) (app_removelast_last ""%string NE)) as Q. rewrite app_length in Q. cbn [length] in Q. lia.
Qed.

Lemma supported_iff : forall f, fmt_valid f -> (supported f = true <-> depthOk f).
Proof.
  intros f (V1 & V2 & _). unfold supported, depthOk.
  assert (N : f_cf f =? cfUndefined = false) by (apply Z.eqb_neq; unfold cfGray, cfRGB, cfYUV, cfUndefined in *; lia). rewrite N.
  destruct V2 as [(E & R)|(E & R)]; rewrite E; unfold stInteger, stFloat; cbn [Z.eqb Pos.eqb andb orb negb].
  - rewrite orb_false_r, negb_true_iff, Z.ltb_ge. lia.
  - destruct R as [-> | ->]; cbn; intuition lia.
Qed.

Lemma clipOk_iff : forall v0 v, fmt_valid (vi_fmt v) -> (clipOk v0 v = true <->
  0 < vi_w v /\ 0 < vi_h v /\ f_cf (vi_fmt v) <> cfUndefined /\ sameShape v0 v /\ depthOk (vi_fmt v)).
Proof.
  intros v0 v V. unfold clipOk, constantFormat, sameShape. rewrite !andb_true_iff, negb_true_iff, !Z.ltb_lt, !Z.eqb_eq, Z.eqb_neq, (supported_iff _ V).
  intuition congruence.
Qed.

Lemma clips_iff : forall v0 clips, Forall (fun v => fmt_valid (vi_fmt v)) clips -> (forallb (clipOk v0) clips = true <-> clipsOk v0 clips).
Proof.
  intros v0 clips V. unfold clipsOk. rewrite forallb_forall, Forall_forall. rewrite Forall_forall in V.
  split; intros H v I; apply (clipOk_iff v0 v (V v I)); apply H; exact I.
Qed.

Lemma fmt_eq : forall f g, fmt_valid f -> fmt_valid g -> f_cf f = f_cf g -> f_st f = f_st g -> f_bits f = f_bits g -> f_ssw f = f_ssw g -> f_ssh f = f_ssh g -> f = g.
Proof.
  intros [a b c d e k n] [a' b' c' d' e' k' n'] (_ & _ & (S1 & S2 & S3) & _ & N) (_ & _ & (S1' & S2' & S3') & _ & N').
  cbn [f_cf f_st f_bits f_bytes f_ssw f_ssh f_np] in *. intros -> -> -> -> ->.
  assert (n = n') by lia. assert (d <= d') by (apply S3; lia). assert (d' <= d) by (apply S3'; lia). f_equal; lia.
Qed.

Lemma requery : forall f, fmt_valid f -> queryFmt (f_cf f) (f_st f) (f_bits f) (f_ssw f) (f_ssh f) = Ok f.
Proof.
  intros f V. assert (P : validP (f_cf f) (f_st f) (f_bits f) (f_ssw f) (f_ssh f)).
  { destruct V as (A & B & _ & C & _). unfold validP. auto. }
  destruct (query_valid _ _ _ _ _ P) as (g & E & G & G1 & G2 & G3 & G4 & G5). unfold queryFmt. rewrite E. f_equal.
  apply fmt_eq; auto.
Qed.

Lemma outFormat_iff : forall r f0 format f, fmt_valid f0 -> (outFormat r f0 format = Ok f <-> formatAsked r f0 format f).
Proof.
  intros r f0 [id|] f V; cbn [outFormat formatAsked]; [|split; [intros E; injection E as <-; reflexivity | intros ->; reflexivity]].
  destruct (getVideoFormatByID r (wrapu32 (sat32 id))) as [[ok g]|] eqn:L; [|split; [discriminate | intros (E & _); discriminate E]].
  destruct ok; [|split; [discriminate | intros (E & _); discriminate E]].
  assert (VG : g = undefFmt \/ fmt_valid g) by (eapply accepted_sound; exact L).
  split.
  - destruct (Z.eqb_spec (f_cf g) cfUndefined) as [|NU]; [discriminate|].
    destruct VG as [-> |VG]; [contradiction NU; reflexivity|]. rewrite requery by exact VG.
    destruct (Z.eqb_spec (f_cf f0) (f_cf g)); [|discriminate]. destruct (Z.eqb_spec (f_ssw f0) (f_ssw g)); [|discriminate].
    destruct (Z.eqb_spec (f_ssh f0) (f_ssh g)); [|discriminate]. destruct (Z.eqb_spec (f_np f0) (f_np g)); [|discriminate].
    cbn [negb orb]. intros E. injection E as <-. split; [reflexivity|]. unfold shapeOf. auto.
  - intros (E & VF & S1 & S2 & S3 & S4). injection E as ->. rewrite requery by exact VF.
    rewrite S1, S2, S3, S4, !Z.eqb_refl. cbn [negb orb].
    destruct (Z.eqb_spec (f_cf f0) cfUndefined) as [Q|]; [|reflexivity].
    destruct V as (V1 & _). unfold cfGray, cfRGB, cfYUV, cfUndefined in *. lia.
Qed.

Section Expr.
Variable prog : Type.
Variable compile : string -> list vfmt -> vfmt -> option prog.
Variable run : prog -> list Z -> Z.
Variable usesHalf : prog -> bool.

Lemma asked_valid : forall r f0 format f, fmt_valid f0 -> formatAsked r f0 format f -> fmt_valid f.
Proof. intros r f0 [id|] f V A; cbn in A; [apply A | subst; exact V]. Qed.

Lemma create_inv : forall r clips exprs format d, Forall (fun v => fmt_valid (vi_fmt v)) clips -> exprs <> [] ->
  exprCreate compile r clips exprs format = Ok d ->
  exists v0 f, accepted compile r clips exprs format v0 f /\ ed_out d = mkVI f (vi_w v0) (vi_h v0) (vi_n v0) /\
    zlength (ed_ops d) = f_np f /\
    forall i, 0 <= i < f_np f -> exists o, nthz (ed_ops d) i = Some o /\ opFor compile exprs (map vi_fmt clips) (vi_fmt v0) f i = Ok o.
Proof.
  intros r clips exprs format d V NE E. unfold exprCreate in E. destruct (Z.ltb_spec 26 (zlength clips)); [discriminate|].
  destruct clips as [|v0 rest] eqn:C; [discriminate|]. rewrite <- C in *.
  destruct (forallb (clipOk v0) clips) eqn:F; [|discriminate]. cbn [negb] in E. apply (clips_iff v0 clips V) in F.
  assert (V0 : fmt_valid (vi_fmt v0)) by (rewrite C in V; inversion V; assumption).
  destruct (outFormat r (vi_fmt v0) format) as [f| | ] eqn:O; try discriminate. cbn [obind] in E.
  apply outFormat_iff in O; [|exact V0]. pose proof (asked_valid _ _ _ _ V0 O) as VF.
  destruct (supported f) eqn:S; [|discriminate]. cbn [negb] in E. apply (supported_iff f VF) in S.
  destruct (Z.ltb_spec (f_np f) (zlength exprs)); [discriminate|].
  destruct (mapO _ (zseq (f_np f))) as [ops| | ] eqn:M; try discriminate. cbn [obind] in E. injection E as <-.
  destruct (mapO_inv _ _ _ M) as (L & P). rewrite zlength_zseq in L. pose proof (valid_np f VF) as NP.
  assert (Q : forall i, 0 <= i < f_np f -> exists o, nthz ops i = Some o /\ opFor compile exprs (map vi_fmt clips) (vi_fmt v0) f i = Ok o).
  { intros i I. apply (P i i). apply nthz_zseq. lia. }
  exists v0, f. cbn [ed_out ed_ops]. split; [|split; [reflexivity|]; split; [lia | exact Q]].
  split; [rewrite C; reflexivity|]. split; [lia|]. split; [exact F|]. split; [exact O|]. split; [exact S|]. split; [lia|].
  intros i I NEm CN. destruct (Q i I) as (o & _ & OP). unfold opFor in OP. rewrite exprFor_nthz in OP by (auto; lia).
  rewrite <- String.eqb_neq in NEm. rewrite NEm, CN in OP. discriminate.
Qed.

Lemma create_complete : forall r clips exprs format v0 f, Forall (fun v => fmt_valid (vi_fmt v)) clips -> exprs <> [] ->
  accepted compile r clips exprs format v0 f -> exists d, exprCreate compile r clips exprs format = Ok d.
Proof.
  intros r clips exprs format v0 f V NE (A1 & A2 & A3 & A4 & A5 & A6 & A7). unfold exprCreate.
  destruct (Z.ltb_spec 26 (zlength clips)); [lia|]. destruct clips as [|w0 rest] eqn:C; [discriminate A1|].
  rewrite nthz_cons_0 in A1. injection A1 as ->. rewrite <- C in *.
  assert (V0 : fmt_valid (vi_fmt v0)) by (rewrite C in V; inversion V; assumption).
  rewrite (proj2 (clips_iff v0 clips V) A3). cbn [negb]. pose proof (asked_valid _ _ _ _ V0 A4) as VF.
  rewrite (proj2 (outFormat_iff r (vi_fmt v0) format f V0) A4). cbn [obind].
  rewrite (proj2 (supported_iff f VF) A5). cbn [negb]. destruct (Z.ltb_spec (f_np f) (zlength exprs)); [lia|].
  destruct (mapO_total (opFor compile exprs (map vi_fmt clips) (vi_fmt v0) f) (zseq (f_np f))) as (ops & M).
  - intros i I. apply In_zseq in I. unfold opFor. rewrite exprFor_nthz by (auto; lia).
    destruct (String.eqb_spec (exprFor exprs i) "") as [|N]; [eexists; reflexivity|].
    destruct (compile (exprFor exprs i) (map vi_fmt clips) f) eqn:CC; [eexists; reflexivity|]. destruct (A7 i I N CC).
  - rewrite M. cbn [obind]. eexists; reflexivity.
Qed.

Theorem create_iff : forall r clips exprs format, Forall (fun v => fmt_valid (vi_fmt v)) clips -> exprs <> [] ->
  ((exists d, exprCreate compile r clips exprs format = Ok d) <-> exists v0 f, accepted compile r clips exprs format v0 f).
Proof.
  intros r clips exprs format V NE. split.
  - intros (d & E). destruct (create_inv _ _ _ _ _ V NE E) as (v0 & f & A & _). eauto.
  - intros (v0 & f & A). eapply create_complete; eassumption.
Qed.

(** ** Planes *)

Definition colAt (w h : Z) (ps : list (Z * plane)) (x y : Z) : list Z := map (fun kp => i_at (imageOf (fst kp) (snd kp) w h) x y) ps.

Lemma pixel_ok : forall w h ps p x y, 0 <= x -> 0 <= y < h ->
  Forall (fun kp => 1 <= fst kp /\ wfPlane (fst kp) (snd kp) w h /\ (x + 1) * fst kp <= p_stride (snd kp)) ps ->
  pixel run p ps x y = Ok (run p (colAt w h ps x y)).
Proof.
  intros w h ps p x y X Y P. unfold pixel, colAt. rewrite (mapO_spec _ (fun kp => i_at (imageOf (fst kp) (snd kp) w h) x y)); [reflexivity|].
  intros (k & q) I. rewrite Forall_forall in P. destruct (P _ I) as (K & (W & H & S & B) & R). cbn [fst snd] in *.
  cbn [imageOf i_at]. apply loadS_ok; [nia|]. rewrite B. nia.
Qed.

Lemma exprPlane_spec : forall al lanes k w h p ps q,
  (lanes = None \/ lanes = Some 8 /\ (al = 32 \/ al = 64) \/ lanes = Some 16 /\ al = 64) ->
  (k = 1 \/ k = 2 \/ k = 4) -> wfPlane k q w h -> (al | p_stride q) ->
  Forall (fun kp => (fst kp = 1 \/ fst kp = 2 \/ fst kp = 4) /\ wfPlane (fst kp) (snd kp) w h /\ (al | p_stride (snd kp))) ps ->
  (forall l, 0 <= run p l < 256 ^ k) ->
  exists m, exprPlane run lanes k w h p ps q = Ok m /\ b_size m = b_size (p_buf q) /\
    same (imageOf k (mkPl (p_stride q) m) w h) (mkI w h (fun x y => run p (colAt w h ps x y))).
Proof.
  intros al lanes k w h p ps q LN K WQ AQ PS R. pose proof WQ as (W & H & S & B).
  destruct lanes as [n|]; cbn [exprPlane].
  - assert (ND : forall k', k' = 1 \/ k' = 2 \/ k' = 4 -> (n * k' | al)).
    { intros k' K'. destruct LN as [E|[(E & A)|(E & A)]]; try discriminate E; injection E as ->.
      - destruct K' as [-> |[-> | ->]]; destruct A as [-> | ->]; [exists 4|exists 8|exists 2|exists 4|exists 1|exists 2]; reflexivity.
      - rewrite A. destruct K' as [-> |[-> | ->]]; [exists 4|exists 2|exists 1]; reflexivity. }
    assert (N0 : 0 < n) by (destruct LN as [E|[(E & _)|(E & _)]]; try discriminate E; injection E as ->; lia).
    destruct (groups_bounds w n N0 W) as (G0 & G1).
    assert (FIT : forall k' s, k' = 1 \/ k' = 2 \/ k' = 4 -> w * k' <= s -> (al | s) -> n * groups w n * k' <= s).
    { intros k' s K' S' A'. apply group_fits; try lia. eapply Z.divide_trans; [apply ND; exact K' | exact A']. }
    apply (drawGroups_spec k w h (fun x y => run p (colAt w h ps x y))); auto; try lia.
    intros j y J Y. rewrite (mapO_spec _ (fun t => run p (colAt w h ps (n * j + t) y))).
    + eexists. split; [reflexivity|]. rewrite zlength_map, zlength_zseq. split; [lia|].
      intros t T _. rewrite nthz_map, nthz_zseq by lia. reflexivity.
    + intros t T. apply In_zseq in T. apply pixel_ok; [nia | exact Y |].
      apply Forall_forall. intros (k' & q') I. rewrite Forall_forall in PS. destruct (PS _ I) as (K' & WP & AP). cbn [fst snd] in *.
      split; [lia|]. split; [exact WP|]. pose proof (FIT k' (p_stride q') K' ltac:(apply WP) AP).
      assert (n * j + t + 1 <= n * groups w n) by nia. nia.
  - apply (drawPlane_spec k w h (fun x y => run p (colAt w h ps x y))); auto; try lia.
    intros x y X Y. split; [|apply R]. apply pixel_ok; [lia | exact Y |].
    apply Forall_forall. intros (k' & q') I. rewrite Forall_forall in PS. destruct (PS _ I) as (K' & WP & AP). cbn [fst snd] in *.
    split; [lia|]. split; [exact WP|]. destruct WP as (_ & _ & S' & _). nia.
Qed.

(** ** Frames *)

Lemma eachPlane_ext : forall F G n i, (forall j, F j = G j) -> eachPlane n i F = eachPlane n i G.
Proof. intros F G. induction n as [|n IH]; intros i E; [reflexivity|]. cbn [eachPlane]. rewrite E. destruct (G i); cbn [obind]; try reflexivity. rewrite IH by exact E. reflexivity. Qed.

Lemma filterFrame_ext : forall al g f w h process src paint paint',
  (forall i, paint i (freshPlane al g f w h i) = paint' i (freshPlane al g f w h i)) ->
  filterFrame al g f w h process src paint = filterFrame al g f w h process src paint'.
Proof.
  intros al g f w h process src paint paint' E. unfold filterFrame. destruct ((w <=? 0) || (h <=? 0)); [reflexivity|].
  erewrite eachPlane_ext; [reflexivity|]. intros j. cbn beta. destruct (process j); [|reflexivity]. cbv zeta. rewrite E. reflexivity.
Qed.

Definition noPlane : plane := mkPl 0 (mkB 0 (fun _ => 0)).
Definition planeAt (i : Z) (s : vframe) : plane := match nthz (vf_planes s) i with Some p => p | None => noPlane end.
Definition imgAt (i : Z) (s : vframe) : image :=
  imageOf (f_bytes (vf_fmt s)) (planeAt i s) (planeW (vf_fmt s) (vf_w s) i) (planeH (vf_fmt s) (vf_h s) i).

Theorem expr_frame : forall c g r clips exprs format d srcs, (c_avx512 c = true -> c_avx512f c = true) -> exprs <> [] ->
  (forall e fs f p, compile e fs f = Some p -> forall l, 0 <= run p l < 256 ^ f_bytes f) ->
  exprCreate compile r clips exprs format = Ok d ->
  Forall2 matches srcs clips -> Forall (wfFrame (alignOf c)) srcs ->
  exists v0 f s0 o, accepted compile r clips exprs format v0 f /\ ed_out d = mkVI f (vi_w v0) (vi_h v0) (vi_n v0) /\
    nthz srcs 0 = Some s0 /\ exprGetFrame run usesHalf c g d srcs = Ok o /\ wfFrame (alignOf c) o /\ matches o (ed_out d) /\
    vf_props o = vf_props s0 /\
    forall i, 0 <= i < f_np f -> planeRight compile run clips exprs (vi_fmt v0) f srcs o i.
Proof.
  intros c g r clips exprs format d srcs AV NE RG E MT WFS.
  assert (V : Forall (fun v => fmt_valid (vi_fmt v)) clips).
  { clear -MT WFS. induction MT as [|s v ss vs M MT IH]; constructor; inversion WFS; subst; [destruct M as (<- & _); match goal with H : wfFrame _ s |- _ => apply H end | auto]. }
  destruct (create_inv _ _ _ _ _ V NE E) as (v0 & f & ACC & OUT & OL & OPS). exists v0, f.
  pose proof ACC as (A1 & A2 & A3 & A4 & A5 & A6 & A7).
  destruct MT as [|s0 w0 ss vs M0 MT]; [discriminate A1|]. rewrite nthz_cons_0 in A1. injection A1 as ->.
  exists s0. set (srcs := s0 :: ss) in *. set (clips := v0 :: vs) in *.
  assert (WF0 : wfFrame (alignOf c) s0) by (inversion WFS; assumption).
  assert (V0 : fmt_valid (vi_fmt v0)) by (inversion V; assumption).
  pose proof (asked_valid _ _ _ _ V0 A4) as VF.
  set (al := alignOf c) in *.
  assert (AL : al = 32 \/ al = 64) by (unfold al, alignOf; destruct (c_avx512f c); auto).
  assert (IA : isAl al) by (destruct AL as [-> | ->]; [exists 5 | exists 6]; split; [reflexivity|lia|reflexivity|lia]).
  assert (SHP : f_cf f = f_cf (vi_fmt v0) /\ f_ssw f = f_ssw (vi_fmt v0) /\ f_ssh f = f_ssh (vi_fmt v0) /\ f_np f = f_np (vi_fmt v0)).
  { destruct format; cbn in A4; [destruct A4 as (_ & _ & X); exact X | subst f; auto]. }
  destruct SHP as (SH1 & SH2 & SH3 & SH4). destruct M0 as (M1 & M2 & M3).
  assert (SRC : forall s, In s srcs -> wfFrame al s /\ f_np (vf_fmt s) = f_np f /\
      (forall i, planeW (vf_fmt s) (vf_w s) i = planeW f (vf_w s0) i) /\ (forall i, planeH (vf_fmt s) (vf_h s) i = planeH f (vf_h s0) i)).
  { assert (MT' : Forall2 matches srcs clips) by (constructor; [unfold matches; auto | exact MT]).
    intros s I. split; [rewrite Forall_forall in WFS; apply WFS; exact I|].
    assert (exists v, In v clips /\ matches s v) as (v & IV & (N1 & N2 & N3)).
    { clear -MT' I. induction MT' as [|a b la lb Q MT' IH]; [destruct I|]. destruct I as [-> |I]; [exists b; split; [left; reflexivity | exact Q]|].
      destruct (IH I) as (v & J & K). exists v. split; [right; exact J | exact K]. }
    unfold clipsOk in A3. rewrite Forall_forall in A3. destruct (A3 v IV) as (_ & _ & _ & (P1 & P2 & P3 & P4 & P5) & _).
    split; [congruence|]. split; intros i; unfold planeW, planeH; [rewrite N1, N2, P2, P4, M2, SH2 | rewrite N1, N3, P3, P5, M3, SH3]; reflexivity. }
  assert (PLN : forall i s, 0 <= i < f_np f -> In s srcs -> nthz (vf_planes s) i = Some (planeAt i s) /\
      wfPlane (f_bytes (vf_fmt s)) (planeAt i s) (planeW f (vf_w s0) i) (planeH f (vf_h s0) i) /\ (al | p_stride (planeAt i s)) /\
      (f_bytes (vf_fmt s) = 1 \/ f_bytes (vf_fmt s) = 2 \/ f_bytes (vf_fmt s) = 4)).
  { intros i s I IS. destruct (SRC s IS) as (WS & NS & WS1 & WS2). destruct (wf_plane al s i IA WS) as (p & N & WP); [rewrite NS; exact I|].
    rewrite WS1, WS2 in WP. unfold planeAt. rewrite N. split; [reflexivity|]. split; [exact WP|].
    destruct WS as (VS & W1 & _ & _ & PP). destruct (PP i p N) as (SS & _). split; [rewrite SS; apply stride_div; auto; lia|].
    destruct VS as (_ & _ & (SB & _) & _). exact SB. }
  assert (I0 : In s0 srcs) by (left; reflexivity).
  pose proof WF0 as (_ & W0 & H0 & _ & _).
  destruct (bytes_of f VF) as (FB & _).
  set (imgs := fun i => map (imgAt i) srcs).
  assert (IMGS : forall i, 0 <= i < f_np f -> planeImgs i srcs (imgs i)).
  { intros i I. unfold planeImgs, imgs. assert (Q : forall l, (forall s, In s l -> In s srcs) -> Forall2 (fun s a => planeImg s i = Some a) l (map (imgAt i) l)).
    { induction l as [|s l IH]; intros J; [constructor|]. cbn [map]. constructor; [|apply IH; intros; apply J; right; assumption].
      destruct (PLN i s I (J s (or_introl eq_refl))) as (N & _). unfold planeImg, imgAt. rewrite N. reflexivity. }
    apply Q. auto. }
  set (w := vf_w s0) in *. set (h := vf_h s0) in *.
  set (img := fun i => match nthz (ed_ops d) i with
     | Some (Process p) => pointwise (run p) (planeW f w i) (planeH f h i) (imgs i)
     | Some Copy => imgAt i s0
     | _ => imageOf (f_bytes f) (freshPlane al g f w h i) (planeW f w i) (planeH f h i) end).
  set (paint' := fun i q => match nthz (ed_ops d) i with
     | Some (Process p) => obind (mapO (planeOf i) srcs) (fun ps => exprPlane run (jitLanes c (usesHalf p)) (f_bytes f) (getWidth f w i) (getHeight f h i) p ps q)
     | Some _ => Ok (p_buf (freshPlane al g f w h i))
     | None => UB end).
  destruct (filterFrame_spec al g f w h (fun i => match nthz (ed_ops d) i with Some Copy => false | _ => true end) s0 paint' img)
    as (o & R1 & R2 & R3 & R4 & R5 & R6 & R7); auto.
  - intros i I PR q WQ SQ. destruct (OPS i I) as (op & NO & OP). unfold paint', img. rewrite NO in *.
    destruct op as [p| | ]; [|discriminate PR|].
    + rewrite (mapO_spec _ (fun s => (f_bytes (vf_fmt s), planeAt i s))).
      2:{ intros s IS. unfold planeOf. destruct (PLN i s I IS) as (N & _). rewrite N. reflexivity. }
      cbn [obind]. rewrite getWidth_planeW, getHeight_planeH by exact VF.
      destruct (exprPlane_spec al (jitLanes c (usesHalf p)) (f_bytes f) (planeW f w i) (planeH f h i) p (map (fun s => (f_bytes (vf_fmt s), planeAt i s)) srcs) q)
        as (m & P1 & P2 & P3); auto.
      * unfold jitLanes. destruct ((0 <? c_level c) && negb (negb (c_f16c c) && usesHalf p)); [|left; reflexivity]. right.
        destruct (c_avx512 c && (3 <=? c_level c)) eqn:Z; [right; split; [reflexivity|]|left; auto].
        apply andb_prop in Z. destruct Z as (Z & _). unfold al, alignOf. rewrite (AV Z). reflexivity.
      * rewrite SQ. apply stride_div; auto. lia.
      * apply Forall_forall. intros kp J. apply in_map_iff in J. destruct J as (s & <- & IS). cbn [fst snd].
        destruct (PLN i s I IS) as (_ & X1 & X2 & X3). auto.
      * intros l. unfold opFor in OP. destruct (nthz exprs _) as [e|]; [|discriminate]. destruct (String.eqb e ""); [destruct ((f_bits f =? f_bits (vi_fmt v0)) && (f_st f =? f_st (vi_fmt v0))); discriminate|].
        destruct (compile e (map vi_fmt clips) f) as [p'|] eqn:CC; [|discriminate]. injection OP as ->. eapply RG. exact CC.
      * exists m. split; [exact P1|]. split; [exact P2|]. apply (same_trans _ _ _ P3). split; [reflexivity|]. split; [reflexivity|].
        intros x y X Y. cbn [i_at pointwise]. f_equal. unfold colAt, imgs. rewrite !map_map. apply map_ext_in. intros s IS. reflexivity.
    + eexists. split; [reflexivity|]. destruct WQ as (_ & _ & _ & BQ). split.
      * rewrite BQ, SQ. cbn [freshPlane p_buf b_size]. rewrite strideAt_spec by (auto; lia). rewrite getHeight_planeH by exact VF. reflexivity.
      * split; [reflexivity|]. split; [reflexivity|]. intros x y _ _. cbn [imageOf i_at p_buf p_stride freshPlane]. rewrite SQ.
        rewrite strideAt_spec by (auto; lia). reflexivity.
  - intros i I PR. destruct (OPS i I) as (op & NO & OP). unfold img. rewrite NO in *. destruct op as [p| | ]; try discriminate PR.
    destruct (SRC s0 I0) as (_ & N0 & WW & HH). destruct (PLN i s0 I I0) as (NP & _). split; [lia|].
    assert (KB : f_bytes (vf_fmt s0) = f_bytes f).
    { unfold opFor in OP. destruct (nthz exprs _) as [e|]; [|discriminate]. destruct (String.eqb e "").
      - destruct ((f_bits f =? f_bits (vi_fmt v0)) && (f_st f =? f_st (vi_fmt v0))) eqn:Z; [|discriminate].
        apply andb_prop in Z. destruct Z as (Z1 & Z2). apply Z.eqb_eq in Z1, Z2.
        rewrite M1. f_equal. apply fmt_eq; auto; congruence.
      - destruct (compile e (map vi_fmt clips) f); discriminate. }
    split; [exact KB|]. split; [apply WW|]. split; [apply HH|]. exists (imgAt i s0). split; [|apply same_refl].
    unfold planeImg, imgAt. rewrite NP. reflexivity.
  - exists o. split; [exact ACC|]. split; [exact OUT|]. split; [reflexivity|]. split.
    { cbn [exprGetFrame srcs]. rewrite OUT. cbn [vi_fmt]. fold al w h. rewrite <- R1. apply filterFrame_ext.
      intros i. unfold paint'. reflexivity. }
    split; [exact R2|]. split; [unfold matches; rewrite OUT; cbn [vi_fmt vi_w vi_h]; rewrite R3, R4, R5; auto|]. split; [exact R6|].
    intros i I. destruct (R7 i) as (b & B1 & B2); [rewrite R3; exact I|]. destruct (OPS i I) as (op & NO & OP).
    unfold img in B2. rewrite NO in B2. unfold opFor in OP. rewrite exprFor_nthz in OP by (auto; lia).
    unfold planeRight. cbv zeta. split.
    + intros NEm. rewrite <- String.eqb_neq in NEm. rewrite NEm in OP.
      destruct (compile (exprFor exprs i) (map vi_fmt clips) f) as [p|] eqn:CC; [|discriminate]. injection OP as <-.
      exists p, (imgs i), b. split; [reflexivity|]. split; [apply IMGS; exact I|]. split; [exact B1|]. rewrite R4, R5. exact B2.
    + intros EE E1 E2. rewrite EE in OP. change (String.eqb "" "") with true in OP. rewrite E1, E2, !Z.eqb_refl in OP. cbn [andb] in OP. injection OP as <-.
      exists s0, (imgAt i s0), b. split; [reflexivity|]. split; [|split; [exact B1 | exact B2]].
      unfold planeImg, imgAt. destruct (PLN i s0 I I0) as (NP & _). rewrite NP. reflexivity.
Qed.

(** The request patterns: strict exactly where every frame of the output asks for the frame
    of the same number. *)
Lemma patterns : forall (out v : vinfo), 0 < vi_n v ->
  (declaredStrict out v = true <-> forall n, 0 <= n < vi_n out -> servedFrame v n = n).
Proof.
  intros out v P. unfold declaredStrict, servedFrame. rewrite Z.leb_le. split; [intros L n N; lia|].
  intros H. destruct (Z.le_gt_cases (vi_n out) (vi_n v)) as [|G]; [assumption|]. specialize (H (vi_n v) ltac:(lia)). lia.
Qed.
End Expr.

(** FrameEval and ModifyFrame over every order in which the core may serve frames. *)
From Coq Require Import ZArith List Lia Bool.
From Verif Require Import Common FormatSpec Frame Spatial ClipProp Eval EvalSpec EvalLemmas.
Import ListNotations.
Open Scope Z_scope.

(** What the filter is built from: the clip it imitates, the function, the sources of
    its properties, and how nodes serve frames. *)
Record setup := mkSetup { p_vi : vinfo; p_fn : nat -> inMap -> outMap -> outMap; p_src : list Z; p_serve : Z -> Z -> media }.

Definition answerAt (p : setup) (j : nat) (n : Z) : outMap := p_fn p j (argsFor (p_serve p) (p_src p) n) outEmpty.

(** Every context: before the decision its sources are requested; after it, it holds
    the node the function gave when it was called for this frame. *)
Definition ctxOk (p : setup) (s : inst) (c : ctx) : Prop :=
  match c_fd c with
  | None => p_src p <> [] /\ (forall k, In k (p_src p) -> In k (c_req c))
  | Some k => In k (c_req c) /\
      exists j, calledFor (p_serve p) (p_src p) s j (c_n c) /\ out_err (answerAt p j (c_n c)) = None /\ firstNode (answerAt p j (c_n c)) = Some k
  end.

(** Every finished frame: broken by a source, or what the answer called for. *)
Definition doneOk (p : setup) (owes : Z -> outMap -> reply -> Prop) (s : inst) (d : Z * reply) : Prop :=
  snd d = RNothing \/
  exists j, calledFor (p_serve p) (p_src p) s j (fst d) /\ owes (fst d) (answerAt p j (fst d)) (snd d).

Definition tally (es : list event) (w : world) (n : Z) : Prop :=
  cnt (startOf n) es = cnt (waitsFor n) (w_ctx w) + cnt (doneFor n) (w_done w) /\
  exists x, 0 <= x <= cnt (brokenFor n) (w_done w) /\
    cnt (startOf n) es = cnt (callIsFor n) (e_calls (w_inst w)) + cnt (undecided n) (w_ctx w) + x.

Definition sane (p : setup) (owes : Z -> outMap -> reply -> Prop) (es : list event) (w : world) : Prop :=
  clean (w_inst w) /\
  (forall k, e_nodes (w_inst w) k = cnt (holds k) (w_ctx w)) /\
  (forall c, In c (e_calls (w_inst w)) -> exists n, c = (argsFor (p_serve p) (p_src p) n, outEmpty)) /\
  (forall d, In d (w_done w) -> doneOk p owes (w_inst w) d) /\
  (forall n, tally es w n).

Lemma calledFor_grow : forall serve src s s' x j n, e_calls s' = x :: e_calls s ->
  calledFor serve src s j n -> calledFor serve src s' j n.
Proof.
  intros serve src s s' x j n E H. unfold calledFor in *. rewrite E. cbn [rev].
  rewrite nth_error_app1; [exact H|]. apply nth_error_Some. rewrite H. discriminate.
Qed.

Lemma calledFor_new : forall serve src s s' n, e_calls s' = (argsFor serve src n, outEmpty) :: e_calls s ->
  calledFor serve src s' (length (e_calls s)) n.
Proof.
  intros serve src s s' n E. unfold calledFor. rewrite E. cbn [rev].
  rewrite nth_error_app2; rewrite rev_length; [|lia]. rewrite Nat.sub_diag. reflexivity.
Qed.

Lemma doneOk_grow : forall p owes s s' x d, e_calls s' = x :: e_calls s -> doneOk p owes s d -> doneOk p owes s' d.
Proof.
  intros p owes s s' x d E [H|(j & H & O)]; [left; exact H|]. right. exists j. split; [exact (calledFor_grow _ _ _ _ _ _ _ E H)|exact O].
Qed.

Lemma doneOk_same : forall p owes s s' d, e_calls s' = e_calls s -> doneOk p owes s d -> doneOk p owes s' d.
Proof.
  intros p owes s s' d E [H|(j & H & O)]; [left; exact H|]. right. exists j. split; [unfold calledFor in *; rewrite E; exact H|exact O].
Qed.

Lemma ctxOk_grow : forall p s s' x c, e_calls s' = x :: e_calls s -> ctxOk p s c -> ctxOk p s' c.
Proof.
  intros p s s' x c E. unfold ctxOk. destruct (c_fd c) as [k|]; [|exact (fun H => H)].
  intros (I & j & H & O). split; [exact I|]. exists j. split; [exact (calledFor_grow _ _ _ _ _ _ _ E H)|exact O].
Qed.

Lemma ctxOk_same : forall p s s' c, e_calls s' = e_calls s -> ctxOk p s c -> ctxOk p s' c.
Proof.
  intros p s s' c E. unfold ctxOk. destruct (c_fd c) as [k|]; [|exact (fun H => H)].
  intros (I & j & H & O). split; [exact I|]. exists j. split; [unfold calledFor in *; rewrite E; exact H|exact O].
Qed.

Lemma callIsFor_args : forall serve src n m, callIsFor m (argsFor serve src n, outEmpty) = (n =? m).
Proof. reflexivity. Qed.

Lemma arrived_in : forall serve c k, In k (c_req c) -> arrived serve c k = Some (serve k (c_n c)).
Proof.
  intros serve c k I. unfold arrived. destruct (existsb (Z.eqb k) (c_req c)) eqn:E; [reflexivity|].
  exfalso. assert (X : existsb (Z.eqb k) (c_req c) = true) by (apply existsb_exists; exists k; split; [exact I|apply Z.eqb_refl]). congruence.
Qed.

Lemma bump_at : forall t k d x, bump t k d x = t x + (if k =? x then d else 0).
Proof. intros t k d x. unfold bump. rewrite (Z.eqb_sym k x). destruct (x =? k); lia. Qed.

(** ---- FrameEval ---- *)
Section FrameEval.
  Variable p : setup.
  Hypothesis video : forall j i k n, firstNode (p_fn p j i outEmpty) = Some k -> isVideo (p_serve p k n).
  Let owes := evalOwes (p_vi p) (p_serve p).
  Let gf := evalGetFrame (p_vi p) (p_fn p) (p_src p).

  Definition evalSane (es : list event) (w : world) : Prop :=
    sane p owes es w /\ (forall c, In c (w_ctx w) -> ctxOk p (w_inst w) c).

  Lemma firstNode_eq : forall o, firstNode o = match out_val o with VNode k :: _ => Some k | _ => None end.
  Proof. reflexivity. Qed.

  (** A decision for frame [n], made at the start or once the sources arrived. *)
  Lemma decide_sane : forall es w e n req cs,
    evalSane es w ->
    (forall c, In c cs -> In c (w_ctx w)) ->
    (forall k, cnt (holds k) (w_ctx w) = cnt (holds k) cs) ->
    (forall m, cnt (startOf m) (es ++ [e]) = cnt (waitsFor m) cs + cnt (doneFor m) (w_done w) + (if n =? m then 1 else 0)) ->
    (forall m, exists x, 0 <= x <= cnt (brokenFor m) (w_done w) /\
      cnt (startOf m) (es ++ [e]) = cnt (callIsFor m) (e_calls (w_inst w)) + cnt (undecided m) cs + x + (if n =? m then 1 else 0)) ->
    evalSane (es ++ [e])
      (settle n req (evaluate (p_fn p) (setIn (w_inst w) (argsFor (p_serve p) (p_src p) n))) cs (w_done w)).
  Proof.
    intros es w e n req cs ((Cl & Nd & Ca & Dn & Ta) & Cx) Sub Hh T1 T2.
    rewrite (evaluate_is (p_fn p) (w_inst w) (argsFor (p_serve p) (p_src p) n) Cl). unfold answer.
    set (j := length (e_calls (w_inst w))). fold (answerAt p j n). set (o := answerAt p j n).
    assert (Hdone : forall s' r, e_calls s' = (argsFor (p_serve p) (p_src p) n, outEmpty) :: e_calls (w_inst w) -> owes n o r -> doneOk p owes s' (n, r)).
    { intros s' r E O. right. exists j. cbn [fst snd]. split; [exact (calledFor_new _ _ _ _ _ E)|exact O]. }
    assert (Fin : forall r nd, nd = e_nodes (w_inst w) -> (match r with RNothing => False | _ => True end) -> owes n o r ->
      evalSane (es ++ [e]) (mkWorld (mkInst inEmpty outEmpty ((argsFor (p_serve p) (p_src p) n, outEmpty) :: e_calls (w_inst w)) nd 0) cs ((n, r) :: w_done w))).
    { intros r nd -> NB O. split; [|intros c I; eapply ctxOk_grow; [reflexivity|exact (Cx c (Sub c I))]].
      split; [repeat split|]. split; [intros k; cbn [w_inst w_ctx e_nodes]; rewrite Nd; apply Hh|].
      split; [intros c [<-|I]; [exists n; reflexivity|exact (Ca c I)]|].
      split; [intros d [<-|I]; [apply Hdone; [reflexivity|exact O]|eapply doneOk_grow; [reflexivity|exact (Dn d I)]]|].
      intros m. unfold tally. cbn [w_inst w_ctx w_done e_calls]. rewrite !cnt_cons, callIsFor_args. cbn [doneFor brokenFor fst snd].
      split; [rewrite T1; unfold doneFor; cbn [fst]; lia|]. destruct (T2 m) as (x & B & E). exists x.
      assert (Bf : brokenFor m (n, r) = false) by (unfold brokenFor; cbn [snd]; destruct r; try apply Bool.andb_false_r; destruct NB).
      rewrite Bf. split; [lia|]. rewrite E. lia. }
    destruct (out_err o) as [msg|] eqn:Er.
    { cbn [settle]. apply Fin; [reflexivity|exact I|unfold owes, evalOwes; rewrite Er; reflexivity]. }
    destruct (firstNode o) as [k|] eqn:Fn.
    2: { cbn [settle]. apply Fin; [reflexivity|exact I|]. unfold owes, evalOwes. rewrite Er. unfold firstNode in Fn.
         destruct (out_val o) as [|[k|m|] tl]; [reflexivity|discriminate|reflexivity|reflexivity]. }
    cbn [settle]. split.
    - split; [repeat split|]. split.
      { intros x. cbn [w_inst w_ctx e_nodes]. rewrite bump_at, cnt_cons, Nd, Hh. unfold holds at 2. cbn [c_fd]. reflexivity. }
      split; [intros c [<-|I]; [exists n; reflexivity|exact (Ca c I)]|].
      split; [intros d I; eapply doneOk_grow; [reflexivity|exact (Dn d I)]|].
      intros m. unfold tally. cbn [w_inst w_ctx w_done e_calls]. rewrite !cnt_cons, callIsFor_args.
      unfold waitsFor at 2, undecided at 2. cbn [c_n c_fd]. rewrite Bool.andb_false_r.
      split; [rewrite T1; lia|]. destruct (T2 m) as (x & B & E). exists x. split; [exact B|]. rewrite E. lia.
    - intros c [<-|I].
      + unfold ctxOk. cbn [c_fd c_n c_req w_inst]. split; [apply in_or_app; right; left; reflexivity|].
        exists j. split; [apply (calledFor_new (p_serve p) (p_src p) (w_inst w)); reflexivity|]. split; [exact Er|exact Fn].
      + eapply ctxOk_grow; [reflexivity|exact (Cx c (Sub c I))].
  Qed.

  Lemma eval_step : forall es w e, evalSane es w -> possible w e ->
    exists w', step gf (p_serve p) w e = Ok w' /\ evalSane (es ++ [e]) w'.
  Proof.
    intros es w e Sn Ps. assert (Sn' := Sn). destruct Sn as ((Cl & Nd & Ca & Dn & Ta) & Cx).
    destruct e as [n|i|i]; cbn [step possible] in *.
    - assert (Hs : p_src p = [] \/ exists s0 srcs, p_src p = s0 :: srcs) by (destruct (p_src p); [left; reflexivity|right; eauto]).
      unfold gf, evalGetFrame. destruct Hs as [Es|(s0 & srcs & Es)]; rewrite Es.
      + cbn [evalNoProps obind]. eexists. split; [reflexivity|].
        assert (Ei : appendN (w_inst w) n = setIn (w_inst w) (argsFor (p_serve p) (p_src p) n)).
        { unfold appendN. destruct Cl as (-> & _). rewrite Es. reflexivity. }
        rewrite Ei. apply decide_sane; [exact Sn'|exact (fun c I => I)|reflexivity| |].
        * intros m. rewrite cnt_app, cnt_cons. destruct (Ta m) as (A & _). cbn [startOf]. change (cnt (startOf m) []) with 0. lia.
        * intros m. destruct (Ta m) as (_ & x & B & E). exists x. split; [exact B|]. rewrite cnt_app, cnt_cons. cbn [startOf]. change (cnt (startOf m) []) with 0. lia.
      + cbn [evalWithProps obind settle]. eexists. split; [reflexivity|]. split.
        * split; [exact Cl|]. split; [intros k; cbn [w_inst w_ctx]; rewrite cnt_cons; unfold holds at 2; cbn [c_fd]; rewrite Nd; lia|].
          split; [exact Ca|]. split; [exact Dn|]. intros m. unfold tally. cbn [w_inst w_ctx w_done]. rewrite !cnt_app, !cnt_cons.
          destruct (Ta m) as (A & x & B & E). unfold waitsFor at 2, undecided at 2. cbn [c_n c_fd startOf].
          change (cnt (startOf m) []) with 0. rewrite Bool.andb_true_r.
          split; [lia|]. exists x. split; [exact B|]. lia.
        * intros c [<-|I]; [|exact (Cx c I)]. unfold ctxOk. cbn [c_fd c_req]. rewrite Es. split; [discriminate|]. intros k I. exact I.
    - destruct (nth_error (w_ctx w) i) as [c|] eqn:Ec; [|apply nth_error_None in Ec; lia].
      assert (Cc := Cx c (nth_error_In _ _ Ec)).
      assert (Sub : forall c', In c' (dropAt i (w_ctx w)) -> In c' (w_ctx w)) by (intros c'; apply in_dropAt).
      unfold ctxOk in Cc. destruct (c_fd c) as [k|] eqn:Ef.
      + (* delivery *)
        destruct Cc as (Ik & j & Cj & Er & Fn).
        assert (Pos : 0 < e_nodes (w_inst w) k).
        { rewrite Nd, (cnt_dropAt _ (holds k) _ _ _ Ec). unfold holds at 2. rewrite Ef, Z.eqb_refl. pose proof (cnt_nonneg _ (holds k) (dropAt i (w_ctx w))). lia. }
        destruct (deliver_is (p_vi p) (arrived (p_serve p) c) (w_inst w) k _ Cl Pos (arrived_in _ c k Ik) (video _ _ _ (c_n c) Fn)) as (r & Dl & Ow).
        assert (G : gf (c_n c) (AReady (arrived (p_serve p) c)) (w_inst w) (Some k) = deliver (p_vi p) (arrived (p_serve p) c) (w_inst w) (Some k)).
        { unfold gf, evalGetFrame. destruct (p_src p); reflexivity. }
        rewrite G, Dl. cbn [obind]. eexists. split; [reflexivity|].
        assert (Se : settle (c_n c) (c_req c) (mkInst inEmpty outEmpty (e_calls (w_inst w)) (bump (e_nodes (w_inst w)) k (-1)) 0, Some k, r) (dropAt i (w_ctx w)) (w_done w)
          = mkWorld (mkInst inEmpty outEmpty (e_calls (w_inst w)) (bump (e_nodes (w_inst w)) k (-1)) 0) (dropAt i (w_ctx w)) ((c_n c, r) :: w_done w)).
        { destruct Ow as [(_ & _ & ->)|[(_ & ->)|(_ & _ & ->)]]; reflexivity. }
        rewrite Se. split; [|intros c' I; eapply ctxOk_same; [reflexivity|exact (Cx c' (Sub c' I))]].
        split; [repeat split|]. split.
        { intros x. cbn [w_inst w_ctx e_nodes]. rewrite bump_at, Nd, (cnt_dropAt _ (holds x) _ _ _ Ec). unfold holds at 2. rewrite Ef. destruct (k =? x); lia. }
        split; [exact Ca|]. split.
        { intros d [<-|I]; [|eapply doneOk_same; [reflexivity|exact (Dn d I)]]. right. exists j. cbn [fst snd]. split; [exact Cj|].
          unfold owes, evalOwes. rewrite Er. unfold firstNode in Fn. destruct (out_val (answerAt p j (c_n c))) as [|[k'|m|] tl]; try discriminate. injection Fn as ->. exact Ow. }
        intros m. unfold tally. cbn [w_inst w_ctx w_done e_calls]. rewrite !cnt_cons, cnt_app, cnt_cons. change (cnt (startOf m) []) with 0. cbn [startOf].
        destruct (Ta m) as (A & x & B & E). rewrite (cnt_dropAt _ (waitsFor m) _ _ _ Ec) in A. rewrite (cnt_dropAt _ (undecided m) _ _ _ Ec) in E.
        unfold undecided at 2 in E. rewrite Ef, Bool.andb_false_r in E. unfold waitsFor at 2 in A. unfold doneFor at 2. cbn [fst].
        split; [lia|]. exists x. split; [|lia]. destruct (brokenFor m (c_n c, r)); lia.
      + (* the sources arrived *)
        destruct Cc as (Ne & Is). assert (Hs : exists s0 srcs, p_src p = s0 :: srcs) by (destruct (p_src p); [exfalso; apply Ne; reflexivity|eauto]). destruct Hs as (s0 & srcs & Es).
        assert (G : gf (c_n c) (AReady (arrived (p_serve p) c)) (w_inst w) None = Ok (evaluate (p_fn p) (setIn (w_inst w) (argsFor (p_serve p) (p_src p) (c_n c))))).
        { unfold gf, evalGetFrame. rewrite Es. rewrite <- Es. cbn [evalWithProps].
          rewrite (gather_ok _ (fun k => p_serve p k (c_n c))); [|intros k I; apply arrived_in, Is; exact I|destruct Cl as (_ & _ & F); exact F].
          cbn [obind]. do 2 f_equal. destruct (w_inst w) as [si so sc sn sf]. destruct Cl as (Ci & _). cbn [e_in] in Ci. subst si. reflexivity. }
        rewrite G. cbn [obind]. eexists. split; [reflexivity|].
        apply decide_sane; [exact Sn'|exact Sub| | |].
        * intros k. rewrite (cnt_dropAt _ (holds k) _ _ _ Ec). unfold holds at 2. rewrite Ef. lia.
        * intros m. rewrite cnt_app, cnt_cons. change (cnt (startOf m) []) with 0. cbn [startOf]. destruct (Ta m) as (A & _).
          rewrite (cnt_dropAt _ (waitsFor m) _ _ _ Ec) in A. unfold waitsFor at 2 in A. lia.
        * intros m. destruct (Ta m) as (_ & x & B & E). exists x. split; [exact B|]. rewrite cnt_app, cnt_cons. change (cnt (startOf m) []) with 0. cbn [startOf].
          rewrite (cnt_dropAt _ (undecided m) _ _ _ Ec) in E. unfold undecided at 2 in E. rewrite Ef, Bool.andb_true_r in E. lia.
    - (* a source failed *)
      destruct (nth_error (w_ctx w) i) as [c|] eqn:Ec; [|apply nth_error_None in Ec; lia].
      assert (Sub : forall c', In c' (dropAt i (w_ctx w)) -> In c' (w_ctx w)) by (intros c'; apply in_dropAt).
      assert (G : gf (c_n c) AError (w_inst w) (c_fd c) = obind (freeNode (w_inst w) (c_fd c)) (fun s1 => Ok (s1, c_fd c, RNothing))).
      { unfold gf, evalGetFrame. destruct (p_src p); reflexivity. }
      rewrite G.
      assert (Fr : exists s1, freeNode (w_inst w) (c_fd c) = Ok s1 /\ clean s1 /\ e_calls s1 = e_calls (w_inst w) /\
        forall x, e_nodes s1 x = e_nodes (w_inst w) x - (if holds x c then 1 else 0)).
      { unfold freeNode, holds. destruct (c_fd c) as [k|] eqn:Ef.
        - assert (Pos : 0 < e_nodes (w_inst w) k).
          { rewrite Nd, (cnt_dropAt _ (holds k) _ _ _ Ec). unfold holds at 2. rewrite Ef, Z.eqb_refl. pose proof (cnt_nonneg _ (holds k) (dropAt i (w_ctx w))). lia. }
          replace (e_nodes (w_inst w) k <=? 0) with false by (symmetry; apply Z.leb_gt; exact Pos).
          eexists. split; [reflexivity|]. split; [exact Cl|]. split; [reflexivity|]. intros x. cbn [e_nodes]. rewrite bump_at. destruct (k =? x); lia.
        - eexists. split; [reflexivity|]. split; [exact Cl|]. split; [reflexivity|]. intros x. lia. }
      destruct Fr as (s1 & -> & Cl1 & Ca1 & Nd1). cbn [obind settle]. eexists. split; [reflexivity|].
      split; [|intros c' I; eapply ctxOk_same; [exact Ca1|exact (Cx c' (Sub c' I))]].
      split; [exact Cl1|]. split.
      { intros x. cbn [w_inst w_ctx]. rewrite Nd1, Nd, (cnt_dropAt _ (holds x) _ _ _ Ec). lia. }
      split; [cbn [w_inst]; rewrite Ca1; exact Ca|]. split.
      { intros d [<-|I]; [left; reflexivity|eapply doneOk_same; [exact Ca1|exact (Dn d I)]]. }
      intros m. unfold tally. cbn [w_inst w_ctx w_done]. rewrite Ca1, !cnt_cons, cnt_app, cnt_cons. change (cnt (startOf m) []) with 0. cbn [startOf].
      destruct (Ta m) as (A & x & B & E). rewrite (cnt_dropAt _ (waitsFor m) _ _ _ Ec) in A. rewrite (cnt_dropAt _ (undecided m) _ _ _ Ec) in E.
      unfold waitsFor at 2 in A. unfold doneFor at 2, brokenFor at 2. cbn [fst snd]. rewrite Bool.andb_true_r.
      split; [lia|]. unfold undecided at 2 in E.
      destruct (c_fd c) as [k|]; rewrite ?Bool.andb_false_r, ?Bool.andb_true_r in E.
      + exists x. split; [destruct (c_n c =? m); lia|lia].
      + exists (x + if c_n c =? m then 1 else 0). split; [destruct (c_n c =? m); lia|lia].
  Qed.

  Lemma eval_w0 : evalSane [] w0.
  Proof.
    split; [|intros c []]. split; [repeat split|]. split; [reflexivity|]. split; [intros c []|]. split; [intros d []|].
    intros n. split; [reflexivity|]. exists 0. split; [split; [lia|apply cnt_nonneg]|reflexivity].
  Qed.
End FrameEval.

(** ---- ModifyFrame ---- *)
Section ModifyFrame.
  Variable p : setup.
  Hypothesis video : forall j i m, firstFrame (p_fn p j i outEmpty) = Some m -> isVideo m.
  Let owes := fun (_ : Z) => modifyOwes (p_vi p).
  Let gf := modifyGetFrame (p_vi p) (p_fn p) (p_src p).

  Definition modifySane (es : list event) (w : world) : Prop :=
    sane p owes es w /\ (forall c, In c (w_ctx w) -> c_fd c = None /\ forall k, In k (p_src p) -> In k (c_req c)).

  Lemma modify_step : forall es w e, modifySane es w -> possible w e ->
    exists w', step gf (p_serve p) w e = Ok w' /\ modifySane (es ++ [e]) w'.
  Proof.
    intros es w e ((Cl & Nd & Ca & Dn & Ta) & Cx) Ps.
    destruct e as [n|i|i]; cbn [step possible] in *.
    - unfold gf. cbn [modifyGetFrame obind settle]. eexists. split; [reflexivity|]. split.
      + split; [exact Cl|]. split; [intros k; cbn [w_inst w_ctx]; rewrite cnt_cons; unfold holds at 2; cbn [c_fd]; rewrite Nd; lia|].
        split; [exact Ca|]. split; [exact Dn|]. intros m. unfold tally. cbn [w_inst w_ctx w_done]. rewrite !cnt_app, !cnt_cons.
        destruct (Ta m) as (A & x & B & E). unfold waitsFor at 2, undecided at 2. cbn [c_n c_fd startOf].
        change (cnt (startOf m) []) with 0. rewrite Bool.andb_true_r.
        split; [lia|]. exists x. split; [exact B|]. lia.
      + intros c [<-|I]; [|exact (Cx c I)]. cbn [c_fd c_req]. split; [reflexivity|]. intros k I. exact I.
    - destruct (nth_error (w_ctx w) i) as [c|] eqn:Ec; [|apply nth_error_None in Ec; lia].
      destruct (Cx c (nth_error_In _ _ Ec)) as (Ef & Is).
      assert (Sub : forall c', In c' (dropAt i (w_ctx w)) -> In c' (w_ctx w)) by (intros c'; apply in_dropAt).
      destruct (modify_is (p_vi p) (p_fn p) (arrived (p_serve p) c) (p_src p) (c_n c) (w_inst w) (c_fd c) (fun k => p_serve p k (c_n c)) Cl) as (r & G & Ow).
      { intros k I. apply arrived_in, Is, I. }
      { intros m. unfold answer. apply video. }
      unfold gf. rewrite G. cbn [obind]. eexists. split; [reflexivity|].
      set (s' := mkInst inEmpty outEmpty ((mkIn [c_n c] (map (fun k => p_serve p k (c_n c)) (p_src p)), outEmpty) :: e_calls (w_inst w)) (e_nodes (w_inst w)) 0).
      assert (NB : match r with RFrame _ | RFail _ => True | _ => False end).
      { unfold modifyOwes in Ow. destruct (out_err _); [rewrite Ow; exact I|].
        destruct (out_val _) as [|[|m|] tl]; try (rewrite Ow; exact I). destruct Ow as [(_ & _ & ->)|[(_ & ->)|(_ & _ & ->)]]; exact I. }
      assert (Se : settle (c_n c) (c_req c) (s', c_fd c, r) (dropAt i (w_ctx w)) (w_done w) = mkWorld s' (dropAt i (w_ctx w)) ((c_n c, r) :: w_done w)).
      { destruct r; try destruct NB; reflexivity. }
      rewrite Se. split; [|intros c' I; exact (Cx c' (Sub c' I))].
      split; [repeat split|]. split.
      { intros x. cbn [w_inst w_ctx s' e_nodes]. rewrite Nd, (cnt_dropAt _ (holds x) _ _ _ Ec). unfold holds at 2. rewrite Ef. lia. }
      split; [intros d [<-|I]; [exists (c_n c); reflexivity|exact (Ca d I)]|]. split.
      { intros d [<-|I]; [|eapply doneOk_grow; [reflexivity|exact (Dn d I)]]. right. exists (length (e_calls (w_inst w))). cbn [fst snd].
        split; [apply calledFor_new; reflexivity|exact Ow]. }
      intros m. unfold tally. cbn [w_inst w_ctx w_done s' e_calls]. rewrite !cnt_cons, cnt_app, cnt_cons. change (cnt (startOf m) []) with 0. cbn [startOf].
      destruct (Ta m) as (A & x & B & E). rewrite (cnt_dropAt _ (waitsFor m) _ _ _ Ec) in A. rewrite (cnt_dropAt _ (undecided m) _ _ _ Ec) in E.
      unfold undecided at 2 in E. rewrite Ef, Bool.andb_true_r in E. unfold waitsFor at 2 in A. unfold doneFor at 2. cbn [fst].
      unfold callIsFor at 2. cbn [fst in_n].
      split; [lia|]. exists x. split; [|lia]. destruct (brokenFor m (c_n c, r)); lia.
    - destruct (nth_error (w_ctx w) i) as [c|] eqn:Ec; [|apply nth_error_None in Ec; lia].
      destruct (Cx c (nth_error_In _ _ Ec)) as (Ef & Is).
      assert (Sub : forall c', In c' (dropAt i (w_ctx w)) -> In c' (w_ctx w)) by (intros c'; apply in_dropAt).
      unfold gf. cbn [modifyGetFrame obind settle]. eexists. split; [reflexivity|]. split; [|intros c' I; exact (Cx c' (Sub c' I))].
      split; [exact Cl|]. split.
      { intros x. cbn [w_inst w_ctx]. rewrite Nd, (cnt_dropAt _ (holds x) _ _ _ Ec). unfold holds at 2. rewrite Ef. lia. }
      split; [exact Ca|]. split; [intros d [<-|I]; [left; reflexivity|exact (Dn d I)]|].
      intros m. unfold tally. cbn [w_inst w_ctx w_done]. rewrite !cnt_cons, cnt_app, cnt_cons. change (cnt (startOf m) []) with 0. cbn [startOf].
      destruct (Ta m) as (A & x & B & E). rewrite (cnt_dropAt _ (waitsFor m) _ _ _ Ec) in A. rewrite (cnt_dropAt _ (undecided m) _ _ _ Ec) in E.
      unfold waitsFor at 2 in A. unfold undecided at 2 in E. rewrite Ef, Bool.andb_true_r in E. unfold doneFor at 2, brokenFor at 2. cbn [fst snd]. rewrite Bool.andb_true_r.
      split; [lia|]. exists (x + if c_n c =? m then 1 else 0). split; [destruct (c_n c =? m); lia|lia].
  Qed.

  Lemma modify_w0 : modifySane [] w0.
  Proof.
    split; [|intros c []]. split; [repeat split|]. split; [reflexivity|]. split; [intros c []|]. split; [intros d []|].
    intros n. split; [reflexivity|]. exists 0. split; [split; [lia|apply cnt_nonneg]|reflexivity].
  Qed.
End ModifyFrame.

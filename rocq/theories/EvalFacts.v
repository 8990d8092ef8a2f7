(** What follows for FrameEval and ModifyFrame, and where the promise breaks. *)
From Coq Require Import ZArith List Lia Bool.
From Verif Require Import Common FormatSpec Frame Spatial ClipProp Eval EvalSpec EvalLemmas EvalRun.
Import ListNotations.
Open Scope Z_scope.

Lemma run_snoc : forall gf serve es e w, run gf serve (es ++ [e]) w = obind (run gf serve es w) (fun w => step gf serve w e).
Proof. intros. unfold run. rewrite fold_left_app. reflexivity. Qed.

Lemma step_possible : forall gf serve w e w', step gf serve w e = Ok w' -> possible w e.
Proof.
  intros gf serve w [n|i|i] w' H; cbn [step possible] in *; [exact I| |];
    (destruct (nth_error (w_ctx w) i) eqn:E; [apply nth_error_Some; congruence|discriminate]).
Qed.

Lemma step_err : forall gf serve w e, ~ possible w e -> step gf serve w e = Err.
Proof.
  intros gf serve w [n|i|i] H; cbn [step possible] in *; [exfalso; exact (H I)| |];
    (destruct (nth_error (w_ctx w) i) eqn:E; [exfalso; apply H, nth_error_Some; congruence|reflexivity]).
Qed.

Lemma possible_dec : forall w e, possible w e \/ ~ possible w e.
Proof. intros w [n|i|i]; cbn [possible]; [left; exact I| |]; destruct (Nat.lt_ge_cases i (length (w_ctx w))); [left; lia|right; lia|left; lia|right; lia]. Qed.

Section Generic.
  Variables (gf : Z -> reason -> inst -> option Z -> outcome (inst * option Z * reply)) (serve : Z -> Z -> media) (ok : list event -> world -> Prop).
  Hypothesis ok0 : ok [] w0.
  Hypothesis okStep : forall es w e, ok es w -> possible w e -> exists w', step gf serve w e = Ok w' /\ ok (es ++ [e]) w'.

  Lemma run_ok : forall es w, run gf serve es w0 = Ok w -> ok es w.
  Proof.
    induction es as [|e es IH] using rev_ind; intros w R.
    - injection R as <-. exact ok0.
    - rewrite run_snoc in R. destruct (run gf serve es w0) as [w1| |]; try discriminate. cbn [obind] in R.
      destruct (okStep es w1 e (IH w1 eq_refl) (step_possible _ _ _ _ _ R)) as (w' & E & O). rewrite E in R. injection R as <-. exact O.
  Qed.

  Lemma run_defined : forall es, run gf serve es w0 <> UB.
  Proof.
    induction es as [|e es IH] using rev_ind; [discriminate|]. rewrite run_snoc. intros R.
    destruct (run gf serve es w0) as [w1| |] eqn:E1; try discriminate; [|exact (IH eq_refl)]. cbn [obind] in R.
    destruct (possible_dec w1 e) as [P|P]; [|rewrite (step_err _ _ _ _ P) in R; discriminate].
    destruct (okStep es w1 e (run_ok es w1 E1) P) as (w' & E & _). congruence.
  Qed.
End Generic.

Lemma cnt_le : forall A (p q : A -> bool) l, (forall x, p x = true -> q x = true) -> cnt p l <= cnt q l.
Proof.
  intros A p q l H. induction l as [|x tl IH]; [unfold cnt; cbn; lia|]. rewrite !cnt_cons.
  destruct (p x) eqn:E; [rewrite (H x E); lia|]. destruct (q x); lia.
Qed.

Lemma tally_calls : forall es w n, tally es w n ->
  cnt (callIsFor n) (e_calls (w_inst w)) <= cnt (startOf n) es /\
  cnt (doneFor n) (w_done w) - cnt (brokenFor n) (w_done w) <= cnt (callIsFor n) (e_calls (w_inst w)).
Proof.
  intros es w n (A & x & B & E). pose proof (cnt_nonneg _ (undecided n) (w_ctx w)).
  assert (L : cnt (undecided n) (w_ctx w) <= cnt (waitsFor n) (w_ctx w)).
  { apply cnt_le. intros c T. unfold undecided in T. apply Bool.andb_true_iff in T. exact (proj1 T). }
  split; lia.
Qed.

Definition evalVideo (p : setup) : Prop := forall j i k n, firstNode (p_fn p j i outEmpty) = Some k -> isVideo (p_serve p k n).
Definition modifyVideo (p : setup) : Prop := forall j i m, firstFrame (p_fn p j i outEmpty) = Some m -> isVideo m.

(** The filter built from [p], run from the start over the events. *)
Definition evalRun (p : setup) (es : list event) : outcome world :=
  run (evalGetFrame (p_vi p) (p_fn p) (p_src p)) (p_serve p) es w0.
Definition modifyRun (p : setup) (es : list event) : outcome world :=
  run (modifyGetFrame (p_vi p) (p_fn p) (p_src p)) (p_serve p) es w0.

Lemma eval_sane : forall p es w, evalVideo p -> evalRun p es = Ok w -> evalSane p es w.
Proof. intros p es w V R. exact (run_ok _ _ (evalSane p) (eval_w0 p) (eval_step p V) es w R). Qed.

Lemma modify_sane : forall p es w, modifyVideo p -> modifyRun p es = Ok w -> modifySane p es w.
Proof. intros p es w V R. exact (run_ok _ _ (modifySane p) (modify_w0 p) (modify_step p V) es w R). Qed.

(** Between calls nothing is left in the shared maps, and the references owned are
    those of the contexts that wait for the node they were given. *)
Definition noLeak (w : world) : Prop :=
  clean (w_inst w) /\ (forall k, e_nodes (w_inst w) k = cnt (holds k) (w_ctx w)) /\
  (w_ctx w = [] -> forall k, e_nodes (w_inst w) k = 0).

Lemma eval_no_leak : forall p es w, evalVideo p -> evalRun p es = Ok w -> noLeak w.
Proof.
  intros p es w V R. destruct (eval_sane p es w V R) as ((Cl & Nd & _) & _). split; [exact Cl|]. split; [exact Nd|].
  intros E k. rewrite Nd, E. reflexivity.
Qed.

Lemma modify_no_leak : forall p es w, modifyVideo p -> modifyRun p es = Ok w ->
  clean (w_inst w) /\ forall k, e_nodes (w_inst w) k = 0.
Proof.
  intros p es w V R. destruct (modify_sane p es w V R) as ((Cl & Nd & _) & Cx). split; [exact Cl|].
  intros k. rewrite Nd. clear - Cx. induction (w_ctx w) as [|c tl IH]; [reflexivity|]. rewrite cnt_cons.
  unfold holds at 2. rewrite (proj1 (Cx c (or_introl eq_refl))). rewrite IH; [reflexivity|]. intros c' I. exact (Cx c' (or_intror I)).
Qed.

(** Calls: always for one frame alone, at most once for every time it was started, and
    at least once for every time it ended otherwise than by a source's failure. *)
Definition callsRight (p : setup) (es : list event) (w : world) : Prop :=
  (forall c, In c (e_calls (w_inst w)) -> exists n, c = (argsFor (p_serve p) (p_src p) n, outEmpty)) /\
  (forall n, cnt (callIsFor n) (e_calls (w_inst w)) <= cnt (startOf n) es) /\
  (forall n, cnt (doneFor n) (w_done w) - cnt (brokenFor n) (w_done w) <= cnt (callIsFor n) (e_calls (w_inst w))) /\
  (forall n, cnt (startOf n) es = cnt (waitsFor n) (w_ctx w) + cnt (doneFor n) (w_done w)).

Lemma sane_calls : forall p owes es w, sane p owes es w -> callsRight p es w.
Proof.
  intros p owes es w (_ & _ & Ca & _ & Ta). split; [exact Ca|]. split; [intros n; exact (proj1 (tally_calls _ _ _ (Ta n)))|].
  split; [intros n; exact (proj2 (tally_calls _ _ _ (Ta n)))|intros n; exact (proj1 (Ta n))].
Qed.

Lemma eval_calls : forall p es w, evalVideo p -> evalRun p es = Ok w -> callsRight p es w.
Proof. intros p es w V R. exact (sane_calls _ _ _ _ (proj1 (eval_sane p es w V R))). Qed.

Lemma modify_calls : forall p es w, modifyVideo p -> modifyRun p es = Ok w -> callsRight p es w.
Proof. intros p es w V R. exact (sane_calls _ _ _ _ (proj1 (modify_sane p es w V R))). Qed.

Lemma eval_delivers : forall p es w n r, evalVideo p -> evalRun p es = Ok w -> In (n, r) (w_done w) ->
  r = RNothing \/
  exists j, calledFor (p_serve p) (p_src p) (w_inst w) j n /\
    evalOwes (p_vi p) (p_serve p) n (p_fn p j (argsFor (p_serve p) (p_src p) n) outEmpty) r.
Proof. intros p es w n r V R I. destruct (eval_sane p es w V R) as ((_ & _ & _ & Dn & _) & _). exact (Dn (n, r) I). Qed.

Lemma modify_delivers : forall p es w n r, modifyVideo p -> modifyRun p es = Ok w -> In (n, r) (w_done w) ->
  r = RNothing \/
  exists j, calledFor (p_serve p) (p_src p) (w_inst w) j n /\
    modifyOwes (p_vi p) (p_fn p j (argsFor (p_serve p) (p_src p) n) outEmpty) r.
Proof. intros p es w n r V R I. destruct (modify_sane p es w V R) as ((_ & _ & _ & Dn & _) & _). exact (Dn (n, r) I). Qed.

(** No reachable state is a dead end, and no order of events is undefined. *)
Lemma eval_defined : forall p es, evalVideo p ->
  evalRun p es <> UB /\
  forall w e, evalRun p es = Ok w -> possible w e -> exists w', evalRun p (es ++ [e]) = Ok w'.
Proof.
  intros p es V. split; [exact (run_defined _ _ (evalSane p) (eval_w0 p) (eval_step p V) es)|].
  intros w e R P. destruct (eval_step p V es w e (eval_sane p es w V R) P) as (w' & E & _). exists w'.
  unfold evalRun in *. rewrite run_snoc, R. exact E.
Qed.

Lemma modify_defined : forall p es, modifyVideo p ->
  modifyRun p es <> UB /\
  forall w e, modifyRun p es = Ok w -> possible w e -> exists w', modifyRun p (es ++ [e]) = Ok w'.
Proof.
  intros p es V. split; [exact (run_defined _ _ (modifySane p) (modify_w0 p) (modify_step p V) es)|].
  intros w e R P. destruct (modify_step p V es w e (modify_sane p es w V R) P) as (w' & E & _). exists w'.
  unfold modifyRun in *. rewrite run_snoc, R. exact E.
Qed.

Lemma evalOwes_unique : forall vi serve n o r1 r2, evalOwes vi serve n o r1 -> evalOwes vi serve n o r2 -> r1 = r2.
Proof.
  intros vi serve n o r1 r2. unfold evalOwes. destruct (out_err o); [congruence|].
  destruct (out_val o) as [|[k|m|] tl]; try congruence. cbv zeta.
  intros [(A & B & ->)|[(A & ->)|(A & B & ->)]] [(C & D & ->)|[(C & ->)|(C & D & ->)]]; try reflexivity; exfalso; tauto.
Qed.

Lemma modifyOwes_unique : forall vi o r1 r2, modifyOwes vi o r1 -> modifyOwes vi o r2 -> r1 = r2.
Proof.
  intros vi o r1 r2. unfold modifyOwes. destruct (out_err o); [congruence|].
  destruct (out_val o) as [|[k|m|] tl]; try congruence.
  intros [(A & B & ->)|[(A & ->)|(A & B & ->)]] [(C & D & ->)|[(C & ->)|(C & D & ->)]]; try reflexivity; exfalso; tauto.
Qed.

(** A function that depends on nothing but its arguments. *)
Definition pure (p : setup) : Prop := forall j1 j2 i, p_fn p j1 i outEmpty = p_fn p j2 i outEmpty.

(** Then what a frame comes to does not depend on the order of anything. *)
Lemma eval_order : forall p es1 es2 w1 w2 n r1 r2, evalVideo p -> pure p ->
  evalRun p es1 = Ok w1 -> evalRun p es2 = Ok w2 -> In (n, r1) (w_done w1) -> In (n, r2) (w_done w2) ->
  r1 <> RNothing -> r2 <> RNothing -> r1 = r2.
Proof.
  intros p es1 es2 w1 w2 n r1 r2 V Pu R1 R2 I1 I2 N1 N2.
  destruct (eval_delivers _ _ _ _ _ V R1 I1) as [E|(j1 & _ & O1)]; [contradiction|].
  destruct (eval_delivers _ _ _ _ _ V R2 I2) as [E|(j2 & _ & O2)]; [contradiction|].
  rewrite (Pu j1 j2) in O1. exact (evalOwes_unique _ _ _ _ _ _ O1 O2).
Qed.

Lemma modify_order : forall p es1 es2 w1 w2 n r1 r2, modifyVideo p -> pure p ->
  modifyRun p es1 = Ok w1 -> modifyRun p es2 = Ok w2 -> In (n, r1) (w_done w1) -> In (n, r2) (w_done w2) ->
  r1 <> RNothing -> r2 <> RNothing -> r1 = r2.
Proof.
  intros p es1 es2 w1 w2 n r1 r2 V Pu R1 R2 I1 I2 N1 N2.
  destruct (modify_delivers _ _ _ _ _ V R1 I1) as [E|(j1 & _ & O1)]; [contradiction|].
  destruct (modify_delivers _ _ _ _ _ V R2 I2) as [E|(j2 & _ & O2)]; [contradiction|].
  rewrite (Pu j1 j2) in O1. exact (modifyOwes_unique _ _ _ _ O1 O2).
Qed.

(** ---- Examples ---- *)
Definition gray8 : vfmt := mkV cfGray stInteger 8 1 0 0 1.
Definition exVi : vinfo := mkVI gray8 640 480 10.
Definition exAny : vinfo := mkVI (mkV cfUndefined stInteger 0 0 0 0 0) 0 0 10.

(** Node 1 and 2 serve frames of the right size, node 3 of a wrong one, node 9 audio. *)
Definition exServe (k n : Z) : media :=
  if k =? 9 then MAudio n else if k =? 3 then MVideo gray8 320 240 (100 * k + n) else MVideo gray8 640 480 (100 * k + n).

(** Frame 0 and multiples of four: an error; 1 mod 4: node 2; 2 mod 4: node 3; 3 mod 4: a number. *)
Definition exFn (_ : nat) (i : inMap) (o : outMap) : outMap :=
  match in_n i with
  | [n] => if n mod 4 =? 0 then mkOut (Some 77) (out_val o)
           else if n mod 4 =? 1 then mkOut (out_err o) (out_val o ++ [VNode 2])
           else if n mod 4 =? 2 then mkOut (out_err o) (out_val o ++ [VNode 3])
           else mkOut (out_err o) (out_val o ++ [VOther])
  | _ => o
  end.
Definition exSetup := mkSetup exVi exFn [1] exServe.
Definition exEvents := [EvStart 1; EvStart 2; EvStart 0; EvStart 3; EvReady 3; EvReady 1; EvReady 1; EvStart 5; EvReady 0; EvReady 0; EvFail 1; EvReady 0; EvStart 6; EvReady 0; EvReady 0].

Lemma exVideo : evalVideo exSetup.
Proof.
  intros j i k n. cbn [exSetup p_fn p_serve]. unfold exFn, firstNode. destruct (in_n i) as [|m [|m' tl]]; try discriminate.
  destruct (m mod 4 =? 0); [discriminate|]. destruct (m mod 4 =? 1); [intros E; injection E as <-; repeat eexists|].
  destruct (m mod 4 =? 2); [intros E; injection E as <-; repeat eexists|discriminate].
Qed.

(** The function gives the audio node: undefined for a clip that declares a size, and a
    frame of the wrong kind delivered for one that does not. *)
Definition audioFn (_ : nat) (_ : inMap) (o : outMap) : outMap := mkOut (out_err o) (out_val o ++ [VNode 9]).
Definition audioFrameFn (_ : nat) (_ : inMap) (o : outMap) : outMap := mkOut (out_err o) (out_val o ++ [VFrame (MAudio 5)]).

Lemma audio_undefined : exists p es, evalRun p es = UB.
Proof. exists (mkSetup exVi audioFn [] exServe), [EvStart 0; EvReady 0]. reflexivity. Qed.

Lemma audio_frame_undefined : exists p es, modifyRun p es = UB.
Proof. exists (mkSetup exVi audioFrameFn [1] exServe), [EvStart 0; EvReady 0]. reflexivity. Qed.

Lemma audio_delivered : exists p es w n id, evalRun p es = Ok w /\ In (n, RFrame (MAudio id)) (w_done w).
Proof. exists (mkSetup exAny audioFn [] exServe), [EvStart 0; EvReady 0]. eexists. exists 0, 0. split; [reflexivity|]. left. reflexivity. Qed.

(** Expr: value numbering, code generation and register renaming compute the value of the tree. *)
From Coq Require Import String.
From Coq Require Import ZArith List Lia Bool Ascii.
From Verif Require Import Common FormatSpec Format Spatial ExprSyntax ExprSpec Expr ExprParse.
Import ListNotations.
Open Scope Z_scope.

(** ** Numbered trees *)
Inductive num (T : list tree) : tree -> ntree -> Prop :=
| num_nil : num T Nil NNil
| num_mux : forall op l r l' r', o_type op = oMux -> num T l l' -> num T r r' -> num T (Node op l r) (NNode op l' r' (-1))
| num_node : forall op l r l' r' v, o_type op <> oMux -> num T l l' -> num T r r' -> nth_error T v = Some (Node op l r) -> num T (Node op l r) (NNode op l' r' (Z.of_nat v)).
Inductive inv : list tree -> list ntree -> Prop :=
| inv_nil : inv [] []
| inv_snoc : forall T idx op l r l' r', inv T idx -> wf (Node op l r) -> num T l l' -> num T r r' -> ~ In (Node op l r) T ->
    inv (T ++ [Node op l r]) (idx ++ [NNode op l' r' (Z.of_nat (List.length T))]).

Lemma num_more : forall T T' t n, num T t n -> num (T ++ T') t n.
Proof.
  intros T T' t n H. induction H; [constructor | constructor; assumption | constructor; auto].
  rewrite nth_error_app1; [assumption|]. apply nth_error_Some. congruence.
Qed.
Lemma nodup_snoc : forall (T : list tree) x, NoDup T -> ~ In x T -> NoDup (T ++ [x]).
Proof. intros T x N H. apply NoDup_Add with (a := x) (l := T); [|auto]. rewrite <- (app_nil_r T) at 1. apply Add_app. Qed.
Lemma inv_nodup : forall T idx, inv T idx -> NoDup T.
Proof. induction 1; [constructor|]. apply nodup_snoc; assumption. Qed.
Lemma inv_length : forall T idx, inv T idx -> List.length idx = List.length T.
Proof. induction 1; [reflexivity|]. rewrite !app_length, IHinv. reflexivity. Qed.
Lemma inv_in : forall T idx, inv T idx -> forall n, In n idx -> exists op l r, num T (Node op l r) n /\ o_type op <> oMux.
Proof.
  induction 1 as [|T idx op l r l' r' I IH W L R N]; intros n H; [contradiction|]. apply in_app_or in H. destruct H as [H|[<-|[]]].
  - destruct (IH n H) as (op' & a & b & M & NM). exists op', a, b. split; [apply num_more; exact M | exact NM].
  - exists op, l, r. assert (NM : o_type op <> oMux) by (inversion W; subst; match goal with H : plain op |- _ => apply H end).
    split; [|exact NM]. constructor; [exact NM | apply num_more; exact L | apply num_more; exact R |]. rewrite nth_error_app2, Nat.sub_diag by lia. reflexivity.
Qed.
Lemma inv_find : forall T idx, inv T idx -> forall t, In t T -> exists n, In n idx /\ num T t n.
Proof.
  induction 1 as [|T idx op l r l' r' I IH W L R N]; intros t H; [contradiction|]. apply in_app_or in H. destruct H as [H|[<-|[]]].
  - destruct (IH t H) as (n & J & M). exists n. split; [apply in_or_app; auto | apply num_more; exact M].
  - eexists. split; [apply in_or_app; right; left; reflexivity|]. assert (NM : o_type op <> oMux) by (inversion W; subst; match goal with H : plain op |- _ => apply H end).
    constructor; [exact NM | apply num_more; exact L | apply num_more; exact R |]. rewrite nth_error_app2, Nat.sub_diag by lia. reflexivity.
Qed.

Lemma equal_iff : forall T, NoDup T -> forall a a' b b', num T a a' -> num T b b' -> (equalSubTree a' b' = true <-> a = b).
Proof.
  intros T ND a a' b b' A. revert b b'. induction A as [|op l r l' r' M L IHl R IHr | op l r l' r' v M L IHl R IHr N]; intros b b' B.
  - destruct B; cbn; split; congruence.
  - destruct B as [|op2 l2 r2 l2' r2' M2 L2 R2 | op2 l2 r2 l2' r2' v2 M2 L2 R2 N2]; cbn [equalSubTree].
    + split; congruence.
    + change (0 <=? -1) with false. cbn [andb]. specialize (IHl _ _ L2). specialize (IHr _ _ R2).
      destruct (opIs (o_type op) (o_type op2)) eqn:O; cbn [negb orb].
      * destruct (Z.eqb_spec (o_imm op) (o_imm op2)) as [E|E]; cbn [negb].
        -- rewrite andb_true_iff, IHl, IHr. split; [intros (-> & ->); f_equal; apply opEq_true; unfold opEq; rewrite O; apply Z.eqb_eq; exact E | intros H; injection H; auto].
        -- split; [discriminate | intros H; injection H; congruence].
      * split; [discriminate|]. intros H. injection H. intros. subst op2. apply (f_equal negb) in O. cbn in O. unfold opIs in O. destruct (optype_eq_dec _ _); [discriminate | congruence].
    + change (0 <=? -1) with false. cbn [andb]. assert (O : opIs (o_type op) (o_type op2) = false) by (apply opIs_false; congruence). rewrite O. cbn [negb orb]. split; [discriminate | intros H; injection H; congruence].
  - destruct B as [|op2 l2 r2 l2' r2' M2 L2 R2 | op2 l2 r2 l2' r2' v2 M2 L2 R2 N2]; cbn [equalSubTree].
    + split; congruence.
    + change (0 <=? -1) with false. rewrite andb_false_r. assert (O : opIs (o_type op) (o_type op2) = false) by (apply opIs_false; congruence). rewrite O. cbn [negb orb]. split; [discriminate | intros H; injection H; congruence].
    + rewrite (proj2 (Z.leb_le 0 (Z.of_nat v))), (proj2 (Z.leb_le 0 (Z.of_nat v2))) by lia. cbn [andb]. rewrite Z.eqb_eq. split.
      * intros E. apply Nat2Z.inj in E. subst v2. congruence.
      * intros E. rewrite <- E in N2. f_equal. apply (proj1 (NoDup_nth_error T) ND); [apply nth_error_Some; congruence | congruence].
Qed.
(** The node being numbered still has number -1. *)
Lemma equal_new : forall T, NoDup T -> forall op l r l' r' b b', o_type op <> oMux -> num T l l' -> num T r r' -> num T b b' ->
  (equalSubTree (NNode op l' r' (-1)) b' = true <-> Node op l r = b).
Proof.
  intros T ND op l r l' r' b b' M L R B. destruct B as [|op2 l2 r2 l2' r2' M2 L2 R2 | op2 l2 r2 l2' r2' v2 M2 L2 R2 N2]; cbn [equalSubTree]; [split; congruence| |].
  - change (0 <=? -1) with false. cbn [andb]. assert (O : opIs (o_type op) (o_type op2) = false) by (apply opIs_false; congruence). rewrite O. cbn [negb orb]. split; [discriminate | intros H; injection H; congruence].
  - change (0 <=? -1) with false. cbn [andb]. pose proof (equal_iff T ND _ _ _ _ L L2) as IHl. pose proof (equal_iff T ND _ _ _ _ R R2) as IHr. destruct (opIs (o_type op) (o_type op2)) eqn:O; cbn [negb orb].
    + destruct (Z.eqb_spec (o_imm op) (o_imm op2)) as [E|E]; cbn [negb].
      * rewrite andb_true_iff, IHl, IHr. split; [intros (-> & ->); f_equal; apply opEq_true; unfold opEq; rewrite O; apply Z.eqb_eq; exact E | intros H; injection H; auto].
      * split; [discriminate | intros H; injection H; congruence].
    + split; [discriminate|]. intros H. injection H. intros. subst op2. unfold opIs in O. destruct (optype_eq_dec _ _); [discriminate | congruence].
Qed.

(** Below a MUX or at the top: expressions everywhere. *)
Fixpoint good (t : tree) : Prop := match t with Nil => True | Node op l r => good l /\ good r /\ (o_type op <> oMux -> wf t) end.
Lemma wf_good : forall t, wf t -> good t.
Proof.
  induction 1 as [op N | op l N W IH | op l r N W IH W' IH' | op m l a b N M W IH Wa IHa Wb IHb]; cbn [good].
  - do 2 (split; [exact Logic.I|]). intros _. apply wf0, N.
  - split; [exact IH|]. split; [exact Logic.I|]. intros _. apply wf1; assumption.
  - do 2 (split; [assumption|]). intros _. apply wf2; assumption.
  - split; [exact IH|]. split; [|intros _; apply wf3; assumption]. do 2 (split; [assumption|]). congruence.
Qed.

Definition instrOf (n : ntree) : instr :=
  match n with
  | NNil => mkIn (op0 oMux) (-1) (-1) (-1) (-1)
  | NNode op l r n => mkIn op n (vnOf l) (match r with NNode m a b _ => if opIs (o_type m) oMux then vnOf a else vnOf r | NNil => -1 end)
                                (match r with NNode m a b _ => if opIs (o_type m) oMux then vnOf b else -1 | NNil => -1 end)
  end.
Definition found_ok (idx : list ntree) (found : list Z) : Prop := forall v, In v found <-> 0 <= v < Z.of_nat (List.length idx).

Lemma number_emit : forall t, good t -> forall T idx, inv T idx ->
  exists T' idx' n, number t (idx, Z.of_nat (List.length idx)) = (n, (idx', Z.of_nat (List.length idx'))) /\ inv (T ++ T') idx' /\ num (T ++ T') t n /\
    (forall u, In u T' -> In u (subs t)) /\ (forall u, In u (subs t) -> In u (T ++ T')) /\
    forall found, found_ok idx found -> exists found', emit n (map instrOf idx, found) = (map instrOf idx', found') /\ found_ok idx' found'.
Proof.
  induction t as [|op l IHl r IHr]; intros G T idx I.
  - exists [], idx, NNil. rewrite app_nil_r. split; [reflexivity|]. split; [exact I|]. split; [constructor|]. do 2 (split; [intros u []|]). intros found F. exists found. split; [reflexivity | exact F].
  - destruct G as (Gl & Gr & W). destruct (IHl Gl T idx I) as (T1 & idx1 & l' & N1 & I1 & L & S1 & C1 & E1). destruct (IHr Gr _ _ I1) as (T2 & idx2 & r' & N2 & I2 & R & S2 & C2 & E2).
    apply num_more with (T' := T2) in L. rewrite <- app_assoc in *. set (TT := T ++ T1 ++ T2) in *. cbn [number subs]. rewrite N1, N2.
    assert (CC : forall u, In u (subs l ++ subs r) -> In u TT).
    { intros u U. apply in_app_or in U. destruct U as [U|U]; [apply C1 in U; unfold TT; rewrite app_assoc; apply in_or_app; left; exact U | apply C2; exact U]. }
    assert (SS : forall u, In u (T1 ++ T2) -> In u (subs l ++ subs r)).
    { intros u U. apply in_app_or in U. apply in_or_app. destruct U as [U|U]; auto. }
    assert (EE : forall found, found_ok idx found -> exists found', emit r' (emit l' (map instrOf idx, found)) = (map instrOf idx2, found') /\ found_ok idx2 found').
    { intros found F. destruct (E1 found F) as (f1 & -> & F1). apply E2. exact F1. }
    clear E1 E2 C1 C2 S1 S2 N1 N2 I1. destruct (opIs (o_type op) oMux) eqn:M.
    + apply opIs_true in M. exists (T1 ++ T2), idx2, (NNode op l' r' (-1)). fold TT. split; [reflexivity|]. split; [exact I2|]. split; [constructor; assumption|]. split; [exact SS|]. split; [exact CC|].
      intros found F. destruct (EE found F) as (f2 & E & F2). exists f2. cbn [emit]. rewrite E, (proj2 (opIs_true _ _) M). auto.
    + assert (M' : o_type op <> oMux) by (intros C; apply opIs_true in C; congruence). specialize (W M'). cbn [fst snd]. pose proof (inv_nodup _ _ I2) as ND.
      destruct (find (equalSubTree (NNode op l' r' (-1))) idx2) as [test|] eqn:FI.
      * apply find_some in FI. destruct FI as (TI & Q). destruct (inv_in _ _ I2 test TI) as (op2 & a & b & NT & M2).
        pose proof (proj1 (equal_new TT ND op l r l' r' _ _ M' L R NT) Q) as EQ. injection EQ as <- <- <-.
        inversion NT as [|? ? ? ? ? MM| ? ? ? a' b' v MM NA NB NV]; subst; [contradiction|].
        exists (T1 ++ T2), idx2, (NNode op l' r' (Z.of_nat v)). fold TT. split; [reflexivity|]. split; [exact I2|]. split; [constructor; assumption|].
        split; [intros u U; right; apply SS, U|]. split; [intros u [<-|U]; [apply nth_error_In in NV; exact NV | apply CC, U]|].
        intros found F. destruct (EE found F) as (f2 & E & F2). exists f2. cbn [emit]. rewrite E, M. cbn [fst snd].
        assert (X : existsb (Z.eqb (Z.of_nat v)) f2 = true).
        { apply existsb_exists. exists (Z.of_nat v). split; [|apply Z.eqb_refl]. apply F2. rewrite (inv_length _ _ I2). fold TT. assert (nth_error TT v <> None) by congruence. apply nth_error_Some in H. lia. }
        rewrite X. auto.
      * assert (NI : ~ In (Node op l r) TT).
        { intros H. destruct (inv_find _ _ I2 _ H) as (n & J & NN). pose proof (find_none _ _ FI n J) as FN. rewrite (proj2 (equal_new TT ND op l r l' r' _ _ M' L R NN) eq_refl) in FN. discriminate. }
        exists (T1 ++ T2 ++ [Node op l r]), (idx2 ++ [NNode op l' r' (Z.of_nat (List.length TT))]), (NNode op l' r' (Z.of_nat (List.length TT))).
        replace (T ++ T1 ++ T2 ++ [Node op l r]) with (TT ++ [Node op l r]) by (unfold TT; rewrite <- !app_assoc; reflexivity).
        rewrite (inv_length _ _ I2). fold TT. split; [f_equal; f_equal; rewrite app_length, (inv_length _ _ I2); fold TT; cbn [List.length]; lia|].
        split; [apply inv_snoc; assumption|]. split.
        { constructor; [exact M' | apply num_more; exact L | apply num_more; exact R |]. rewrite nth_error_app2, Nat.sub_diag by lia. reflexivity. }
        split.
        { intros u U. rewrite app_assoc in U. apply in_app_or in U. destruct U as [U|[<-|[]]]; [right; apply SS, U | left; reflexivity]. }
        split; [intros u [<-|U]; apply in_or_app; [right; left; reflexivity | left; apply CC, U]|].
        intros found F. destruct (EE found F) as (f2 & E & F2). exists (Z.of_nat (List.length TT) :: f2). cbn [emit]. rewrite E, M. cbn [fst snd].
        assert (X : existsb (Z.eqb (Z.of_nat (List.length TT))) f2 = false).
        { destruct (existsb _ f2) eqn:X; [|reflexivity]. apply existsb_exists in X. destruct X as (v & V & EV). apply Z.eqb_eq in EV. apply F2 in V. rewrite (inv_length _ _ I2) in V. fold TT in V. lia. }
        rewrite X. split; [rewrite map_app; reflexivity|]. intros v. rewrite app_length. cbn [List.length In]. rewrite (F2 v), (inv_length _ _ I2). fold TT. lia.
Qed.

Fixpoint size (t : tree) : nat := match t with Nil => O | Node _ l r => S (size l + size r) end.
Lemma subs_size : forall t u, In u (subs t) -> (size u <= size t)%nat.
Proof.
  induction t as [|op l IHl r IHr]; intros u U; [contradiction|]. cbn [subs] in U. apply in_app_or in U. destruct U as [U|U].
  - destruct (opIs _ _); [contradiction|]. destruct U as [<-|[]]. lia.
  - cbn [size]. apply in_app_or in U. destruct U as [U|U]; [apply IHl in U | apply IHr in U]; lia.
Qed.

(** The code before renaming: one instruction for every expression inside, the whole one last, and then the store. *)
Theorem codeBefore_spec : forall op l r f, wf (Node op l r) ->
  exists T idx l' r', inv (T ++ [Node op l r]) (idx ++ [NNode op l' r' (Z.of_nat (List.length T))]) /\
    (forall u, In u (T ++ [Node op l r]) <-> In u (subs (Node op l r))) /\
    codeBefore (Node op l r) f = Ok (map instrOf (idx ++ [NNode op l' r' (Z.of_nat (List.length T))]) ++ [mkIn (storeOp f) (-1) (Z.of_nat (List.length T)) (-1) (-1)]).
Proof.
  intros op l r f W. assert (M : o_type op <> oMux) by (inversion W; subst; match goal with H : plain op |- _ => apply H end). pose proof (opIs_false _ _ M) as MB.
  pose proof (wf_good _ W) as G. destruct (number_emit _ G [] [] inv_nil) as (T & idx & n & N & I & NM & S & C & E). cbn [app] in *.
  destruct (E [] ltac:(intros v; cbn; lia)) as (found & EM & _).
  destruct G as (Gl & Gr & _). destruct (number_emit _ Gl [] [] inv_nil) as (T1 & idx1 & l' & N1 & I1 & L & S1 & C1 & _). cbn [app] in *.
  destruct (number_emit _ Gr _ _ I1) as (T2 & idx2 & r' & N2 & I2 & R & S2 & C2 & _).
  assert (NI : ~ In (Node op l r) (T1 ++ T2)).
  { intros H. apply in_app_or in H. destruct H as [H|H]; [apply S1, subs_size in H | apply S2, subs_size in H]; cbn [size] in H; lia. }
  assert (FI : find (equalSubTree (NNode op l' r' (-1))) idx2 = None).
  { destruct (find _ idx2) as [test|] eqn:FI; [|reflexivity]. apply find_some in FI. destruct FI as (TI & Q). destruct (inv_in _ _ I2 test TI) as (op2 & a & b & NT & M2).
    apply (equal_new _ (inv_nodup _ _ I2) op l r l' r' _ _ M (num_more _ T2 _ _ L) R NT) in Q. exfalso. apply NI. rewrite Q. inversion NT; subst; [congruence|]. eapply nth_error_In; eassumption. }
  cbn [List.length] in N, N1, N2. change (Z.of_nat 0) with 0 in *. cbn [number] in N. rewrite N1, N2, MB in N. cbn [fst snd] in N. rewrite FI in N. injection N as Nn Nidx Nlen.
  pose proof (inv_length _ _ I2) as L2. pose proof (inv_length _ _ I) as LI.
  exists (T1 ++ T2), idx2, l', r'. rewrite <- L2. rewrite <- Nidx in *.
  assert (II : inv ((T1 ++ T2) ++ [Node op l r]) (idx2 ++ [NNode op l' r' (Z.of_nat (List.length idx2))])) by (rewrite L2; constructor; auto using num_more).
  split; [exact II|]. split.
  { intros u. cbn [subs]. rewrite MB. cbn [app]. split.
    - intros U. apply in_app_or in U. destruct U as [U|[<-|[]]]; [|left; reflexivity]. right. apply in_or_app. apply in_app_or in U. destruct U as [U|U]; [left; apply S1, U | right; apply S2, U].
    - intros [<-|U]; [apply in_or_app; right; left; reflexivity|]. apply in_or_app. left. apply in_app_or in U. destruct U as [U|U]; [apply in_or_app; left; apply C1, U | apply C2, U]. }
  unfold codeBefore, applyValueNumbering. cbn [number]. rewrite N1, N2, MB. cbn [fst snd]. rewrite FI. cbn [fst]. rewrite <- Nn in EM. cbn [map] in EM. rewrite EM. cbn [fst]. rewrite map_app, rev_app_distr. reflexivity.
Qed.

(** ** Running the code before renaming *)
Section Run.
Variables (V : Type) (sem : exprop -> list V -> V).
Definition holds (T : list tree) (R : regs V) : Prop := forall j t, nth_error T j = Some t -> R (Z.of_nat j) = eval V sem t.

Lemma num_source : forall T R t n v rest, holds T R -> wf t -> num T t n -> eval V sem t = Some v -> source V R (vnOf n) rest = option_map (cons v) rest.
Proof.
  intros T R t n v rest H W N E. destruct N as [|op l r l' r' M L K | op l r l' r' i M L K NE].
  - inversion W.
  - exfalso. destruct (wf_shape _ W) as (o & a & b & Q & NM). injection Q as -> -> ->. rewrite (proj2 (opIs_true _ _) M) in NM. discriminate.
  - cbn [vnOf]. unfold source. destruct (Z.ltb_spec (Z.of_nat i) 0); [lia|]. rewrite (H _ _ NE), E. destruct rest; reflexivity.
Qed.
Lemma num_shape : forall T t n, wf t -> num T t n -> exists op l r v, n = NNode op l r (Z.of_nat v) /\ opIs (o_type op) oMux = false.
Proof.
  intros T t n W N. destruct (wf_shape _ W) as (o & a & b & -> & NM). inversion N as [|? ? ? ? ? M| ? ? ? ? ? v M]; subst; [rewrite (proj2 (opIs_true _ _) M) in NM; discriminate|]. eauto 6.
Qed.
Lemma instr_sources : forall T R op l r l' r' k, holds T R -> wf (Node op l r) -> num T l l' -> num T r r' ->
  exists vs, sources V R (instrOf (NNode op l' r' k)) = Some vs /\ eval V sem (Node op l r) = Some (sem op vs).
Proof.
  intros T R op l r l' r' k H W L K. inversion W as [? N | ? ? N Wl | ? ? ? N Wl Wr | ? m ? a b N M Wl Wa Wb]; subst; unfold sources; cbn [instrOf in_src1 in_src2 in_src3].
  - inversion L; inversion K; subst. exists []. split; [reflexivity | apply eval0; exact N].
  - inversion K; subst. destruct (wf_eval V sem _ Wl) as (x & X). exists [x]. rewrite (num_source T R l l' x) by assumption. split; [reflexivity | apply eval1; assumption].
  - destruct (wf_eval V sem _ Wl) as (x & X). destruct (wf_eval V sem _ Wr) as (y & Y). exists [x; y]. destruct (num_shape _ _ _ Wr K) as (o & a & b & v & -> & MB). rewrite MB.
    rewrite (num_source T R l l' x), (num_source T R r _ y) by assumption. split; [reflexivity | apply eval2; assumption].
  - destruct (wf_eval V sem _ Wl) as (x & X). destruct (wf_eval V sem _ Wa) as (y & Y). destruct (wf_eval V sem _ Wb) as (z & Z'). exists [x; y; z].
    inversion K as [|? ? ? a' b' MM NA NB | ? ? ? ? ? ? MM]; subst; [|contradiction]. rewrite (proj2 (opIs_true _ _) M).
    rewrite (num_source T R l l' x), (num_source T R a a' y), (num_source T R b b' z) by assumption. split; [reflexivity | apply eval3; assumption].
Qed.
Lemma run_numbered : forall T idx, inv T idx -> forall rest R, exists R', run V sem (map instrOf idx ++ rest) R = run V sem rest R' /\ holds T R'.
Proof.
  induction 1 as [|T idx op l r l' r' I IH W L K NI]; intros rest R.
  - exists R. split; [reflexivity|]. intros [|j] t E; discriminate.
  - rewrite map_app, <- app_assoc. destruct (IH (map instrOf [NNode op l' r' (Z.of_nat (List.length T))] ++ rest) R) as (R1 & -> & H1).
    cbn [map app run]. destruct (instr_sources T R1 op l r l' r' (Z.of_nat (List.length T)) H1 W L K) as (vs & -> & E).
    assert (P : plain op) by (inversion W; subst; assumption). cbn [instrOf in_op in_dst]. rewrite (proj2 P). destruct (Z.ltb_spec (Z.of_nat (List.length T)) 0); [lia|].
    eexists. split; [reflexivity|]. intros j t J. destruct (Nat.ltb_spec j (List.length T)) as [B|B].
    + rewrite nth_error_app1 in J by exact B. destruct (Z.eqb_spec (Z.of_nat j) (Z.of_nat (List.length T))); [lia|]. apply H1, J.
    + rewrite nth_error_app2 in J by lia. destruct (j - List.length T)%nat as [|d] eqn:D; [|destruct d; discriminate]. injection J as <-.
      replace (Z.of_nat j =? Z.of_nat (List.length T)) with true by (symmetry; apply Z.eqb_eq; lia). rewrite E. reflexivity.
Qed.
Lemma store_op : forall f, isStore (o_type (storeOp f)) = true.
Proof. intros f. cbn [storeOp o_type]. unfold storeType. repeat destruct (_ && _); reflexivity. Qed.
Lemma storeOp_spec : forall f, typed f -> storeOp f = storeFor (f_st f =? stInteger) (f_bytes f) (f_bits f).
Proof.
  intros f [T|T]; unfold storeOp, storeType, storeFor; rewrite T; change (stInteger =? stInteger) with true; change (stFloat =? stInteger) with false; change (stInteger =? stFloat) with false; change (stFloat =? stFloat) with true; cbn [andb];
  destruct (Z.eqb_spec (f_bytes f) 1); destruct (Z.eqb_spec (f_bytes f) 2); destruct (Z.eqb_spec (f_bytes f) 4); try lia; reflexivity.
Qed.
Theorem run_before : forall op l r f code R, wf (Node op l r) -> codeBefore (Node op l r) f = Ok code ->
  run V sem code R = option_map (fun v => (storeOp f, v)) (eval V sem (Node op l r)).
Proof.
  intros op l r f code R W E. destruct (codeBefore_spec op l r f W) as (T & idx & l' & r' & I & _ & E'). rewrite E' in E. injection E as <-.
  destruct (run_numbered _ _ I [mkIn (storeOp f) (-1) (Z.of_nat (List.length T)) (-1) (-1)] R) as (R' & -> & H).
  assert (HT : R' (Z.of_nat (List.length T)) = eval V sem (Node op l r)) by (apply H; rewrite nth_error_app2, Nat.sub_diag by lia; reflexivity).
  destruct (wf_eval V sem _ W) as (v & EV). rewrite EV in *. cbn [run]. unfold sources, source. cbn [in_src1 in_src2 in_src3 in_op in_dst]. change (-1 <? 0) with true. cbn iota.
  destruct (Z.ltb_spec (Z.of_nat (List.length T)) 0); [lia|]. rewrite HT, store_op. reflexivity.
Qed.

(** ** Renaming *)
(** Instruction i writes register k + i and reads lower ones; only the last one stores. *)
Fixpoint ssa (k : Z) (code : list instr) : Prop :=
  match code with
  | [] => True
  | i :: rest => (in_src1 i < k /\ in_src2 i < k /\ in_src3 i < k) /\
                 (if isStore (o_type (in_op i)) then in_dst i = -1 /\ rest = [] else in_dst i = k) /\ ssa (k + 1) rest
  end.
Definition live (code : list instr) (r : Z) : Prop := 0 <= r /\ existsb (fun i => uses i r) code = true.
Record rinv (k : Z) (code : list instr) (table : Z -> option Z) (free : list Z) (R R' : regs V) : Prop := {
  ri_val : forall r, live code r -> r < k -> R' (renamedOf table r) = R r;
  ri_free : forall r, live code r -> r < k -> ~ In (renamedOf table r) free;
  ri_loc : forall r, live code r -> r < k -> 0 <= renamedOf table r < k;
  ri_inj : forall r s, live code r -> live code s -> r < k -> s < k -> renamedOf table r = renamedOf table s -> r = s;
  ri_range : forall q, In q free -> 0 <= q < k;
  ri_new : forall r, k <= r -> table r = None }.

Lemma least_in : forall x l, In (least x l) (x :: l).
Proof. intros x l. induction l as [|y l IH]; [left; reflexivity|]. cbn [least fold_right]. fold (least x l). destruct (Z.min_spec y (least x l)) as [(_ & ->)|(_ & ->)]; [right; left; reflexivity|]. destruct IH as [H|H]; [left; exact H | right; right; exact H]. Qed.
Lemma live_tail : forall i rest r, live rest r -> live (i :: rest) r.
Proof. intros i rest r (A & B). split; [exact A|]. cbn [existsb]. rewrite B. apply orb_true_r. Qed.
Lemma live_src : forall i rest r, 0 <= r -> (r = in_src1 i \/ r = in_src2 i \/ r = in_src3 i) -> live (i :: rest) r.
Proof. intros i rest r A B. split; [exact A|]. cbn [existsb uses]. apply orb_true_iff. left. unfold uses. rewrite !orb_true_iff, !Z.eqb_eq. destruct B as [B|[B|B]]; auto. Qed.
Lemma renameSrc_spec : forall table rest r free s free', renameSrc table rest r free = (s, free') ->
  s = (if r <? 0 then r else renamedOf table r) /\
  forall q, In q free' -> In q free \/ (0 <= r /\ q = renamedOf table r /\ existsb (fun i => uses i r) rest = false).
Proof.
  intros table rest r free s free' E. unfold renameSrc in E. destruct (Z.ltb_spec r 0); [injection E as <- <-; auto|]. injection E as <- E. split; [reflexivity|].
  intros q Q. destruct (existsb _ rest) eqn:X; subst free'; [auto|]. destruct Q as [<-|Q]; auto.
Qed.

Theorem rename_run : forall code k table free R R', 0 <= k -> ssa k code -> rinv k code table free R R' -> run V sem (rename code table free) R' = run V sem code R.
Proof.
  induction code as [|i rest IH]; intros k table free R R' K S I; [reflexivity|]. destruct S as ((B1 & B2 & B3) & D & S). cbn [rename].
  destruct (renameSrc table rest (in_src1 i) free) as (s1, f1) eqn:E1. destruct (renameSrc table rest (in_src2 i) f1) as (s2, f2) eqn:E2. destruct (renameSrc table rest (in_src3 i) f2) as (s3, f3) eqn:E3.
  apply renameSrc_spec in E1. apply renameSrc_spec in E2. apply renameSrc_spec in E3. destruct E1 as (-> & F1). destruct E2 as (-> & F2). destruct E3 as (-> & F3).
  assert (SRC : forall r q, (r = in_src1 i \/ r = in_src2 i \/ r = in_src3 i) -> source V R' (if r <? 0 then r else renamedOf table r) q = source V R r q).
  { intros r q H. unfold source. destruct (Z.ltb_spec r 0) as [N|N]; [destruct (Z.ltb_spec r 0); [reflexivity | lia]|]. assert (LV := live_src i rest r N H). assert (RK : r < k) by (destruct H as [-> | [-> | ->]]; assumption).
    destruct (Z.ltb_spec (renamedOf table r) 0) as [G|G]; [pose proof (ri_loc _ _ _ _ _ _ I r LV RK); lia|]. rewrite (ri_val _ _ _ _ _ _ I r LV RK). reflexivity. }
  assert (SO : forall d, sources V R' (mkIn (in_op i) d (if in_src1 i <? 0 then in_src1 i else renamedOf table (in_src1 i)) (if in_src2 i <? 0 then in_src2 i else renamedOf table (in_src2 i)) (if in_src3 i <? 0 then in_src3 i else renamedOf table (in_src3 i))) = sources V R i).
  { intros d. unfold sources. cbn [in_src1 in_src2 in_src3]. rewrite !SRC by auto. reflexivity. }
  assert (FF : forall q, In q f3 -> In q free \/ exists r, (r = in_src1 i \/ r = in_src2 i \/ r = in_src3 i) /\ 0 <= r /\ q = renamedOf table r /\ existsb (fun i => uses i r) rest = false).
  { intros q Q. destruct (F3 q Q) as [Q2|Q2]; [destruct (F2 q Q2) as [Q1|Q1]; [destruct (F1 q Q1) as [Q0|Q0]|]|]; [left; exact Q0 | right; exists (in_src1 i) | right; exists (in_src2 i) | right; exists (in_src3 i)]; intuition. }
  assert (RG : forall q, In q f3 -> 0 <= q < k).
  { intros q Q. destruct (FF q Q) as [Q0|(r & H & N & -> & _)]; [apply (ri_range _ _ _ _ _ _ I q Q0)|]. apply (ri_loc _ _ _ _ _ _ I r (live_src i rest r N H)). destruct H as [-> | [-> | ->]]; assumption. }
  assert (NF : forall r, live rest r -> r < k -> ~ In (renamedOf table r) f3).
  { intros r L RK Q. destruct (FF _ Q) as [Q0|(s & H & N & EQ & X)]; [apply (ri_free _ _ _ _ _ _ I r (live_tail i rest r L) RK Q0)|].
    assert (SK : s < k) by (destruct H as [-> | [-> | ->]]; assumption). apply (ri_inj _ _ _ _ _ _ I r s (live_tail i rest r L) (live_src i rest s N H) RK SK) in EQ. subst s. destruct L as (_ & L). congruence. }
  clear SRC F1 F2 F3 FF. revert SO RG NF. generalize (if in_src1 i <? 0 then in_src1 i else renamedOf table (in_src1 i)) (if in_src2 i <? 0 then in_src2 i else renamedOf table (in_src2 i)) (if in_src3 i <? 0 then in_src3 i else renamedOf table (in_src3 i)).
  intros s1 s2 s3 SO RG NF. destruct (isStore (o_type (in_op i))) eqn:ST.
  - destruct D as (D & ->). rewrite D. change (-1 <? 0) with true. cbn iota.
    assert (G : forall fr, run V sem (mkIn (in_op i) (-1) s1 s2 s3 :: rename [] table fr) R' = run V sem [i] R) by (intros fr; cbn [run rename]; rewrite SO; cbn [in_op]; rewrite ST; reflexivity).
    destruct f3; apply G.
  - rewrite D. destruct (Z.ltb_spec k 0); [lia|]. destruct f3 as [|x fl].
    + cbn [run]. rewrite SO. cbn [in_op in_dst]. rewrite ST, D. destruct (sources V R i) as [vs|]; [|reflexivity]. destruct (Z.ltb_spec k 0); [lia|]. apply (IH (k + 1)); [lia | exact S |].
      assert (LT : forall r, live rest r -> r < k + 1 -> r = k \/ (r < k /\ live (i :: rest) r)) by (intros r L RK; destruct (Z.eq_dec r k); [auto | right; split; [lia | apply live_tail, L]]).
      assert (TK : renamedOf table k = k) by (unfold renamedOf; rewrite (ri_new _ _ _ _ _ _ I k (Z.le_refl k)); reflexivity).
      constructor.
      * intros r L RK. destruct (LT r L RK) as [->|(RK' & L')]; [rewrite TK, Z.eqb_refl; reflexivity|]. pose proof (ri_loc _ _ _ _ _ _ I r L' RK').
        destruct (Z.eqb_spec (renamedOf table r) k); [lia|]. destruct (Z.eqb_spec r k); [lia|]. apply (ri_val _ _ _ _ _ _ I r L' RK').
      * intros r L RK [].
      * intros r L RK. destruct (LT r L RK) as [->|(RK' & L')]; [rewrite TK; lia|]. pose proof (ri_loc _ _ _ _ _ _ I r L' RK'). lia.
      * intros r s L L2 RK SK EQ. destruct (LT r L RK) as [->|(RK' & L')]; destruct (LT s L2 SK) as [->|(SK' & L2')]; [reflexivity| | |].
        -- rewrite TK in EQ. pose proof (ri_loc _ _ _ _ _ _ I s L2' SK'). lia.
        -- rewrite TK in EQ. pose proof (ri_loc _ _ _ _ _ _ I r L' RK'). lia.
        -- apply (ri_inj _ _ _ _ _ _ I r s); assumption.
      * intros q [].
      * intros r RK. apply (ri_new _ _ _ _ _ _ I). lia.
    + pose proof (least_in x fl) as LI. set (q := least x fl) in *. cbn [run]. rewrite SO. cbn [in_op in_dst]. rewrite ST, D. pose proof (RG q LI) as QR.
      destruct (sources V R i) as [vs|]; [|reflexivity]. destruct (Z.ltb_spec k 0); [lia|]. destruct (Z.ltb_spec q 0); [lia|]. apply (IH (k + 1)); [lia | exact S |].
      assert (LT : forall r, live rest r -> r < k + 1 -> r = k \/ (r < k /\ live (i :: rest) r)) by (intros r L RK; destruct (Z.eq_dec r k); [auto | right; split; [lia | apply live_tail, L]]).
      set (table' := fun r => if r =? k then Some q else table r).
      assert (TK : renamedOf table' k = q) by (unfold renamedOf, table'; rewrite Z.eqb_refl; reflexivity).
      assert (TO : forall r, r < k -> renamedOf table' r = renamedOf table r) by (intros r RK; unfold renamedOf, table'; destruct (Z.eqb_spec r k); [lia | reflexivity]).
      assert (NQ : forall r, live rest r -> r < k -> renamedOf table r <> q) by (intros r L RK EQ; apply (NF r L RK); rewrite EQ; exact LI).
      constructor.
      * intros r L RK. destruct (LT r L RK) as [->|(RK' & L')]; [rewrite TK, !Z.eqb_refl; reflexivity|]. rewrite TO by exact RK'.
        destruct (Z.eqb_spec (renamedOf table r) q); [exfalso; eapply NQ; eassumption|]. destruct (Z.eqb_spec r k); [lia|]. apply (ri_val _ _ _ _ _ _ I r L' RK').
      * intros r L RK HH. destruct (LT r L RK) as [->|(RK' & L')].
        -- rewrite TK in HH. destruct HH as [HH|HH]; [lia|]. apply filter_In in HH. rewrite Z.eqb_refl in HH. destruct HH; discriminate.
        -- rewrite TO in HH by exact RK'. pose proof (ri_loc _ _ _ _ _ _ I r L' RK'). destruct HH as [HH|HH]; [lia|]. apply filter_In in HH. apply (NF r L RK'), HH.
      * intros r L RK. destruct (LT r L RK) as [->|(RK' & L')]; [rewrite TK; lia|]. rewrite TO by exact RK'. pose proof (ri_loc _ _ _ _ _ _ I r L' RK'). lia.
      * intros r s L L2 RK SK EQ. destruct (LT r L RK) as [->|(RK' & L')]; destruct (LT s L2 SK) as [->|(SK' & L2')]; [reflexivity| | |].
        -- rewrite TK, TO in EQ by exact SK'. exfalso. apply (NQ s L2 SK'). auto.
        -- rewrite TK, TO in EQ by exact RK'. exfalso. apply (NQ r L RK'). auto.
        -- rewrite !TO in EQ by assumption. apply (ri_inj _ _ _ _ _ _ I r s); assumption.
      * intros y [<-|Y]; [lia|]. apply filter_In in Y. pose proof (RG y (proj1 Y)). lia.
      * intros r RK. unfold table'. destruct (Z.eqb_spec r k); [lia|]. apply (ri_new _ _ _ _ _ _ I). lia.
Qed.
End Run.

Lemma rename_fresh : forall V sem code R R', ssa 0 code -> run V sem (rename code (fun _ => None) []) R' = run V sem code R.
Proof.
  intros V sem code R R' S. apply (rename_run V sem _ 0); [lia | exact S |].
  constructor; try (intros r0 (L0 & _) K0; exfalso; lia); [intros r0 s0 (L0 & _) _ K0; exfalso; lia | intros q [] | reflexivity].
Qed.
Lemma num_below : forall T t n, num T t n -> vnOf n < Z.of_nat (List.length T).
Proof.
  intros T t n N. destruct N as [| |? ? ? ? ? v ? ? ? E]; cbn [vnOf]; [lia | lia|]. assert (HN : nth_error T v <> None) by congruence. apply nth_error_Some in HN. lia.
Qed.
Lemma ssa_app : forall a b k, ssa k a -> Forall (fun i => isStore (o_type (in_op i)) = false) a -> ssa (k + Z.of_nat (List.length a)) b -> ssa k (a ++ b).
Proof.
  induction a as [|i a IH]; intros b k A F B; [cbn in *; rewrite Z.add_0_r in B; exact B|]. apply Forall_cons_iff in F. destruct F as (F1 & F). destruct A as (A1 & A2 & A3). cbn [app ssa]. rewrite F1 in *.
  split; [exact A1|]. split; [exact A2|]. apply IH; auto. cbn [List.length] in B. replace (k + 1 + Z.of_nat (List.length a)) with (k + Z.of_nat (S (List.length a))) by lia. exact B.
Qed.
Lemma inv_ssa : forall T idx, inv T idx -> ssa 0 (map instrOf idx) /\ Forall (fun i => isStore (o_type (in_op i)) = false) (map instrOf idx).
Proof.
  induction 1 as [|T idx op l r l' r' I (IS & IF) W L K NI]; [split; [exact Logic.I | constructor]|]. assert (P : plain op) by (inversion W; subst; assumption). rewrite map_app.
  assert (F : isStore (o_type (in_op (instrOf (NNode op l' r' (Z.of_nat (List.length T)))))) = false) by (cbn; apply P).
  split; [|apply Forall_app; split; [exact IF | constructor; [exact F | constructor]]].
  apply ssa_app; [exact IS | exact IF|]. rewrite map_length, (inv_length _ _ I). cbn [map ssa]. rewrite F. rewrite Z.add_0_l. split; [|split; [reflexivity | exact Logic.I]].
  cbn [instrOf in_src1 in_src2 in_src3]. pose proof (num_below _ _ _ L). split; [assumption|]. pose proof (num_below _ _ _ K).
  destruct K as [|m a b a' b' M A B|m a b a' b' v M A B E]; [lia| |].
  - rewrite (proj2 (opIs_true _ _) M). pose proof (num_below _ _ _ A). pose proof (num_below _ _ _ B). auto.
  - rewrite (opIs_false _ _ M). split; [assumption | lia].
Qed.

(** Compiled code stores the value of the tree, whatever the values and operations mean. *)
Theorem compile_spec : forall t f, wf t ->
  exists code, compile t f = Ok code /\
    (forall V sem R, run V sem code R = option_map (fun v => (storeOp f, v)) (eval V sem t)) /\
    exists T, NoDup T /\ (forall u, In u T <-> In u (subs t)) /\ List.length code = S (List.length T).
Proof.
  intros t f W. destruct (wf_shape _ W) as (op & l & r & -> & _). destruct (codeBefore_spec op l r f W) as (T & idx & l' & r' & I & SU & E).
  unfold compile. rewrite E. cbn [obind]. eexists. split; [reflexivity|]. destruct (inv_ssa _ _ I) as (SS & SF). split.
  - intros V sem R. rewrite <- (run_before V sem op l r f _ R W E). apply (rename_run V sem _ 0); [lia| |].
    + apply ssa_app; [exact SS | exact SF|]. cbn [ssa in_src1 in_src2 in_src3 in_op in_dst]. rewrite store_op. rewrite map_length, (inv_length _ _ I), app_length. cbn [List.length]. repeat split; lia.
    + constructor; try (intros r0 (L0 & _) K0; exfalso; lia); [intros r0 s0 (L0 & _) _ K0; exfalso; lia | intros q [] | reflexivity].
  - exists (T ++ [Node op l r]). split; [apply (inv_nodup _ _ I)|]. split; [exact SU|].
    assert (RL : forall c tb fr, List.length (rename c tb fr) = List.length c).
    { induction c as [|i c IH]; intros tb fr; [reflexivity|]. cbn [rename]. destruct (renameSrc tb c (in_src1 i) fr) as (s1, f1). destruct (renameSrc tb c (in_src2 i) f1) as (s2, f2). destruct (renameSrc tb c (in_src3 i) f2) as (s3, [|x f3]); [cbn; rewrite IH; reflexivity|].
      destruct (in_dst i <? 0); cbn; rewrite IH; reflexivity. }
    rewrite RL, app_length, map_length, (inv_length _ _ I). cbn [List.length]. lia.
Qed.

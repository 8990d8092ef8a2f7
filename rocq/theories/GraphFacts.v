(** What the printed graph and the table of times contain. *)
From Coq Require Import String Ascii ZArith List Bool Lia Permutation.
From Verif Require Import Common OptSpec OptLemmas Graph GraphSpec GraphWalk GraphLemmas.
Import ListNotations.
Open Scope Z_scope.

Section Collected.
  Variables (g : Z -> gnode) (rank : Z -> nat) (times : Z -> text) (m : gmode).
  Let deps (a : Z) := g_deps (g a).
  Hypothesis lay : layered deps rank.

  (** Node [b] is drawn in box [k] with lines [l] of its call and of itself. *)
  Definition drawn (b : Z) (k l : text) : Prop :=
    exists f f0, named m (g b) = Some f /\ innermost (g b) = Some f0 /\ k = mangleFrame f /\
      (l = labelText f (r_args f0) \/ l = ovalText times m b (g b)).

  Lemma hd_some : forall A (l : list A), l <> [] -> exists x, hd_error l = Some x.
  Proof. intros A [|x l] N; [exfalso; apply N; reflexivity|]. exists x. reflexivity. Qed.

  Lemma frames_named : forall x, g_frames x <> [] -> exists f f0, named m x = Some f /\ innermost x = Some f0.
  Proof.
    intros x N. destruct (hd_some _ _ N) as (f0 & E0).
    assert (N' : rev (g_frames x) <> []) by (intros E; apply N; rewrite <- (rev_involutive (g_frames x)), E; reflexivity).
    destruct (hd_some _ _ N') as (f1 & E1). unfold named, outermost, innermost. destruct m; eauto.
  Qed.

  Definition collected (tr : list act) (p : parts) : Prop :=
    (forall l, In l (fst p) <-> exists s b, In (Edge s b) tr /\ l = edgeText s b) /\
    ascending (fst p) /\ ascending (map fst (snd p)) /\
    (forall k l, In l (boxOf k (snd p)) <-> exists b, In b (enters tr) /\ drawn b k l).

  Lemma collected_all : forall tr, (forall b, In b (enters tr) -> g_frames (g b) <> []) ->
    exists p, performAll _ (enterGraph g times m) edgeGraph tr (Ok ([], [])) = Ok p /\ collected tr p.
  Proof.
    induction tr as [|e tr IH] using rev_ind; intros F.
    - exists ([], []). split; [reflexivity|]. split; [intros l; split; [intros []|intros (s & b & [] & _)]|].
      split; [exact I|]. split; [exact I|]. intros k l. split; [intros []|intros (b & [] & _)].
    - destruct IH as (p & E & C1 & C2 & C3 & C4); [intros b I; apply F; rewrite enters_app; apply in_or_app; left; exact I|].
      rewrite performAll_app, E. destruct e as [a|s a]; cbn [performAll fold_left perform].
      + destruct (frames_named (g a)) as (f & f0 & Ef & E0); [apply F; rewrite enters_app; apply in_or_app; right; left; reflexivity|].
        unfold enterGraph. cbn [obind]. rewrite Ef, E0. eexists. split; [reflexivity|].
        split; [|split; [|split]]; cbn [fst snd].
        * intros l. rewrite C1. split; intros (s & b & I & El); exists s, b; (split; [|exact El]).
          -- apply in_or_app. left. exact I.
          -- apply in_app_or in I. destruct I as [I|[H|[]]]; [exact I|discriminate].
        * exact C2.
        * apply mapInsert_keys, mapInsert_keys, C3.
        * intros k l. rewrite mapInsert_box by (apply mapInsert_keys, C3). rewrite !mapInsert_box by exact C3.
          rewrite enters_app. change (enters [Enter a]) with [a].
          destruct (list_eq_dec ascii_dec (mangleFrame f) (mangleFrame f)) as [_|N]; [|contradiction].
          destruct (list_eq_dec ascii_dec k (mangleFrame f)) as [->|D].
          -- rewrite !setInsert_in, C4. split.
             ++ intros [-> | [-> | (b & I & Dr)]].
                ** exists a. split; [apply in_or_app; right; left; reflexivity|]. exists f, f0. repeat split; try assumption. right. reflexivity.
                ** exists a. split; [apply in_or_app; right; left; reflexivity|]. exists f, f0. repeat split; try assumption. left. reflexivity.
                ** exists b. split; [apply in_or_app; left; exact I|exact Dr].
             ++ intros (b & I & Dr). apply in_app_or in I. destruct I as [I|[<-|[]]]; [right; right; exists b; split; assumption|].
                destruct Dr as (f' & f0' & H1 & H2 & _ & H). rewrite Ef in H1. rewrite E0 in H2. injection H1 as <-. injection H2 as <-.
                destruct H as [-> | ->]; [right; left; reflexivity|left; reflexivity].
          -- rewrite C4. split.
             ++ intros (b & I & Dr). exists b. split; [apply in_or_app; left; exact I|exact Dr].
             ++ intros (b & I & Dr). apply in_app_or in I. destruct I as [I|[<-|[]]]; [exists b; split; assumption|].
                destruct Dr as (f' & f0' & H1 & H2 & H & _). rewrite Ef in H1. injection H1 as <-. contradiction.
      + cbn [obind edgeGraph]. eexists. split; [reflexivity|]. split; [|split; [|split]]; cbn [fst snd].
        * intros l. rewrite setInsert_in, C1. split.
          -- intros [->|(s' & b & I & El)]; [exists s, a; split; [apply in_or_app; right; left; reflexivity|reflexivity]|].
             exists s', b. split; [apply in_or_app; left; exact I|exact El].
          -- intros (s' & b & I & El). apply in_app_or in I. destruct I as [I|[H|[]]]; [right; exists s', b; split; assumption|].
             injection H as -> ->. left. exact El.
        * apply setInsert_asc, C2.
        * exact C3.
        * intros k l. rewrite C4, enters_app. change (enters [Edge s a]) with (@nil Z). rewrite app_nil_r. reflexivity.
  Qed.

  (** The graph: its edges and its boxes. *)
  Lemma collect_graph : forall fuel a, (rank a < fuel)%nat -> (forall b, reach deps a b -> g_frames (g b) <> []) ->
    exists p, collect g times m fuel a = Some (Ok p) /\
      ascending (fst p) /\ (forall l, In l (fst p) <-> exists s b, reach deps a b /\ In s (deps b) /\ l = edgeText s b) /\
      ascending (map fst (snd p)) /\ (forall k l, In l (boxOf k (snd p)) <-> exists b, reach deps a b /\ drawn b k l).
  Proof.
    intros fuel a Fu Fr. destruct (walk_all deps rank lay fuel a Fu) as (v & tr & E & N & P & Q).
    destruct (collected_all tr) as (p & Ep & C1 & C2 & C3 & C4); [intros b I; apply Fr, P, I|].
    exists p. split.
    - unfold collect. change ([], Ok ([], []) : outcome parts) with (@nil Z, performAll _ (enterGraph g times m) edgeGraph [] (Ok ([], []))).
      fold deps. rewrite walk_trace, E. cbn [option_map fst snd]. rewrite Ep. reflexivity.
    - split; [exact C2|]. split.
      + intros l. rewrite C1. split; intros (s & b & H); exists s, b.
        * destruct H as (I & El). apply Q in I. tauto.
        * destruct H as (R & I & El). split; [apply Q; split; assumption|exact El].
      + split; [exact C3|]. intros k l. rewrite C4. split; intros (b & I & D); exists b; (split; [apply P; exact I|exact D]).
  Qed.

  (** A node made outside any call is fatal. *)
  Lemma collect_orphan : forall fuel a b, (rank a < fuel)%nat -> reach deps a b -> g_frames (g b) = [] -> collect g times m fuel a = Some UB.
  Proof.
    intros fuel a b Fu R Fr. destruct (walk_all deps rank lay fuel a Fu) as (v & tr & E & N & P & Q).
    unfold collect. change ([], Ok ([], []) : outcome parts) with (@nil Z, performAll _ (enterGraph g times m) edgeGraph [] (Ok ([], []))).
    fold deps. rewrite walk_trace, E. cbn [option_map fst snd]. f_equal.
    assert (Ub : forall t, performAll _ (enterGraph g times m) edgeGraph t UB = UB).
    { induction t as [|e t IHt] using rev_ind; [reflexivity|]. rewrite performAll_app, IHt. destruct e; reflexivity. }
    assert (Ne : forall t o, o <> Err -> In b (enters t) -> performAll _ (enterGraph g times m) edgeGraph t o = UB).
    { clear - Fr Ub. induction t as [|e t IHt]; intros o No I; [destruct I|]. cbn [performAll fold_left]. fold (performAll _ (enterGraph g times m) edgeGraph t (perform _ (enterGraph g times m) edgeGraph e o)).
      destruct e as [x|s x]; cbn [enters flat_map app] in I; cbn [perform].
      - destruct o as [p| |]; [|exfalso; exact (No eq_refl)|apply Ub]. destruct I as [->|I].
        + unfold enterGraph. cbn [obind]. unfold innermost. rewrite Fr. cbn [hd_error]. destruct (named m (g b)); apply Ub.
        + apply IHt; [|exact I]. unfold enterGraph. cbn [obind]. destruct (named m (g x)), (innermost (g x)); discriminate.
      - apply IHt; [|exact I]. destruct o; cbn [edgeGraph obind]; congruence. }
    apply Ne; [discriminate|]. apply P, R.
  Qed.

  (** ---- Times ---- *)
  Lemma times_trace : forall tr, performAll _ (enterTimes g) (fun _ _ l => l) tr [] = map (fun b => (g_name (g b), g_mode (g b), g_time (g b))) (enters tr).
  Proof.
    induction tr as [|e tr IH] using rev_ind; [reflexivity|]. rewrite performAll_app, IH, enters_app, map_app. destruct e; [reflexivity|].
    cbn. rewrite app_nil_r. reflexivity.
  Qed.

  Lemma sortIn_perm : forall x l, Permutation (sortIn x l) (x :: l).
  Proof.
    intros x. induction l as [|y tl IH]; cbn [sortIn]; [apply Permutation_refl|]. destruct (snd x <? snd y); [|apply Permutation_refl].
    eapply Permutation_trans; [apply perm_skip, IH|apply perm_swap].
  Qed.

  Lemma sortIn_sorted : forall x l, longestFirst l -> longestFirst (sortIn x l).
  Proof.
    intros x. induction l as [|y tl IH]; intros S1; cbn [sortIn]; [repeat split|]. destruct (Z.ltb_spec (snd x) (snd y)) as [L|L].
    - destruct S1 as (A & B). specialize (IH B). split; [|exact IH]. destruct tl as [|z tl]; cbn [sortIn] in *; [lia|]. destruct (snd x <? snd z); [exact A|lia].
    - split; [exact L|exact S1].
  Qed.

  Lemma table_rows : forall fuel a, (rank a < fuel)%nat ->
    exists rows order, timeTable g fuel a = Some rows /\ NoDup order /\ (forall b, In b order <-> reach deps a b) /\
      Permutation rows (map (fun b => (g_name (g b), g_mode (g b), g_time (g b))) order) /\ longestFirst rows.
  Proof.
    intros fuel a Fu. destruct (walk_all deps rank lay fuel a Fu) as (v & tr & E & N & P & Q).
    unfold timeTable. change ([], []) with (@nil Z, performAll _ (enterTimes g) (fun _ _ l => l) [] []).
    fold deps. rewrite walk_trace, E. cbn [option_map snd fst]. rewrite times_trace.
    eexists. exists (enters tr). split; [reflexivity|]. split; [exact N|]. split; [exact P|].
    generalize (map (fun b => (g_name (g b), g_mode (g b), g_time (g b))) (enters tr)). intros l. induction l as [|x l (IH1 & IH2)]; [split; [constructor|exact I]|].
    cbn [fold_right]. split; [eapply Permutation_trans; [apply sortIn_perm|apply perm_skip, IH1]|apply sortIn_sorted, IH2].
  Qed.
End Collected.

(** ---- Names ---- *)
Lemma split_space : forall a a' b b', ~ In " "%char a -> ~ In " "%char a' -> a ++ " "%char :: b = a' ++ " "%char :: b' -> a = a' /\ b = b'.
Proof.
  induction a as [|x a IH]; intros [|y a'] b b' N N' E; cbn [app] in E.
  - injection E as E. split; [reflexivity|exact E].
  - injection E as E1 E2. exfalso. apply N'. left. symmetry. exact E1.
  - injection E as E1 E2. exfalso. apply N. left. exact E1.
  - injection E as -> E. destruct (IH a' b b') as (-> & ->); [intros I; apply N; right; exact I|intros I; apply N'; right; exact I|exact E|]. split; reflexivity.
Qed.

(** Different edges are different lines. *)
Lemma edgeText_inj : forall s a s' a', edgeText s a = edgeText s' a' -> s = s' /\ a = a'.
Proof.
  intros s a s' a' E. unfold edgeText, mangleNode in E. cbn [T list_ascii_of_string app] in E.
  change ("n"%char :: dec s ++ " "%char :: ?x) with (("n"%char :: dec s) ++ " "%char :: x) in E.
  change ("n"%char :: dec s' ++ " "%char :: ?x) with (("n"%char :: dec s') ++ " "%char :: x) in E.
  assert (Ns : forall v, ~ In " "%char ("n"%char :: dec v)).
  { intros v [H|H]; [discriminate|]. destruct (dec_chars v _ H) as (_ & _ & X). contradiction. }
  destruct (split_space _ _ _ _ (Ns s) (Ns s') E) as (E1 & E2). injection E1 as E1. injection E2 as E2.
  split; apply dec_inj; assumption.
Qed.

(** The boxes of different calls are different. *)
Lemma mangleFrame_inj : forall f f', mangleFrame f = mangleFrame f' -> r_addr f = r_addr f'.
Proof. intros f f' E. unfold mangleFrame in E. injection E as E. apply dec_inj, E. Qed.

(** ---- Labels ---- *)
Lemma inside_T : forall s, inside (T s) = true -> forall b, inside (T s ++ b) = inside b.
Proof. intros s H b. apply inside_app, H. Qed.

Lemma elems_inside : forall l, (forall t, In t l -> inside t = true) -> inside (printElems l) = true.
Proof.
  intros l H. unfold printElems. apply inside_both.
  - assert (H' : forall t, In t (firstn 5 l) -> inside t = true) by (intros t I; apply H; rewrite <- (firstn_skipn 5 l); apply in_or_app; left; exact I).
    destruct (firstn 5 l) as [|x r]; [reflexivity|]. apply inside_both; [apply H'; left; reflexivity|].
    assert (H'' : forall t, In t r -> inside t = true) by (intros t I; apply H'; right; exact I). clear H'.
    induction r as [|y r IH]; [reflexivity|]. cbn [flat_map]. rewrite <- app_assoc. rewrite inside_T by reflexivity.
    apply inside_both; [apply H''; left; reflexivity|]. apply IH. intros t I. apply H''. right. exact I.
  - destruct (5 <? Z.of_nat (length l)); [|reflexivity]. rewrite inside_T by reflexivity.
    apply inside_both; [apply plain_inside, dec_plain|reflexivity].
Qed.

Lemma val_inside : forall v, valPlain v -> inside (printVal v) = true.
Proof.
  intros [l|l|l|n] H; cbn [printVal valPlain] in *.
  - apply elems_inside. intros t I. apply in_map_iff in I. destruct I as (v & <- & _). apply plain_inside, dec_plain.
  - apply elems_inside. intros t I. apply plain_inside, H, I.
  - apply elems_inside. intros t I. apply in_map_iff in I. destruct I as (d & <- & I). unfold printData. destruct (fst d).
    + apply escapeDot_inside, H, I.
    + rewrite inside_T by reflexivity. apply inside_both; [apply plain_inside, dec_plain|reflexivity].
  - rewrite inside_T by reflexivity. apply inside_both; [apply plain_inside, dec_plain|reflexivity].
Qed.

(** Without quotes in the data and with plain names a label is one quoted string. *)
Lemma label_quoted : forall f args, plain (r_ns f) -> plain (r_fn f) -> (forall a, In a args -> plain (fst a) /\ valPlain (snd a)) ->
  exists t, labelText f args = T "label=" ++ [quote] ++ t ++ [quote] /\ inside t = true.
Proof.
  intros f args P1 P2 H. exists (r_ns f ++ T "." ++ r_fn f ++ printArgs args). split.
  - unfold labelText. rewrite <- !app_assoc. reflexivity.
  - apply inside_both; [apply plain_inside, P1|]. rewrite inside_T by reflexivity. apply inside_both; [apply plain_inside, P2|].
    unfold printArgs. induction args as [|a args IH]; [reflexivity|]. cbn [flat_map]. apply inside_both.
    + destruct (H a (or_introl eq_refl)) as (A & B). change ([bs; "n"%char] ++ ?x) with (bs :: "n"%char :: x). cbn [inside].
      change (inside (fst a ++ T "=" ++ printVal (snd a)) = true). apply inside_both; [apply plain_inside, A|]. rewrite inside_T by reflexivity. apply val_inside, B.
    + apply IH. intros a' I. apply H. right. exact I.
Qed.

(** A quote in an argument ends the label: the text between the outer quotes leaves them. *)
Lemma quote_breaks : exists f args t, plain (r_ns f) /\ plain (r_fn f) /\
  labelText f args = T "label=" ++ [quote] ++ t ++ [quote] /\ inside t = false.
Proof.
  exists (mkRec 1 (T "text") (T "Text") []), [(T "text", AData [(true, T "say " ++ [quote] ++ T "hello")])].
  exists (T "text.Text" ++ printArgs [(T "text", AData [(true, T "say " ++ [quote] ++ T "hello")])]).
  split; [split; intros I; repeat (destruct I as [I|I]; [discriminate|]); destruct I|].
  split; [split; intros I; repeat (destruct I as [I|I]; [discriminate|]); destruct I|].
  split; vm_compute; reflexivity.
Qed.

(** ---- Labels of the simple graph ---- *)
(** Outside the simple graph the arguments shown are those of the call named. *)
Lemma full_labels : forall m x f f0, m <> GSimple -> named m x = Some f -> innermost x = Some f0 -> f = f0.
Proof. intros m x f f0 N E1 E2. destruct m; [exfalso; apply N; reflexivity| |]; cbn [named] in E1; congruence. Qed.

Lemma simple_flat : forall x f f0, (length (g_frames x) <= 1)%nat -> named GSimple x = Some f -> innermost x = Some f0 -> f = f0.
Proof.
  intros x f f0 L E1 E2. cbn [named] in E1. unfold outermost, innermost in *. destruct (g_frames x) as [|a [|b l]]; cbn [rev app hd_error length] in *; [discriminate|congruence|lia].
Qed.

(** A call that makes two nodes by calls of its own gets two labels, none of them with
    its own arguments. *)
Definition outerCall := mkRec 100 (T "plug") (T "Twice") [(T "strength", AInts [7])].
Definition exGraph (a : Z) : gnode :=
  if a =? 2 then mkNode (T "Invert") 0 5 [mkRec 20 (T "std") (T "Invert") [(T "planes", AInts [1])]; outerCall] [1]
  else if a =? 1 then mkNode (T "Invert") 0 9 [mkRec 10 (T "std") (T "Invert") [(T "planes", AInts [0; 2])]; outerCall] [0]
  else if a =? 3 then mkNode (T "StackVertical") 0 1 [mkRec 30 (T "std") (T "StackVertical") [(T "n", AInts [1; 2; 3; 4; 5; 6; 7])]] [2; 0; 2]
  else mkNode (T "BlankClip") 2 9 [mkRec 40 (T "std") (T "BlankClip") []] [].
Definition exRank (a : Z) : nat := if a =? 3 then 3%nat else if a =? 2 then 2%nat else if a =? 1 then 1%nat else 0%nat.

Lemma exLayered : layered (fun a => g_deps (exGraph a)) exRank.
Proof.
  intros a s. unfold exGraph, exRank. destruct (Z.eqb_spec a 2) as [->|N2]; [intros [<-|[]]; cbn; lia|].
  destruct (Z.eqb_spec a 1) as [->|N1]; [intros [<-|[]]; cbn; lia|]. destruct (Z.eqb_spec a 3) as [->|N3]; [intros [<-|[<-|[<-|[]]]]; cbn; lia|intros []].
Qed.

Lemma simple_mislabels : exists g p k l, collect g (fun _ => []) GSimple 5 2 = Some (Ok p) /\ In l (boxOf k (snd p)) /\
  (forall b, g_frames (g b) <> []) /\
  k = mangleFrame outerCall /\ l = labelText outerCall [(T "planes", AInts [0; 2])] /\
  In (labelText outerCall [(T "planes", AInts [1])]) (boxOf k (snd p)) /\
  ~ In (labelText outerCall (r_args outerCall)) (boxOf k (snd p)).
Proof.
  exists exGraph. eexists. exists (mangleFrame outerCall), (labelText outerCall [(T "planes", AInts [0; 2])]).
  split; [vm_compute; reflexivity|]. split; [vm_compute; tauto|].
  split; [intros b; unfold exGraph; destruct (b =? 2), (b =? 1), (b =? 3); discriminate|].
  split; [reflexivity|]. split; [reflexivity|]. split; [vm_compute; tauto|].
  intros I. vm_compute in I. repeat (destruct I as [I|I]; [discriminate|]). destruct I.
Qed.

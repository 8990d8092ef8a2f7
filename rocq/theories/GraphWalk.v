(** The walk meets every reachable node once and every edge of those. *)
From Coq Require Import String Ascii ZArith List Bool Lia.
From Verif Require Import Common OptSpec Graph GraphSpec.
Import ListNotations.
Open Scope Z_scope.

(** What the walk records, in order. *)
Inductive act := Enter (a : Z) | Edge (s a : Z).

Definition traceEnter (a : Z) (t : list act) := t ++ [Enter a].
Definition traceEdge (s a : Z) (t : list act) := t ++ [Edge s a].
Definition enters (t : list act) : list Z := flat_map (fun e => match e with Enter a => [a] | Edge _ _ => [] end) t.

Lemma enters_app : forall t1 t2, enters (t1 ++ t2) = enters t1 ++ enters t2.
Proof. intros. unfold enters. apply flat_map_app. Qed.

Section Any.
  Variables (deps : Z -> list Z) (St : Type) (enter : Z -> St -> St) (edge : Z -> Z -> St -> St).

  Definition perform (e : act) (s : St) : St := match e with Enter a => enter a s | Edge x a => edge x a s end.
  Definition performAll (t : list act) (s : St) : St := fold_left (fun s e => perform e s) t s.

  Lemma performAll_app : forall t1 t2 s, performAll (t1 ++ t2) s = performAll t2 (performAll t1 s).
  Proof. intros. unfold performAll. apply fold_left_app. Qed.

  (** Any walk performs the actions the recording walk records. *)
  Lemma walk_trace : forall st0 fuel v t a,
    walk deps St enter edge fuel (v, performAll t st0) a =
    option_map (fun r => (fst r, performAll (snd r) st0)) (walk deps _ traceEnter traceEdge fuel (v, t) a).
  Proof.
    intros st0. induction fuel as [|k IH]; intros v t a; [reflexivity|]. cbn [walk fst snd].
    destruct (existsb (Z.eqb a) v); [reflexivity|].
    assert (F : forall ds o1 o2, o1 = option_map (fun r : list Z * list act => (fst r, performAll (snd r) st0)) o2 ->
      fold_left (fun o s => match o with None => None | Some y => walk deps St enter edge k (fst y, edge s a (snd y)) s end) ds o1 =
      option_map (fun r => (fst r, performAll (snd r) st0))
        (fold_left (fun o s => match o with None => None | Some y => walk deps _ traceEnter traceEdge k (fst y, traceEdge s a (snd y)) s end) ds o2)).
    { induction ds as [|s ds IHd]; intros o1 o2 E; [exact E|]. cbn [fold_left]. apply IHd. rewrite E.
      destruct o2 as [(v2, t2)|]; [|reflexivity]. cbn [option_map fst snd]. rewrite <- IH. unfold traceEdge. rewrite performAll_app. reflexivity. }
    apply F. cbn [option_map fst snd]. unfold traceEnter. rewrite performAll_app. reflexivity.
  Qed.
End Any.

Section Meets.
  Variables (deps : Z -> list Z) (rank : Z -> nat).
  Hypothesis lay : layered deps rank.

  Definition closedBelow (v : list Z) (r : nat) : Prop := forall u, In u v -> (rank u < r)%nat -> forall y, reach deps u y -> In y v.

  (** What a stretch of the recording contains that took the visited nodes from [v] to
      [v'], beside edges into [n] from [ds]. *)
  Definition stretch (v v' : list Z) (n : Z) (ds : list Z) (tr : list act) : Prop :=
    NoDup (enters tr) /\ (forall y, In y (enters tr) <-> In y v' /\ ~ In y v) /\
    (forall s b, In (Edge s b) tr <-> In b (enters tr) /\ In s (deps b) \/ b = n /\ In s ds).

  Lemma reach_trans : forall a b c, reach deps a b -> reach deps b c -> reach deps a c.
  Proof. intros a b c H. induction H as [|a s b I H IH]; [exact (fun X => X)|]. intros X. exact (reach_step _ _ _ _ I (IH X)). Qed.

  Lemma existsb_in : forall a v, existsb (Z.eqb a) v = true <-> In a v.
  Proof.
    intros a v. rewrite existsb_exists. split; [intros (x & I & E); apply Z.eqb_eq in E; subst; exact I|].
    intros I. exists a. split; [exact I|apply Z.eqb_refl].
  Qed.

  Lemma walk_meets : forall fuel v t a, (rank a < fuel)%nat -> closedBelow v (S (rank a)) ->
    exists v' tr, walk deps _ traceEnter traceEdge fuel (v, t) a = Some (v', t ++ tr) /\
      (forall y, In y v' <-> In y v \/ reach deps a y) /\ stretch v v' a [] tr.
  Proof.
    induction fuel as [|k IH]; intros v t a Fu Cl; [lia|]. cbn [walk fst snd].
    destruct (existsb (Z.eqb a) v) eqn:Ex.
    - apply existsb_in in Ex. exists v, []. rewrite app_nil_r. split; [reflexivity|]. split.
      + intros y. split; [left; assumption|]. intros [I|R]; [exact I|]. exact (Cl a Ex (Nat.lt_succ_diag_r _) y R).
      + split; [constructor|]. split; [intros y; split; [intros []|intros (A & B); contradiction]|].
        intros s b. split; [intros []|]. intros [([] & _)|(_ & [])].
    - assert (Na : ~ In a v) by (intros I; apply existsb_in in I; congruence).
      assert (Inner : forall ds w u, (forall s, In s ds -> (rank s < rank a)%nat) -> closedBelow w (rank a) ->
        exists w' tr, fold_left (fun o s => match o with None => None | Some y => walk deps _ traceEnter traceEdge k (fst y, traceEdge s a (snd y)) s end) ds (Some (w, u)) = Some (w', u ++ tr) /\
          (forall y, In y w' <-> In y w \/ exists s, In s ds /\ reach deps s y) /\ stretch w w' a ds tr).
      { induction ds as [|s ds IHd]; intros w u Rk Cw.
        - exists w, []. rewrite app_nil_r. split; [reflexivity|]. split; [intros y; split; [left; assumption|intros [I|(s & [] & _)]; exact I]|].
          split; [constructor|]. split; [intros y; split; [intros []|intros (A & B); contradiction]|].
          intros s b. split; [intros []|]. intros [([] & _)|(_ & [])].
        - cbn [fold_left fst snd]. assert (Rs := Rk s (or_introl eq_refl)).
          destruct (IH w (traceEdge s a u) s) as (w1 & tr1 & E1 & M1 & N1 & P1 & Q1); [lia| |].
          { intros x I L y R. apply (Cw x I); [lia|exact R]. }
          rewrite E1.
          destruct (IHd w1 (traceEdge s a u ++ tr1)) as (w2 & tr2 & E2 & M2 & N2 & P2 & Q2).
          { intros s' I. apply Rk. right. exact I. }
          { intros x I L y R. apply M1 in I. apply M1. destruct I as [I|I]; [left; exact (Cw x I L y R)|right; exact (reach_trans _ _ _ I R)]. }
          exists w2, (Edge s a :: tr1 ++ tr2). rewrite E2. unfold traceEdge. rewrite <- !app_assoc. split; [reflexivity|]. split.
          + intros y. rewrite M2, M1. split.
            * intros [[I|R]|(s' & I & R)]; [left; exact I|right; exists s; split; [left; reflexivity|exact R]|right; exists s'; split; [right; exact I|exact R]].
            * intros [I|(s' & [<-|I] & R)]; [left; left; exact I|left; right; exact R|right; exists s'; split; assumption].
          + assert (En : enters (Edge s a :: tr1 ++ tr2) = enters tr1 ++ enters tr2) by (exact (enters_app tr1 tr2)).
            assert (Sub : forall y, In y w1 -> In y w2) by (intros y I; apply M2; left; exact I).
            assert (Sub0 : forall y, In y w -> In y w1) by (intros y I; apply M1; left; exact I).
            split; [rewrite En|split].
            * clear - N1 N2 P1 P2. induction (enters tr1) as [|x tl IHt] eqn:Et in N1, P1 |- *; [exact N2|].
              assert (D : forall y, In y (x :: tl) -> ~ In y (enters tr2)) by (intros y I J; apply P1 in I; apply P2 in J; tauto).
              clear P1 Et IHt. induction (x :: tl) as [|z l IHl]; [exact N2|]. cbn [app]. inversion N1 as [|? ? A B]; subst.
              constructor; [intros I; apply in_app_or in I; destruct I as [I|I]; [contradiction|exact (D z (or_introl eq_refl) I)]|].
              apply IHl; [exact B|]. intros y I. apply D. right. exact I.
            * intros y. rewrite En, in_app_iff, P1, P2. split.
              -- intros [(A & B)|(A & B)]; [split; [exact (Sub y A)|exact B]|split; [exact A|intros I; exact (B (Sub0 y I))]].
              -- intros (A & B). destruct (in_dec Z.eq_dec y w1) as [I|I]; [left; split; assumption|right; split; assumption].
            * intros s' b. rewrite En. cbn [In]. rewrite !in_app_iff, Q1, Q2. split.
              -- intros [E|[[(A & B)|(A & [])]|[(A & B)|(A & B)]]].
                 ++ injection E as <- <-. right. split; [reflexivity|left; reflexivity].
                 ++ left. split; [left; exact A|exact B].
                 ++ left. split; [right; exact A|exact B].
                 ++ right. split; [exact A|right; exact B].
              -- intros [([A|A] & B)|(A & [<-|B])]; [right; left; left; split; assumption|right; right; left; split; assumption|left; subst b; reflexivity|right; right; right; split; assumption]. }
      destruct (Inner (deps a) (a :: v) (traceEnter a t)) as (w' & tr & E & M & N & P & Q).
      { intros s I. exact (lay a s I). }
      { intros x [<-|I] L y R; [lia|]. right. apply (Cl x I); [lia|exact R]. }
      exists w', (Enter a :: tr). rewrite E. unfold traceEnter. rewrite <- app_assoc. split; [reflexivity|]. split.
      + intros y. rewrite M. split.
        * intros [[<-|I]|(s & I & R)]; [right; apply reach_refl|left; exact I|right; exact (reach_step _ _ _ _ I R)].
        * intros [I|R]; [left; right; exact I|]. inversion R as [x|x s y' I R']; subst; [left; left; reflexivity|right; exists s; split; assumption].
      + change (enters (Enter a :: tr)) with (a :: enters tr) in *. split; [|split].
        * constructor; [intros I; apply P in I; apply (proj2 I); left; reflexivity|exact N].
        * intros y. cbn [enters flat_map app]. cbn [In]. fold (enters tr). rewrite P. split.
          -- intros [<-|(A & B)]; [split; [apply M; left; left; reflexivity|exact Na]|split; [exact A|intros I; apply B; right; exact I]].
          -- intros (A & B). destruct (Z.eq_dec a y) as [->|D]; [left; reflexivity|right; split; [exact A|intros [I|I]; contradiction]].
        * intros s b. cbn [enters flat_map app In]. fold (enters tr). rewrite Q. split.
          -- intros [H|[(A & B)|(-> & B)]]; [discriminate|left; split; [right; exact A|exact B]|left; split; [left; reflexivity|exact B]].
          -- intros [([<-|A] & B)|(_ & [])]; [right; right; split; [reflexivity|exact B]|right; left; split; assumption].
  Qed.

  (** From nothing visited: every reachable node once, and the edges into those. *)
  Lemma walk_all : forall fuel a, (rank a < fuel)%nat ->
    exists v tr, walk deps _ traceEnter traceEdge fuel ([], []) a = Some (v, tr) /\
      NoDup (enters tr) /\ (forall y, In y (enters tr) <-> reach deps a y) /\
      (forall s b, In (Edge s b) tr <-> reach deps a b /\ In s (deps b)).
  Proof.
    intros fuel a Fu. destruct (walk_meets fuel [] [] a Fu) as (v & tr & E & M & N & P & Q); [intros u []|].
    exists v, tr. split; [exact E|]. split; [exact N|]. assert (P' : forall y, In y (enters tr) <-> reach deps a y).
    { intros y. rewrite P, M. split; [intros ([[]|R] & _); exact R|intros R; split; [right; exact R|intros []]]. }
    split; [exact P'|]. intros s b. rewrite Q, P'. split; [intros [H|(_ & [])]; exact H|intros H; left; exact H].
  Qed.
End Meets.

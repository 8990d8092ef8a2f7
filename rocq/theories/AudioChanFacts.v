(** Packaged facts for the channel filters. *)
From Coq Require Import ZArith List Bool Lia.
From Verif Require Import Common FormatSpec Format ReqPat AudioSpec Audio AudioLemmas AudioLemmas2
  AudioChanSpec AudioChan AudioChanLemmas AudioChanLemmas2 AudioChanLemmas3.
Import ListNotations.
Open Scope Z_scope.

Section S.
Context {B : Type}.
Variable zero : B.

Lemma shuffle_accepts : forall (nodes : list (anode B)) cin cout, nodes <> [] -> Forall goodNode nodes ->
  shuffleAsks nodes cin cout ->
  exists r, shuffleChannels zero nodes cin cout = Ok r /\ shuffled zero nodes cin cout r.
Proof.
  intros nodes cin cout NE GN AK. destruct (shuffle_dec zero nodes cin cout NE GN) as [(_ & X)|(N & _)];
    [exact X|contradiction].
Qed.

Lemma shuffle_rejects : forall (nodes : list (anode B)) cin cout, nodes <> [] -> Forall goodNode nodes ->
  ~ shuffleAsks nodes cin cout -> shuffleChannels zero nodes cin cout = Err.
Proof.
  intros nodes cin cout NE GN NK. destruct (shuffle_dec zero nodes cin cout NE GN) as [(X & _)|(_ & X)];
    [contradiction|exact X].
Qed.

Lemma monoNode : forall (c : clip B) L s, serves c L s -> nodeServes (mkN 0 1 L (c_frames c) [c]) L [s].
Proof.
  intros c L s H. pose proof H as (_ & BL & FF & _).
  split; [cbn [an_layout]; lia|]. split; [reflexivity|]. split; [reflexivity|]. split; [exact FF|].
  constructor; [exact H|constructor].
Qed.

Lemma shuffle_pattern_dishonest : exists (nodes : list (anode B)) cin cout r nd0,
  Forall goodNode nodes /\ shuffleChannels zero nodes cin cout = Ok r /\ shuffled zero nodes cin cout r /\
  In nd0 nodes /\ shufflePattern nd0 nd0 = rpStrictSpatial /\
  ~ honest (shufflePattern nd0 nd0) (an_frames nd0) (an_frames r) shuffleRequest.
Proof.
  destruct (wave_correct (fun _ => zero) 0 5) as (c1 & _ & S1); [unfold AFS, INT_MAX; lia|].
  destruct (wave_correct (fun _ => zero) 0 4000) as (c2 & _ & S2); [unfold AFS, INT_MAX; lia|].
  set (n1 := mkN 0 1 5 (c_frames c1) [c1]). set (n2 := mkN 0 1 4000 (c_frames c2) [c2]).
  pose proof (monoNode _ _ _ S1) as N1. pose proof (monoNode _ _ _ S2) as N2. fold n1 in N1. fold n2 in N2.
  assert (GN : Forall goodNode [n1; n2]).
  { constructor; [eexists; eexists; exact N1|]. constructor; [eexists; eexists; exact N2|constructor]. }
  assert (AK : shuffleAsks [n1; n2] [0; 0] [0; 1]).
  { split; [reflexivity|]. split; [apply Z.le_refl|].
    split; [repeat constructor; unfold inRange; lia|].
    split; [repeat constructor; intros X; cbn in X; intuition discriminate|]. split.
    - intros a b [<-|[<-|[]]] [<-|[<-|[]]]; reflexivity.
    - intros k c nd E _. destruct k as [|[|[|k]]]; try discriminate; injection E as <-; discriminate. }
  destruct (shuffle_accepts [n1; n2] [0; 0] [0; 1]) as (r & E & SH); [discriminate|exact GN|exact AK|].
  exists [n1; n2], [0; 0], [0; 1], r, n1. split; [exact GN|]. split; [exact E|]. split; [exact SH|].
  split; [left; reflexivity|].
  assert (PT : shufflePattern n1 n1 = rpStrictSpatial) by (unfold shufflePattern; rewrite Z.leb_refl; reflexivity).
  split; [exact PT|]. rewrite PT. cbn [honest]. intros H.
  destruct SH as (_ & (L & ss & _ & _ & EL & FL & _) & _ & SM & _).
  pose proof (SM n2 (or_intror (or_introl eq_refl))) as HM. cbn [an_samples n2] in HM.
  assert (F1 : c_frames c1 = 1).
  { destruct S1 as (_ & _ & FF & _). unfold framesFor, AFS in FF. lia. }
  destruct (H 1) as (X & _).
  - rewrite EL in HM. unfold framesFor, AFS in FL. lia.
  - cbn [an_frames n1] in X. lia.
Qed.

End S.

(** Clips stored in properties. *)
From Coq Require Import String Ascii ZArith List Lia Bool.
From Verif Require Import Common SMap MapSpec FormatSpec Format ReqPat PropsSpec Props PropsLemmas ClipProp.
Import ListNotations.
Local Open Scope string_scope.
Local Open Scope list_scope.
Open Scope Z_scope.

Definition constant (v : cvi) : Prop := 0 < cv_h v /\ 0 < cv_w v /\ f_cf (cv_fmt v) <> cfUndefined.
Lemma isConstant_ok : forall v, isConstant v = true <-> constant v.
Proof. intros v. unfold isConstant, constant. rewrite !andb_true_iff, !Z.ltb_lt, negb_true_iff, Z.eqb_neq. tauto. Qed.
(** A frame keeps what it is: format and size as its clip says. *)
Definition frameOf (st : store) (v : cvi) (h : Z) : Prop := st_audio st h = false /\ st_meta st h = (cv_fmt v, (cv_w v, cv_h v)).
Definition videoClip (st : store) (v : cvi) (c : Z -> Z * pmap) : Prop := constant v /\ 0 < cv_n v /\ forall n, 0 <= n < cv_n v -> frameOf st v (fst (c n)) /\ legal (snd (c n)).
Lemma sameFormat_refl : forall f, sameFormat f f = true.
Proof. intros f. unfold sameFormat. rewrite !Z.eqb_refl. reflexivity. Qed.

Lemma set_frame : forall st m k h, legal m -> identifier k = true -> legal (mapSetFrame st m k h) /\ forall k', entry (mapSetFrame st m k h) k' = if String.eqb k' k then Some (if st_audio st h then ptAudioFrame else ptVideoFrame, [VFrame (st_audio st h) h]) else entry m k'.
Proof.
  intros st m k h L I. unfold mapSetFrame, set_value. rewrite I. cbn [negb keepOr]. split; [apply legal_put; [exact L|exact I|constructor; [reflexivity|constructor]]|]. intros k'. rewrite entry_put. reflexivity.
Qed.
Lemma get_frame : forall m k t l i, legal m -> entry m k = Some (t, l) -> 0 <= i -> mapGetFrame m k i = match nthz l i with Some (VFrame a h) => Some (a, h) | _ => None end.
Proof.
  intros m k t l i (S & E & T) EM I. unfold entry in EM. pose proof (mget_in _ _ _ _ EM) as IN. destruct (T _ _ _ IN) as (_ & F). unfold mapGetFrame, lookup_at. rewrite E, EM.
  destruct (nthz l i) as [v|] eqn:N; [|reflexivity]. assert (TV : vtype v = t). { unfold nthz in N. destruct (i <? 0); [discriminate|]. apply nth_error_In in N. rewrite Forall_forall in F. now apply F. }
  destruct v as [| | | |a p|a p]; cbn [vtype] in TV; subst t; try (destruct a); reflexivity.
Qed.
Lemma stored_frame : forall st m k h, legal m -> identifier k = true -> mapGetFrame (mapSetFrame st m k h) k 0 = Some (st_audio st h, h).
Proof. intros st m k h L I. destruct (set_frame st m k h L I) as (LS & E). specialize (E k). rewrite String.eqb_refl in E. rewrite (get_frame _ _ _ _ 0 LS E) by lia. reflexivity. Qed.

Lemma to_prop : forall st v1 v2 c1 c2 p, videoClip st v1 c1 -> videoClip st v2 c2 -> identifier (propName p) = true ->
  exists v ps, clipToPropCreate v1 v2 p = Ok (v, propName p, ps) /\ cv_n v = cv_n v2 /\ cv_fps v = cv_fps v1 /\
    videoClip st v (clipToProp st (propName p) (cv_n v1) (cv_n v2) c1 c2) /\
    forall n, 0 <= n < cv_n v2 -> let f := clipToProp st (propName p) (cv_n v1) (cv_n v2) c1 c2 n in let s := c1 (Z.min n (cv_n v1 - 1)) in
      fst f = fst s /\ (forall k, k <> propName p -> entry (snd f) k = entry (snd s) k) /\ mapGetFrame (snd f) (propName p) 0 = Some (false, fst (c2 n)).
Proof.
  intros st v1 v2 c1 c2 p (C1 & N1 & F1) (C2 & N2 & F2) I. unfold clipToPropCreate. rewrite (proj2 (isConstant_ok v1) C1), (proj2 (isConstant_ok v2) C2). cbn [negb orb].
  eexists _, _. split; [reflexivity|]. cbn [cv_n cv_fps]. split; [reflexivity|]. split; [reflexivity|].
  assert (X : forall n, 0 <= n < cv_n v2 -> exists s, s = c1 (Z.min n (cv_n v1 - 1)) /\ frameOf st v1 (fst s) /\ legal (snd s) /\ st_audio st (fst (c2 n)) = false /\ clipToProp st (propName p) (cv_n v1) (cv_n v2) c1 c2 n = (fst s, mapSetFrame st (snd s) (propName p) (fst (c2 n)))).
  { intros n B. eexists. split; [reflexivity|]. destruct (F1 (Z.min n (cv_n v1 - 1)) ltac:(lia)) as (A1 & A2). destruct (F2 n B) as ((A3 & _) & _). split; [exact A1|]. split; [exact A2|]. split; [exact A3|].
    unfold clipToProp, clipToPropFrame, node. rewrite (Z.min_l n (cv_n v2 - 1)) by lia. reflexivity. }
  split.
  - split; [exact C1|]. split; [exact N2|]. intros n B. cbn [cv_n] in B. destruct (X n B) as (s & _ & A1 & A2 & _ & ->). cbn [fst snd]. split; [exact A1|]. now apply set_frame.
  - intros n B. cbv zeta. destruct (X n B) as (s & <- & A1 & A2 & A3 & ->). cbn [fst snd]. split; [reflexivity|]. split.
    + intros k NK. destruct (set_frame st (snd s) (propName p) (fst (c2 n)) A2 I) as (_ & E). rewrite E. apply String.eqb_neq in NK. now rewrite NK.
    + rewrite (stored_frame st _ _ _ A2 I), A3. reflexivity.
Qed.
Lemma round_trip : forall st v1 v2 c1 c2 p, videoClip st v1 c1 -> videoClip st v2 c2 -> identifier (propName p) = true ->
  exists v ps w, let c := clipToProp st (propName p) (cv_n v1) (cv_n v2) c1 c2 in
    clipToPropCreate v1 v2 p = Ok (v, propName p, ps) /\ propToClipCreate st v p None (Ok (c 0)) = Ok (w, propName p, 0) /\
    w = mkCV (cv_fmt v2) (cv_w v2) (cv_h v2) (cv_n v2) (cv_fps v1) /\
    forall n, 0 <= n < cv_n w -> propToClipFrame st (w, propName p, 0) (c n) = Ok (fst (c2 n)).
Proof.
  intros st v1 v2 c1 c2 p V1 V2 I. destruct (to_prop st v1 v2 c1 c2 p V1 V2 I) as (v & ps & E & EN & EF & VC & F). exists v, ps, (mkCV (cv_fmt v2) (cv_w v2) (cv_h v2) (cv_n v2) (cv_fps v1)). cbv zeta.
  destruct V2 as (C2 & N2 & F2). split; [exact E|]. split.
  - unfold propToClipCreate. rewrite (proj2 (isConstant_ok v)) by apply VC. cbn [negb].
    replace (String.eqb (propName p) "") with false by (symmetry; apply String.eqb_neq; intros Q; rewrite Q in I; discriminate). change (0 <? 0) with false. cbn [obind].
    destruct (F 0 ltac:(lia)) as (_ & _ & G). rewrite G. unfold videoMeta. cbn [fst snd obind]. destruct (F2 0 ltac:(lia)) as ((_ & M) & _). rewrite M. cbn [fst snd]. rewrite EN, EF. reflexivity.
  - split; [reflexivity|]. cbn [cv_n]. intros n B. destruct (F n B) as (_ & _ & G). unfold propToClipFrame. cbn [fst snd]. rewrite G. unfold videoMeta. cbn [fst snd obind cv_fmt cv_h cv_w]. destruct (F2 n B) as ((_ & M) & _). rewrite M. cbn [fst snd]. rewrite sameFormat_refl, !Z.eqb_refl. reflexivity.
Qed.
(** Whatever PropToClip returns is a frame of its clip; anything else is an error, for properties without audio. *)
Definition noAudio (m : pmap) : Prop := forall k l, entry m k <> Some (ptAudioFrame, l).
Lemma to_clip_honest : forall st v k i s, legal (snd s) -> noAudio (snd s) -> 0 <= i ->
  match propToClipFrame st (v, k, i) s with
  | Ok h => (exists l, entry (snd s) k = Some (ptVideoFrame, l) /\ nthz l i = Some (VFrame false h)) /\ snd (st_meta st h) = (cv_w v, cv_h v) /\
      (f_cf (fst (st_meta st h)) = f_cf (cv_fmt v) /\ f_st (fst (st_meta st h)) = f_st (cv_fmt v) /\ f_bits (fst (st_meta st h)) = f_bits (cv_fmt v) /\ f_ssw (fst (st_meta st h)) = f_ssw (cv_fmt v) /\ f_ssh (fst (st_meta st h)) = f_ssh (cv_fmt v))
  | Err => True
  | UB => False
  end.
Proof.
  intros st v k i s L NA I. unfold propToClipFrame. cbn [fst snd]. destruct (entry (snd s) k) as [(t, l)|] eqn:E.
  2:{ unfold mapGetFrame, lookup_at. unfold entry in E. rewrite E. destruct (pe (snd s)); exact Logic.I. }
  rewrite (get_frame _ _ _ _ i L E I). destruct (nthz l i) as [w|] eqn:N; [|exact Logic.I].
  assert (TV : vtype w = t). { destruct L as (_ & _ & T). unfold entry in E. apply mget_in in E. destruct (T _ _ _ E) as (_ & F). unfold nthz in N. destruct (i <? 0); [discriminate|]. apply nth_error_In in N. rewrite Forall_forall in F. now apply F. }
  destruct w as [| | | |a h|a h]; try exact Logic.I. destruct a; cbn [vtype] in TV; subst t; [exfalso; apply (NA k l E)|].
  unfold videoMeta. cbn [fst snd obind]. destruct (st_meta st h) as (f, (ww, hh)) eqn:M. cbn [fst snd]. unfold sameFormat.
  destruct (_ || _ || _) eqn:D; [exact Logic.I|]. rewrite !orb_false_iff, !negb_false_iff, !andb_true_iff, !Z.eqb_eq in D. destruct D as ((((((D1 & D2) & D3) & D4) & D5) & D6) & D7).
  split; [exists l; split; [reflexivity|exact N]|]. rewrite M. cbn [fst snd]. split; [congruence|]. auto 10.
Qed.
Definition gray8 : vfmt := mkV 1 0 8 1 0 0 1.
Lemma bad_name : exists st v1 v2 c1 c2 p v ps, videoClip st v1 c1 /\ videoClip st v2 c2 /\ clipToPropCreate v1 v2 (Some p) = Ok (v, p, ps) /\ forall n, snd (clipToProp st p (cv_n v1) (cv_n v2) c1 c2 n) = fresh.
Proof.
  exists (mkStore (fun _ => false) (fun _ => (gray8, (4, 4)))), (mkCV (gray8) 4 4 1 (1, 1)), (mkCV (gray8) 4 4 1 (1, 1)), (fun _ => (0, fresh)), (fun _ => (1, fresh)), "no name", (mkCV (gray8) 4 4 1 (1, 1)), (rpStrictSpatial, rpNoFrameReuse).
  assert (V : forall h, videoClip (mkStore (fun _ => false) (fun _ => (gray8, (4, 4)))) (mkCV (gray8) 4 4 1 (1, 1)) (fun _ => (h, fresh))).
  { intros h. split; [unfold constant; cbn; unfold cfUndefined; repeat split; lia|]. split; [cbn; lia|]. intros n _. split; [split; reflexivity|exact legal_fresh]. }
  split; [apply V|]. split; [apply V|]. split; [reflexivity|]. intros n. reflexivity.
Qed.
Lemma audio_frame : exists st v m, legal m /\ propToClipCreate st v None None (Ok (0, m)) = UB.
Proof.
  exists (mkStore (fun _ => true) (fun _ => (gray8, (4, 4)))), (mkCV (gray8) 4 4 1 (1, 1)), (one "_Alpha" (ptAudioFrame, [VFrame true 7])). split; [apply legal_one; [reflexivity|constructor; [reflexivity|constructor]]|]. reflexivity.
Qed.
Lemma create_refuses : forall st v p index s, (exists d, propToClipCreate st v p index s = Ok d) -> constant v /\ propName p <> "" /\ match index with Some z => 0 <= z | None => True end.
Proof.
  intros st v p index s (d & E). unfold propToClipCreate in E. destruct (isConstant v) eqn:C; cbn [negb] in E; [|discriminate]. split; [now apply isConstant_ok|]. destruct (String.eqb_spec (propName p) "") as [|N]; [discriminate|]. split; [exact N|].
  destruct index as [z|]; [|exact I]. destruct (Z.ltb_spec (sat32 z) 0) as [|S]; [discriminate|]. unfold sat32 in S. destruct (Z.ltb_spec INT_MAX z) as [Q'|Q']; [unfold INT_MAX in Q'; lia|]. destruct (Z.ltb_spec z INT_MIN) as [Q|Q]; [unfold INT_MIN in S; lia|exact S].
Qed.
Lemma patterns : forall v1 v2 p v k q1 q2, clipToPropCreate v1 v2 p = Ok (v, k, (q1, q2)) -> honest q1 (cv_n v1) (cv_n v) (fun n j => j = n) /\ honest q2 (cv_n v2) (cv_n v) (fun n j => j = n).
Proof.
  intros v1 v2 p v k q1 q2 E. unfold clipToPropCreate in E. destruct (_ || _); [discriminate|]. injection E as <- <- <- <-. cbn [cv_n]. split; [destruct (Z.leb_spec (cv_n v2) (cv_n v1)); cbn; [intros n B; split; [lia|tauto]|split; lia]|cbn; split; lia].
Qed.
Lemma copy_patterns : forall v1 v2, honest (fst (copyPatterns v1 v2)) (cv_n v1) (cv_n v1) (fun n j => j = n) /\ honest (snd (copyPatterns v1 v2)) (cv_n v2) (cv_n v1) (fun n j => j = n).
Proof. intros v1 v2. unfold copyPatterns. cbn [fst snd]. split; [cbn; intros n B; split; [lia|tauto]|]. destruct (Z.leb_spec (cv_n v1) (cv_n v2)); cbn; [intros n B; split; [lia|tauto]|split; lia]. Qed.

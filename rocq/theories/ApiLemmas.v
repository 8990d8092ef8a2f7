(** Requests and frames at the interface. *)
From Coq Require Import ZArith List Bool Lia.
From Verif Require Import Common SchedSpec Sched ApiSpec ApiFrames.
Import ListNotations.
Open Scope Z_scope.

Lemma requests_served : forall numFrames n nd reqs, requestFrameFilter numFrames n nd reqs = reqs ++ [(nd, served (numFrames nd) n)].
Proof. intros. unfold requestFrameFilter, served. destruct (Z.leb_spec (numFrames nd) n); do 3 f_equal; lia. Qed.
Lemma served_valid : forall len n, 1 <= len -> 0 <= n -> 0 <= served len n < len.
Proof. unfold served. lia. Qed.
Lemma served_same : forall len n, 0 <= n < len -> served len n = n.
Proof. unfold served. lia. Qed.
Lemma negative_fatal : forall numFrames n nd over w s, 1 <= numFrames nd -> n < 0 -> Forall (fun k => startInternal over w k s = Err) (requestFrameFilter numFrames n nd []).
Proof.
  intros numFrames n nd over w s L H. rewrite requests_served. constructor; [| constructor]. unfold startInternal, served. cbn [snd]. destruct (Z.ltb_spec (Z.min n (numFrames nd - 1)) 0); [reflexivity | lia].
Qed.
Lemma isKey_spec : forall k o, isKey k o = true <-> o = Some k.
Proof.
  intros [a b] [[c d]|]; cbn [isKey fst snd]; [| split; discriminate]. rewrite andb_true_iff, !Z.eqb_eq. split; [intros (-> & ->); reflexivity | intros E; injection E as -> ->; auto].
Qed.
Section Frames.
Variable F : Type.
Variable numFrames : Z -> Z.
Notation getF := (getFrameFilter F numFrames).
Lemma getF_key : forall n nd avail, 1 <= numFrames nd -> getF n nd avail = match find (fun e => isKey (nd, served (numFrames nd) n) (fst e)) avail with Some (_, f) => f | None => None end.
Proof.
  intros n nd avail L. unfold getFrameFilter. replace (if negb (numFrames nd =? 0) && (numFrames nd <=? n) then numFrames nd - 1 else n) with (served (numFrames nd) n); [reflexivity |].
  unfold served. destruct (Z.eqb_spec (numFrames nd) 0); [lia |]. cbn [negb andb]. destruct (Z.leb_spec (numFrames nd) n); lia.
Qed.
(** All that was requested has arrived, in any order, possibly more than once. *)
Lemma gets_requested : forall (produced : key -> F) keys n nd, 1 <= numFrames nd ->
  getF n nd (map (fun k => (Some k, Some (produced k))) keys) = if in_dec (fun a b => match Z.eq_dec (fst a) (fst b), Z.eq_dec (snd a) (snd b) with
     | left p, left q => left (injective_projections _ _ p q) | right p, _ => right (fun e => p (f_equal fst e)) | _, right q => right (fun e => q (f_equal snd e)) end) (nd, served (numFrames nd) n) keys
     then Some (produced (nd, served (numFrames nd) n)) else None.
Proof.
  intros produced keys n nd L. rewrite getF_key by exact L. set (k := (nd, served (numFrames nd) n)). clearbody k. match goal with |- context [in_dec ?d k keys] => destruct (in_dec d k keys) as [H | H] end.
  - induction keys as [|a keys IH]; [destruct H |]. cbn [map find fst]. destruct (isKey k (Some a)) eqn:E; [apply isKey_spec in E; injection E as ->; reflexivity |]. apply IH. destruct H as [-> | H]; [| exact H].
    exfalso. assert (X : isKey k (Some k) = true) by (apply isKey_spec; reflexivity). exact (eq_true_false_abs _ X E).
  - induction keys as [|a keys IH]; [reflexivity |]. cbn [map find fst]. destruct (isKey k (Some a)) eqn:E; [apply isKey_spec in E; exfalso; apply H; left; injection E as E; exact E |]. apply IH. intros X. apply H. right. exact X.
Qed.
Lemma gets_some : forall (produced : key -> F) keys n nd, 1 <= numFrames nd -> In (nd, served (numFrames nd) n) keys ->
  getF n nd (map (fun k => (Some k, Some (produced k))) keys) = Some (produced (nd, served (numFrames nd) n)).
Proof. intros produced keys n nd L H. rewrite gets_requested by exact L. match goal with |- context [in_dec ?d ?k ?l] => destruct (in_dec d k l) end; [reflexivity | contradiction]. Qed.
Lemma gets_none : forall (produced : key -> F) keys n nd, 1 <= numFrames nd -> ~ In (nd, served (numFrames nd) n) keys ->
  getF n nd (map (fun k => (Some k, Some (produced k))) keys) = None.
Proof. intros produced keys n nd L H. rewrite gets_requested by exact L. match goal with |- context [in_dec ?d ?k ?l] => destruct (in_dec d k l) end; [contradiction | reflexivity]. Qed.
Lemma release_gone : forall avail nd n, 0 <= n < numFrames nd -> getF n nd (releaseFrameEarly F nd n avail) = None.
Proof.
  intros avail nd n H. rewrite getF_key by lia. rewrite served_same by exact H. unfold releaseFrameEarly. induction avail as [|e avail IH]; [reflexivity |]. cbn [map find].
  destruct (isKey (nd, n) (fst e)) eqn:E; cbn [fst]; [exact IH | rewrite E; exact IH].
Qed.
Lemma release_others : forall avail nd n nd' n', 1 <= numFrames nd' -> (nd', served (numFrames nd') n') <> (nd, n) -> getF n' nd' (releaseFrameEarly F nd n avail) = getF n' nd' avail.
Proof.
  intros avail nd n nd' n' L H. rewrite !getF_key by exact L. set (k := (nd', served (numFrames nd') n')) in *. unfold releaseFrameEarly. induction avail as [|e avail IH]; [reflexivity |]. cbn [map find].
  destruct (isKey (nd, n) (fst e)) eqn:E; cbn [fst].
  - apply isKey_spec in E. destruct (isKey k (fst e)) eqn:E2; [apply isKey_spec in E2; congruence |]. exact IH.
  - destruct (isKey k (fst e)); [reflexivity | exact IH].
Qed.
End Frames.
Lemma refuses : forall numFrames n nd, invalidRequest numFrames n nd = true <-> refused (numFrames nd) n.
Proof. intros. unfold invalidRequest, refused. rewrite orb_true_iff, Z.ltb_lt, Z.leb_le. tauto. Qed.
Lemma release_past_end : exists (numFrames : Z -> Z) nd n (f : Z), let reqs := requestFrameFilter numFrames n nd [] in let avail := map (fun k => (Some k, Some f)) reqs in
  getFrameFilter Z numFrames n nd avail = Some f /\ releaseFrameEarly Z nd n avail = avail.
Proof. exists (fun _ => 10), 1, 12, 77. vm_compute. auto. Qed.
(** ** The message *)
Lemma strncpy_length : forall k msg, length (strncpy k msg) = k.
Proof. induction k as [|k IH]; intros msg; [reflexivity |]. cbn [strncpy]. destruct msg as [|c r]; [apply repeat_length |]. destruct (c =? 0); [apply repeat_length | cbn [length]; rewrite IH; reflexivity]. Qed.
Lemma cstring_zeros : forall k l, cstring (repeat 0 k ++ 0 :: l) = [].
Proof. intros [|k] l; reflexivity. Qed.
Lemma firstn_repeat : forall k n (x : Z), exists m, firstn k (repeat x n) = repeat x m.
Proof. induction k as [|k IH]; intros n x; [exists O; reflexivity |]. destruct n as [|n]; [exists O; reflexivity |]. destruct (IH n x) as (m & E). exists (S m). cbn [repeat firstn]. rewrite E. reflexivity. Qed.
Lemma strncpy_cstring : forall k j msg, (k <= j)%nat -> cstring (firstn k (strncpy j msg) ++ [0]) = firstn k (cstring msg).
Proof.
  induction k as [|k IH]; intros j msg H; [reflexivity |]. destruct j as [|j]; [lia |]. cbn [strncpy]. destruct msg as [|c r].
  - destruct (firstn_repeat (S k) (S j) 0) as (m & ->). rewrite cstring_zeros. reflexivity.
  - cbn [cstring]. destruct (c =? 0) eqn:E.
    + destruct (firstn_repeat (S k) (S j) 0) as (m & ->). rewrite cstring_zeros. reflexivity.
    + cbn [firstn app cstring]. rewrite E. f_equal. apply IH. lia.
Qed.
Lemma error_text : forall size msg, (0 < size)%nat -> length (errorBuffer size msg) = size /\ cstring (errorBuffer size msg) = firstn (size - 1) (cstring msg).
Proof.
  intros size msg H. unfold errorBuffer. split; [rewrite app_length, firstn_length, strncpy_length; cbn [length]; lia | apply strncpy_cstring; lia].
Qed.

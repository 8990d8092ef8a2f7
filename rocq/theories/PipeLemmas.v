(** The output loop writes every frame once and in order. *)
From Coq Require Import ZArith List Bool Lia Permutation.
From Verif Require Import Common PipeSpec Pipe.
Import ListNotations.
Open Scope Z_scope.

Section Pipe.
Variable F : Type.
Variable hasAlpha : bool.
Variable writeFails : Z -> bool.
Variable frameOf : bool -> Z -> F.
Variables requests frames : Z.
Hypothesis Hreq : 1 <= requests.
Hypothesis Hframes : 1 <= frames.
Notation state := (st F).
Notation done_ := (isCompleted F hasAlpha).
Notation file := (fileOf F hasAlpha frameOf).

Definition cbKeys (s : state) : list (bool * Z) := match p_callback F s with Some (a, n, _) => [(a, n)] | None => [] end.
Definition opens (s : state) : list (bool * Z) := cbKeys s ++ p_pending F s.
Definition valid (a : bool) : Prop := a = true -> hasAlpha = true.
Definition get (a : bool) (p : pair F) : option F := if a then snd p else fst p.
Definition count (b : bool) (l : list (bool * Z)) : Z := zlength (filter (fun k => Bool.eqb (fst k) b) l).
Record inv (s : state) : Prop := {
  v_bounds : 0 <= p_out F s <= p_requested F s /\ p_requested F s <= frames;
  v_total : p_total F s = if p_error F s then p_requested F s else frames;
  v_nodup : NoDup (opens s);
  v_range : forall a n, In (a, n) (opens s) -> valid a /\ p_out F s <= n < p_requested F s;
  v_map : forall a n f, get a (p_map F s n) = Some f -> f = frameOf a n /\ valid a /\ p_out F s <= n < p_requested F s /\ ~ In (a, n) (opens s);
  v_have : p_error F s = false -> forall a n, valid a -> p_out F s <= n < p_requested F s -> ~ In (a, n) (opens s) -> get a (p_map F s n) = Some (frameOf a n);
  v_cb : forall a n r, p_callback F s = Some (a, n, r) -> r = Some (frameOf a n) \/ r = None;
  v_done : p_done F s + count false (p_pending F s) = p_requested F s /\ p_doneAlpha F s + count hasAlpha (p_pending F s) = p_requested F s;
  v_inc : exists inc, NoDup inc /\ (forall n, In n inc <-> exists a, In (a, n) (opens s)) /\ zlength inc <= requests /\ (p_error F s = false -> p_requested F s = frames \/ zlength inc = requests);
  v_file : exists k, (k <= Z.to_nat (p_out F s))%nat /\ p_file F s = file k /\ (p_error F s = false -> k = Z.to_nat (p_out F s)) }.
Definition waiting (s : state) : Prop := done_ (p_map F s (p_out F s)) = false.

Lemma completed_get : forall p, done_ p = true <-> forall a, valid a -> get a p <> None.
Proof.
  intros [x y]. unfold isCompleted, valid, get. destruct x as [x|]; cbn [fst snd].
  - destruct hasAlpha; cbn [negb orb]; destruct y; split; intros H; try discriminate; auto.
    + intros [|] _; discriminate. + exfalso. apply (H true); auto. + intros [|] Ha; [discriminate Ha; reflexivity | discriminate]. + intros [|] Ha; [specialize (Ha eq_refl); discriminate | discriminate].
  - split; [discriminate |]. intros H. exfalso. apply (H false); [discriminate | reflexivity].
Qed.
Lemma get_upd : forall a (m : Z -> pair F) n p k, get a (updMap F m n p k) = if k =? n then get a p else get a (m k).
Proof. intros. unfold updMap. destruct (k =? n); reflexivity. Qed.
Lemma file_snoc : forall k, file (S k) = file k ++ [entryOf F hasAlpha frameOf (Z.of_nat k)].
Proof. intros k. unfold fileOf. rewrite seq_S, map_app. reflexivity. Qed.

(** ** Writing *)
Lemma inv_write : forall s, inv s -> done_ (p_map F s (p_out F s)) = true -> inv (writeOne F writeFails s).
Proof.
  intros s I C. set (o := p_out F s) in *. pose proof (proj1 (completed_get _) C) as G.
  assert (Gv : forall a, valid a -> get a (p_map F s o) = Some (frameOf a o) /\ o < p_requested F s /\ ~ In (a, o) (opens s)).
  { intros a Va. specialize (G a Va). destruct (get a (p_map F s o)) as [f|] eqn:E; [| congruence]. destruct (v_map s I a o f E) as (-> & _ & B & N). split; [reflexivity | split; [lia | exact N]]. }
  assert (Hlt : o < p_requested F s) by (apply (Gv false); discriminate).
  assert (Ep : p_map F s o = (Some (frameOf false o), if hasAlpha then Some (frameOf true o) else None)).
  { destruct (p_map F s o) as [x y] eqn:E. destruct (Gv false) as (E1 & _); [discriminate |]. cbn [get fst] in E1. rewrite E1. f_equal. destruct hasAlpha eqn:Eh.
    - destruct (Gv true) as (E2 & _); [unfold valid; auto |]. exact E2.
    - destruct y as [y|]; [| reflexivity]. exfalso. destruct (v_map s I true o y) as (_ & V & _); [rewrite E; reflexivity |]. specialize (V eq_refl). congruence. }
  assert (W : opens (writeOne F writeFails s) = opens s) by (unfold opens, cbKeys, writeOne; fold o; destruct (p_map F s o); reflexivity).
  destruct I as [B T N R M H K D (inc & I1 & I2 & I3 & I4) (k & Kk & Kf & Ke)].
  assert (P1 : p_out F (writeOne F writeFails s) = o + 1) by (unfold writeOne; fold o; destruct (p_map F s o); reflexivity).
  assert (P2 : p_requested F (writeOne F writeFails s) = p_requested F s) by (unfold writeOne; fold o; destruct (p_map F s o); reflexivity).
  assert (P3 : p_map F (writeOne F writeFails s) = updMap F (p_map F s) o (None, None)) by (unfold writeOne; fold o; destruct (p_map F s o); reflexivity).
  assert (P4 : p_error F (writeOne F writeFails s) = p_error F s || writeFails o) by (unfold writeOne; fold o; destruct (p_map F s o); reflexivity).
  assert (P5 : p_callback F (writeOne F writeFails s) = p_callback F s) by (unfold writeOne; fold o; destruct (p_map F s o); reflexivity).
  assert (P6 : p_pending F (writeOne F writeFails s) = p_pending F s) by (unfold writeOne; fold o; destruct (p_map F s o); reflexivity).
  assert (P7 : p_done F (writeOne F writeFails s) = p_done F s /\ p_doneAlpha F (writeOne F writeFails s) = p_doneAlpha F s) by (unfold writeOne; fold o; destruct (p_map F s o); split; reflexivity).
  assert (P8 : p_file F (writeOne F writeFails s) = if p_error F s || writeFails o then p_file F s else p_file F s ++ [entryOf F hasAlpha frameOf o]) by (unfold writeOne; fold o; rewrite Ep; reflexivity).
  assert (P9 : p_total F (writeOne F writeFails s) = if p_error F s then p_total F s else if writeFails o then p_requested F s else p_total F s) by (unfold writeOne; fold o; destruct (p_map F s o); reflexivity).
  constructor; rewrite ?P1, ?P2, ?P3, ?P4, ?P5, ?P6, ?W, ?P8, ?P9; auto.
  - fold o in B. lia.
  - rewrite T. destruct (p_error F s), (writeFails o); reflexivity.
  - intros a n Hn. destruct (R a n Hn) as (V & Bn). split; [exact V |]. fold o in Bn. destruct (Z.eq_dec n o) as [-> | Ne]; [exfalso; apply (Gv a V), Hn | lia].
  - intros a n f E. rewrite get_upd in E. destruct (Z.eqb_spec n o); [destruct a; discriminate |]. destruct (M a n f E) as (Ef & V & Bn & Nn). fold o in Bn. repeat split; auto; lia.
  - intros Er a n V Bn Nn. apply orb_false_iff in Er. destruct Er as (Er & _). rewrite get_upd. destruct (Z.eqb_spec n o); [lia |]. apply H; auto. fold o. lia.
  - destruct P7 as (-> & ->). exact D.
  - exists inc. repeat split; auto; try apply I2. intros Er. apply orb_false_iff in Er. apply I4, Er.
  - destruct (p_error F s) eqn:Er; cbn [orb].
    + exists k. split; [fold o in Kk; lia | split; [exact Kf | discriminate]].
    + specialize (Ke eq_refl). destruct (writeFails o); [exists k; split; [fold o in Kk; lia | split; [exact Kf | discriminate]] |].
      exists (S k). fold o in Ke, B. split; [lia | split; [| intros _; lia]]. rewrite Kf, file_snoc. do 3 f_equal. lia.
Qed.
Lemma inv_loop : forall k s, inv s -> p_requested F s - p_out F s <= Z.of_nat k -> inv (writeLoop F hasAlpha writeFails k s) /\ waiting (writeLoop F hasAlpha writeFails k s).
Proof.
  assert (E : forall s, inv s -> done_ (p_map F s (p_out F s)) = true -> p_out F s < p_requested F s).
  { intros s I C. pose proof (proj1 (completed_get _) C false) as G. destruct (get false (p_map F s (p_out F s))) as [f|] eqn:E; [| exfalso; apply G; [discriminate | reflexivity]]. destruct (v_map s I _ _ _ E) as (_ & _ & B & _). lia. }
  induction k as [|k IH]; intros s I L; cbn [writeLoop].
  - split; [exact I |]. unfold waiting. destruct (done_ (p_map F s (p_out F s))) eqn:C; [| reflexivity]. specialize (E s I C). lia.
  - destruct (done_ (p_map F s (p_out F s))) eqn:C; [| split; [exact I | exact C]]. apply IH; [apply inv_write; assumption |].
    replace (p_requested F (writeOne F writeFails s)) with (p_requested F s) by (unfold writeOne; destruct (p_map F s (p_out F s)); reflexivity).
    replace (p_out F (writeOne F writeFails s)) with (p_out F s + 1) by (unfold writeOne; destruct (p_map F s (p_out F s)); reflexivity). lia.
Qed.

(** ** The steps *)
Lemma count_app : forall b x y, count b (x ++ y) = count b x + count b y.
Proof. intros. unfold count. rewrite filter_app, zlength_app. reflexivity. Qed.
Lemma count_cons : forall b k l, count b (k :: l) = (if Bool.eqb (fst k) b then 1 else 0) + count b l.
Proof. intros. unfold count. cbn [filter]. destruct (Bool.eqb (fst k) b); [rewrite zlength_cons | ]; lia. Qed.
Lemma count_keys : forall n, count false (keys hasAlpha n) = 1 /\ count hasAlpha (keys hasAlpha n) = 1.
Proof. intros n. unfold keys. destruct hasAlpha; cbn; split; reflexivity. Qed.
Lemma count_nonneg : forall b l, 0 <= count b l. Proof. intros. apply zlength_nonneg. Qed.
Lemma count_zero : forall b l n, count b l = 0 -> ~ In (b, n) l.
Proof. intros b l n C H. induction l as [|k l IH]; [destruct H |]. rewrite count_cons in C. pose proof (count_nonneg b l). destruct H as [-> | H]; [cbn [fst] in C; destruct b; cbn [Bool.eqb] in C; lia |]. apply IH; [| exact H]. destruct (Bool.eqb (fst k) b); lia. Qed.
Lemma In_keys : forall a m n, In (a, m) (keys hasAlpha n) <-> valid a /\ m = n.
Proof.
  intros a m n. unfold keys, valid. destruct hasAlpha eqn:Eh; cbn [In]; split.
  - intros [E | [E | []]]; injection E as <- <-; auto. - intros (_ & ->). destruct a; auto.
  - intros [E | []]; injection E as <- <-; split; [discriminate | reflexivity]. - intros (V & ->). destruct a; [specialize (V eq_refl); discriminate | auto].
Qed.
Lemma NoDup_keys : forall n, NoDup (keys hasAlpha n).
Proof. intros n. unfold keys. destruct hasAlpha; repeat constructor; cbn; intuition discriminate. Qed.
Lemma zrem_length : forall (l : list Z) n, NoDup l -> In n l -> zlength (remove Z.eq_dec n l) = zlength l - 1.
Proof.
  intros l n N. induction N as [|a l Ha N IH]; intros H; [destruct H |]. cbn [remove]. destruct (Z.eq_dec n a) as [-> | Ne].
  - rewrite notin_remove by exact Ha. rewrite zlength_cons. lia.
  - rewrite !zlength_cons. destruct H as [H | H]; [congruence |]. rewrite IH by exact H. lia.
Qed.
Lemma NoDup_zrem : forall (l : list Z) n, NoDup l -> NoDup (remove Z.eq_dec n l).
Proof.
  intros l n N. induction N as [|a l Ha N IH]; [constructor |]. cbn [remove]. destruct (Z.eq_dec n a); [exact IH |]. constructor; [| exact IH]. intros H. apply in_remove in H. apply Ha, H.
Qed.
Lemma flat_keys : forall k a n, In (a, n) (flat_map (fun i => keys hasAlpha (Z.of_nat i)) (seq 0 k)) <-> valid a /\ 0 <= n < Z.of_nat k.
Proof.
  intros k a n. rewrite in_flat_map. split.
  - intros (i & Hi & H). apply In_keys in H. apply in_seq in Hi. destruct H as (V & ->). split; [exact V | lia].
  - intros (V & B). exists (Z.to_nat n). split; [apply in_seq; lia |]. apply In_keys. split; [exact V | lia].
Qed.
Lemma NoDup_app2 : forall (A : Type) (x y : list A), NoDup x -> NoDup y -> (forall e, In e x -> ~ In e y) -> NoDup (x ++ y).
Proof.
  intros A x y Nx. induction Nx as [|a x Ha Nx IH]; intros Ny D; [exact Ny |]. cbn [app]. constructor.
  - intros H. apply in_app_or in H. destruct H as [H | H]; [contradiction | apply (D a); [left; reflexivity | exact H]].
  - apply IH; [exact Ny |]. intros e He. apply D. right. exact He.
Qed.
Lemma NoDup_flat_keys : forall k, NoDup (flat_map (fun i => keys hasAlpha (Z.of_nat i)) (seq 0 k)).
Proof.
  induction k as [|k IH]; [constructor |]. rewrite seq_S, flat_map_app. cbn [flat_map Nat.add]. rewrite app_nil_r. apply NoDup_app2; [exact IH | apply NoDup_keys |].
  intros [a n] H H2. apply flat_keys in H. apply In_keys in H2. lia.
Qed.
Lemma count_flat : forall k, count false (flat_map (fun i => keys hasAlpha (Z.of_nat i)) (seq 0 k)) = Z.of_nat k /\ count hasAlpha (flat_map (fun i => keys hasAlpha (Z.of_nat i)) (seq 0 k)) = Z.of_nat k.
Proof.
  induction k as [|k (A & B)]; [split; reflexivity |]. rewrite seq_S, flat_map_app. cbn [flat_map Nat.add]. rewrite app_nil_r, !count_app, A, B. destruct (count_keys (Z.of_nat k)) as (-> & ->). lia.
Qed.
Lemma inv_start : inv (start F hasAlpha requests frames) /\ waiting (start F hasAlpha requests frames).
Proof.
  assert (Z.of_nat (Z.to_nat (Z.min requests frames)) = Z.min requests frames) as Ek by lia. split; [| reflexivity]. unfold start. constructor; cbn [p_out p_requested p_total p_error p_map p_callback p_done p_doneAlpha p_pending p_file].
  - lia.
  - reflexivity.
  - apply NoDup_flat_keys.
  - intros a n H. apply flat_keys in H. rewrite Ek in H. exact H.
  - intros [|] n f E; discriminate.
  - intros _ a n V B N. exfalso. apply N. apply flat_keys. rewrite Ek. auto.
  - discriminate.
  - destruct (count_flat (Z.to_nat (Z.min requests frames))) as (-> & ->). lia.
  - exists (map Z.of_nat (seq 0 (Z.to_nat (Z.min requests frames)))). split; [apply FinFun.Injective_map_NoDup; [intros x y; lia | apply seq_NoDup] |]. split; [| split].
    + intros n. rewrite in_map_iff. split.
      * intros (i & <- & Hi). apply in_seq in Hi. exists false. apply flat_keys. split; [discriminate | lia].
      * intros (a & H). apply flat_keys in H. exists (Z.to_nat n). split; [lia | apply in_seq; lia].
    + unfold zlength. rewrite map_length, seq_length. lia.
    + intros _. unfold zlength. rewrite map_length, seq_length. lia.
  - exists O. repeat split; auto; try lia.
Qed.
(** The request being handled is no longer open. *)
Lemma inc_remove : forall inc (l l' : list (bool * Z)) a n, NoDup inc -> (forall m, In m inc <-> exists b, In (b, m) l) -> (forall e, In e l <-> e = (a, n) \/ In e l') ->
  exists inc', NoDup inc' /\ (forall m, In m inc' <-> exists b, In (b, m) l') /\ zlength inc' <= zlength inc /\ ((exists b, In (b, n) l') -> zlength inc' = zlength inc) /\ ((forall b, ~ In (b, n) l') -> zlength inc' = zlength inc - 1).
Proof.
  intros inc l l' a n N I E. assert (Hn : In n inc) by (apply I; exists a; apply E; left; reflexivity).
  assert (Dec : (exists b, In (b, n) l') \/ forall b, ~ In (b, n) l').
  { assert (Hd : forall x y : bool * Z, {x = y} + {x <> y}) by (decide equality; [apply Z.eq_dec | apply bool_dec]). destruct (in_dec Hd (false, n) l'); [left; eauto |]. destruct (in_dec Hd (true, n) l'); [left; eauto |]. right. intros [|]; assumption. }
  destruct Dec as [D | D].
  - exists inc. split; [exact N | split; [| split; [lia | split; [reflexivity |]]]].
    + intros m. rewrite I. split; [| intros (b & H); exists b; apply E; right; exact H]. intros (b & H). apply E in H. destruct H as [H | H]; [injection H as -> ->; exact D | eauto].
    + intros H. destruct D as (b & Hb). exfalso. exact (H b Hb).
  - exists (remove Z.eq_dec n inc). split; [apply NoDup_zrem, N | split; [| split; [| split]]].
    + intros m. split.
      * intros H. apply in_remove in H. destruct H as (H & Ne). apply I in H. destruct H as (b & H). apply E in H. destruct H as [H | H]; [injection H as -> ->; congruence | eauto].
      * intros (b & H). apply in_in_remove; [intros ->; exact (D b H) |]. apply I. exists b. apply E. right. exact H.
    + rewrite zrem_length by assumption. lia.
    + intros (b & H). exfalso. exact (D b H).
    + intros _. apply zrem_length; assumption.
Qed.
Lemma inv_begin : forall s a n b c r, inv s -> waiting s -> p_callback F s = None -> p_pending F s = b ++ (a, n) :: c -> (r = Some (frameOf a n) \/ r = None) -> inv (begin F hasAlpha a n r (b ++ c) s) /\ waiting (begin F hasAlpha a n r (b ++ c) s).
Proof.
  intros s a n b c r I W C P Hr. split; [| exact W].
  assert (Eo : forall e, In e (opens (begin F hasAlpha a n r (b ++ c) s)) <-> In e (opens s)).
  { intros e. unfold opens, cbKeys. rewrite C, P. cbn [p_callback p_pending begin app]. rewrite !in_app_iff. cbn [In]. rewrite in_app_iff. tauto. }
  destruct I as [B T N R M H K D (inc & I1 & I2 & I3 & I4) Kf].
  assert (Va : valid a) by (apply (R a n); unfold opens; apply in_or_app; right; rewrite P; apply in_or_app; right; left; reflexivity).
  constructor; cbn [p_out p_requested p_total p_error p_map p_callback p_done p_doneAlpha p_pending p_file begin]; auto.
  - assert (X : Permutation (opens s) (opens (begin F hasAlpha a n r (b ++ c) s))) by (unfold opens, cbKeys; rewrite C, P; cbn [p_callback p_pending begin app]; apply Permutation_sym, Permutation_middle). exact (Permutation_NoDup X N).
  - intros x m Hm. apply Eo in Hm. apply R, Hm.
  - intros x m f E. destruct (M x m f E) as (A1 & A2 & A3 & A4). repeat split; auto; try lia. intros Hm. apply A4, Eo, Hm.
  - intros Er x m V Bm Nm. apply H; auto. intros Hm. apply Nm, Eo, Hm.
  - intros x m q E. injection E as <- <- <-. exact Hr.
  - destruct D as (D1 & D2). rewrite P in D1, D2. rewrite count_app, count_cons in D1, D2. cbn [fst] in D1, D2. rewrite !count_app. unfold valid in Va. destruct a.
    + specialize (Va eq_refl). rewrite Va in *. cbn [Bool.eqb] in *. lia.
    + destruct hasAlpha; cbn [Bool.eqb] in *; lia.
  - exists inc. repeat split; auto.
    + intros Hm. apply I2 in Hm. destruct Hm as (x & Hx). exists x. apply Eo, Hx.
    + intros (x & Hx). apply I2. exists x. apply Eo, Hx.
Qed.
Definition Kdec : forall x y : bool * Z, {x = y} + {x <> y}. Proof. decide equality; [apply Z.eq_dec | apply bool_dec]. Defined.
Lemma inv_handle : forall s a n r, inv s -> waiting s -> p_callback F s = Some (a, n, r) -> inv (handle F hasAlpha writeFails a n r s) /\ waiting (handle F hasAlpha writeFails a n r s).
Proof.
  intros s a n r I W C.
  assert (Eo : forall e, In e (opens s) <-> e = (a, n) \/ In e (p_pending F s)).
  { intros e. unfold opens, cbKeys. rewrite C. cbn [app In]. split; intros [X | X]; auto. }
  assert (Nn : ~ In (a, n) (p_pending F s) /\ NoDup (p_pending F s)).
  { pose proof (v_nodup s I) as N. unfold opens, cbKeys in N. rewrite C in N. cbn [app] in N. inversion N; subst; auto. }
  pose proof (v_cb s I a n r C) as Hr.
  destruct I as [B T N R M H K D (inc & I1 & I2 & I3 & I4) Kf].
  destruct (R a n) as (Va & Bn); [apply Eo; left; reflexivity |].
  destruct (inc_remove inc (opens s) (p_pending F s) a n I1 I2 Eo) as (inc' & J1 & J2 & J3 & J4 & J5).
  destruct r as [f|].
  - destruct Hr as [Hr | Hr]; [| discriminate]. injection Hr as ->. unfold handle. cbv zeta.
    set (m := updMap F (p_map F s) n (if a then (fst (p_map F s n), Some (frameOf a n)) else (Some (frameOf a n), snd (p_map F s n)))).
    assert (Gm : forall x k, get x (m k) = if (k =? n) && Bool.eqb x a then Some (frameOf a n) else get x (p_map F s k)).
    { intros x k. unfold m. rewrite get_upd. destruct (Z.eqb_spec k n) as [-> | Ne]; [| reflexivity]. destruct a, x; reflexivity. }
    set (more := done_ (m n) && (p_requested F s <? p_total F s)).
    set (s1 := mkP F _ _ _ _ _ _ _ _ _ _ _).
    assert (O1 : opens s1 = p_pending F s ++ (if more then keys hasAlpha (p_requested F s) else [])) by reflexivity.
    assert (More : more = true -> p_error F s = false /\ p_requested F s < frames /\ (forall x, ~ In (x, n) (p_pending F s))).
    { intros E. unfold more in E. apply andb_true_iff in E. destruct E as (E1 & E2). apply Z.ltb_lt in E2. rewrite T in E2. destruct (p_error F s); [lia |]. split; [reflexivity | split; [exact E2 |]].
      intros x Hx. assert (Vx : valid x) by (apply (R x n), Eo; right; exact Hx). pose proof (proj1 (completed_get _) E1 x Vx) as G. rewrite Gm, Z.eqb_refl in G. cbn [andb] in G. destruct (Bool.eqb_spec x a) as [-> | Ne]; [apply Nn, Hx |].
      destruct (get x (p_map F s n)) as [g|] eqn:Eg; [| congruence]. destruct (M x n g Eg) as (_ & _ & _ & X). apply X, Eo. right. exact Hx. }
    assert (In1 : forall x k, In (x, k) (opens s1) <-> In (x, k) (p_pending F s) \/ (more = true /\ valid x /\ k = p_requested F s)).
    { intros x k. rewrite O1, in_app_iff. destruct more; [rewrite In_keys; tauto | cbn [In]; intuition discriminate]. }
    assert (Rq : p_requested F s1 = if more then p_requested F s + 1 else p_requested F s) by reflexivity.
    assert (I' : inv s1).
    { constructor; rewrite ?Rq; change (p_out F s1) with (p_out F s); change (p_error F s1) with (p_error F s); change (p_map F s1) with m; change (p_total F s1) with (p_total F s); change (p_done F s1) with (p_done F s); change (p_doneAlpha F s1) with (p_doneAlpha F s); change (p_file F s1) with (p_file F s).
      - destruct more; [destruct (More eq_refl) as (_ & X & _); lia | lia].
      - rewrite T. destruct (p_error F s) eqn:Er; [| reflexivity]. destruct more; [destruct (More eq_refl); discriminate | reflexivity].
      - rewrite O1. apply NoDup_app2; [apply Nn | destruct more; [apply NoDup_keys | constructor] |]. intros [x k] Hx Hk. destruct more; [| destruct Hk]. apply In_keys in Hk. destruct (R x k) as (_ & Bk); [apply Eo; right; exact Hx |]. lia.
      - intros x k Hx. apply In1 in Hx. destruct Hx as [Hx | (Em & V & ->)].
        + destruct (R x k) as (V & Bk); [apply Eo; right; exact Hx |]. split; [exact V |]. destruct more; lia.
        + rewrite Em. split; [exact V | lia].
      - intros x k g E. rewrite Gm in E. destruct ((k =? n) && Bool.eqb x a) eqn:Ek.
        + apply andb_true_iff in Ek. destruct Ek as (Ek & Ex). apply Z.eqb_eq in Ek. apply Bool.eqb_prop in Ex. subst k x. injection E as <-. split; [reflexivity | split; [exact Va | split; [destruct more; lia |]]].
          intros Hx. apply In1 in Hx. destruct Hx as [Hx | (_ & _ & Hx)]; [apply Nn, Hx | lia].
        + destruct (M x k g E) as (A1 & A2 & A3 & A4). split; [exact A1 | split; [exact A2 | split; [destruct more; lia |]]]. intros Hx. apply In1 in Hx. destruct Hx as [Hx | (_ & _ & Hx)]; [apply A4, Eo; right; exact Hx | lia].
      - intros Er x k V Bk Nk. rewrite Gm. destruct ((k =? n) && Bool.eqb x a) eqn:Ek.
        + apply andb_true_iff in Ek. destruct Ek as (Ek & Ex). apply Z.eqb_eq in Ek. apply Bool.eqb_prop in Ex. subst. reflexivity.
        + apply H; auto.
          * destruct more eqn:Em; [| exact Bk]. destruct (Z.eq_dec k (p_requested F s)) as [-> | Ne]; [| lia]. exfalso. apply Nk, In1. right. auto.
          * intros Hx. apply Eo in Hx. destruct Hx as [Hx | Hx]; [injection Hx as -> ->; rewrite Z.eqb_refl, Bool.eqb_reflx in Ek; discriminate |]. apply Nk, In1. left. exact Hx.
      - discriminate.
      - change (p_pending F s1) with (p_pending F s ++ (if more then keys hasAlpha (p_requested F s) else [])). rewrite !count_app. destruct more; [destruct (count_keys (p_requested F s)) as (-> & ->) | change (count false []) with 0; change (count hasAlpha []) with 0]; lia.
      - destruct more eqn:Em.
        + destruct (More eq_refl) as (Er & Lt & No). exists (p_requested F s :: inc'). split; [| split; [| split]].
          * constructor; [| exact J1]. intros X. apply J2 in X. destruct X as (x & X). destruct (R x (p_requested F s)) as (_ & Y); [apply Eo; right; exact X |]. lia.
          * intros k. cbn [In]. rewrite J2. split.
            -- intros [<- | (x & X)]; [exists false; apply In1; right; split; [reflexivity | split; [discriminate | reflexivity]] | exists x; apply In1; left; exact X].
            -- intros (x & X). apply In1 in X. destruct X as [X | (_ & _ & ->)]; [right; exists x; exact X | left; reflexivity].
          * rewrite zlength_cons, (J5 No). lia.
          * intros _. rewrite zlength_cons, (J5 No). destruct (I4 Er); lia.
        + exists inc'. split; [exact J1 | split; [| split; [lia |]]].
          * intros k. rewrite J2. split; intros (x & X); exists x; [apply In1; left; exact X | apply In1 in X; destruct X as [X | (X & _)]; [exact X | discriminate]].
          * intros Er. destruct (I4 Er) as [X | X]; [left; exact X |]. unfold more in Em. apply andb_false_iff in Em. destruct Em as [Em | Em].
            -- right. rewrite <- X. apply J4. destruct (in_dec Kdec (negb a, n) (p_pending F s)) as [Y | Y]; [eauto |]. exfalso.
               assert (Y2 : done_ (m n) = true); [| congruence]. apply completed_get. intros x Vx. rewrite Gm, Z.eqb_refl. cbn [andb]. destruct (Bool.eqb_spec x a) as [-> | Ne]; [discriminate |].
               rewrite H; [discriminate | exact Er | exact Vx | exact Bn |]. intros Hx. apply Eo in Hx. destruct Hx as [Hx | Hx]; [injection Hx as ->; congruence |]. apply Y. replace (negb a) with x by (destruct x, a; cbn; congruence). exact Hx.
            -- left. rewrite T, Er in Em. apply Z.ltb_ge in Em. lia.
      - exact Kf. }
    apply inv_loop; [exact I' |]. rewrite Rq. change (p_out F s1) with (p_out F s). destruct more; lia.
  - unfold handle. split; [| exact W].
    assert (O1 : forall x, In x (opens (mkP F (p_requested F s) (p_requested F s) (p_done F s) (p_doneAlpha F s) (p_out F s) (p_map F s) true (p_file F s) (p_pending F s) None (p_returned F s))) <-> In x (p_pending F s)) by (intros x; reflexivity).
    constructor; cbn [p_out p_requested p_total p_error p_map p_callback p_done p_doneAlpha p_pending p_file]; auto; try discriminate.
    + apply Nn.
    + intros x k Hx. apply O1 in Hx. apply R, Eo. right. exact Hx.
    + intros x k g E. destruct (M x k g E) as (A1 & A2 & A3 & A4). repeat split; auto; try lia. intros Hx. apply O1 in Hx. apply A4, Eo. right. exact Hx.
    + exists inc'. split; [exact J1 | split; [exact J2 | split; [lia | discriminate]]].
    + destruct Kf as (k & Kk & Kf & Ke). exists k. split; [exact Kk | split; [exact Kf | discriminate]].
Qed.
Lemma inv_reach : forall s, reachable F hasAlpha writeFails frameOf requests frames s -> inv s /\ waiting s.
Proof.
  intros s R. induction R as [|s s' R (I & W) S]; [apply inv_start |]. destruct S as [s a n b c r C P Hr | s a n r C | s Fi].
  - apply inv_begin; assumption. - apply inv_handle; assumption. - split; [destruct I; constructor; assumption | exact W].
Qed.
(** ** What follows *)
Notation reach := (reachable F hasAlpha writeFails frameOf requests frames).
Lemma in_order : forall s, reach s -> exists k, p_file F s = file k /\ (k <= Z.to_nat (p_out F s))%nat /\ (p_error F s = false -> k = Z.to_nat (p_out F s)).
Proof. intros s R. destruct (inv_reach s R) as (I & _). destruct (v_file s I) as (k & A & B & C). eauto. Qed.
Lemma open_none : forall s, inv s -> finished F s = true -> p_pending F s = [] /\ p_requested F s = p_total F s.
Proof.
  intros s I Fi. unfold finished in Fi. apply andb_true_iff in Fi. destruct Fi as (F1 & F2). apply Z.eqb_eq in F1, F2. destruct (v_done s I) as (D1 & D2). pose proof (v_total s I) as T. pose proof (v_bounds s I) as B.
  pose proof (count_nonneg false (p_pending F s)). pose proof (count_nonneg hasAlpha (p_pending F s)).
  assert (p_requested F s <= p_total F s) by (rewrite T; destruct (p_error F s); lia). split; [| lia].
  destruct (p_pending F s) as [|(a, n) l] eqn:E; [reflexivity |]. exfalso. assert (Ha : In (a, n) (opens s)) by (unfold opens; rewrite E; apply in_or_app; right; left; reflexivity). destruct (v_range s I a n Ha) as (V & _).
  destruct a; [specialize (V eq_refl); rewrite V in D2, H0; apply (count_zero true ((true, n) :: l) n); [lia | left; reflexivity] | apply (count_zero false ((false, n) :: l) n); [lia | left; reflexivity]].
Qed.
Lemma complete : forall s, reach s -> finished F s = true -> p_callback F s = None -> p_error F s = false -> p_file F s = file (Z.to_nat frames).
Proof.
  intros s R Fi C Er. destruct (inv_reach s R) as (I & W). destruct (open_none s I Fi) as (P & Q). destruct (v_file s I) as (k & _ & Ef & Ek). rewrite Ef. f_equal. rewrite (Ek Er). f_equal. pose proof (v_total s I) as T. rewrite Er in T. pose proof (v_bounds s I) as B.
  destruct (Z.eq_dec (p_out F s) frames) as [X | X]; [exact X |]. exfalso. unfold waiting in W. assert (Y : done_ (p_map F s (p_out F s)) = true); [| congruence].
  apply completed_get. intros a V. rewrite (v_have s I Er a (p_out F s) V); [discriminate | lia |]. unfold opens, cbKeys. rewrite C, P. intros [].
Qed.
Lemma stops : forall s s', p_error F s = true -> inv s -> step F hasAlpha writeFails frameOf s s' -> p_error F s' = true /\ p_requested F s' = p_requested F s /\ (forall e, In e (p_pending F s') -> In e (p_pending F s)) /\ p_file F s' = p_file F s.
Proof.
  intros s s' Er I S. destruct S as [s a n b c r C P Hr | s a n r C | s Fi].
  - cbn [p_error p_requested p_pending p_file begin]. split; [exact Er | split; [reflexivity | split; [| reflexivity]]]. intros e He. rewrite P. apply in_app_or in He. apply in_or_app. destruct He; [left | right; right]; assumption.
  - assert (L : forall k (t : state), p_error F t = true -> p_error F (writeLoop F hasAlpha writeFails k t) = true /\ p_requested F (writeLoop F hasAlpha writeFails k t) = p_requested F t /\ p_pending F (writeLoop F hasAlpha writeFails k t) = p_pending F t /\ p_file F (writeLoop F hasAlpha writeFails k t) = p_file F t).
    { induction k as [|k IH]; intros t Et; cbn [writeLoop]; [auto |]. destruct (done_ _); [| auto]. destruct (IH (writeOne F writeFails t)) as (A1 & A2 & A3 & A4).
      - unfold writeOne. destruct (p_map F t (p_out F t)). cbn [p_error]. rewrite Et. reflexivity.
      - rewrite A1, A2, A3, A4. unfold writeOne. destruct (p_map F t (p_out F t)) as [[x|] y]; cbn [p_requested p_pending p_file]; rewrite ?Et; cbn [orb]; auto. }
    unfold handle. destruct r as [f|]; [| cbn [p_error p_requested p_pending p_file]; auto]. cbv zeta. pose proof (v_total s I) as T. rewrite Er in T. rewrite T, Z.ltb_irrefl, andb_false_r, app_nil_r.
    match goal with |- context [writeLoop _ _ _ ?k ?t] => destruct (L k t) as (A1 & A2 & A3 & A4) end; [exact Er |]. rewrite A1, A2, A3, A4. auto.
  - auto.
Qed.
Lemma stops_reach : forall s s', reach s -> p_error F s = true -> step F hasAlpha writeFails frameOf s s' -> p_error F s' = true /\ p_requested F s' = p_requested F s /\ (forall e, In e (p_pending F s') -> In e (p_pending F s)) /\ p_file F s' = p_file F s.
Proof. intros s s' R Er S. apply stops; auto. apply inv_reach, R. Qed.
Lemma not_stuck : forall s, reach s -> p_pending F s = [] -> p_callback F s = None -> finished F s = true.
Proof.
  intros s R P C. destruct (inv_reach s R) as (I & _). destruct (v_done s I) as (D1 & D2). rewrite P in D1, D2. change (count false []) with 0 in D1. change (count hasAlpha []) with 0 in D2.
  assert (T : p_total F s = p_requested F s).
  { rewrite (v_total s I). destruct (p_error F s) eqn:Er; [reflexivity |]. destruct (v_inc s I) as (inc & _ & I2 & _ & I4). destruct (I4 Er) as [X | X]; [congruence |]. exfalso.
    destruct inc as [|n inc]; [change (zlength (@nil Z)) with 0 in X; lia |]. destruct (proj1 (I2 n)) as (a & Ha); [left; reflexivity |]. unfold opens, cbKeys in Ha. rewrite C, P in Ha. destruct Ha. }
  unfold finished. rewrite T. apply andb_true_iff. split; apply Z.eqb_eq; lia.
Qed.
Lemma window : forall s l, reach s -> NoDup l -> (forall n, In n l -> exists a, In (a, n) (p_pending F s)) -> zlength l <= requests.
Proof.
  intros s l R N H. destruct (inv_reach s R) as (I & _). destruct (v_inc s I) as (inc & I1 & I2 & I3 & _). apply Z.le_trans with (zlength inc); [| exact I3]. unfold zlength.
  apply Nat2Z.inj_le. apply NoDup_incl_length; [exact N |]. intros n Hn. apply I2. destruct (H n Hn) as (a & Ha). exists a. unfold opens. apply in_or_app. right. exact Ha.
Qed.
Lemma asked_once : forall s, reach s -> NoDup (opens s) /\ forall a n, In (a, n) (opens s) -> (a = true -> hasAlpha = true) /\ p_out F s <= n < p_requested F s.
Proof. intros s R. destruct (inv_reach s R) as (I & _). split; [apply (v_nodup s I) | apply (v_range s I)]. Qed.
End Pipe.

(** The main thread may leave while the last callback still has its frame in hand. *)
Lemma leaves_early : exists (s : st Z), reachable Z false (fun _ => false) (fun _ n => n * 10) 4 1 s /\ p_returned Z s = true /\ p_error Z s = false /\ p_file Z s = [] /\ p_callback Z s = Some (false, 0, Some 0).
Proof.
  exists (leave Z (begin Z false false 0 (Some 0) [] (start Z false 4 1))). split; [| repeat split; reflexivity].
  eapply r_step; [eapply r_step; [apply r_start |] |].
  - apply (st_begin Z false (fun _ => false) (fun _ n => n * 10) (start Z false 4 1) false 0 [] [] (Some 0)); [reflexivity | reflexivity | left; reflexivity].
  - apply st_leave. reflexivity.
Qed.

(** Arguments and parameters. *)
From Coq Require Import ZArith List Bool Ascii String Lia.
From Verif Require Import Common PyCallSpec PyCall.
Import ListNotations.
Local Open Scope string_scope.
Local Open Scope list_scope.

Section Facts.
Variable V : Type.
Notation dict := (list (string * V)).
Lemma get_given : forall (d : dict) k, dictGet d k = given d k.
Proof. induction d as [|(x, v) d IH]; intros k; [reflexivity|]. cbn [dictGet given]. rewrite IH. reflexivity. Qed.
Lemma set_same : forall (d : dict) k v, given (dictSet d k v) k = Some v.
Proof.
  induction d as [|(x, w) d IH]; intros k v; cbn [dictSet given]; [rewrite String.eqb_refl; reflexivity|]. destruct (String.eqb x k) eqn:E; cbn [given]; rewrite E; [reflexivity | apply IH].
Qed.
Lemma set_other : forall (d : dict) k j v, j <> k -> given (dictSet d k v) j = given d j.
Proof.
  induction d as [|(x, w) d IH]; intros k j v N; cbn [dictSet given].
  - destruct (String.eqb_spec k j); [congruence | reflexivity].
  - destruct (String.eqb_spec x k) as [-> | D]; cbn [given]; [destruct (String.eqb_spec k j); [congruence | reflexivity]|]. destruct (String.eqb x j); [reflexivity | apply IH; exact N].
Qed.
Lemma del_other : forall (d : dict) k j, j <> k -> given (dictDel d k) j = given d j.
Proof.
  induction d as [|(x, w) d IH]; intros k j N; cbn [dictDel given]; [reflexivity|]. destruct (String.eqb_spec x k) as [-> | D]; cbn [given].
  - destruct (String.eqb_spec k j); [congruence | reflexivity].
  - destruct (String.eqb x j); [reflexivity | apply IH; exact N].
Qed.
Lemma given_none : forall (d : dict) k, given d k = None <-> ~ In k (map fst d).
Proof.
  induction d as [|(x, w) d IH]; intros k; cbn [given map fst In]; [tauto|]. destruct (String.eqb_spec x k) as [-> | D]; [split; [discriminate | intros N; exfalso; tauto]|]. rewrite IH. tauto.
Qed.
Lemma filter_absent : forall (d : dict) k, ~ In k (map fst d) -> filter (fun kv => negb (String.eqb (fst kv) k)) d = d.
Proof.
  induction d as [|(y, u) d IH]; intros k A; [reflexivity|]. cbn [filter fst]. cbn [map fst In] in A. destruct (String.eqb_spec y k); [exfalso; tauto|]. cbn [negb]. f_equal. apply IH. tauto.
Qed.
Lemma del_filter : forall (d : dict) k, NoDup (map fst d) -> dictDel d k = filter (fun kv => negb (String.eqb (fst kv) k)) d.
Proof.
  induction d as [|(x, w) d IH]; intros k N; [reflexivity|]. cbn [map fst] in N. inversion N as [|? ? A B]; subst. cbn [dictDel filter fst]. destruct (String.eqb_spec x k) as [-> | D]; cbn [negb].
  - symmetry. apply filter_absent. exact A.
  - rewrite IH by exact B. reflexivity.
Qed.
Lemma filter_filter : forall A (f g : A -> bool) l, filter f (filter g l) = filter (fun x => g x && f x) l.
Proof. induction l as [|x l IH]; [reflexivity|]. cbn [filter]. destruct (g x); cbn [filter andb]; rewrite IH; reflexivity. Qed.
Lemma nodup_filter : forall (f : string * V -> bool) d, NoDup (map fst d) -> NoDup (map fst (filter f d)).
Proof.
  intros f d. induction d as [|(x, v) d IH]; intros N; [constructor|]. cbn [map fst] in N. inversion N as [|? ? A B]; subst. cbn [filter]. destruct (f (x, v)); [|apply IH; exact B].
  cbn [map fst]. constructor; [|apply IH; exact B]. intros I. apply A. apply in_map_iff in I. destruct I as (y & E & I). apply filter_In in I. apply in_map_iff. exists y. split; [exact E | apply I].
Qed.
Lemma extras_nil : forall nd : dict, extras [] nd = nd.
Proof. intros nd. unfold extras. cbn [existsb negb]. induction nd as [|x nd IH]; [reflexivity|]. cbn [filter]. rewrite IH. reflexivity. Qed.
Lemma matchArgs_spec : forall names (nd : dict) args pr, NoDup names -> NoDup (map fst nd) -> (forall k, In k names -> given pr k = None) ->
  let '(p, rest, lft) := matchArgs names nd args pr in
  (forall k, ~ In k names -> given p k = given pr k) /\ (forall k, In k names -> given p k = valueOf names nd args k) /\
  rest = extras names nd /\ lft = skipn (List.length (openParams names nd)) args.
Proof.
  induction names as [|key r IH]; intros nd args pr N D P.
  - cbn [matchArgs]. split; [reflexivity|]. split; [intros k []|]. split; [symmetry; apply extras_nil | reflexivity].
  - inversion N as [|? ? A B]; subst. cbn [matchArgs]. rewrite get_given. destruct (given nd key) as [v|] eqn:G.
    + assert (O : openParams (key :: r) nd = openParams r (dictDel nd key)).
      { unfold openParams. cbn [filter]. unfold isGiven at 1. rewrite G. cbn [negb]. apply filter_ext_in. intros j J. unfold isGiven. rewrite del_other by (intros ->; contradiction). reflexivity. }
      specialize (IH (dictDel nd key) args (dictSet pr key v) B). rewrite del_filter in IH at 1 by exact D. specialize (IH (nodup_filter _ nd D)).
      destruct (matchArgs r (dictDel nd key) args (dictSet pr key v)) as ((p, rest), lft). destruct IH as (I1 & I2 & I3 & I4).
      { intros k K. rewrite set_other by (intros ->; contradiction). apply P. right. exact K. }
      repeat split.
      * intros k K. cbn [In] in K. rewrite I1 by tauto. apply set_other. intros ->. tauto.
      * intros k [<- | K].
        -- rewrite I1 by exact A. rewrite set_same. unfold valueOf. rewrite G. reflexivity.
        -- rewrite I2 by exact K. unfold valueOf. rewrite O, del_other by (intros ->; contradiction). reflexivity.
      * rewrite I3. unfold extras. rewrite del_filter by exact D. rewrite filter_filter. apply filter_ext. intros x. cbn [existsb]. rewrite negb_orb. reflexivity.
      * rewrite O. exact I4.
    + assert (O : openParams (key :: r) nd = key :: openParams r nd) by (unfold openParams; cbn [filter]; unfold isGiven at 1; rewrite G; reflexivity).
      assert (X : extras (key :: r) nd = extras r nd).
      { unfold extras. apply filter_ext_in. intros (x, u) I. cbn [existsb fst]. destruct (String.eqb_spec x key) as [-> | NE]; [|reflexivity].
        exfalso. apply given_none in G. apply G. apply in_map_iff. exists (key, u). split; [reflexivity | exact I]. }
      destruct args as [|a t].
      * specialize (IH nd [] pr B D). destruct (matchArgs r nd [] pr) as ((p, rest), lft). destruct IH as (I1 & I2 & I3 & I4); [intros k K; apply P; right; exact K|].
        repeat split.
        -- intros k K. cbn [In] in K. apply I1. tauto.
        -- intros k [<- | K].
           ++ rewrite I1 by exact A. rewrite P by (left; reflexivity). unfold valueOf. rewrite G, O. reflexivity.
           ++ rewrite I2 by exact K. unfold valueOf. rewrite O. destruct (given nd k); [reflexivity|]. destruct (openParams r nd); reflexivity.
        -- rewrite X. exact I3.
        -- rewrite I4, !skipn_nil. reflexivity.
      * specialize (IH nd t (dictSet pr key a) B D). destruct (matchArgs r nd t (dictSet pr key a)) as ((p, rest), lft).
        destruct IH as (I1 & I2 & I3 & I4); [intros k K; rewrite set_other by (intros ->; contradiction); apply P; right; exact K|].
        repeat split.
        -- intros k K. cbn [In] in K. rewrite I1 by tauto. apply set_other. intros ->. tauto.
        -- intros k [<- | K].
           ++ rewrite I1 by exact A. rewrite set_same. unfold valueOf. rewrite G, O. cbn [combine given]. rewrite String.eqb_refl. reflexivity.
           ++ rewrite I2 by exact K. unfold valueOf. rewrite O. cbn [combine given]. destruct (String.eqb_spec key k) as [-> | NE]; [contradiction | reflexivity].
        -- rewrite X. exact I3.
        -- rewrite I4, O. reflexivity.
Qed.
(** ** Names *)
Lemma tail_spec : forall s, match lastChar s with Some c => (if Ascii.eqb c "_"%char then dropLast s else s) = withoutTail s | None => s = "" end.
Proof.
  induction s as [|c s IH]; [reflexivity|]. destruct s as [|d s]; [cbn; destruct (Ascii.eqb c "_"%char); reflexivity|].
  change (lastChar (String c (String d s))) with (lastChar (String d s)). destruct (lastChar (String d s)) as [x|]; [|discriminate IH].
  change (withoutTail (String c (String d s))) with (String c (withoutTail (String d s))). rewrite <- IH. destruct (Ascii.eqb x "_"%char); reflexivity.
Qed.
Lemma set_new : forall (d : dict) k v, ~ In k (map fst d) -> dictSet d k v = d ++ [(k, v)].
Proof.
  induction d as [|(x, w) d IH]; intros k v N; [reflexivity|]. cbn [dictSet]. cbn [map fst In] in N. destruct (String.eqb_spec x k); [exfalso; tauto|]. rewrite IH by tauto. reflexivity.
Qed.
Lemma strip_spec : forall (kwargs nd : dict), ~ In "" (map fst kwargs) -> NoDup (map fst (nd ++ stripped kwargs)) -> stripNames kwargs nd = Ok (nd ++ stripped kwargs).
Proof.
  induction kwargs as [|(k, v) kw IH]; intros nd E N; cbn [stripNames]; [rewrite app_nil_r; reflexivity|]. cbn [map fst In] in E.
  pose proof (tail_spec k) as T. destruct (lastChar k) as [c|]; [|exfalso; apply E; left; exact T]. cbv zeta. rewrite T.
  assert (NI : ~ In (withoutTail k) (map fst nd)).
  { rewrite map_app in N. cbn [stripped map fst] in N. apply NoDup_remove_2 in N. intros I. apply N. apply in_or_app. left. exact I. }
  rewrite set_new by exact NI. rewrite IH; [|tauto|]; rewrite <- app_assoc; [reflexivity | exact N].
Qed.
Lemma call_spec : forall names any injected args (kwargs : dict), NoDup names -> ~ In "" (map fst kwargs) -> NoDup (map fst (stripped kwargs)) ->
  let named := stripped kwargs in let all := withFront injected args in
  ((exists r, call names any injected args kwargs = Ok r) <-> (List.length all <= List.length (openParams names named))%nat /\ (extras names named = [] \/ any = true)) /\
  forall p rest, call names any injected args kwargs = Ok (p, rest) ->
    (forall k, In k names -> given p k = valueOf names named all k) /\ (forall k, ~ In k names -> given p k = None) /\ rest = extras names named.
Proof.
  intros names any injected args kwargs N E D named all. unfold call. fold (withFront injected args). fold all. rewrite (strip_spec kwargs [] E D). cbn [app obind]. fold named.
  pose proof (matchArgs_spec names named all [] N D (fun k _ => eq_refl)) as S. destruct (matchArgs names named all []) as ((p, rest), lft). destruct S as (S1 & S2 & S3 & S4).
  assert (LL : lft = [] <-> (List.length all <= List.length (openParams names named))%nat).
  { rewrite S4. split; intros H; [|apply skipn_all2; exact H]. apply (f_equal (@List.length V)) in H. rewrite skipn_length in H. cbn in H. lia. }
  split.
  - rewrite <- LL, <- S3. destruct lft as [|x lft]; [|split; [intros (r & H); discriminate H | intros (H & _); discriminate H]]. destruct rest as [|y rest].
    + split; [intros _; split; [reflexivity | left; reflexivity] | intros _; eexists; reflexivity].
    + destruct any; split; [intros _; split; [reflexivity | right; reflexivity] | intros _; eexists; reflexivity | intros (r & H); discriminate H | intros (_ & [H | H]); discriminate H].
  - intros p0 rest0 H. destruct lft as [|x lft]; [|discriminate H]. assert (Q : p0 = p /\ rest0 = rest).
    { destruct rest as [|y rest]; [injection H as <- <-; split; reflexivity|]. destruct any; [injection H as <- <-; split; reflexivity | discriminate H]. }
    destruct Q as (-> & ->). split; [exact S2|]. split; [|exact S3]. intros k K. rewrite S1 by exact K. reflexivity.
Qed.
Lemma swallowed : forall a b : V, call ["x"] false None [] [("x", a); ("x_", b)] = Ok ([("x", b)], []).
Proof. reflexivity. Qed.
End Facts.

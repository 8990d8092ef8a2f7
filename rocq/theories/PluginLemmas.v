(** Lemmas about the register of plugins and manifests. *)
From Coq Require Import String Ascii ZArith List Bool Lia Sorting.Sorted.
From Verif Require Import Common ArgsSpec Args ArgsLemmas SMap PluginSpec Plugin.
Import ListNotations.
Open Scope string_scope.
Open Scope list_scope.
Open Scope Z_scope.

(** ** The register *)

Definition wellKept (c : register) : Prop :=
  msorted c /\ (forall k p, In (k, p) c -> pg_id p = k) /\ NoDup (map (fun e => pg_ns (snd e)) c).

Lemma sorted_nodup : forall A (m : smap A), msorted m -> NoDup (map fst m).
Proof.
  intros A m H. induction H as [|[k v] m S IH F]; cbn; constructor; auto.
  intros I. apply in_map_iff in I. destruct I as ([k' v'] & E & I). cbn in E. subst. rewrite Forall_forall in F. specialize (F _ I). unfold klt in F. cbn in F. rewrite scmp_refl in F. discriminate.
Qed.
Lemma mget_iff : forall A (m : smap A) k v, msorted m -> (mget k m = Some v <-> In (k, v) m).
Proof.
  intros A m k v S. split; [apply mget_in|]. intros I. pose proof (sorted_nodup A m S) as N. clear S. induction m as [|[k' v'] m IH]; [destruct I|].
  cbn in *. destruct (String.eqb_spec k k') as [->|NE].
  - destruct I as [[= ->]|I]; [reflexivity|]. exfalso. inversion N as [|? ? X]; subst. apply X. apply in_map_iff. exists (k', v). auto.
  - destruct I as [I|I]; [injection I as E1 E2; congruence|]. apply IH; [exact I|]. inversion N; assumption.
Qed.
Lemma mput_perm : forall A k (v : A) m p, mget k m = None -> (In p (mput k v m) <-> p = (k, v) \/ In p m).
Proof.
  intros A k v m p. induction m as [|[k' v'] m IH]; cbn; intros N; [intuition|].
  destruct (String.eqb_spec k k') as [->|NE]; [discriminate|]. destruct (String.compare k k') eqn:C.
  - apply String.compare_eq_iff in C. contradiction.
  - cbn. intuition.
  - cbn. rewrite (IH N). intuition.
Qed.

(** Registering keeps names. *)
Lemma register_same : forall p n a t p' b, registerFunction p n a t = Ok (p', b) -> pg_id p' = pg_id p /\ pg_ns p' = pg_ns p /\ pg_ro p' = pg_ro p /\ (b = false -> p' = p).
Proof.
  intros p n a t p' b R. unfold registerFunction in R. destruct (pg_ro p) eqn:RO; [injection R as <- <-; auto|].
  destruct (negb _); [injection R as <- <-; auto|]. destruct (mget n (pg_funcs p)); [injection R as <- <-; auto|].
  destruct (makeFunction p n a t); try discriminate; injection R as <- <-; cbn; auto. repeat split; auto. discriminate.
Qed.

Definition nsOf (c : register) (ns : string) : option plugin := getPluginByNamespace c ns.
Lemma ns_iff : forall c ns p, NoDup (map (fun e => pg_ns (snd e)) c) -> (getPluginByNamespace c ns = Some p <-> exists k, In (k, p) c /\ pg_ns p = ns).
Proof.
  intros c ns p. unfold getPluginByNamespace. induction c as [|[k q] c IH]; cbn; intros N.
  - split; [discriminate|]. intros (k & [] & _).
  - inversion N as [|? ? X N']; subst. destruct (String.eqb_spec (pg_ns q) ns) as [E|NE]; cbn.
    + split; [intros [= <-]; exists k; auto|]. intros (k' & [[= <- <-]|I] & E'); [reflexivity|]. exfalso. apply X. apply in_map_iff. exists (k', p). split; [cbn; congruence|exact I].
    + rewrite (IH N'). split; intros (k' & I & E'); exists k'; [auto|]. destruct I as [[= <- <-]|I]; [contradiction|auto].
Qed.
Lemma ns_none : forall c ns, getPluginByNamespace c ns = None <-> forall k p, In (k, p) c -> pg_ns p <> ns.
Proof.
  intros c ns. unfold getPluginByNamespace. induction c as [|[k q] c IH]; cbn; [split; [intros _ k p []|reflexivity]|].
  destruct (String.eqb_spec (pg_ns q) ns) as [E|NE]; cbn; [split; [discriminate|intros H; exfalso; exact (H k q (or_introl eq_refl) E)]|].
  rewrite IH. split; [intros H k' p [[= <- <-]|I]; [exact NE|exact (H k' p I)]|intros H k' p I; exact (H k' p (or_intror I))].
Qed.

Lemma nodup_put : forall c k p, msorted c -> mget k c = None -> NoDup (map (fun e => pg_ns (snd e)) c) -> (forall k' q, In (k', q) c -> pg_ns q <> pg_ns p) -> NoDup (map (fun e => pg_ns (snd e)) (mput k p c)).
Proof.
  intros c k p S M N F. induction c as [|[k' q] c IH]; cbn; [repeat constructor; intros []|].
  cbn in M. destruct (String.eqb_spec k k') as [->|NE]; [discriminate|]. inversion N as [|? ? X N']; subst. inversion S as [|? ? S' _]; subst.
  destruct (String.compare k k') eqn:C; cbn.
  - apply String.compare_eq_iff in C. contradiction.
  - constructor; [|exact N]. intros [I|I]; [exact (F k' q (or_introl eq_refl) I)|]. apply in_map_iff in I. destruct I as ([k2 q2] & E & I). exact (F k2 q2 (or_intror I) E).
  - constructor.
    + intros I. apply in_map_iff in I. destruct I as ([k2 q2] & E & I). cbn in E. apply mput_in in I. destruct I as [[= -> ->]|I]; [exact (F k' q (or_introl eq_refl) (eq_sym E))|].
      apply X. apply in_map_iff. exists (k2, q2). auto.
    + apply IH; auto. intros k2 q2 I. apply (F k2 q2). right. exact I.
Qed.
Lemma replace_ns : forall (c : register) k p q, msorted c -> mget k c = Some p -> pg_ns q = pg_ns p -> map (fun e => pg_ns (snd e)) (mput k q c) = map (fun e => pg_ns (snd e)) c.
Proof.
  intros c k p q. induction c as [|[k' r] c IH]; cbn; intros S M E; [discriminate|]. inversion S as [|? ? S' F]; subst.
  destruct (String.eqb_spec k k') as [->|NE]; [injection M as ->; rewrite scmp_refl; cbn; congruence|].
  destruct (String.compare k k') eqn:C.
  - apply String.compare_eq_iff in C. contradiction.
  - exfalso. apply mget_in in M. rewrite Forall_forall in F. specialize (F _ M). unfold klt in F. cbn in F. pose proof (scmp_trans _ _ _ C F) as X. rewrite scmp_refl in X. discriminate.
  - cbn. rewrite IH by assumption. reflexivity.
Qed.

(** ** Loading *)

Lemma load_spec : forall c ns id l p, wellKept c -> newPlugin ns id l = Ok p ->
  ((getPluginByID c (pg_id p) <> None \/ getPluginByNamespace c (pg_ns p) <> None) /\ loadPlugin c ns id l = Err) \/
  (getPluginByID c (pg_id p) = None /\ getPluginByNamespace c (pg_ns p) = None /\ exists c', loadPlugin c ns id l = Ok c' /\ wellKept c' /\
     (forall k, getPluginByID c' k = if String.eqb k (pg_id p) then Some p else getPluginByID c k) /\
     (forall n, getPluginByNamespace c' n = if String.eqb n (pg_ns p) then Some p else getPluginByNamespace c n)).
Proof.
  intros c ns id l p (S & K & N) NP. unfold loadPlugin. rewrite NP. cbn [obind].
  destruct (getPluginByID c (pg_id p)) as [q|] eqn:GI; [left; split; [left; congruence|reflexivity]|].
  destruct (getPluginByNamespace c (pg_ns p)) as [q|] eqn:GN; [left; split; [right; congruence|reflexivity]|].
  right. split; [reflexivity|]. split; [reflexivity|]. exists (mput (pg_id p) p c). split; [reflexivity|].
  assert (W : wellKept (mput (pg_id p) p c)).
  { split; [apply mput_sorted; exact S|]. split.
    - intros k q I. apply mput_in in I. destruct I as [[= -> ->]|I]; [reflexivity|exact (K k q I)].
    - apply nodup_put; auto. apply ns_none. exact GN. }
  split; [exact W|]. split.
  - intros k. unfold getPluginByID in *. destruct (String.eqb_spec k (pg_id p)) as [->|NE]; [apply mget_put_same|apply mget_put_other; exact NE].
  - intros n. destruct W as (_ & _ & N').
    assert (X : forall q, getPluginByNamespace (mput (pg_id p) p c) n = Some q <-> (if String.eqb n (pg_ns p) then Some p else getPluginByNamespace c n) = Some q).
    { intros q. rewrite (ns_iff _ n q N'). destruct (String.eqb_spec n (pg_ns p)) as [->|NE].
      - split; [intros (k & I & E); apply mput_perm in I; [|exact GI]; destruct I as [[= -> ->]|I]; [reflexivity|exfalso; exact (proj1 (ns_none c _) GN k q I E)]|].
        intros [= <-]. exists (pg_id p). split; [apply mput_perm; [exact GI|left; reflexivity]|reflexivity].
      - rewrite (ns_iff c n q N). split; intros (k & I & E); exists k.
        + apply mput_perm in I; [|exact GI]. destruct I as [[= -> ->]|I]; [congruence|auto].
        + split; [apply mput_perm; [exact GI|right; exact I]|exact E]. }
    destruct (getPluginByNamespace (mput (pg_id p) p c) n) as [q|]; [symmetry; apply X; reflexivity|].
    destruct (if String.eqb n (pg_ns p) then Some p else getPluginByNamespace c n) as [q|]; [|reflexivity]. exfalso. assert (None = Some q) by (apply X; reflexivity). discriminate.
Qed.

Lemma step_kept : forall c o c', wellKept c -> stepOp c o = Ok c' -> wellKept c'.
Proof.
  intros c [ns id l|id n a t] c' W S; cbn in S.
  - destruct (newPlugin ns id l) as [p| |] eqn:NP.
    + destruct (load_spec c ns id l p W NP) as [(_ & E)|(_ & _ & c2 & E & W2 & _)]; rewrite E in S; injection S as <-; assumption.
    + unfold loadPlugin in S. rewrite NP in S. cbn in S. injection S as <-. exact W.
    + unfold loadPlugin in S. rewrite NP in S. discriminate.
  - destruct (getPluginByID c id) as [p|] eqn:G; [|injection S as <-; exact W].
    destruct (registerFunction p n a t) as [[q b]| |] eqn:R; cbn in S; try discriminate. injection S as <-.
    destruct (register_same p n a t q b R) as (E1 & E2 & _). destruct W as (S & K & N). unfold getPluginByID in G. split; [apply mput_sorted; exact S|]. split.
    + intros k r I. apply mput_in in I. destruct I as [[= -> ->]|I]; [rewrite E1; apply K; apply mget_in; exact G|exact (K k r I)].
    + rewrite (replace_ns c id p q S G E2). exact N.
Qed.
Lemma ops_kept : forall l c c', wellKept c -> runOps c l = Ok c' -> wellKept c'.
Proof.
  induction l as [|o l IH]; cbn; intros c c' W R; [injection R as <-; exact W|].
  destruct (stepOp c o) as [d| |] eqn:S; cbn in R; try discriminate. exact (IH d c' (step_kept c o d W S) R).
Qed.

(** ** The plugins of the core *)
Lemma init_config : forall l p q, pg_config p = true -> runInit p l = Ok q -> pg_id q = pg_id p /\ pg_ns q = pg_ns p /\ pg_roSet q = pg_roSet p /\ pg_ro q = pg_ro p /\ pg_major q = pg_major p /\ pg_minor q = pg_minor p.
Proof.
  induction l as [|[i n m v a f|n a t] l IH]; cbn; intros p q C R; [injection R as <-; auto 10| |].
  - unfold configPlugin in R. rewrite C in R. discriminate.
  - destruct (registerFunction p n a t) as [[p2 b]| |] eqn:RF; cbn in R; try discriminate.
    assert (X : pg_config p2 = pg_config p /\ pg_id p2 = pg_id p /\ pg_ns p2 = pg_ns p /\ pg_roSet p2 = pg_roSet p /\ pg_ro p2 = pg_ro p /\ pg_major p2 = pg_major p /\ pg_minor p2 = pg_minor p).
    { unfold registerFunction in RF. destruct (pg_ro p) eqn:RO; [injection RF as <- <-; auto 10|].
      destruct (negb _); [injection RF as <- <-; auto 10|]. destruct (mget n (pg_funcs p)); [injection RF as <- <-; auto 10|].
      destruct (makeFunction p n a t); try discriminate; injection RF as <- <-; cbn; auto 10. }
    destruct X as (X1 & X2 & X3 & X4 & X5 & X6 & X7). destruct (IH p2 q ltac:(congruence) R) as (Y1 & Y2 & Y3 & Y4 & Y5 & Y6). repeat split; congruence.
Qed.
Lemma core_kept : forall std resize text c, coreRegister std resize text = Ok c -> wellKept c.
Proof.
  intros std resize text c H. unfold coreRegister in H.
  destruct (newPlugin "" "" _) as [s| |] eqn:A; cbn [obind] in H; try discriminate.
  destruct (runInit _ (CConfig "com.vapoursynth.resize" _ _ _ _ _ :: resize)) as [r| |] eqn:B; cbn [obind] in H; try discriminate.
  destruct (runInit _ (CConfig "com.vapoursynth.text" _ _ _ _ _ :: text)) as [t| |] eqn:D; cbn [obind] in H; try discriminate. injection H as <-.
  assert (SI : pg_id s = "com.vapoursynth.std" /\ pg_ns s = "std").
  { unfold newPlugin in A. destruct (runInit _ _) as [p| |] eqn:E; cbn [obind] in A; try discriminate. cbn in E. apply init_config in E; [|reflexivity]. cbn in E.
    destruct (supported _) in A; [|discriminate]. injection A as <-. destruct E as (E1 & E2 & _). destruct (pg_roSet p); cbn; auto. }
  cbn in B, D. apply init_config in B; [|reflexivity]. apply init_config in D; [|reflexivity]. cbn in B, D.
  destruct SI as (S1 & S2). destruct B as (B1 & B2 & _). destruct D as (D1 & D2 & _). rewrite S1, B1, D1. cbn.
  split; [|split].
  - repeat constructor.
  - intros k p [[= <- <-]|[[= <- <-]|[[= <- <-]|[]]]]; cbn; assumption.
  - cbn. rewrite S2, B2, D2. repeat constructor; cbn; intuition congruence.
Qed.

(** ** Iteration *)
Lemma after_app : forall A (a b : smap A) k v, NoDup (map fst (a ++ (k, v) :: b)) -> after k (a ++ (k, v) :: b) = first b.
Proof.
  intros A a b k v. induction a as [|[k' v'] a IH]; cbn; intros N.
  - rewrite String.eqb_refl. reflexivity.
  - inversion N as [|? ? X N']; subst. destruct (String.eqb_spec k k') as [->|NE]; [|exact (IH N')].
    exfalso. apply X. rewrite map_app. apply in_or_app. right. left. reflexivity.
Qed.
(** Following a successor from the start: at most [n] steps. *)
Fixpoint walk {A} (next : option A -> option A) (n : nat) (x : option A) : list A :=
  match n with O => [] | S k => match next x with None => [] | Some y => y :: walk next k (Some y) end end.
Lemma walk_all : forall A (key : A -> string) (m : smap A) n, msorted m -> (forall k v, In (k, v) m -> key v = k) -> (List.length m < n)%nat ->
  walk (fun x => match x with None => first m | Some y => after (key y) m end) n None = map snd m.
Proof.
  intros A key m n S K L.
  assert (G : forall b a n x, m = a ++ b -> (List.length b < n)%nat -> (match x with None => first m | Some y => after (key y) m end) = first b ->
    walk (fun x => match x with None => first m | Some y => after (key y) m end) n x = map snd b).
  { induction b as [|[k v] b IH]; intros a m' x E L' F; destruct m' as [|m']; cbn in L'; try lia; cbn [walk]; rewrite F; cbn [first snd map]; [reflexivity|].
    f_equal. apply (IH (a ++ [(k, v)])); [rewrite E, <- app_assoc; reflexivity|lia|].
    rewrite (K k v) by (rewrite E; apply in_or_app; right; left; reflexivity). rewrite E. apply after_app. rewrite <- E. apply sorted_nodup. exact S. }
  apply (G m [] n None); auto.
Qed.
Lemma plugins_walk : forall c n, wellKept c -> (List.length c < n)%nat -> walk (getNextPlugin c) n None = map snd c.
Proof. intros c n (S & K & _) L. apply (walk_all plugin pg_id c n S K L). Qed.

(** Functions of a plugin: sorted, under their own names. *)
Definition namedFuncs (p : plugin) : Prop := msorted (pg_funcs p) /\ forall k f, In (k, f) (pg_funcs p) -> fn_name f = k /\ identifier (T k).
Lemma make_name : forall p n a t f, makeFunction p n a t = Ok f -> fn_name f = n.
Proof.
  intros p n a t f M. unfold makeFunction in M. destruct (parseFor _ _); cbn in M; try discriminate. destruct (if pg_major p =? 3 then _ else _); cbn in M; try discriminate.
  destruct (if String.eqb t "any" then _ else _); cbn in M; try discriminate. injection M as <-. reflexivity.
Qed.
Lemma register_named : forall p n a t q b, namedFuncs p -> registerFunction p n a t = Ok (q, b) -> namedFuncs q.
Proof.
  intros p n a t q b (S & K) R. unfold registerFunction in R. destruct (pg_ro p); [injection R as <- <-; split; assumption|].
  destruct (isValidIdentifier (T n)) eqn:V; cbn [negb] in R; [|injection R as <- <-; split; assumption]. destruct (mget n (pg_funcs p)); [injection R as <- <-; split; assumption|].
  destruct (makeFunction p n a t) as [f| |] eqn:M; try discriminate; injection R as <- <-; [|split; assumption]. split; cbn; [apply mput_sorted; exact S|].
  intros k g I. apply mput_in in I. destruct I as [[= -> ->]|I]; [split; [exact (make_name _ _ _ _ _ M)|apply identifier_spec; exact V]|exact (K k g I)].
Qed.
Lemma functions_walk : forall p n, namedFuncs p -> (List.length (pg_funcs p) < n)%nat -> walk (getNextFunction p) n None = map snd (pg_funcs p).
Proof. intros p n (S & K) L. apply (walk_all pfunc fn_name (pg_funcs p) n S (fun k v I => proj1 (K k v I)) L). Qed.

(** The first valid registration of a name is the one that counts. *)
Fixpoint registerAll (p : plugin) (l : list (string * string * string)) : outcome plugin :=
  match l with [] => Ok p | (n, a, t) :: r => obind (registerFunction p n a t) (fun q => registerAll (fst q) r) end.
Definition acceptable (p : plugin) (n a t : string) : bool := isValidIdentifier (T n) && match makeFunction p n a t with Ok _ => true | _ => false end.
Definition firstValid (p : plugin) (l : list (string * string * string)) (n : string) : option pfunc :=
  match find (fun c => String.eqb (fst (fst c)) n && acceptable p (fst (fst c)) (snd (fst c)) (snd c)) l with
  | Some c => match makeFunction p (fst (fst c)) (snd (fst c)) (snd c) with Ok f => Some f | _ => None end
  | None => None
  end.
Lemma find_same : forall A (f g : A -> bool) l, (forall x, f x = g x) -> find f l = find g l.
Proof. intros A f g l H. induction l as [|x l IH]; [reflexivity|]. cbn. rewrite H, IH. reflexivity. Qed.
Lemma make_major : forall p q n a t, pg_major q = pg_major p -> makeFunction q n a t = makeFunction p n a t.
Proof. intros p q n a t E. unfold makeFunction. rewrite E. reflexivity. Qed.
Lemma register_all : forall l p q, pg_ro p = false -> registerAll p l = Ok q ->
  pg_id q = pg_id p /\ pg_ns q = pg_ns p /\ forall n, mget n (pg_funcs q) = match mget n (pg_funcs p) with Some f => Some f | None => firstValid p l n end.
Proof.
  induction l as [|[[n a] t] l IH]; cbn [registerAll]; intros p q RO R.
  - injection R as <-. split; [reflexivity|]. split; [reflexivity|]. intros n. destruct (mget n (pg_funcs p)); reflexivity.
  - destruct (registerFunction p n a t) as [[p2 b]| |] eqn:RF; cbn [obind fst] in R; try discriminate.
    destruct (register_same p n a t p2 b RF) as (E1 & E2 & E3 & _).
    destruct (IH p2 q ltac:(congruence) R) as (I1 & I2 & I3). split; [congruence|]. split; [congruence|]. intros m. rewrite I3.
    assert (MJ : pg_major p2 = pg_major p). { unfold registerFunction in RF. rewrite RO in RF. destruct (negb _); [injection RF as <- <-; reflexivity|]. destruct (mget n (pg_funcs p)); [injection RF as <- <-; reflexivity|]. destruct (makeFunction p n a t); try discriminate; injection RF as <- <-; reflexivity. }
    assert (FV : forall k, firstValid p2 l k = firstValid p l k).
    { intros k. unfold firstValid. rewrite (find_same _ (fun c => String.eqb (fst (fst c)) k && acceptable p2 (fst (fst c)) (snd (fst c)) (snd c)) (fun c => String.eqb (fst (fst c)) k && acceptable p (fst (fst c)) (snd (fst c)) (snd c))).
      - destruct (find _ l) as [c|]; [|reflexivity]. rewrite (make_major p p2) by exact MJ. reflexivity.
      - intros c. unfold acceptable. rewrite (make_major p p2) by exact MJ. reflexivity. }
    rewrite FV. unfold registerFunction in RF. rewrite RO in RF. unfold firstValid at 2. cbn [find fst snd]. unfold acceptable at 1.
    destruct (isValidIdentifier (T n)) eqn:V; cbn [negb] in RF; cbn [andb].
    2:{ injection RF as <- <-. rewrite andb_false_r. reflexivity. }
    destruct (mget n (pg_funcs p)) as [g|] eqn:MG.
    { injection RF as <- <-. destruct (String.eqb_spec n m) as [->|NE]; cbn [andb]; [rewrite MG; reflexivity|reflexivity]. }
    destruct (makeFunction p n a t) as [f| |] eqn:MF; try discriminate; injection RF as <- <-.
    + cbn [pg_funcs withFuncs]. rewrite andb_true_r. destruct (String.eqb_spec n m) as [<-|NE].
      * rewrite mget_put_same, ?MG. cbn [fst snd]. rewrite ?MF. reflexivity.
      * rewrite mget_put_other by congruence. reflexivity.
    + rewrite andb_false_r. reflexivity.
Qed.
Lemma readonly_fixed : forall p n a t, pg_ro p = true -> registerFunction p n a t = Ok (p, false).
Proof. intros p n a t H. unfold registerFunction. rewrite H. reflexivity. Qed.

(** ** The built-in plugins stay open *)
Lemma open_register : forall p n a t f, pg_ro p = false -> isValidIdentifier (T n) = true -> mget n (pg_funcs p) = None -> makeFunction p n a t = Ok f ->
  exists q, registerFunction p n a t = Ok (q, true) /\ mget n (pg_funcs q) = Some f.
Proof. intros p n a t f RO V G M. unfold registerFunction. rewrite RO, V, G, M. cbn. eexists. split; [reflexivity|]. cbn. apply mget_put_same. Qed.

(** ** Manifests *)
Lemma stretches_nonempty : forall s, stretches s <> [].
Proof. intros [|c s]; cbn; [discriminate|]. destruct (lineEnd c); [discriminate|]. destruct (stretches s); discriminate. Qed.
Lemma find_not : forall s, match findNot s with None => lines s = [] | Some l => lines s = lines l /\ (List.length l <= List.length s)%nat /\ exists c r, l = c :: r /\ lineEnd c = false end.
Proof.
  induction s as [|c s IH]; cbn [findNot]; [reflexivity|]. destruct (lineEnd c) eqn:E.
  - destruct (findNot s) as [l|]; [destruct IH as (A & B & C)|]; unfold lines in *; cbn [stretches]; rewrite E; cbn [filter nonempty]; [split; [exact A|split; [cbn; lia|exact C]]|exact IH].
  - split; [reflexivity|]. split; [lia|]. exists c, s. auto.
Qed.
(** A line end splits off what is before it. *)
Lemma find_end : forall s, match findEnd s with None => stretches s = [s] | Some p => (List.length p <= List.length s)%nat /\ p <> [] /\ stretches s = firstn (List.length s - List.length p) s :: stretches (tl p) end.
Proof.
  induction s as [|c s IH]; cbn [findEnd]; [reflexivity|]. destruct (lineEnd c) eqn:E.
  - cbn. rewrite E. rewrite Nat.sub_diag. cbn. split; [lia|]. split; [discriminate|reflexivity].
  - destruct (findEnd s) as [p|]; cbn [stretches]; rewrite E.
    + destruct IH as (L & N & ST). rewrite ST. split; [cbn; lia|]. split; [exact N|]. cbn [List.length]. replace (S (List.length s) - List.length p)%nat with (S (List.length s - List.length p)) by lia. reflexivity.
    + rewrite IH. reflexivity.
Qed.
Lemma split_loop : forall n last, (match last with None => 0 | Some l => List.length l end < n)%nat -> (match last with None => True | Some l => exists c r, l = c :: r /\ lineEnd c = false end) ->
  splitLoop n last (match last with None => None | Some l => findEnd l end) = Ok (match last with None => [] | Some l => lines l end).
Proof.
  induction n as [|n IH]; intros last L H; [lia|]. destruct last as [l|]; cbn [splitLoop]; [|reflexivity].
  destruct H as (c & r & -> & E). pose proof (find_end (c :: r)) as F. destruct (findEnd (c :: r)) as [p|] eqn:FE.
  - destruct F as (Lp & Np & ST). pose proof (find_not (tl p)) as Q. cbv zeta. unfold text in *. rewrite (IH (findNot (tl p))).
    + cbn [obind]. f_equal. unfold lines at 2. rewrite ST. cbn [filter].
      assert (X : exists y, firstn (List.length (c :: r) - List.length p) (c :: r) = c :: y).
      { cbn [findEnd] in FE. rewrite E in FE. pose proof (find_end r) as F2. rewrite FE in F2. destruct F2 as (L2 & _). cbn [List.length]. replace (S (List.length r) - List.length p)%nat with (S (List.length r - List.length p)) by lia. cbn. eauto. }
      destruct X as (y & X). rewrite X. cbn [nonempty]. f_equal. fold (lines (tl p)). destruct (findNot (tl p)) as [l'|]; [symmetry; exact (proj1 Q)|symmetry; exact Q].
    + destruct p as [|x p]; [congruence|]. cbn [tl] in *. destruct (findNot p) as [l'|]; [|cbn [List.length] in *; lia]. destruct Q as (_ & Q & _). cbn [List.length] in *. lia.
    + destruct (findNot (tl p)) as [l'|]; [exact (proj2 (proj2 Q))|exact I].
  - f_equal. unfold lines. rewrite F. reflexivity.
Qed.
Lemma lines_split : forall s, findNot s <> None -> splitLines s = Ok (lines s).
Proof.
  intros s H. unfold splitLines. pose proof (find_not s) as F. destruct (findNot s) as [l|]; [|congruence]. destruct F as (A & B & C).
  destruct C as (c & r & -> & E). rewrite A. replace (findEnd (tl (c :: r))) with (findEnd (c :: r)) by (cbn; rewrite E; reflexivity).
  apply (split_loop (S (List.length s)) (Some (c :: r))); [lia|eauto].
Qed.
Lemma find_not_iff : forall s, findNot s <> None <-> existsb (fun c => negb (lineEnd c)) s = true.
Proof. induction s as [|c s IH]; cbn; [split; [congruence|discriminate]|]. destruct (lineEnd c); cbn; [exact IH|]. split; [reflexivity|discriminate]. Qed.
Lemma lines_nonempty : forall s, filter nonempty (lines s) = lines s.
Proof. intros s. unfold lines. induction (stretches s) as [|w l IH]; [reflexivity|]. cbn. destruct w; cbn; [exact IH|rewrite IH; reflexivity]. Qed.
Definition asked (s : text) : option (list text) := match lines s with h :: r => if teq h manifestHeader then Some r else None | [] => None end.
Lemma manifest_ok : forall limit s, (List.length s <= limit)%nat -> existsb (fun c => negb (lineEnd c)) s = true -> manifestOf limit s = Ok (asked s).
Proof.
  intros limit s L H. unfold manifestOf. rewrite firstn_all2 by exact L. destruct s as [|c s]; [discriminate|].
  rewrite lines_split by (apply find_not_iff; exact H). cbn [obind]. unfold asked. pose proof (lines_nonempty (c :: s)) as F. destruct (lines (c :: s)) as [|h r]; [reflexivity|].
  destruct (teq h manifestHeader); [|reflexivity]. do 2 f_equal. cbn in F. destruct h; [|cbn in F; injection F as F; exact F].
  exfalso. cbn in F. assert (X : In [] (filter nonempty r)) by (rewrite F; left; reflexivity). apply filter_In in X. destruct X as (_ & X). discriminate.
Qed.
Lemma manifest_blank : forall limit s, (0 < limit)%nat -> s <> [] -> existsb (fun c => negb (lineEnd c)) s = false -> manifestOf limit s = UB.
Proof.
  intros limit s L N H. unfold manifestOf. destruct s as [|c s]; [congruence|]. destruct limit as [|limit]; [lia|]. cbn [firstn].
  assert (B : findNot (c :: firstn limit s) = None).
  { cbn in *. apply orb_false_iff in H. destruct H as (H1 & H2). destruct (lineEnd c); [|discriminate]. clear -H2. revert limit H2. induction s as [|x s IH]; intros [|n] H; cbn in *; try reflexivity. apply orb_false_iff in H. destruct H as (H1 & H2). destruct (lineEnd x); [auto|discriminate]. }
  unfold splitLines. rewrite B. cbn [findEnd splitLoop]. cbn in H. apply orb_false_iff in H. destruct H as (H & _). destruct (lineEnd c); [reflexivity|discriminate].
Qed.

(** ** Processor levels *)
Lemma try_best : forall there n a, tryLevels there a n = best there (map (fun i => a - Z.of_nat i) (seq 0 n)) 1.
Proof.
  intros there n. induction n as [|n IH]; intros a; [reflexivity|]. cbn [tryLevels seq map best]. replace (a - Z.of_nat 0) with a by lia. destruct (there a); [reflexivity|].
  rewrite IH. rewrite <- seq_shift, map_map. f_equal. apply map_ext. intros i. lia.
Qed.
Lemma level_ok : forall there abi, let r := chooseLevel there abi in
  (r = 1 \/ (1 < r <= abi /\ there r = true)) /\ forall k, 1 < k <= abi -> there k = true -> k <= r.
Proof.
  intros there abi. unfold chooseLevel. cbv zeta.
  assert (G : forall n a, a = Z.of_nat n + 1 -> (tryLevels there a n = 1 \/ (1 < tryLevels there a n <= a /\ there (tryLevels there a n) = true)) /\ forall k, 1 < k <= a -> there k = true -> k <= tryLevels there a n).
  { induction n as [|n IH]; intros a E; cbn [tryLevels]; [split; [left; reflexivity|intros k K; lia]|].
    destruct (there a) eqn:Ta; [split; [right; split; [lia|exact Ta]|intros k K _; lia]|].
    destruct (IH (a - 1) ltac:(lia)) as (A & B). split; [destruct A as [A|(A & A2)]; [left; exact A|right; split; [lia|exact A2]]|].
    intros k K Tk. assert (k <> a) by congruence. apply B; [lia|exact Tk]. }
  destruct (Z.le_gt_cases 1 abi); [apply G; lia|]. replace (Z.to_nat (abi - 1)) with O by lia. cbn. split; [auto|intros k K; lia].
Qed.

(** ** All functions of all plugins have names of their own *)
Lemma init_named : forall l p q, namedFuncs p -> runInit p l = Ok q -> namedFuncs q.
Proof.
  induction l as [|[i n m v a f|n a t] l IH]; cbn; intros p q N R; [injection R as <-; exact N| |].
  - destruct (configPlugin p i n m v a f) as [p2| |] eqn:C; cbn in R; try discriminate. apply (IH p2 q); [|exact R].
    unfold configPlugin in C. destruct (pg_config p); [discriminate|]. destruct (negb _); [discriminate|]. injection C as <-. exact N.
  - destruct (registerFunction p n a t) as [[p2 b]| |] eqn:RF; cbn in R; try discriminate. exact (IH p2 q (register_named _ _ _ _ _ _ N RF) R).
Qed.
Lemma blank_named : forall ns id, namedFuncs (blankPlugin ns id).
Proof. intros. split; [constructor|]. intros k f []. Qed.
Lemma new_named : forall ns id l p, newPlugin ns id l = Ok p -> namedFuncs p /\ (pg_roSet p = true -> pg_ro p = true).
Proof.
  intros ns id l p H. unfold newPlugin in H. destruct (runInit _ l) as [q| |] eqn:R; cbn [obind] in H; try discriminate.
  pose proof (init_named _ _ _ (blank_named ns id) R) as N. destruct (pg_roSet q) eqn:RS; destruct (supported _); try discriminate; injection H as <-; split; try exact N; cbn; congruence.
Qed.
Definition allNamed (c : register) : Prop := forall k p, In (k, p) c -> namedFuncs p.
Lemma step_named : forall c o c', allNamed c -> stepOp c o = Ok c' -> allNamed c'.
Proof.
  intros c [ns id l|id n a t] c' W S; cbn in S.
  - unfold loadPlugin in S. destruct (newPlugin ns id l) as [p| |] eqn:NP; cbn [obind] in S; try discriminate; [|injection S as <-; exact W].
    destruct (getPluginByID c (pg_id p)); [injection S as <-; exact W|]. destruct (getPluginByNamespace c (pg_ns p)); injection S as <-; [exact W|].
    intros k q I. apply mput_in in I. destruct I as [[= -> ->]|I]; [exact (proj1 (new_named _ _ _ _ NP))|exact (W k q I)].
  - destruct (getPluginByID c id) as [p|] eqn:G; [|injection S as <-; exact W].
    destruct (registerFunction p n a t) as [[q b]| |] eqn:R; cbn in S; try discriminate. injection S as <-.
    intros k r I. apply mput_in in I. destruct I as [[= -> ->]|I]; [|exact (W k r I)]. apply (register_named p n a t q b); [|exact R]. apply (W id). apply mget_in. exact G.
Qed.
Lemma named_put : forall m k p, allNamed m -> namedFuncs p -> allNamed (mput k p m).
Proof. intros m k p A N k' q I. apply mput_in in I. destruct I as [[= -> ->]|I]; [exact N|exact (A k' q I)]. Qed.
Lemma core_named : forall std resize text c, coreRegister std resize text = Ok c -> allNamed c.
Proof.
  intros std resize text c H. unfold coreRegister in H.
  destruct (newPlugin "" "" _) as [s| |] eqn:A; cbn [obind] in H; try discriminate.
  destruct (runInit _ (CConfig "com.vapoursynth.resize" _ _ _ _ _ :: resize)) as [r| |] eqn:B; cbn [obind] in H; try discriminate.
  destruct (runInit _ (CConfig "com.vapoursynth.text" _ _ _ _ _ :: text)) as [t| |] eqn:D; cbn [obind] in H; try discriminate. apply (f_equal (fun o => match o with Ok x => x | _ => [] end)) in H. cbv beta iota in H. rewrite <- H. clear H.
  apply named_put; [|exact (init_named _ _ _ (blank_named _ _) D)]. apply named_put; [|exact (init_named _ _ _ (blank_named _ _) B)].
  apply named_put; [intros k p []|exact (proj1 (new_named _ _ _ _ A))].
Qed.
Lemma reachable_kept : forall std resize text c l c', coreRegister std resize text = Ok c -> runOps c l = Ok c' -> wellKept c' /\ allNamed c'.
Proof.
  intros std resize text c l c' C R. split; [exact (ops_kept l c c' (core_kept _ _ _ _ C) R)|]. pose proof (core_named _ _ _ _ C) as N. clear C. revert c N R.
  induction l as [|o l IH]; cbn; intros c N R; [injection R as <-; exact N|]. destruct (stepOp c o) as [d| |] eqn:S; cbn in R; try discriminate. exact (IH d (step_named c o d N S) R).
Qed.
Lemma unique_names : forall c, wellKept c -> (forall k p, getPluginByID c k = Some p -> pg_id p = k /\ getPluginByNamespace c (pg_ns p) = Some p) /\ (forall n p, getPluginByNamespace c n = Some p -> pg_ns p = n /\ getPluginByID c (pg_id p) = Some p).
Proof.
  intros c (S & K & N). split.
  - intros k p G. apply mget_in in G. split; [exact (K k p G)|]. apply ns_iff; [exact N|]. eauto.
  - intros n p G. apply ns_iff in G; [|exact N]. destruct G as (k & I & E). split; [exact E|]. unfold getPluginByID. apply mget_iff; [exact S|]. rewrite (K k p I). exact I.
Qed.
Lemma all_reached : forall std resize text c l c', coreRegister std resize text = Ok c -> runOps c l = Ok c' ->
  (forall k p, getPluginByID c' k = Some p -> pg_id p = k /\ getPluginByNamespace c' (pg_ns p) = Some p) /\
  (forall n p, getPluginByNamespace c' n = Some p -> pg_ns p = n /\ getPluginByID c' (pg_id p) = Some p).
Proof. intros. apply unique_names. eapply reachable_kept; eassumption. Qed.

(** Walking visits what can be looked up, once each, in ascending order. *)
Lemma map_keys : forall A (key : A -> string) (m : smap A), (forall k v, In (k, v) m -> key v = k) -> map key (map snd m) = map fst m.
Proof. intros A key m K. rewrite map_map. apply map_ext_in. intros [k v] I. exact (K k v I). Qed.
Lemma sorted_keys : forall A (m : smap A), msorted m -> StronglySorted (fun a b => String.compare a b = Lt) (map fst m).
Proof. intros A m H. induction H as [|[k v] m S IH F]; cbn; constructor; [exact IH|]. rewrite Forall_forall in *. intros x I. apply in_map_iff in I. destruct I as ([k' v'] & E & I). cbn in E. subst. exact (F _ I). Qed.
Lemma listed : forall std resize text c l c', coreRegister std resize text = Ok c -> runOps c l = Ok c' -> exists L,
  (forall n, (List.length L < n)%nat -> walk (getNextPlugin c') n None = L) /\ StronglySorted (fun a b => String.compare (pg_id a) (pg_id b) = Lt) L /\ (forall p, In p L <-> getPluginByID c' (pg_id p) = Some p).
Proof.
  intros std resize text c l c' C R. destruct (reachable_kept _ _ _ _ _ _ C R) as (W & _). exists (map snd c'). split; [|split].
  - intros n L. apply plugins_walk; [exact W|]. rewrite map_length in L. exact L.
  - destruct W as (S & K & _). pose proof (sorted_keys _ _ S) as X. rewrite <- (map_keys _ pg_id c' K) in X. clear -X. induction (map snd c') as [|p L IH]; [constructor|]. cbn in X. inversion X as [|? ? X' F]; subst. constructor; [exact (IH X')|].
    rewrite Forall_forall in *. intros q I. apply F. apply in_map. exact I.
  - destruct W as (S & K & _). intros p. unfold getPluginByID. rewrite (mget_iff _ _ _ _ S). split; [|intros I; apply in_map_iff; exists (pg_id p, p); auto].
    intros I. apply in_map_iff in I. destruct I as ([k q] & E & I). cbn in E. subst. rewrite (K k p I). exact I.
Qed.
Lemma functions_listed : forall std resize text c l c' id p, coreRegister std resize text = Ok c -> runOps c l = Ok c' -> getPluginByID c' id = Some p -> exists L,
  (forall n, (List.length L < n)%nat -> walk (getNextFunction p) n None = L) /\ StronglySorted (fun a b => String.compare (fn_name a) (fn_name b) = Lt) L /\
  (forall f, In f L <-> mget (fn_name f) (pg_funcs p) = Some f) /\ forall f, In f L -> identifier (T (fn_name f)).
Proof.
  intros std resize text c l c' id p C R G. destruct (reachable_kept _ _ _ _ _ _ C R) as (_ & N). apply mget_in in G. pose proof (N _ _ G) as W. exists (map snd (pg_funcs p)). split; [|split; [|split]].
  - intros n L. apply functions_walk; [exact W|]. rewrite map_length in L. exact L.
  - destruct W as (S & K). pose proof (sorted_keys _ _ S) as X. rewrite <- (map_keys _ fn_name _ (fun k v I => proj1 (K k v I))) in X. clear -X. induction (map snd (pg_funcs p)) as [|f L IH]; [constructor|]. cbn in X. inversion X as [|? ? X' F]; subst. constructor; [exact (IH X')|].
    rewrite Forall_forall in *. intros q I. apply F. apply in_map. exact I.
  - destruct W as (S & K). intros f. rewrite (mget_iff _ _ _ _ S). split; [|intros I; apply in_map_iff; exists (fn_name f, f); auto].
    intros I. apply in_map_iff in I. destruct I as ([k q] & E & I). cbn in E. subst. rewrite (proj1 (K k f I)). exact I.
  - destruct W as (S & K). intros f I. apply in_map_iff in I. destruct I as ([k q] & E & I). cbn in E. subst. destruct (K k f I) as (E & Id). rewrite E. exact Id.
Qed.

(** ** What is locked or loaded stays *)
Lemma ops_locked : forall l c c' id p, getPluginByID c id = Some p -> pg_ro p = true -> runOps c l = Ok c' -> getPluginByID c' id = Some p.
Proof.
  induction l as [|o l IH]; cbn; intros c c' id p G RO R; [injection R as <-; exact G|].
  destruct (stepOp c o) as [d| |] eqn:S; cbn in R; try discriminate. apply (IH d c' id p); [|exact RO|exact R]. clear IH R.
  destruct o as [ns i ll|i n a t]; cbn in S.
  - unfold loadPlugin in S. destruct (newPlugin ns i ll) as [q| |]; cbn [obind] in S; try discriminate; [|injection S as <-; exact G].
    destruct (getPluginByID c (pg_id q)) eqn:GI; [injection S as <-; exact G|]. destruct (getPluginByNamespace c (pg_ns q)); injection S as <-; [exact G|].
    unfold getPluginByID in *. rewrite mget_put_other; [exact G|]. intros E. congruence.
  - destruct (getPluginByID c i) as [q|] eqn:GI; [|injection S as <-; exact G]. destruct (String.eqb_spec id i) as [->|NE].
    + assert (q = p) by congruence. subst. rewrite (readonly_fixed p n a t RO) in S. cbn in S. injection S as <-. apply mget_put_same.
    + destruct (registerFunction q n a t) as [[q2 b]| |]; cbn in S; try discriminate. injection S as <-. unfold getPluginByID in *. rewrite mget_put_other by exact NE. exact G.
Qed.
Lemma ops_functions : forall l c c' id p n f, getPluginByID c id = Some p -> mget n (pg_funcs p) = Some f -> runOps c l = Ok c' -> exists p', getPluginByID c' id = Some p' /\ pg_id p' = pg_id p /\ pg_ns p' = pg_ns p /\ mget n (pg_funcs p') = Some f.
Proof.
  induction l as [|o l IH]; cbn; intros c c' id p n f G F R; [injection R as <-; eauto|].
  destruct (stepOp c o) as [d| |] eqn:S; cbn in R; try discriminate.
  assert (X : exists p', getPluginByID d id = Some p' /\ pg_id p' = pg_id p /\ pg_ns p' = pg_ns p /\ mget n (pg_funcs p') = Some f).
  { clear IH R. destruct o as [ns i ll|i m a t]; cbn in S.
    - unfold loadPlugin in S. destruct (newPlugin ns i ll) as [q| |]; cbn [obind] in S; try discriminate; [|injection S as <-; eauto].
      destruct (getPluginByID c (pg_id q)) eqn:GI; [injection S as <-; eauto|]. destruct (getPluginByNamespace c (pg_ns q)); injection S as <-; [eauto|].
      exists p. unfold getPluginByID in *. rewrite mget_put_other; [auto|]. intros E. congruence.
    - destruct (getPluginByID c i) as [q|] eqn:GI; [|injection S as <-; eauto]. destruct (String.eqb_spec id i) as [->|NE].
      + assert (q = p) by congruence. subst. destruct (registerFunction p m a t) as [[q2 b]| |] eqn:RF; cbn in S; try discriminate. injection S as <-. exists q2. split; [apply mget_put_same|].
        destruct (register_same _ _ _ _ _ _ RF) as (E1 & E2 & _). split; [exact E1|]. split; [exact E2|].
        unfold registerFunction in RF. destruct (pg_ro p); [injection RF as <- <-; exact F|]. destruct (negb _); [injection RF as <- <-; exact F|].
        destruct (mget m (pg_funcs p)) eqn:GM; [injection RF as <- <-; exact F|]. destruct (makeFunction p m a t); try discriminate; injection RF as <- <-; [|exact F].
        cbn. rewrite mget_put_other; [exact F|]. intros E. congruence.
      + destruct (registerFunction q m a t) as [[q2 b]| |]; cbn in S; try discriminate. injection S as <-. exists p. unfold getPluginByID in *. rewrite mget_put_other by exact NE. auto. }
  destruct X as (p' & G' & E1 & E2 & F'). destruct (IH d c' id p' n f G' F' R) as (p2 & A & B & D & E). exists p2. repeat split; congruence.
Qed.

(** Signatures: parsing, printing, checking. *)
From Coq Require Import String Ascii ZArith List Bool Lia.
From Verif Require Import Common ArgsSpec Args.
Import ListNotations.
Open Scope list_scope.

Lemma Ok_inj : forall A (a b : A), Ok a = Ok b -> a = b. Proof. congruence. Qed.
Lemma teq_spec : forall a b, reflect (a = b) (teq a b).
Proof. intros a b. unfold teq. destruct (list_eq_dec ascii_dec a b); constructor; assumption. Qed.
Lemma teq_refl : forall a, teq a a = true. Proof. intros a. destruct (teq_spec a a); congruence. Qed.
Lemma pieces_span : forall d s w t, span d s = (w, t) -> pieces d s = w :: match t with [] => [] | _ :: t => pieces d t end.
Proof.
  intros d. induction s as [|c s IH]; intros w t E; cbn [span pieces] in *; [injection E as <- <-; reflexivity |].
  destruct (Ascii.eqb c d); [injection E as <- <-; reflexivity |]. destruct (span d s) as [w' t'] eqn:S. injection E as <- <-. rewrite (IH w' t' eq_refl). reflexivity.
Qed.
Lemma skip_fields : forall d s, fields d (skip d s) = fields d s.
Proof. intros d. induction s as [|c s IH]; [reflexivity |]. cbn [skip]. destruct (Ascii.eqb c d) eqn:E; [rewrite IH; unfold fields; cbn [pieces]; rewrite E; reflexivity | reflexivity]. Qed.
Lemma skip_head : forall d s c r, skip d s = c :: r -> Ascii.eqb c d = false.
Proof. intros d. induction s as [|a s IH]; intros c r; cbn [skip]; [discriminate |]. destruct (Ascii.eqb a d) eqn:E; [apply IH |]. intros X; injection X as <- _. exact E. Qed.
Lemma skip_length : forall d s, (List.length (skip d s) <= List.length s)%nat.
Proof. intros d. induction s as [|c s IH]; cbn [skip]; [lia |]. destruct (Ascii.eqb c d); cbn [List.length]; lia. Qed.
Lemma span_length : forall d s w t, span d s = (w, t) -> (List.length t + List.length w = List.length s)%nat.
Proof.
  intros d. induction s as [|c s IH]; intros w t; cbn [span]; [intros E; injection E as <- <-; reflexivity |]. destruct (Ascii.eqb c d); [intros E; injection E as <- <-; cbn [List.length]; lia |].
  destruct (span d s) as [w' t']. intros E; injection E as <- <-. specialize (IH w' t' eq_refl). cbn [List.length]. lia.
Qed.
Lemma split_fields : forall d k s, (List.length s < k)%nat -> split k d s = fields d s.
Proof.
  intros d. induction k as [|k IH]; intros s H; [lia |]. cbn [split]. rewrite <- (skip_fields d s). assert (L := skip_length d s). assert (HD := skip_head d s). destruct (skip d s) as [|c r]; [reflexivity |].
  specialize (HD c r eq_refl). destruct (span d (c :: r)) as [w t] eqn:E. unfold fields. rewrite (pieces_span _ _ _ _ E). cbn [filter].
  assert (N : nonempty w = true) by (cbn [span] in E; rewrite HD in E; destruct (span d r); injection E as <- <-; reflexivity). rewrite N. f_equal.
  destruct t as [|x t]; [reflexivity |]. apply IH. apply span_length in E. destruct w; [discriminate |]. cbn [List.length] in *. lia.
Qed.
Lemma splitAt_fields : forall d s, splitAt d s = fields d s.
Proof. intros. apply split_fields. lia. Qed.

Lemma isAlpha_spec : forall c, isAlpha c = true <-> letter c.
Proof. intros c. unfold isAlpha, between, letter. rewrite orb_true_iff, !andb_true_iff, !Nat.leb_le. change (nat_of_ascii "a") with 97%nat. change (nat_of_ascii "z") with 122%nat. change (nat_of_ascii "A") with 65%nat. change (nat_of_ascii "Z") with 90%nat. lia. Qed.
Lemma isWord_spec : forall c, isAlphaNumUnderscore c = true <-> wordChar c.
Proof.
  intros c. unfold isAlphaNumUnderscore, wordChar. change (between "a" "z" c || between "A" "Z" c) with (isAlpha c). rewrite !orb_true_iff, isAlpha_spec.
  assert (U : Ascii.eqb c "_" = true <-> nat_of_ascii c = 95%nat).
  { rewrite Ascii.eqb_eq. split; [intros ->; reflexivity |]. intros H. rewrite <- (ascii_nat_embedding c), H. reflexivity. }
  rewrite U. unfold between. rewrite andb_true_iff, !Nat.leb_le. change (nat_of_ascii "0") with 48%nat. change (nat_of_ascii "9") with 57%nat. tauto.
Qed.
Lemma identifier_spec : forall s, isValidIdentifier s = true <-> identifier s.
Proof.
  intros [|c r]; cbn [isValidIdentifier]; split.
  - discriminate.
  - intros (c & r & E & _). discriminate.
  - rewrite andb_true_iff, isAlpha_spec, forallb_forall. intros (A & B). exists c, r. split; [reflexivity |]. split; [exact A |]. apply Forall_forall. intros x Hx. apply isWord_spec, B, Hx.
  - intros (c' & r' & E & A & B). injection E as <- <-. rewrite andb_true_iff, isAlpha_spec, forallb_forall. split; [exact A |]. intros x Hx. apply isWord_spec. rewrite Forall_forall in B. apply B, Hx.
Qed.
Lemma typeOf_spec : forall v3 n t, typeOf v3 n = Some t <-> typeName v3 t n.
Proof.
  intros v3 n t. unfold typeOf. split.
  - destruct (teq_spec n (T "int")); [intros E; injection E as <-; assumption |]. destruct (teq_spec n (T "float")); [intros E; injection E as <-; assumption |]. destruct (teq_spec n (T "data")); [intros E; injection E as <-; assumption |].
    destruct v3; cbn [negb andb orb]; rewrite ?andb_false_r, ?andb_true_r; cbn [orb].
    + destruct (teq_spec n (T "clip")); [intros E; injection E as <-; assumption |]. destruct (teq_spec n (T "frame")); [intros E; injection E as <-; assumption |]. destruct (teq_spec n (T "func")); [intros E; injection E as <-; assumption | discriminate].
    + rewrite !orb_false_r. destruct (teq_spec n (T "vnode")); [intros E; injection E as <-; assumption |]. destruct (teq_spec n (T "anode")); [intros E; injection E as <-; split; [reflexivity | assumption] |].
      destruct (teq_spec n (T "vframe")); [intros E; injection E as <-; assumption |]. destruct (teq_spec n (T "aframe")); [intros E; injection E as <-; split; [reflexivity | assumption] |]. destruct (teq_spec n (T "func")); [intros E; injection E as <-; assumption | discriminate].
  - destruct t; cbn [typeName]; intros X; try (destruct X as (X1 & X2)); try subst n; try subst v3; try contradiction; try reflexivity; destruct v3; reflexivity.
Qed.
Lemma mods_spec : forall m o e, mods m false false = Ok (o, e) <-> modifiers o e m.
Proof.
  intros m o e. split.
  - destruct m as [|a m]; cbn [mods]; [intros E; injection E as <- <-; reflexivity |].
    destruct (teq_spec a (T "opt")) as [-> | _].
    + destruct m as [|b m]; cbn [mods]; [intros E; injection E as <- <-; reflexivity |]. destruct (teq_spec b (T "opt")); [discriminate |]. destruct (teq_spec b (T "empty")) as [-> | _]; [| discriminate].
      destruct m as [|c m]; cbn [mods]; [intros E; injection E as <- <-; left; reflexivity |]. destruct (teq c (T "opt")); [discriminate |]. destruct (teq c (T "empty")); discriminate.
    + destruct (teq_spec a (T "empty")) as [-> | _]; [| discriminate]. destruct m as [|b m]; cbn [mods]; [intros E; injection E as <- <-; reflexivity |].
      destruct (teq_spec b (T "opt")) as [-> | _]; [| destruct (teq b (T "empty")); discriminate].
      destruct m as [|c m]; cbn [mods]; [intros E; injection E as <- <-; right; reflexivity |]. destruct (teq c (T "opt")); [discriminate |]. destruct (teq c (T "empty")); discriminate.
  - destruct o, e; cbn [modifiers]; intros H; try (destruct H as [-> | ->]); try subst m; reflexivity.
Qed.
Definition baseNames : list text := [T "int"; T "float"; T "data"; T "func"; T "clip"; T "vnode"; T "frame"; T "vframe"; T "anode"; T "aframe"].
Lemma typeName_base : forall v3 t n, typeName v3 t n -> In n baseNames.
Proof.
  intros v3 t n H. unfold baseNames. cbn [In]. destruct t; cbn [typeName] in H; try destruct H as (_ & H); destruct v3; try subst n; tauto.
Qed.
(** Taking off the brackets. *)
Lemma strip_array : forall tn, In tn baseNames -> let t := tn ++ T "[]" in let l := List.length t in ((2 <? l)%nat && teq (skipn (l - 2) t) (T "[]")) = true /\ firstn (l - 2) t = tn.
Proof. intros tn H. cbv zeta. unfold baseNames in H. cbn [In] in H. repeat (destruct H as [<- | H]; [vm_compute; split; reflexivity |]). destruct H. Qed.
Lemma strip_plain : forall tn, In tn baseNames -> ((2 <? List.length tn)%nat && teq (skipn (List.length tn - 2) tn) (T "[]")) = false.
Proof. intros tn H. unfold baseNames in H. cbn [In] in H. repeat (destruct H as [<- | H]; [vm_compute; reflexivity |]). destruct H. Qed.
Lemma entry_spec : forall v3 e a, parseEntry v3 e = Ok a <-> entryOf v3 e a.
Proof.
  intros v3 e a. unfold parseEntry, entryOf. rewrite splitAt_fields. split.
  - destruct (fields ":" e) as [|n [|t m]] eqn:F; [discriminate | |].
    + destruct (teq_spec n (T "any")) as [-> | _]; [| discriminate]. intros E; apply Ok_inj in E. left. auto.
    + cbv zeta. set (arr := (2 <? List.length t)%nat && teq (skipn (List.length t - 2) t) (T "[]")). set (tn := if arr then firstn (List.length t - 2) t else t).
      destruct (typeOf v3 tn) as [ty|] eqn:TY; [| discriminate]. destruct (mods m false false) as [[o em]| |] eqn:MD; [|discriminate|discriminate]. cbn [obind].
      destruct (isValidIdentifier n) eqn:ID; [| discriminate]. cbn [negb]. destruct (em && negb arr) eqn:EA; [discriminate |]. intros E; apply Ok_inj in E.
      right. exists n, ty, arr, em, o, tn, m. split.
      * do 2 f_equal. unfold tn. destruct arr eqn:A; [| symmetry; apply app_nil_r]. unfold arr in A. apply andb_true_iff in A. destruct A as (_ & A). destruct (teq_spec (skipn (List.length t - 2) t) (T "[]")) as [B | B]; [| discriminate].
        rewrite <- B. symmetry. apply firstn_skipn.
      * split; [apply identifier_spec, ID |]. split; [apply typeOf_spec, TY |]. split; [apply mods_spec, MD |]. split; [intros ->; destruct arr; [reflexivity | discriminate] | congruence].
  - intros [(F & ->) | (n & t & arr & em & o & tn & m & F & ID & TY & MD & EA & ->)]; rewrite F; [rewrite teq_refl; reflexivity |].
    cbv zeta. assert (B := typeName_base _ _ _ TY). apply typeOf_spec in TY. apply mods_spec in MD. apply identifier_spec in ID.
    destruct arr.
    + destruct (strip_array tn B) as (S1 & S2). rewrite S1, S2, TY, MD, ID. cbn [obind negb]. rewrite andb_false_r. reflexivity.
    + rewrite app_nil_r, (strip_plain tn B), TY, MD, ID. cbn [obind negb]. destruct em; [specialize (EA eq_refl); discriminate | reflexivity].
Qed.
Lemma parse_spec : forall v3 s l, parseArgString v3 s = Ok l <-> Forall2 (entryOf v3) (fields ";" s) l.
Proof.
  intros v3 s l. unfold parseArgString. rewrite splitAt_fields. generalize (fields ";" s). intros es. revert l. induction es as [|e es IH]; intros l; cbn [parseEntries].
  - split; [intros E; apply Ok_inj in E; subst; constructor | intros H; inversion H; reflexivity].
  - split.
    + destruct (parseEntry v3 e) as [a| |] eqn:E; [|discriminate|discriminate]. cbn [obind]. destruct (parseEntries v3 es) as [q| |]; [|discriminate|discriminate]. cbn [obind]. intros X; apply Ok_inj in X. subst l.
      constructor; [apply entry_spec, E | apply IH; reflexivity].
    + intros H. inversion H as [|? a ? q H1 H2]; subst. apply entry_spec in H1. rewrite H1. cbn [obind]. apply IH in H2. rewrite H2. reflexivity.
Qed.
(** ** Printing and reading back *)
Definition writable (a : arg) : Prop := identifier (a_name a) /\ (a_empty a = true -> a_arr a = true) /\ a_type a <> tAny /\ a_type a <> tANode /\ a_type a <> tAFrame.
Lemma pieces_app : forall d w s, ~ In d w -> pieces d (w ++ d :: s) = w :: pieces d s.
Proof.
  intros d w s. induction w as [|c w IH]; intros H; cbn [app pieces]; [rewrite Ascii.eqb_refl; reflexivity |].
  destruct (Ascii.eqb_spec c d) as [-> | _]; [exfalso; apply H; left; reflexivity |]. rewrite IH; [reflexivity |]. intros X. apply H. right. exact X.
Qed.
Lemma pieces_last : forall d w, ~ In d w -> pieces d w = [w].
Proof.
  intros d w. induction w as [|c w IH]; intros H; cbn [pieces]; [reflexivity |]. destruct (Ascii.eqb_spec c d) as [-> | _]; [exfalso; apply H; left; reflexivity |]. rewrite IH; [reflexivity |]. intros X. apply H. right. exact X.
Qed.
Lemma identifier_free : forall n, identifier n -> ~ In ";"%char n /\ ~ In ":"%char n /\ n <> [].
Proof.
  intros n (c & r & -> & L & W). assert (X : forall x, In x (c :: r) -> wordChar x) by (intros x [<- | Hx]; [left; exact L | rewrite Forall_forall in W; apply W, Hx]).
  split; [| split; [| discriminate]]; intros H; apply X in H; unfold wordChar, letter in H; [change (nat_of_ascii ";") with 59%nat in H | change (nat_of_ascii ":") with 58%nat in H]; lia.
Qed.
Definition entryText (v3 : bool) (a : arg) (t : text) : text :=
  a_name a ++ T ":" ++ t ++ (if a_arr a then T "[]" else []) ++ (if a_opt a then T ":opt" else []) ++ (if a_empty a then T ":empty" else []).
Lemma typeText_spec : forall v3 a, writable a -> exists t, typeText v3 (a_type a) = Ok t /\ typeName v3 (a_type a) t.
Proof. intros v3 a (_ & _ & A & B & C). destruct (a_type a); try contradiction; eexists; (split; [reflexivity |]); destruct v3; reflexivity. Qed.
Lemma argText_ok : forall v3 l, Forall writable l -> exists s, argText v3 l = Ok s.
Proof. intros v3 l. induction 1 as [|a l W F (s & IH)]; [exists []; reflexivity |]. destruct (typeText_spec v3 a W) as (t & E & _). cbn [argText]. rewrite E, IH. cbn [obind]. eexists. reflexivity. Qed.
Lemma base_free : forall t, In t baseNames -> forall b, ~ In ";"%char (t ++ (if b : bool then T "[]" else [])) /\ ~ In ":"%char (t ++ (if b then T "[]" else [])) /\ t ++ (if b then T "[]" else []) <> [].
Proof.
  intros t H b. unfold baseNames in H. cbn [In] in H. repeat (destruct H as [<- | H]; [destruct b; (split; [| split]); vm_compute; [intuition discriminate | intuition discriminate | discriminate | intuition discriminate | intuition discriminate | discriminate] |]). destruct H.
Qed.
Lemma entryText_entry : forall v3 a t, writable a -> typeName v3 (a_type a) t -> entryOf v3 (entryText v3 a t) a /\ ~ In ";"%char (entryText v3 a t) /\ nonempty (entryText v3 a t) = true.
Proof.
  intros v3 a t (ID & EA & _) TY. destruct (identifier_free _ ID) as (I1 & I2 & I3). destruct (base_free t (typeName_base _ _ _ TY) (a_arr a)) as (B1 & B2 & B3).
  set (ta := t ++ (if a_arr a then T "[]" else [])) in *.
  assert (ET : entryText v3 a t = a_name a ++ ":"%char :: (ta ++ (if a_opt a then T ":opt" else []) ++ (if a_empty a then T ":empty" else []))) by (unfold entryText, ta; rewrite <- app_assoc; reflexivity).
  split; [| split].
  - right. exists (a_name a), (a_type a), (a_arr a), (a_empty a), (a_opt a), t, ((if a_opt a then [T "opt"] else []) ++ (if a_empty a then [T "empty"] else [])).
    split.
    + fold ta. rewrite ET. unfold fields. rewrite pieces_app by exact I2. cbn [filter]. assert (N1 : nonempty (a_name a) = true) by (destruct (a_name a); [contradiction | reflexivity]). assert (N2 : nonempty ta = true) by (destruct ta; [contradiction | reflexivity]). rewrite N1. f_equal.
      destruct (a_opt a), (a_empty a); cbn [app].
      * change (T ":opt" ++ T ":empty") with (":"%char :: (T "opt" ++ ":"%char :: T "empty")). rewrite pieces_app by exact B2. cbn [filter]. rewrite N2. reflexivity.
      * change (T ":opt" ++ []) with (":"%char :: T "opt"). rewrite pieces_app by exact B2. cbn [filter]. rewrite N2. reflexivity.
      * change (T ":empty") with (":"%char :: T "empty"). rewrite pieces_app by exact B2. cbn [filter]. rewrite N2. reflexivity.
      * rewrite app_nil_r, pieces_last by exact B2. cbn [filter]. rewrite N2. reflexivity.
    + split; [exact ID |]. split; [exact TY |]. split; [destruct (a_opt a), (a_empty a); cbn [modifiers app]; auto |]. split; [exact EA | destruct a; reflexivity].
  - rewrite ET. rewrite in_app_iff. cbn [In]. rewrite !in_app_iff. intros [H | [H | [H | [H | H]]]]; [tauto | discriminate | tauto | |].
    + destruct (a_opt a); [vm_compute in H; intuition discriminate | destruct H].
    + destruct (a_empty a); [vm_compute in H; intuition discriminate | destruct H].
  - rewrite ET. destruct (a_name a); [contradiction | reflexivity].
Qed.
Lemma reads_back : forall v3 l s, Forall writable l -> argText v3 l = Ok s -> parseArgString v3 s = Ok l.
Proof.
  intros v3 l s W E. apply parse_spec. revert s E. induction W as [|a l W F IH]; intros s E; cbn [argText] in E; [apply Ok_inj in E; subst s; constructor |].
  destruct (typeText_spec v3 a W) as (t & TE & TN). rewrite TE in E. cbn [obind] in E. destruct (argText v3 l) as [q| |] eqn:Q; [|discriminate|discriminate]. cbn [obind] in E. apply Ok_inj in E.
  destruct (entryText_entry v3 a t W TN) as (E1 & E2 & E3).
  assert (S : s = entryText v3 a t ++ ";"%char :: q) by (rewrite <- E; unfold entryText; rewrite <- !app_assoc; reflexivity).
  rewrite S. unfold fields. rewrite pieces_app by exact E2. cbn [filter]. rewrite E3. constructor; [exact E1 | apply IH; reflexivity].
Qed.
(** ** Checking *)
Lemma typeEq_spec : forall a b, reflect (a = b) (typeEq a b).
Proof. intros a b. destruct a, b; constructor; congruence. Qed.
Lemma lookup_some : forall k m v, NoDup (map fst m) -> (lookup k m = Some v <-> In (k, v) m).
Proof.
  intros k m v. unfold lookup. induction m as [|[k0 v0] m IH]; intros N; cbn [find map fst] in *; [split; [discriminate | intros []] |]. inversion N; subst. destruct (teq_spec k k0) as [-> | E].
  - cbn [option_map snd]. split; [intros X; injection X as ->; left; reflexivity |]. intros [X | X]; [congruence |]. exfalso. match goal with Y : ~ In _ _ |- _ => apply Y end. apply in_map_iff. exists (k0, v). auto.
  - rewrite IH by assumption. cbn [In]. split; [auto |]. intros [X | X]; [congruence | exact X].
Qed.
Lemma lookup_none : forall k m, lookup k m = None <-> ~ In k (map fst m).
Proof.
  intros k m. unfold lookup. induction m as [|[k0 v0] m IH]; cbn [find map fst]; [split; auto |]. destruct (teq_spec k k0) as [-> | E]; cbn [option_map].
  - split; [discriminate | intros X; exfalso; apply X; left; reflexivity].
  - rewrite IH. cbn [In]. split; [intros X [Y | Y]; [congruence | tauto] | tauto].
Qed.
Lemma checkArgs_spec : forall sig m rem, NoDup (map fst m) ->
  (checkArgs sig m rem = true <->
   (forall a, In a sig -> a_type a <> tAny ->
     (forall t n, In (a_name a, (t, n)) m -> t = a_type a /\ (a_arr a = false -> n <= 1)%nat /\ (a_empty a = false -> 1 <= n)%nat) /\
     (a_opt a = false -> In (a_name a) (map fst m))) /\
   (forall k, In k rem -> (In k (map fst m) -> exists a, In a sig /\ (a_type a = tAny \/ a_name a = k)) /\ (~ In k (map fst m) -> exists a, In a sig /\ a_type a = tAny))).
Proof.
  intros sig m rem N. revert rem. induction sig as [|a sig IH]; intros rem; cbn [checkArgs].
  - split; [destruct rem; [intros _; split; [intros a [] | intros k []] | discriminate] |]. intros (_ & H). destruct rem as [|k rem]; [reflexivity |]. exfalso. destruct (H k (or_introl eq_refl)) as (A & B).
    destruct (in_dec (list_eq_dec ascii_dec) k (map fst m)) as [X | X]; [destruct (A X) as (? & [] & _) | destruct (B X) as (? & [] & _)].
  - destruct (typeEq_spec (a_type a) tAny) as [TA | TA].
    + rewrite IH. split.
      * intros (A & _). split; [intros b [<- | Hb] X; [contradiction | apply A; assumption] |]. intros k _. split; intros _; exists a; (split; [left; reflexivity | auto]).
      * intros (A & _). split; [intros b Hb; apply A; right; exact Hb | intros k []].
    + destruct (lookup (a_name a) m) as [[t n]|] eqn:L.
      * assert (L' := proj1 (lookup_some _ _ _ N) L). assert (KM : In (a_name a) (map fst m)) by (apply in_map_iff; exists (a_name a, (t, n)); auto).
        assert (REM : (forall k, In k (filter (fun k => negb (teq k (a_name a))) rem) -> (In k (map fst m) -> exists b, In b sig /\ (a_type b = tAny \/ a_name b = k)) /\ (~ In k (map fst m) -> exists b, In b sig /\ a_type b = tAny)) <->
                      (forall k, In k rem -> (In k (map fst m) -> exists b, In b (a :: sig) /\ (a_type b = tAny \/ a_name b = k)) /\ (~ In k (map fst m) -> exists b, In b (a :: sig) /\ a_type b = tAny))).
        { split.
          - intros H k Hk. destruct (teq_spec k (a_name a)) as [-> | E].
            + split; [intros _; exists a; split; [left; reflexivity | auto] | intros X; contradiction].
            + destruct (H k) as (H1 & H2); [apply filter_In; split; [exact Hk | destruct (teq_spec k (a_name a)); [contradiction | reflexivity]] |].
              split; intros X; [destruct (H1 X) as (b & B1 & B2) | destruct (H2 X) as (b & B1 & B2)]; exists b; (split; [right; exact B1 | exact B2]).
          - intros H k Hk. apply filter_In in Hk. destruct Hk as (Hk & E). destruct (teq_spec k (a_name a)) as [Y | Y]; [discriminate |]. destruct (H k Hk) as (H1 & H2). split.
            + intros X. destruct (H1 X) as (b & [<- | B1] & B2); [destruct B2; congruence | exists b; auto].
            + intros X. destruct (H2 X) as (b & [<- | B1] & B2); [contradiction | exists b; auto]. }
        destruct (typeEq_spec (a_type a) t) as [TE | TE]; cbn [negb].
        2:{ split; [discriminate |]. intros (A & _). destruct (A a (or_introl eq_refl) TA) as (B & _). destruct (B t n L') as (C & _). congruence. }
        destruct (negb (a_arr a) && (1 <? n)%nat) eqn:E1.
        { split; [discriminate |]. intros (A & _). destruct (A a (or_introl eq_refl) TA) as (B & _). destruct (B t n L') as (_ & C & _). apply andb_true_iff in E1. destruct E1 as (X & Y). apply negb_true_iff in X. apply Nat.ltb_lt in Y. specialize (C X). lia. }
        destruct (negb (a_empty a) && (n <? 1)%nat) eqn:E2.
        { split; [discriminate |]. intros (A & _). destruct (A a (or_introl eq_refl) TA) as (B & _). destruct (B t n L') as (_ & _ & C). apply andb_true_iff in E2. destruct E2 as (X & Y). apply negb_true_iff in X. apply Nat.ltb_lt in Y. specialize (C X). lia. }
        rewrite IH, REM. split; intros (A & B); (split; [| exact B]); [| intros b Hb; apply A; right; exact Hb].
        intros b [<- | Hb] X; [| apply A; assumption]. split; [| intros _; exact KM]. intros t' n' H'. assert (EQ : (t', n') = (t, n)) by (apply lookup_some in H'; [congruence | exact N]). injection EQ as -> ->.
        split; [congruence |]. split; intros Z; [rewrite Z in E1; cbn [negb andb] in E1; apply Nat.ltb_ge in E1; lia | rewrite Z in E2; cbn [negb andb] in E2; apply Nat.ltb_ge in E2; lia].
      * apply lookup_none in L. destruct (a_opt a) eqn:O; cbn [negb].
        -- rewrite IH. split.
           ++ intros (A & B). split.
              ** intros b [<- | Hb] X; [| apply A; assumption]. split; [intros t n H; exfalso; apply L, in_map_iff; exists (a_name a, (t, n)); auto | congruence].
              ** intros k Hk. destruct (B k Hk) as (B1 & B2). split; intros X; [destruct (B1 X) as (b & C1 & C2) | destruct (B2 X) as (b & C1 & C2)]; exists b; (split; [right; exact C1 | exact C2]).
           ++ intros (A & B). split; [intros b Hb; apply A; right; exact Hb |]. intros k Hk. destruct (B k Hk) as (B1 & B2). split.
              ** intros X. destruct (B1 X) as (b & [<- | C1] & C2); [destruct C2 as [C2 | C2]; [contradiction | exfalso; apply L; rewrite C2; exact X] | exists b; auto].
              ** intros X. destruct (B2 X) as (b & [<- | C1] & C2); [contradiction | exists b; auto].
        -- split; [discriminate |]. intros (A & _). exfalso. apply L. apply (A a (or_introl eq_refl) TA). exact O.
Qed.
Lemma check_spec : forall sig m, NoDup (map fst m) -> (checkValues sig m = true <-> acceptable sig m).
Proof.
  intros sig m N. unfold checkValues, acceptable. rewrite checkArgs_spec by exact N. split; intros (A & B); (split; [exact A |]); [intros k Hk; apply (B k Hk), Hk |].
  intros k Hk. split; [intros _; apply B, Hk | intros X; contradiction].
Qed.
Lemma invoke_spec : forall sig m, NoDup (map fst m) -> (invokes sig m = Ok tt <-> acceptable sig m).
Proof. intros sig m N. rewrite <- check_spec by exact N. unfold invokes. destruct (checkValues sig m); split; (reflexivity || discriminate || auto). Qed.
Lemma duplicate_accepted : exists v3 s l, parseArgString v3 s = Ok l /\ ~ NoDup (map a_name l).
Proof.
  exists false, (T "a:int;a:data;"), [mkA (T "a") tInt false false false; mkA (T "a") tData false false false]. split; [vm_compute; reflexivity |]. intros N. inversion N as [|? ? H _]; subst. apply H. left. reflexivity.
Qed.
Lemma contradictory : forall m, NoDup (map fst m) -> ~ acceptable [mkA (T "a") tInt false false false; mkA (T "a") tData false false false] m.
Proof.
  intros m N (A & _). destruct (A _ (or_introl eq_refl) ltac:(discriminate)) as (H1 & H2). destruct (A _ (or_intror (or_introl eq_refl)) ltac:(discriminate)) as (H3 & _). cbn [a_name a_opt a_type] in *.
  specialize (H2 eq_refl). apply in_map_iff in H2. destruct H2 as ((k & t & n) & E & H). cbn [fst] in E. subst k. destruct (H1 _ _ H) as (X & _). destruct (H3 _ _ H) as (Y & _). congruence.
Qed.

(** Frame property filters. *)
From Coq Require Import String Ascii ZArith List Lia Bool Sorting.Sorted.
From Verif Require Import Common SMap MapSpec MapAlias PropsSpec Props.
Import ListNotations.
Local Open Scope string_scope.
Local Open Scope list_scope.
Open Scope Z_scope.

(** Patterns. *)
Definition atom (c : ascii) : re := if Ascii.eqb c "*" then RGroup [RStar RAny] else if Ascii.eqb c "?" then RAny else RChar c.
Lemma body_head : forall p, exists c r, flat_map globChar p ++ ["$"%char] = c :: r /\ Ascii.eqb c "*" = false.
Proof.
  intros [|c p]; [exists "$"%char, []; split; reflexivity|]. cbn [flat_map]. unfold globChar at 1. destruct (Ascii.eqb c "*") eqn:E1; [eexists _, _; split; reflexivity|].
  destruct (Ascii.eqb c "?") eqn:E2; [eexists _, _; split; reflexivity|]. destruct (isSpecial c) eqn:E3; [eexists _, _; split; reflexivity|]. exists c, (flat_map globChar p ++ ["$"%char]). split; [reflexivity|exact E1].
Qed.
Lemma quantified_body : forall x p, quantified x (flat_map globChar p ++ ["$"%char]) = (x, flat_map globChar p ++ ["$"%char]).
Proof. intros x p. destruct (body_head p) as (c & r & -> & E). cbn [quantified]. now rewrite E. Qed.
Lemma not_special : forall c, isSpecial c = false -> Ascii.eqb c ")" = false /\ Ascii.eqb c "^" = false /\ Ascii.eqb c "$" = false /\ Ascii.eqb c "." = false /\ Ascii.eqb c "\" = false /\ Ascii.eqb c "(" = false.
Proof. intros c H. unfold isSpecial, special in H. cbn [existsb] in H. rewrite !orb_false_iff in H. tauto. Qed.
Lemma syntax_special : syntax = ("*" :: "?" :: "/" :: special)%char.
Proof. reflexivity. Qed.
Definition andThen (f : nat) (p : re * list ascii) : option (list re * list ascii) := match parseRe f (snd p) with Some (l, t) => Some (fst p :: l, t) | None => None end.
Lemma parse_any : forall f r, parseRe (Datatypes.S f) ("."%char :: r) = andThen f (quantified RAny r).
Proof. reflexivity. Qed.
Lemma parse_close : forall f r, parseRe (Datatypes.S f) (")"%char :: r) = Some ([], ")"%char :: r).
Proof. reflexivity. Qed.
Lemma parse_open : forall f r, parseRe (Datatypes.S f) ("("%char :: r) = match parseRe f r with Some (l, e :: r') => if Ascii.eqb e ")" then andThen f (quantified (RGroup l) r') else None | _ => None end.
Proof. reflexivity. Qed.
Lemma parse_escape : forall f e r, existsb (Ascii.eqb e) syntax = true -> parseRe (Datatypes.S f) ("\"%char :: e :: r) = andThen f (quantified (RChar e) r).
Proof. intros f e r E. change (parseRe (Datatypes.S f) ("\"%char :: e :: r)) with (if existsb (Ascii.eqb e) syntax then andThen f (quantified (RChar e) r) else None). now rewrite E. Qed.
Lemma parse_char : forall f c r, isSpecial c = false -> Ascii.eqb c "*" = false -> Ascii.eqb c "?" = false -> parseRe (Datatypes.S f) (c :: r) = andThen f (quantified (RChar c) r).
Proof.
  intros f c r E3 E1 E2. cbn [parseRe]. destruct (not_special c E3) as (-> & -> & -> & -> & -> & ->).
  replace (existsb (Ascii.eqb c) syntax && negb (Ascii.eqb c "/")) with false; [reflexivity|].
  rewrite syntax_special. cbn [existsb]. unfold isSpecial in E3. rewrite E3, E1, E2. cbn [orb]. destruct (Ascii.eqb c "/"); reflexivity.
Qed.
Lemma parse_body : forall p fuel, (length (flat_map globChar p ++ ["$"%char]) < fuel)%nat ->
  parseRe fuel (flat_map globChar p ++ ["$"%char]) = Some (map atom p ++ [REol], []).
Proof.
  induction p as [|c p IH]; intros fuel F.
  - destruct fuel as [|[|fuel]]; cbn in F; try lia. reflexivity.
  - cbn [flat_map map app] in *. rewrite <- app_assoc in *. pose proof (fun x => quantified_body x p) as QB. set (B := flat_map globChar p ++ ["$"%char]) in *. clearbody B. unfold globChar in *. unfold atom at 1.
    destruct (Ascii.eqb c "*") eqn:E1.
    + destruct fuel as [|[|[|fuel]]]; cbn [length app] in F; try lia.
      cbn [app]. rewrite parse_open, parse_any. cbn [quantified]. change (Ascii.eqb "*" "*") with true. cbv iota. unfold andThen at 1. cbn [snd fst]. rewrite parse_close. change (Ascii.eqb ")" ")") with true. cbv iota.
      rewrite QB. unfold andThen. cbn [snd fst]. rewrite IH by lia. reflexivity.
    + destruct (Ascii.eqb c "?") eqn:E2.
      * destruct fuel as [|fuel]; cbn [length app] in F; try lia. cbn [app]. rewrite parse_any, QB. unfold andThen. cbn [snd fst]. rewrite IH by lia. reflexivity.
      * destruct (isSpecial c) eqn:E3.
        -- destruct fuel as [|fuel]; cbn [length app] in F; try lia. cbn [app]. rewrite parse_escape by (rewrite syntax_special; cbn [existsb]; unfold isSpecial in E3; rewrite E3, !orb_true_r; reflexivity).
           rewrite QB. unfold andThen. cbn [snd fst]. rewrite IH by lia. reflexivity.
        -- destruct fuel as [|fuel]; cbn [length app] in F; try lia. cbn [app]. rewrite parse_char by assumption. rewrite QB. unfold andThen. cbn [snd fst]. rewrite IH by lia. reflexivity.
Qed.
Lemma glob_compiles : forall p, regexOf (globToRegex p) = Some (RBol :: map atom p ++ [REol]).
Proof.
  intros p. unfold regexOf, globToRegex. cbn [length]. set (B := flat_map globChar p ++ ["$"%char]).
  replace (parseRe (Datatypes.S (Datatypes.S (length B))) ("^"%char :: B)) with (match parseRe (Datatypes.S (length B)) B with Some (l, t) => Some (RBol :: l, t) | None => None end) by reflexivity.
  unfold B. rewrite parse_body by lia. reflexivity.
Qed.
Definition kend (b : bool) (s : list ascii) : bool := match s with [] => true | _ => false end.
Definition plain (s : list ascii) : Prop := forallb (fun c => negb (lineEnd c)) s = true.
Lemma star_any : forall (K : bool -> list ascii -> bool), (forall b b' s, K b s = K b' s) -> forall n s b, (length s <= n)%nat -> plain s ->
  (fix star (n : nat) (b : bool) (s : list ascii) {struct n} : bool :=
      K b s || match n with O => false | Datatypes.S n' => rm1 RAny (fun b' s' => (length s' <? length s)%nat && star n' b' s') b s end) n b s = true <-> exists x y, s = x ++ y /\ K b y = true.
Proof.
  intros K KE. induction n as [|n IH]; intros s b L P.
  - destruct s; [|cbn in L; lia]. rewrite orb_false_r. split; [intros E; exists [], []; split; [reflexivity|exact E]|]. intros (x & y & E & Q). symmetry in E. apply app_eq_nil in E. destruct E as (-> & ->). exact Q.
  - rewrite orb_true_iff. destruct s as [|c s].
    + cbn [rm1]. split; [intros [E|E]; [|discriminate]; exists [], []; split; [reflexivity|exact E]|]. intros (x & y & E & Q). symmetry in E. apply app_eq_nil in E. destruct E as (-> & ->). left. exact Q.
    + unfold plain in P. cbn [forallb] in P. apply andb_true_iff in P. destruct P as (P1 & P2). cbn [length] in L. cbn [rm1]. rewrite P1. cbn [andb].
      replace (length s <? length (c :: s))%nat with true by (symmetry; apply Nat.ltb_lt; cbn [length]; lia). cbn [andb]. rewrite IH by (lia || exact P2).
      split.
      * intros [E|(x & y & E & Q)]; [exists [], (c :: s); split; [reflexivity|exact E]|]. exists (c :: x), y. split; [cbn; congruence|]. rewrite (KE b false). exact Q.
      * intros ([|d x] & y & E & Q); cbn [app] in E; [left; subst; exact Q|]. right. injection E as -> ->. exists x, y. split; [reflexivity|]. rewrite (KE false b). exact Q.
Qed.
Lemma tail_any : forall p b b' s, rmSeq (map atom p ++ [REol]) kend b s = rmSeq (map atom p ++ [REol]) kend b' s.
Proof.
  induction p as [|c p IH]; intros b b' s; [reflexivity|]. cbn [map app rmSeq]. unfold atom. destruct (Ascii.eqb c "*").
  - cbn [rm1]. generalize (length s). intros n. destruct n as [|n]; [now rewrite (IH b b')|]. rewrite (IH b b'). reflexivity.
  - destruct (Ascii.eqb c "?"); reflexivity.
Qed.
Lemma plain_app : forall a b, plain (a ++ b) -> plain b.
Proof. intros a b P. unfold plain in *. rewrite forallb_app, andb_true_iff in P. tauto. Qed.
Lemma glob_matches : forall p s b, plain s -> (rmSeq (map atom p ++ [REol]) kend b s = true <-> fits p s).
Proof.
  induction p as [|c p IH]; intros s b P.
  - cbn. destruct s; cbn; split; try discriminate; try (intros; constructor); intros H; inversion H; reflexivity.
  - cbn [map app rmSeq]. unfold atom. destruct (Ascii.eqb_spec c "*") as [->|N1].
    + cbn [rm1]. rewrite star_any; [|apply tail_any|lia|exact P]. split.
      * intros (x & y & -> & Q). apply IH in Q; [|eapply plain_app; exact P]. now constructor.
      * intros F. inversion F as [|q a t F'| |q d t X Y F']; subst; [|congruence]. exists a, t. split; [reflexivity|]. apply IH; [eapply plain_app; exact P|exact F'].
    + destruct (Ascii.eqb_spec c "?") as [->|N2].
      * cbn [rm1]. destruct s as [|d s]; [split; [discriminate|intros F; inversion F]|]. unfold plain in P. cbn [forallb] in P. apply andb_true_iff in P. destruct P as (P1 & P2). rewrite P1. cbn [andb]. rewrite IH by exact P2.
        split; [intros F; now constructor|]. intros F. inversion F; subst; [assumption|congruence].
      * cbn [rm1]. destruct s as [|d s]; [split; [discriminate|intros F; inversion F; subst; congruence]|]. unfold plain in P. cbn [forallb] in P. apply andb_true_iff in P. destruct P as (P1 & P2).
        rewrite andb_true_iff, Ascii.eqb_eq, IH by exact P2. split; [intros (-> & F); now constructor|]. intros F. inversion F; subst; try congruence. split; [reflexivity|assumption].
Qed.
Lemma glob_ok : forall p s, plain s -> exists r, regexOf (globToRegex p) = Some r /\ (regexMatch r s = true <-> fits p s).
Proof.
  intros p s P. exists (RBol :: map atom p ++ [REol]). split; [apply glob_compiles|]. unfold regexMatch. cbn [rmSeq rm1 andb]. apply (glob_matches p s true P).
Qed.
Lemma word_plain : forall c, is_word c = true -> negb (lineEnd c) = true.
Proof. intros c H. unfold lineEnd. destruct (Ascii.eqb_spec c "010") as [->|]; [discriminate|]. destruct (Ascii.eqb_spec c "013") as [->|]; [discriminate|]. reflexivity. Qed.
Lemma identifier_plain : forall k, identifier k = true -> plain (list_ascii_of_string k).
Proof.
  intros k H. unfold identifier in H. destruct (list_ascii_of_string k) as [|c t]; [discriminate|]. apply andb_true_iff in H. destruct H as (_ & H). unfold plain. rewrite forallb_forall in *. intros x X. apply word_plain, H, X.
Qed.
Definition globRe (p : list ascii) : list re := RBol :: map atom p ++ [REol].
Lemma compile_ok : forall ps, compileAll ps = Ok (map globRe ps).
Proof. induction ps as [|p ps IH]; [reflexivity|]. cbn [compileAll map]. rewrite glob_compiles, IH. reflexivity. Qed.

(** Maps. *)
Lemma sorted_nodup : forall A (m : smap A), msorted m -> NoDup (map fst m).
Proof.
  intros A m S. induction S as [|p m S IH F]; [constructor|]. cbn [map]. constructor; [|exact IH]. intros I. apply in_map_iff in I. destruct I as (q & E & I). rewrite Forall_forall in F. specialize (F q I). unfold klt in F. rewrite E, scmp_refl in F. discriminate.
Qed.
Lemma mget_some_in : forall A (m : smap A) k v, NoDup (map fst m) -> In (k, v) m -> mget k m = Some v.
Proof.
  intros A m k v. induction m as [|(k', v') m IH]; intros N I; [destruct I|]. cbn [mget]. cbn [map fst] in N. inversion N as [|x l NI N']; subst. destruct (String.eqb_spec k k') as [->|E].
  - destruct I as [I|I]; [congruence|]. exfalso. apply NI. apply in_map_iff. exists (k', v). split; [reflexivity|exact I].
  - destruct I as [I|I]; [congruence|]. apply IH; assumption.
Qed.
Lemma mget_none : forall A (m : smap A) k, mget k m = None <-> ~ In k (map fst m).
Proof.
  intros A m k. induction m as [|(k', v') m IH]; [cbn; tauto|]. cbn [mget map fst In]. destruct (String.eqb_spec k k') as [->|E]; [split; [discriminate|tauto]|]. rewrite IH. split; intros H; [intros [Q|Q]; [congruence|tauto]|tauto].
Qed.
Lemma fold_get : forall (l m : smap (ptype * list val)) k, NoDup (map fst l) -> mget k (fold_left (fun m p => mput (fst p) (snd p) m) l m) = match mget k l with Some v => Some v | None => mget k m end.
Proof.
  induction l as [|(k', v') l IH]; intros m k N; [reflexivity|]. cbn [fold_left mget fst snd]. cbn [map fst] in N. inversion N as [|x t NI N']; subst. rewrite IH by exact N'.
  destruct (String.eqb_spec k k') as [->|E].
  - assert (Q : mget k' l = None) by (apply mget_none; exact NI). rewrite Q. apply mget_put_same.
  - destruct (mget k l); [reflexivity|]. now apply mget_put_other.
Qed.
Lemma entry_merge : forall d s k, msorted (pm s) -> entry (merge_into d s) k = match entry s k with Some v => Some v | None => entry d k end.
Proof. intros d s k S. unfold entry, merge_into. cbn [pm set_pm]. apply fold_get, sorted_nodup, S. Qed.
Lemma legal_put : forall m k t l, legal m -> identifier k = true -> Forall (fun v => vtype v = t) l -> legal (set_pm m (mput k (t, l) (pm m))).
Proof.
  intros m k t l (S & E & T) I F. split; [cbn [pm set_pm]; now apply mput_sorted|]. split; [exact E|]. intros k' t' l' H. cbn [pm set_pm] in H. apply mput_in in H. destruct H as [H|H]; [injection H as -> -> ->; split; assumption|apply (T _ _ _ H)].
Qed.
Lemma legal_del : forall m k, legal m -> legal (set_pm m (mdel k (pm m))).
Proof. intros m k (S & E & T). split; [cbn [pm set_pm]; now apply mdel_sorted|]. split; [exact E|]. intros k' t' l' H. cbn [pm set_pm] in H. apply mdel_in in H. apply (T _ _ _ H). Qed.
Lemma legal_fold : forall (l : smap (ptype * list val)) m, (forall k t x, In (k, (t, x)) l -> identifier k = true /\ Forall (fun v => vtype v = t) x) -> legal m -> legal (set_pm m (fold_left (fun m p => mput (fst p) (snd p) m) l (pm m))).
Proof.
  induction l as [|(k, (t, x)) l IH]; intros m H L; [destruct m; exact L|]. cbn [fold_left fst snd].
  change (fold_left (fun m p => mput (fst p) (snd p) m) l (mput k (t, x) (pm m))) with (fold_left (fun m p => mput (fst p) (snd p) m) l (pm (set_pm m (mput k (t, x) (pm m))))).
  apply (IH (set_pm m (mput k (t, x) (pm m)))); [intros; apply H; right; assumption|]. destruct (H k t x (or_introl eq_refl)). now apply legal_put.
Qed.
Lemma legal_merge : forall d s, legal d -> legal s -> legal (merge_into d s).
Proof. intros d s D (S & E & T). unfold merge_into. apply legal_fold; assumption. Qed.
Lemma legal_fresh : legal fresh.
Proof. split; [constructor|]. split; [reflexivity|]. intros k t l []. Qed.
Lemma legal_aDelete : forall m k, legal m -> legal (aDelete m k).
Proof. intros m k L. unfold aDelete. destruct (isCR k); [apply legal_del|]; now apply legal_del. Qed.
Lemma entry_put : forall m k q k', entry (set_pm m (mput k q (pm m))) k' = if String.eqb k' k then Some q else entry m k'.
Proof. intros. unfold entry. cbn [pm set_pm]. destruct (String.eqb_spec k' k) as [->|N]; [apply mget_put_same|now apply mget_put_other]. Qed.
Lemma entry_del : forall m k k', legal m -> entry (set_pm m (mdel k (pm m))) k' = if String.eqb k' k then None else entry m k'.
Proof. intros m k k' (S & _). unfold entry. cbn [pm set_pm]. destruct (String.eqb_spec k' k) as [->|N]; [now apply mget_del_same|now apply mget_del_other]. Qed.
Lemma entry_aDelete : forall m k k', legal m -> entry (aDelete m k) k' = if String.eqb k' k || (String.eqb k "_ColorRange" && String.eqb k' "_Range") then None else entry m k'.
Proof.
  intros m k k' L. unfold aDelete, isCR. destruct (String.eqb k "_ColorRange"); cbn [andb].
  - rewrite entry_del by (now apply legal_del). rewrite entry_del by exact L. destruct (String.eqb k' "_Range"); [now rewrite orb_true_r|]. now rewrite orb_false_r.
  - rewrite orb_false_r. now apply entry_del.
Qed.

(** SetFrameProp. *)
Definition stored (k : string) : string := if String.eqb k "_ColorRange" then "_Range" else k.
Lemma create_ok : forall a, setFramePropCreate a = Ok a <-> sa_prop a <> "" /\
  ((exists l, sa_ints a = Some l /\ sa_floats a = None /\ sa_data a = None) \/ (exists l, sa_ints a = None /\ sa_floats a = Some l /\ sa_data a = None) \/ (exists l, sa_ints a = None /\ sa_floats a = None /\ sa_data a = Some l)).
Proof.
  intros [k i f d]. unfold setFramePropCreate. cbn [sa_prop sa_ints sa_floats sa_data].
  destruct (String.eqb_spec k "") as [->|N]; destruct i, f, d; cbn; split; try discriminate; try (intros (A & B); try congruence;
    repeat match goal with H : _ \/ _ |- _ => destruct H | H : exists _, _ |- _ => destruct H | H : _ /\ _ |- _ => destruct H end; discriminate);
    try reflexivity; intros _; (split; [exact N|]); [left|right; left|right; right]; eexists; repeat split; reflexivity.
Qed.
Lemma ints_typed : forall l, Forall (fun v => vtype v = ptInt) (map VInt l).
Proof. intros l. apply Forall_forall. intros v I. apply in_map_iff in I. destruct I as (z & <- & _). reflexivity. Qed.
Lemma floats_typed : forall l, Forall (fun v => vtype v = ptFloat) (map VFloat l).
Proof. intros l. apply Forall_forall. intros v I. apply in_map_iff in I. destruct I as (z & <- & _). reflexivity. Qed.
Definition dataVals (l : list (Z * string)) : list val := map (fun p => VData (fst p) (snd p)) l.
Lemma setData_append : forall l m k l0, legal m -> identifier k = true -> entry m k = Some (ptData, l0) ->
  legal (setData m k l MAppend) /\ forall k', entry (setData m k l MAppend) k' = if String.eqb k' k then Some (ptData, l0 ++ dataVals l) else entry m k'.
Proof.
  induction l as [|(h, s) l IH]; intros m k l0 L I E.
  - cbn [setData dataVals map]. rewrite app_nil_r. split; [exact L|]. intros k'. destruct (String.eqb_spec k' k) as [->|]; [exact E|reflexivity].
  - cbn [setData]. unfold set_value. rewrite I. cbn [negb]. unfold entry in E. rewrite E. cbn [vtype ptype_eqb keepOr].
    assert (T : Forall (fun v => vtype v = ptData) (l0 ++ [VData h s])).
    { destruct L as (S & _ & T). apply mget_in in E. destruct (T _ _ _ E) as (_ & F). apply Forall_app. split; [exact F|]. constructor; [reflexivity|constructor]. }
    destruct (IH (set_pm m (mput k (ptData, l0 ++ [VData h s]) (pm m))) k (l0 ++ [VData h s])) as (A & B); [now apply legal_put|exact I|rewrite entry_put, String.eqb_refl; reflexivity|].
    split; [exact A|]. intros k'. rewrite B, entry_put. unfold dataVals. cbn [map fst snd]. rewrite <- app_assoc. cbn [app]. destruct (String.eqb k' k); reflexivity.
Qed.
Lemma setData_ok : forall l m k, legal m -> identifier k = true -> l <> [] ->
  legal (setData m k l MReplace) /\ forall k', entry (setData m k l MReplace) k' = if String.eqb k' k then Some (ptData, dataVals l) else entry m k'.
Proof.
  intros [|(h, s) l] m k L I N; [congruence|]. cbn [setData]. unfold set_value. rewrite I. cbn [negb vtype keepOr].
  destruct (setData_append l (set_pm m (mput k (ptData, [VData h s]) (pm m))) k [VData h s]) as (A & B); [apply legal_put; [exact L|exact I|constructor; [reflexivity|constructor]]|exact I|rewrite entry_put, String.eqb_refl; reflexivity|].
  split; [exact A|]. intros k'. rewrite B, entry_put. destruct (String.eqb k' k); reflexivity.
Qed.
Definition valuesOf (a : setArgs) : ptype * list val :=
  match sa_ints a, sa_floats a with
  | Some l, _ => (ptInt, map VInt (if isCR (sa_prop a) then map flipRangeProperty l else l))
  | None, Some l => (ptFloat, map VFloat l)
  | None, None => (ptData, dataVals (orNil (sa_data a)))
  end.
Definition place (a : setArgs) : string := match sa_ints a with Some _ => stored (sa_prop a) | None => sa_prop a end.
Definition nonempty (a : setArgs) : Prop := snd (valuesOf a) <> [].
Lemma map_nonempty : forall A B (f : A -> B) l, map f l <> [] -> l <> [].
Proof. intros A B f [|] H; [now elim H|discriminate]. Qed.
Lemma set_prop : forall a m, setFramePropCreate a = Ok a -> nonempty a -> identifier (sa_prop a) = true -> legal m ->
  legal (setFrameProp a m) /\ forall k, entry (setFrameProp a m) k = if String.eqb k (place a) then Some (valuesOf a) else entry m k.
Proof.
  intros [p i f d] m C NE ID L. apply create_ok in C. destruct C as (_ & C). unfold nonempty, valuesOf, place, setFrameProp in *. cbn [sa_prop sa_ints sa_floats sa_data] in *.
  destruct C as [(l & -> & -> & ->)|[(l & -> & -> & ->)|(l & -> & -> & ->)]]; cbn [orNil] in *.
  - assert (N : l <> []) by (destruct (isCR p); apply map_nonempty in NE; [apply map_nonempty in NE|]; exact NE).
    replace (match l with | [] => setData m p [] MReplace | _ :: _ => aSetIntArray m p l end) with (aSetIntArray m p l) by (destruct l; [congruence|reflexivity]).
    unfold aSetIntArray. rewrite ID. cbn [negb]. unfold stored. fold (isCR p). destruct (isCR p).
    + unfold set_array. change (identifier "_Range") with true. cbn [negb keepOr]. split; [apply legal_put; [exact L|reflexivity|apply ints_typed]|]. intros k. apply entry_put.
    + unfold set_array. rewrite ID. cbn [negb keepOr]. split; [apply legal_put; [exact L|exact ID|apply ints_typed]|]. intros k. apply entry_put.
  - assert (N : l <> []) by (apply map_nonempty in NE; exact NE).
    replace (match l with | [] => setData m p [] MReplace | _ :: _ => keepOr m (set_array m p ptFloat (map VFloat l)) end) with (keepOr m (set_array m p ptFloat (map VFloat l))) by (destruct l; [congruence|reflexivity]).
    unfold set_array. rewrite ID. cbn [negb keepOr]. split; [apply legal_put; [exact L|exact ID|apply floats_typed]|]. intros k. apply entry_put.
  - assert (N : l <> []) by (apply map_nonempty in NE; exact NE). apply setData_ok; assumption.
Qed.
(** Reading integers back under the name used. *)
Lemma read_back : forall p l m i z, legal m -> identifier p = true -> nthz l i = Some z ->
  aGetInt (setFrameProp (mkSA p (Some l) None None) m) p i = Some z.
Proof.
  intros p l m i z L ID N. assert (NL : l <> []) by (intros ->; unfold nthz in N; destruct (i <? 0); [discriminate|destruct (Z.to_nat i); discriminate]).
  assert (C : setFramePropCreate (mkSA p (Some l) None None) = Ok (mkSA p (Some l) None None)).
  { apply create_ok. cbn. split; [intros ->; discriminate|]. left. exists l. repeat split. }
  destruct (set_prop (mkSA p (Some l) None None) m C) as (LG & E).
  { unfold nonempty, valuesOf. cbn [sa_ints snd]. destruct (isCR (sa_prop _)); destruct l; [congruence|discriminate|congruence|discriminate]. } { exact ID. } { exact L. }
  unfold aGetInt, lookup_at. replace (pe _) with false by (destruct LG as (_ & Q & _); symmetry; exact Q).
  specialize (E (stored p)). unfold entry, place, stored in E. cbn [sa_ints sa_prop] in E. rewrite String.eqb_refl in E. fold (isCR p) in E. rewrite E. unfold valuesOf. cbn [sa_ints sa_prop].
  assert (NM : forall (f : Z -> Z), nthz (map VInt (map f l)) i = Some (VInt (f z))).
  { intros f. unfold nthz in *. destruct (i <? 0); [discriminate|]. rewrite !nth_error_map, N. reflexivity. }
  destruct (isCR p).
  - rewrite NM. cbn. f_equal. unfold flipRangeProperty. destruct (Z.eqb_spec z 0) as [->|]; [reflexivity|]. destruct (Z.eqb_spec z 1) as [->|]; [reflexivity|]. destruct (Z.eqb_spec z 0); [congruence|]. destruct (Z.eqb_spec z 1); [congruence|reflexivity].
  - specialize (NM (fun x => x)). rewrite map_id in NM. rewrite NM. reflexivity.
Qed.
(** A name that is no identifier is accepted and then ignored. *)
Lemma bad_name_ignored : forall a m, identifier (sa_prop a) = false -> sa_prop a <> "_ColorRange" -> setFrameProp a m = m.
Proof.
  intros [p i f d] m ID N. unfold setFrameProp. cbn [sa_prop sa_ints sa_floats sa_data] in *.
  assert (SD : forall l md, setData m p l md = m) by (induction l as [|(h, s) l IH]; intros md; [reflexivity|]; cbn [setData]; unfold set_value; rewrite ID; cbn [negb keepOr]; apply IH).
  destruct (orNil i); [destruct (orNil f); [apply SD|]|]; unfold aSetIntArray, set_array; rewrite ID; reflexivity.
Qed.
Lemma bad_name_refuted : exists a m, setFramePropCreate a = Ok a /\ nonempty a /\ legal m /\ setFrameProp a m = m /\ entry m (sa_prop a) = None.
Proof. exists (mkSA "my prop" (Some [1]) None None), fresh. split; [reflexivity|]. split; [discriminate|]. split; [exact legal_fresh|]. split; reflexivity. Qed.

(** SetFrameProps, SetFieldBased. *)
Lemma set_props : forall args m, legal args -> legal m ->
  legal (setFrameProps (setFramePropsCreate args) m) /\
  forall k, entry (setFrameProps (setFramePropsCreate args) m) k = match entry args k with Some v => if String.eqb k "clip" then entry m k else Some v | None => entry m k end.
Proof.
  intros args m LA LM. unfold setFrameProps, setFramePropsCreate. assert (L1 : legal (merge_into fresh args)) by (apply legal_merge; [exact legal_fresh|exact LA]).
  assert (L2 := legal_aDelete _ "clip" L1). split; [now apply legal_merge|]. intros k. rewrite entry_merge by apply L2. rewrite entry_aDelete by exact L1. change (String.eqb "clip" "_ColorRange") with false. cbn [andb]. rewrite orb_false_r.
  rewrite entry_merge by apply LA. change (entry fresh k) with (@None (ptype * list val)). destruct (String.eqb k "clip"); destruct (entry args k); reflexivity.
Qed.
Lemma set_field : forall v m, legal m -> (exists w, setFieldBasedCreate v = Ok w) ->
  0 <= v <= 2 /\ legal (setFieldBased v m) /\ forall k, entry (setFieldBased v m) k = if String.eqb k "_FieldBased" then Some (ptInt, [VInt v]) else if String.eqb k "_Field" then None else entry m k.
Proof.
  intros v m L (w & C). unfold setFieldBasedCreate in C. destruct (Z.ltb_spec v 0); [discriminate|]. destruct (Z.ltb_spec 2 v); [discriminate|]. split; [lia|].
  unfold setFieldBased, aSetInt. change (isCR "_FieldBased") with false. cbv iota. unfold set_value. change (identifier "_FieldBased") with true. cbn [negb keepOr vtype].
  split; [apply legal_put; [now apply legal_aDelete|reflexivity|constructor; [reflexivity|constructor]]|]. intros k. rewrite entry_put, entry_aDelete by exact L. change (String.eqb "_Field" "_ColorRange") with false. cbn [andb]. rewrite orb_false_r. reflexivity.
Qed.

(** RemoveFrameProps. *)
Lemma mdel_middle : forall A (a b : smap A) k v, ~ In k (map fst a) -> mdel k (a ++ (k, v) :: b) = a ++ b.
Proof.
  induction a as [|(k', v') a IH]; intros b k v N; cbn [app mdel]; [now rewrite String.eqb_refl|]. cbn [map fst In] in N. destruct (String.eqb_spec k k') as [->|]; [tauto|]. rewrite IH by tauto. reflexivity.
Qed.
Lemma remove_loop : forall del rest fuel m a, (length rest <= fuel)%nat -> pm m = a ++ rest -> NoDup (map fst (a ++ rest)) -> ~ In "_ColorRange" (map fst (a ++ rest)) ->
  removeLoop fuel del (length a) m = Ok (set_pm m (a ++ filter (fun p => negb (del (fst p))) rest)).
Proof.
  intros del. induction rest as [|(k, q) rest IH]; intros fuel m a F E N C.
  - cbn [filter]. rewrite <- E. rewrite app_nil_r in E. assert (NE : nth_error (pm m) (length a) = None) by (rewrite E; apply nth_error_None; lia).
    destruct fuel; cbn [removeLoop]; rewrite NE; destruct m; reflexivity.
  - cbn [length] in F. destruct fuel as [|fuel]; [lia|]. assert (NE : nth_error (pm m) (length a) = Some (k, q)) by (rewrite E, nth_error_app2, Nat.sub_diag by lia; reflexivity).
    cbn [removeLoop]. rewrite NE. cbn [filter fst]. destruct (del k) eqn:D; cbn [negb].
    + assert (CK : isCR k = false) by (unfold isCR; apply String.eqb_neq; intros ->; apply C; rewrite map_app; apply in_or_app; right; left; reflexivity).
      unfold aDelete. rewrite CK. rewrite (IH fuel (set_pm m (mdel k (pm m))) a).
      * destruct m; reflexivity.
      * lia.
      * cbn [pm set_pm]. rewrite E. apply mdel_middle. rewrite map_app in N. cbn [map fst] in N. apply NoDup_remove_2 in N. intros I. apply N. apply in_or_app. now left.
      * rewrite map_app in *. cbn [map fst] in N. now apply NoDup_remove_1 in N.
      * rewrite map_app in *. cbn [map fst] in C. intros I. apply C. apply in_app_or in I. apply in_or_app. destruct I; [now left|right; right; assumption].
    + replace (Datatypes.S (length a)) with (length (a ++ [(k, q)])) by (rewrite app_length; cbn; lia).
      rewrite (IH fuel m (a ++ [(k, q)])); [rewrite <- app_assoc; reflexivity|lia|rewrite <- app_assoc; exact E|rewrite <- app_assoc; exact N|rewrite <- app_assoc; exact C].
Qed.
Lemma filter_sorted : forall A (f : string * A -> bool) (m : smap A), msorted m -> msorted (filter f m).
Proof.
  intros A f m S. induction S as [|p m S IH F]; [constructor|]. cbn [filter]. destruct (f p); [|exact IH]. constructor; [exact IH|]. rewrite Forall_forall in *. intros x X. apply filter_In in X. apply F, X.
Qed.
Lemma mget_filter : forall A (f : string -> bool) (m : smap A) k, mget k (filter (fun p => f (fst p)) m) = if f k then mget k m else None.
Proof.
  intros A f m k. induction m as [|(k', v') m IH]; [cbn; destruct (f k); reflexivity|]. cbn [filter fst mget]. destruct (f k') eqn:F; cbn [mget].
  - destruct (String.eqb_spec k k') as [->|]; [rewrite F; reflexivity|exact IH].
  - destruct (String.eqb_spec k k') as [->|]; [rewrite IH, F; reflexivity|exact IH].
Qed.
Definition named (ps : list (list ascii)) (k : string) : Prop := exists p, In p ps /\ fits p (list_ascii_of_string k).
Lemma remove_ok : forall ps m, legal m -> entry m "_ColorRange" = None ->
  exists rs m', compileAll ps = Ok rs /\ removeFrameProps (Some rs) m = Ok m' /\ legal m' /\
    forall k, (named ps k -> entry m' k = None) /\ (~ named ps k -> entry m' k = entry m k).
Proof.
  intros ps m L NC. exists (map globRe ps). eexists. split; [apply compile_ok|]. destruct L as (S & PE & T). unfold removeFrameProps.
  set (del := fun k => existsb (fun p => regexMatch p (list_ascii_of_string k)) (map globRe ps)).
  assert (D : forall k, identifier k = true -> (del k = true <-> named ps k)).
  { intros k I. unfold del, named. rewrite existsb_exists. split.
    - intros (r & R & M). apply in_map_iff in R. destruct R as (p & <- & P). exists p. split; [exact P|]. destruct (glob_ok p (list_ascii_of_string k) (identifier_plain k I)) as (r & Q1 & Q2). rewrite glob_compiles in Q1. injection Q1 as <-. apply Q2, M.
    - intros (p & P & F). exists (globRe p). split; [now apply in_map|]. destruct (glob_ok p (list_ascii_of_string k) (identifier_plain k I)) as (r & Q1 & Q2). rewrite glob_compiles in Q1. injection Q1 as <-. apply Q2, F. }
  pose proof (sorted_nodup _ _ S) as ND. apply mget_none in NC.
  split; [apply (remove_loop del (pm m) (length (pm m)) m []); [lia|reflexivity|exact ND|exact NC]|]. cbn [app].
  split; [split; [cbn [pm set_pm]; now apply filter_sorted|split; [exact PE|]]; intros k t l I; cbn [pm set_pm] in I; apply filter_In in I; apply (T k t l), I|].
  intros k. unfold entry. cbn [pm set_pm].
  change (fun p : string * (ptype * list val) => negb (existsb (fun p0 : list re => regexMatch p0 (list_ascii_of_string (fst p))) (map globRe ps))) with (fun p : string * (ptype * list val) => negb (del (fst p))).
  pose proof (mget_filter _ (fun k => negb (del k)) (pm m) k) as MF. cbv beta in MF. rewrite MF. clear MF. destruct (mget k (pm m)) as [(t, l)|] eqn:G.
  - apply mget_in in G. destruct (T _ _ _ G) as (I & _). specialize (D k I). destruct (del k); cbn [negb].
    + split; [reflexivity|]. intros Q. exfalso. apply Q, D. reflexivity.
    + split; [|reflexivity]. intros Q. apply D in Q. discriminate.
  - destruct (negb (del k)); split; reflexivity.
Qed.
Lemma remove_all : forall m, removeFrameProps None m = Ok fresh.
Proof. reflexivity. Qed.
(** Removing "_ColorRange" leaves it readable. *)
Lemma remove_alias : exists m m' rs, legal m /\ compileAll [list_ascii_of_string "_ColorRange"] = Ok rs /\ removeFrameProps (Some rs) m = Ok m' /\ aGetInt m "_ColorRange" 0 = Some 1 /\ aGetInt m' "_ColorRange" 0 = Some 1 /\
  aGetInt (aDelete m "_ColorRange") "_ColorRange" 0 = None.
Proof.
  exists {| pm := [("_Range", (ptInt, [VInt 0]))]; pe := false |}. eexists. eexists.
  split; [split; [repeat constructor|]; split; [reflexivity|]; intros k t l [E|[]]; injection E as <- <- <-; split; [reflexivity|constructor; [reflexivity|constructor]]|].
  split; [apply compile_ok|]. split; [vm_compute; reflexivity|]. vm_compute. repeat split.
Qed.

(** CopyFrameProps. *)
Lemma toInts_ok : forall l, Forall (fun v => vtype v = ptInt) l -> exists zs, toInts l = Ok zs /\ map VInt zs = l.
Proof.
  induction l as [|v l IH]; intros F; [exists []; split; reflexivity|]. inversion F as [|x y H H']; subst. destruct (IH H') as (zs & E & Q). destruct v as [z| | | |a q|a q]; try discriminate; try (destruct a; discriminate). exists (z :: zs). cbn [toInts toInt obind]. rewrite E. cbn [obind map]. split; [reflexivity|congruence].
Qed.
Lemma append_all : forall src k t l, legal src -> entry src k = Some (t, l) -> identifier k = true ->
  forall n i m, legal m -> Z.of_nat n + i = zlength l -> 0 <= i -> (i = 0 -> entry m k = None) -> (0 < i -> entry m k = Some (t, firstn (Z.to_nat i) l)) -> 0 < zlength l ->
  exists m', appendAll src k t n i m = Ok m' /\ legal m' /\ forall k', entry m' k' = if String.eqb k' k then Some (t, l) else entry m k'.
Proof.
  intros src k t l LS ES ID. pose proof LS as (SS & SE & ST). assert (FT : Forall (fun v => vtype v = t) l) by (unfold entry in ES; apply mget_in in ES; apply (ST _ _ _ ES)).
  induction n as [|n IH]; intros i m LM N I0 E0 E1 LP.
  - cbn [appendAll]. exists m. split; [reflexivity|]. split; [exact LM|]. intros k'. destruct (String.eqb_spec k' k) as [->|]; [|reflexivity]. rewrite E1 by lia. unfold zlength in N. rewrite firstn_all2 by lia. reflexivity.
  - cbn [appendAll]. unfold lookup_at. rewrite SE. unfold entry in ES. rewrite ES.
    destruct (nthz l i) as [v|] eqn:NV; [|apply nthz_None_iff in NV; lia].
    destruct (ptype_eqb_spec t t) as [_|]; [|congruence]. cbn [snd].
    assert (TV : vtype v = t). { unfold nthz in NV. destruct (i <? 0); [discriminate|]. apply nth_error_In in NV. rewrite Forall_forall in FT. apply FT, NV. }
    assert (FN : firstn (Z.to_nat (i + 1)) l = firstn (Z.to_nat i) l ++ [v]).
    { unfold nthz in NV. destruct (Z.ltb_spec i 0); [lia|]. replace (Z.to_nat (i + 1)) with (Datatypes.S (Z.to_nat i)) by lia. clear - NV. revert NV. generalize (Z.to_nat i). intros j. revert l. induction j as [|j IH]; intros [|x l] E; cbn in E; try discriminate; [injection E as ->; reflexivity|]. cbn [firstn app]. f_equal. rewrite <- IH by exact E. reflexivity. }
    assert (SV : set_value m k v MAppend = Some (set_pm m (mput k (t, firstn (Z.to_nat (i + 1)) l) (pm m)))).
    { unfold set_value. rewrite ID. cbn [negb]. destruct (Z.eq_dec i 0) as [->|NZ].
      - unfold entry in E0. rewrite (E0 eq_refl). rewrite FN, TV. reflexivity.
      - unfold entry in E1. rewrite (E1 ltac:(lia)). rewrite TV. destruct (ptype_eqb_spec t t); [|congruence]. rewrite FN. reflexivity. }
    rewrite SV. cbn [keepOr].
    destruct (IH (i + 1) (set_pm m (mput k (t, firstn (Z.to_nat (i + 1)) l) (pm m)))) as (m' & A & B & D).
    + apply legal_put; [exact LM|exact ID|]. rewrite Forall_forall in *. intros x X. apply FT. rewrite <- (firstn_skipn (Z.to_nat (i + 1)) l). apply in_or_app. now left.
    + lia.
    + lia.
    + lia.
    + intros _. rewrite entry_put, String.eqb_refl. reflexivity.
    + exact LP.
    + exists m'. split; [exact A|]. split; [exact B|]. intros k'. rewrite D, entry_put. destruct (String.eqb k' k); reflexivity.
Qed.
Lemma copy_one : forall src k m, legal src -> legal m -> k <> "_ColorRange" ->
  exists m', copyOne src k m = Ok m' /\ legal m' /\ forall k', entry m' k' = if String.eqb k' k then entry src k else entry m k'.
Proof.
  intros src k m LS LM NC. unfold copyOne. assert (CR : isCR k = false) by (unfold isCR; now apply String.eqb_neq).
  assert (RC : remapColorRange k = k) by (unfold remapColorRange; apply String.eqb_neq in NC; rewrite NC; reflexivity).
  assert (LD := legal_aDelete m k LM). assert (ED : forall k', entry (aDelete m k) k' = if String.eqb k' k then None else entry m k').
  { intros k'. rewrite entry_aDelete by exact LM. apply String.eqb_neq in NC. rewrite NC. cbn [andb]. now rewrite orb_false_r. }
  set (m1 := aDelete m k) in *. unfold aType, aNum. rewrite RC. fold (entry src k). destruct (entry src k) as [(t, l)|] eqn:ES; cbn [option_map fst].
  2:{ exists m1. split; [reflexivity|]. split; [exact LD|]. intros k'. rewrite ED. reflexivity. }
  pose proof LS as (SS & SE & ST). assert (K : identifier k = true /\ Forall (fun v => vtype v = t) l) by (unfold entry in ES; apply mget_in in ES; apply (ST _ _ _ ES)). destruct K as (ID & FT).
  assert (PUT : forall q, q = (t, l) -> forall k', entry (set_pm m1 (mput k q (pm m1))) k' = if String.eqb k' k then Some (t, l) else entry m k').
  { intros q -> k'. rewrite entry_put, ED. destruct (String.eqb k' k); reflexivity. }
  assert (E0 : entry m1 k = None) by (rewrite ED, String.eqb_refl; reflexivity).
  destruct (Z.eqb_spec (zlength l) 0) as [Z0|NZ].
  - assert (EL : l = []) by (unfold zlength in Z0; destruct l; [reflexivity|cbn in Z0; lia]). subst l.
    unfold aSetEmpty. rewrite ID. cbn [negb]. replace (if ptype_eqb t ptInt then remapColorRange k else k) with k by (rewrite RC; destruct (ptype_eqb t ptInt); reflexivity).
    unfold set_empty. rewrite ID. cbn [negb]. unfold entry in E0. rewrite E0. cbn [keepOr]. eexists. split; [reflexivity|]. split; [now apply legal_put|]. now apply PUT.
  - assert (ZP : 0 < zlength l) by (unfold zlength in *; lia).
    assert (LA : forall t', t' = t -> snd (lookup_all src k t') = Some l).
    { intros t' ->. unfold lookup_all. rewrite SE. unfold entry in ES. rewrite ES. destruct l; [unfold zlength in ZP; cbn in ZP; lia|]. destruct (ptype_eqb_spec t t); [reflexivity|congruence]. }
    assert (AP : exists m', appendAll src k t (Z.to_nat (zlength l)) 0 m1 = Ok m' /\ legal m' /\ (forall k', entry m' k' = if String.eqb k' k then Some (t, l) else entry m k')).
    { destruct (append_all src k t l LS ES ID (Z.to_nat (zlength l)) 0 m1 LD) as (m' & A & B & D); try lia; [intros _; exact E0|]. exists m'. split; [exact A|]. split; [exact B|]. intros k'. rewrite D, ED. destruct (String.eqb k' k); reflexivity. }
    destruct t; try exact AP.
    + unfold aGetIntArray. rewrite CR, (LA ptInt eq_refl). destruct (toInts_ok l FT) as (zs & -> & EZ). cbn [obind]. unfold aSetIntArray. rewrite ID, CR. cbn [negb]. unfold set_array. rewrite ID. cbn [negb keepOr]. rewrite EZ.
      eexists. split; [reflexivity|]. split; [now apply legal_put|]. now apply PUT.
    + rewrite (LA ptFloat eq_refl). unfold set_array. rewrite ID. cbn [negb keepOr]. eexists. split; [reflexivity|]. split; [now apply legal_put|]. now apply PUT.
Qed.
Lemma copy_list : forall src ks m, legal src -> legal m -> ~ In "_ColorRange" ks ->
  exists m', copyList src ks m = Ok m' /\ legal m' /\ forall k, (In k ks -> entry m' k = entry src k) /\ (~ In k ks -> entry m' k = entry m k).
Proof.
  intros src ks. induction ks as [|k ks IH]; intros m LS LM NC.
  - exists m. split; [reflexivity|]. split; [exact LM|]. intros k. split; [intros []|reflexivity].
  - cbn [In] in NC. destruct (copy_one src k m LS LM ltac:(intros ->; tauto)) as (m1 & A & B & D). cbn [copyList]. rewrite A. cbn [obind].
    destruct (IH m1 LS B ltac:(tauto)) as (m' & A' & B' & D'). exists m'. split; [exact A'|]. split; [exact B'|]. intros k'. destruct (D' k') as (D1 & D2). split.
    + intros [->|I]; [|now apply D1]. destruct (in_dec string_dec k' ks) as [I|I]; [now apply D1|]. rewrite D2 by exact I. rewrite D, String.eqb_refl. reflexivity.
    + intros NI. cbn [In] in NI. rewrite D2 by tauto. rewrite D. destruct (String.eqb_spec k' k) as [->|]; [tauto|reflexivity].
Qed.
Lemma copy_all : forall src m, legal src -> exists m', copyFrameProps src [] m = Ok m' /\ legal m' /\ forall k, entry m' k = entry src k.
Proof.
  intros src m LS. eexists. split; [reflexivity|]. split; [apply legal_merge; [exact legal_fresh|exact LS]|]. intros k. rewrite entry_merge by apply LS. destruct (entry src k); reflexivity.
Qed.
Lemma copy_listed : forall src ks m, legal src -> legal m -> ks <> [] -> ~ In "_ColorRange" ks ->
  exists m', copyFrameProps src ks m = Ok m' /\ legal m' /\ forall k, (In k ks -> entry m' k = entry src k) /\ (~ In k ks -> entry m' k = entry m k).
Proof. intros src ks m LS LM NE NC. unfold copyFrameProps. destruct ks; [congruence|]. now apply copy_list. Qed.
Definition one (k : string) (q : ptype * list val) : pmap := {| pm := [(k, q)]; pe := false |}.
Lemma legal_one : forall k t l, identifier k = true -> Forall (fun v => vtype v = t) l -> legal (one k (t, l)).
Proof. intros k t l I F. split; [repeat constructor|]. split; [reflexivity|]. intros k' t' l' [E|[]]. injection E as <- <- <-. split; assumption. Qed.
(** Copied under its old name, two range values change places and an unknown value becomes 1 ... *)
Lemma copy_alias : exists src m', legal src /\ copyFrameProps src ["_ColorRange"] fresh = Ok m' /\ entry src "_Range" = Some (ptInt, [VInt 2]) /\ entry m' "_Range" = Some (ptInt, [VInt 1]).
Proof. exists (one "_Range" (ptInt, [VInt 2])). eexists. split; [apply legal_one; [reflexivity|constructor; [reflexivity|constructor]]|]. split; [vm_compute; reflexivity|]. split; reflexivity. Qed.
(** ... and a value that is no integer ends the process. *)
Lemma copy_alias_fatal : exists src, legal src /\ copyFrameProps src ["_ColorRange"] fresh = UB.
Proof. exists (one "_Range" (ptFloat, [VFloat 0])). split; [apply legal_one; [reflexivity|constructor; [reflexivity|constructor]]|]. vm_compute. reflexivity. Qed.
Lemma copy_alias_ok : forall src m z, legal src -> legal m -> z = 0 \/ z = 1 -> entry src "_Range" = Some (ptInt, [VInt z]) ->
  exists m', copyFrameProps src ["_ColorRange"] m = Ok m' /\ legal m' /\ forall k, entry m' k = if String.eqb k "_Range" then entry src "_Range" else if String.eqb k "_ColorRange" then None else entry m k.
Proof.
  intros src m z LS LM Z01 ES. unfold copyFrameProps, copyList, copyOne. pose proof LS as (_ & SE & _).
  unfold aType, aNum. change (remapColorRange "_ColorRange") with "_Range". fold (entry src "_Range"). rewrite ES. cbn [option_map fst]. change (zlength [VInt z] =? 0) with false. cbv iota.
  unfold aGetIntArray. change (isCR "_ColorRange") with true. cbv iota. unfold lookup_all. rewrite SE. fold (entry src "_Range"). rewrite ES. cbn [ptype_eqb snd toInts toInt obind].
  unfold aSetIntArray. change (identifier "_ColorRange") with true. change (isCR "_ColorRange") with true. cbn [negb]. unfold set_array. change (identifier "_Range") with true. cbn [negb keepOr map].
  assert (Q : flipRangeProperty (if flipRangeProperty z =? 1 then 1 else 0) = z) by (destruct Z01; subst z; reflexivity). rewrite Q.
  eexists. split; [reflexivity|]. split; [apply legal_put; [now apply legal_aDelete|reflexivity|constructor; [reflexivity|constructor]]|]. intros k. rewrite entry_put, entry_aDelete by exact LM. change (String.eqb "_ColorRange" "_ColorRange") with true. cbn [andb].
  destruct (String.eqb k "_Range"); [reflexivity|]. now rewrite orb_false_r.
Qed.

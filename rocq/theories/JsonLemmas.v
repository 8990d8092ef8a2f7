(** JSON texts written are read back. *)
From Coq Require Import String Ascii ZArith List Bool Lia.
From Verif Require Import Common OptSpec OptLemmas JsonSpec Json.
Import ListNotations.
Open Scope Z_scope.
Local Notation length := List.length.

(** ** Strings *)
Lemma str_char : forall c r, str (escapeChar c ++ r) = more [c] (str r).
Proof. intros [[] [] [] [] [] [] [] []] r; reflexivity. Qed.
Lemma more_more : forall a b r, more a (more b r) = more (a ++ b) r.
Proof. intros a b [[l q]|]; cbn [more]; [rewrite app_assoc |]; reflexivity. Qed.
Lemma str_spec : forall s r, str (flat_map escapeChar s ++ """"%char :: r) = Some (s, r).
Proof.
  induction s as [|c s IH]; intros r; [reflexivity |]. cbn [flat_map]. rewrite <- app_assoc, str_char, IH. reflexivity.
Qed.
Lemma isAsciiPrintable_spec : forall s, isAsciiPrintable s = printable s.
Proof.
  intros s. unfold isAsciiPrintable, printable. induction s as [|c s IH]; [reflexivity |]. cbn [forallb]. rewrite IH. f_equal. unfold code. pose proof (nat_ascii_bounded c).
  destruct (Z.ltb_spec (Z.of_nat (nat_of_ascii c)) 128); cbv zeta; repeat (match goal with |- context [?a <? ?b] => destruct (Z.ltb_spec a b) | |- context [?a <=? ?b] => destruct (Z.leb_spec a b) end); reflexivity || lia.
Qed.
Lemma cstr_id : forall s, ~ In (chr 0) s -> cstr s = s.
Proof.
  induction s as [|c s IH]; intros N; [reflexivity |]. cbn [cstr]. destruct (Z.eqb_spec (code c) 0) as [E | E].
  - exfalso. apply N. left. rewrite <- (ascii_nat_embedding c). unfold chr. f_equal. unfold code in E. lia.
  - f_equal. apply IH. intros X. apply N. right. exact X.
Qed.
Lemma printable_nonul : forall s, printable s = true -> ~ In (chr 0) s.
Proof. intros s P I. unfold printable in P. rewrite forallb_forall in P. specialize (P _ I). discriminate P. Qed.
(** ** Numbers *)
Lemma isDigit_digit : forall c, isDigit c = match digit c with Some _ => true | None => false end.
Proof. intros c. unfold isDigit, digit, code. cbv zeta. destruct (_ && _); reflexivity. Qed.
Lemma digits_all : forall t acc v, digits acc t = Some v -> forallb isDigit t = true.
Proof.
  induction t as [|c r IH]; intros acc v E; [reflexivity |]. cbn [digits] in E. cbn [forallb]. rewrite isDigit_digit. destruct (digit c); [| discriminate]. exact (IH _ _ E).
Qed.
Lemma dropDigits_all : forall t, forallb isDigit t = true -> dropDigits t = [].
Proof. induction t as [|c r IH]; intros E; [reflexivity |]. cbn [forallb] in E. apply andb_true_iff in E. destruct E as (A & B). cbn [dropDigits]. rewrite A. exact (IH B). Qed.
Lemma isCh_eq : forall c x, isCh c x = true <-> c = x.
Proof. intros c x. unfold isCh. apply Ascii.eqb_eq. Qed.
Lemma decN_first : forall k n, 0 < n < 2 ^ Z.of_nat k -> exists c r, decN k n = c :: r /\ isCh c "0" = false.
Proof.
  induction k as [|k IH]; intros n B; [change (2 ^ Z.of_nat 0) with 1 in B; lia |]. cbn [decN]. destruct (Z.ltb_spec n 10) as [L | L].
  - exists (ascii_of_nat (Z.to_nat (48 + n mod 10))), []. split; [reflexivity |]. rewrite Z.mod_small by lia.
    assert (C : n = 1 \/ n = 2 \/ n = 3 \/ n = 4 \/ n = 5 \/ n = 6 \/ n = 7 \/ n = 8 \/ n = 9) by lia.
    destruct C as [-> | [-> | [-> | [-> | [-> | [-> | [-> | [-> | ->]]]]]]]]; reflexivity.
  - rewrite Nat2Z.inj_succ, Z.pow_succ_r in B by lia. destruct (IH (n / 10)) as (c & r & E & X); [pose proof (Z.div_mod n 10 ltac:(lia)); pose proof (Z.mod_pos_bound n 10 ltac:(lia)); lia |].
    rewrite E. exists c, (r ++ [ascii_of_nat (Z.to_nat (48 + n mod 10))]). split; [reflexivity | exact X].
Qed.
Lemma intPart_dec : forall n, 0 <= n -> exists c r, decN (S (Z.to_nat (Z.log2 n))) n = c :: r /\ isDigit c = true /\ forallb isDigit (c :: r) = true /\ intPart (c :: r) = Some [].
Proof.
  intros n B. pose proof (decN_natural n B) as D. unfold natural in D. destruct (decN (S (Z.to_nat (Z.log2 n))) n) as [|c r] eqn:E; [discriminate |]. apply digits_all in D. exists c, r.
  pose proof D as D'. cbn [forallb] in D'. apply andb_true_iff in D'. destruct D' as (Dc & Dr). repeat split; [exact Dc | exact D |]. unfold intPart, digits1. destruct (isCh c "0") eqn:Z0.
  - destruct (Z.eq_dec n 0) as [-> | N]; [injection E as _ <-; reflexivity |].
    destruct (decN_first (S (Z.to_nat (Z.log2 n))) n) as (c' & r' & E' & X).
    { rewrite Nat2Z.inj_succ, Z2Nat.id by apply Z.log2_nonneg. pose proof (Z.log2_spec n). lia. }
    rewrite E in E'. injection E' as <- <-. congruence.
  - rewrite Dc, dropDigits_all by exact Dr. reflexivity.
Qed.
Lemma digit_notMinus : forall c, isDigit c = true -> isCh c "-" = false.
Proof. intros [[] [] [] [] [] [] [] []]; vm_compute; congruence. Qed.
Lemma dec_isNumber : forall v, isNumber (dec v) = true.
Proof.
  intros v. unfold dec, isNumber. destruct (Z.ltb_spec v 0).
  - destruct (intPart_dec (- v) ltac:(lia)) as (c & r & E & _ & _ & I). rewrite E. change (isCh "-" "-") with true. cbv iota. rewrite I. reflexivity.
  - destruct (intPart_dec v ltac:(lia)) as (c & r & E & D & _ & I). rewrite E, (digit_notMinus _ D), I. reflexivity.
Qed.
Lemma digits_numChar : forall t, forallb isDigit t = true -> forallb numChar t = true.
Proof. intros t E. rewrite forallb_forall in *. intros c I. unfold numChar. rewrite (E c I). reflexivity. Qed.
Lemma dec_numChar : forall v, forallb numChar (dec v) = true.
Proof.
  intros v. unfold dec. destruct (Z.ltb_spec v 0).
  - destruct (intPart_dec (- v) ltac:(lia)) as (c & r & E & _ & D & _). rewrite E. cbn [forallb]. change (numChar "-") with true. exact (digits_numChar _ D).
  - destruct (intPart_dec v ltac:(lia)) as (c & r & E & _ & D & _). rewrite E. exact (digits_numChar _ D).
Qed.
Definition fol (r : text) : Prop := match r with [] => True | c :: _ => numChar c = false end.
Lemma span_spec : forall t r, forallb numChar t = true -> fol r -> span (t ++ r) = (t, r).
Proof.
  induction t as [|c t IH]; intros r A F.
  - destruct r as [|c r]; [reflexivity |]. cbn [app span]. cbn [fol] in F. rewrite F. reflexivity.
  - cbn [forallb] in A. apply andb_true_iff in A. destruct A as (A & B). cbn [app span]. rewrite A, (IH r B F). reflexivity.
Qed.
Lemma numStart : forall c, isDigit c || isCh c "-" = true -> isWs c = false /\ isCh c """" = false /\ isCh c "[" = false /\ isCh c "{" = false /\ isCh c "n" = false /\ isCh c "t" = false /\ isCh c "f" = false.
Proof. intros [[] [] [] [] [] [] [] []]; vm_compute; intros E; try discriminate E; repeat split. Qed.
Lemma isNumber_start : forall t, isNumber t = true -> exists c r, t = c :: r /\ isDigit c || isCh c "-" = true.
Proof.
  intros t E. destruct t as [|c r]; [discriminate |]. exists c, r. split; [reflexivity |]. unfold isNumber in E. destruct (isCh c "-"); [apply orb_true_r |]. cbn [intPart] in E. destruct (isCh c "0") eqn:Z0.
  - apply isCh_eq in Z0. subst c. reflexivity.
  - unfold digits1 in E. destruct (isDigit c); [reflexivity | discriminate].
Qed.
Lemma lit_none : forall a w c r, isCh c a = false -> lit (a :: w) (c :: r) = None.
Proof. intros a w c r E. unfold lit. cbn [length firstn skipn]. destruct (list_eq_dec ascii_dec _ _) as [X | _]; [| reflexivity]. injection X as X _. apply isCh_eq in X. congruence. Qed.
(** ** Values: [t] is read as [v] whatever follows that cannot continue a number. *)
Definition Parses (t : text) (v : json) : Prop := forall n r, (length t <= n)%nat -> fol r -> pv n (t ++ r) = Some (v, r).
Lemma parses_nonempty : forall t v, Parses t v -> (0 < length t)%nat.
Proof. intros [|c t] v P; [| cbn [length]; lia]. specialize (P 0%nat [] (le_n 0) I). discriminate P. Qed.
Lemma parses_number : forall t, isNumber t = true -> forallb numChar t = true -> Parses t (jnum t).
Proof.
  intros t N A n r L F. destruct (isNumber_start t N) as (c & q & -> & S0). destruct (numStart c S0) as (W & Q & B & O & X1 & X2 & X3). destruct n as [|n]; [cbn [length] in L; lia |].
  cbn [pv]. change ((c :: q) ++ r) with (c :: q ++ r). cbn [ws]. rewrite W, Q, B, O. change (T "null") with ("n"%char :: T "ull"). change (T "true") with ("t"%char :: T "rue"). change (T "false") with ("f"%char :: T "alse"). rewrite (lit_none "n" _ c _ X1), (lit_none "t" _ c _ X2), (lit_none "f" _ c _ X3).
  change (c :: q ++ r) with ((c :: q) ++ r). rewrite (span_spec (c :: q) r A F). rewrite N. reflexivity.
Qed.
Lemma parses_string : forall s, Parses (escapeJSONString s) (jstr s).
Proof.
  intros s n r L F. unfold escapeJSONString in *. destruct n as [|n]; [cbn [length] in L; lia |]. change ((""""%char :: flat_map escapeChar s ++ [""""%char]) ++ r) with (""""%char :: (flat_map escapeChar s ++ [""""%char]) ++ r). rewrite <- app_assoc.
  cbn [pv ws]. change (isWs """") with false. cbv iota. change (isCh """" """") with true. cbv iota. change ([""""%char] ++ r) with (""""%char :: r). rewrite str_spec. reflexivity.
Qed.
Lemma parses_null : Parses (T "null") jnull.
Proof. intros n r L F. destruct n as [|n]; [cbn in L; lia |]. reflexivity. Qed.
Lemma pv_start : forall n t x, pv n t = Some x -> exists d q, ws t = d :: q /\ isCh d "]" = false.
Proof.
  intros n t x E. destruct n as [|n]; [discriminate |]. cbn [pv] in E. destruct (ws t) as [|d q]; [discriminate |]. exists d, q. split; [reflexivity |]. destruct (isCh d "]") eqn:X; [| reflexivity]. apply isCh_eq in X. subst d. discriminate E.
Qed.
Lemma pv_ws : forall n c t, isWs c = true -> pv n (c :: t) = pv n t.
Proof. intros [|n] c t W; [reflexivity |]. cbn [pv ws]. rewrite W. reflexivity. Qed.
Lemma pes_ws : forall n c t, isWs c = true -> pes n (c :: t) = pes n t.
Proof. intros [|n] c t W; [reflexivity |]. cbn [pes]. rewrite pv_ws by exact W. reflexivity. Qed.
Lemma pms_ws : forall n c t, isWs c = true -> pms n (c :: t) = pms n t.
Proof. intros [|n] c t W; [reflexivity |]. cbn [pms ws]. rewrite W. reflexivity. Qed.
Lemma join_cons : forall t r, r <> [] -> join (t :: r) = t ++ T ", " ++ join r.
Proof. intros t [|u r] N; [congruence | reflexivity]. Qed.
Lemma pes_join : forall ts vs, Forall2 Parses ts vs -> ts <> [] -> forall n r, (S (length (join ts)) <= n)%nat -> pes n (join ts ++ "]"%char :: r) = Some (vs, r).
Proof.
  induction 1 as [|t v ts vs P Ps IH]; intros N n r L; [congruence |]. destruct n as [|n]; [lia |]. destruct Ps as [|u w ts vs Pu Ps].
  - cbn [join] in *. cbn [pes]. rewrite P by (lia || reflexivity). reflexivity.
  - rewrite join_cons in * by discriminate. cbn [pes]. rewrite !app_length in L. rewrite <- !app_assoc. rewrite P; [| lia | reflexivity].
    change (T ", " ++ ?x) with (","%char :: " "%char :: x). cbn [ws]. change (isWs ",") with false. cbv iota. change (isCh "," ",") with true. cbv iota.
    rewrite pes_ws by reflexivity. rewrite IH; [reflexivity | discriminate |]. change (length (T ", ")) with 2%nat in L. lia.
Qed.
Lemma parses_array : forall ts vs, Forall2 Parses ts vs -> ts <> [] -> Parses (T "[" ++ join ts ++ T "]") (jarr vs).
Proof.
  intros ts vs Ps N n r L F. rewrite !app_length in L. change (length (T "[")) with 1%nat in L. change (length (T "]")) with 1%nat in L. destruct n as [|n]; [lia |]. rewrite <- !app_assoc.
  change (T "[" ++ ?x) with ("["%char :: x). change (T "]" ++ r) with ("]"%char :: r). cbn [pv ws]. change (isWs "[") with false. cbv iota. change (isCh "[" """") with false. change (isCh "[" "[") with true. cbv iota.
  pose proof (pes_join ts vs Ps N n r ltac:(lia)) as E.
  assert (X : exists d q, ws (join ts ++ "]"%char :: r) = d :: q /\ isCh d "]" = false).
  { destruct n as [|n]; [discriminate E |]. cbn [pes] in E. destruct (pv n (join ts ++ "]"%char :: r)) as [p|] eqn:Ep; [| discriminate]. exact (pv_start _ _ _ Ep). }
  destruct X as (d & q & X & D). rewrite X, D, E. reflexivity.
Qed.
Definition member (k v : text) : text := escapeJSONString k ++ T ": " ++ v.
Lemma pms_one : forall k t v n c r, Parses t v -> (length t <= n)%nat -> numChar c = false -> isWs c = false ->
  pms (S n) (member k t ++ c :: r) = if isCh c "," then match pms n r with Some (l, r) => Some ((k, v) :: l, r) | None => None end else if isCh c "}" then Some ([(k, v)], r) else None.
Proof.
  intros k t v n c r P L F W. unfold member, escapeJSONString. rewrite <- !app_assoc. change ((""""%char :: ?a) ++ ?b) with (""""%char :: (a ++ b)). rewrite <- !app_assoc. change ([""""%char] ++ ?b) with (""""%char :: b).
  cbn [pms ws]. change (isWs """") with false. cbv iota. change (isCh """" """") with true. cbv iota. rewrite str_spec. change (T ": " ++ ?x) with (":"%char :: " "%char :: x). cbn [ws]. change (isWs ":") with false. cbv iota. change (isCh ":" ":") with true. cbv iota.
  rewrite pv_ws by reflexivity. rewrite P by assumption. cbn [ws]. rewrite W. reflexivity.
Qed.
Lemma pms_join : forall ms : list (text * text * json), ms <> [] -> Forall (fun e => Parses (snd (fst e)) (snd e)) ms -> forall n r, (S (length (join (map (fun e => member (fst (fst e)) (snd (fst e))) ms))) <= n)%nat ->
  pms n (join (map (fun e => member (fst (fst e)) (snd (fst e))) ms) ++ "}"%char :: r) = Some (map (fun e => (fst (fst e), snd e)) ms, r).
Proof.
  induction ms as [|((k, t), v) ms IH]; intros N F n r L; [congruence |]. inversion F as [|? ? P Fr]; subst. cbn [fst snd] in P. destruct n as [|n]; [lia |].
  assert (Lm : forall u, (length u <= length (member k u))%nat) by (intros u; unfold member; rewrite !app_length; lia). destruct ms as [|m ms].
  - cbn [map join fst snd] in *. specialize (Lm t). rewrite (pms_one k t v) by (assumption || reflexivity || lia). reflexivity.
  - assert (J : forall g : text * text * json -> text, join (map g ((k, t, v) :: m :: ms)) = g (k, t, v) ++ T ", " ++ join (map g (m :: ms))) by (intros g; reflexivity).
    rewrite J in *. cbn [fst snd] in *. rewrite !app_length in L. change (length (T ", ")) with 2%nat in L. rewrite <- !app_assoc. change (T ", " ++ ?x) with (","%char :: " "%char :: x).
    specialize (Lm t). rewrite (pms_one k t v) by (assumption || reflexivity || lia). change (isCh "," ",") with true. cbv iota. rewrite pms_ws by reflexivity. rewrite IH; [reflexivity | discriminate | exact Fr | lia].
Qed.
Lemma parses_object : forall ms : list (text * text * json), Forall (fun e => Parses (snd (fst e)) (snd e)) ms ->
  Parses (T "{" ++ join (map (fun e => member (fst (fst e)) (snd (fst e))) ms) ++ T "}") (jobj (map (fun e => (fst (fst e), snd e)) ms)).
Proof.
  intros ms Fm n r L F. rewrite !app_length in L. change (length (T "{")) with 1%nat in L. change (length (T "}")) with 1%nat in L. destruct n as [|n]; [lia |]. destruct ms as [|((k, t), v) ms]; [reflexivity |].
  set (j := join _) in *. rewrite <- !app_assoc. change (T "{" ++ ?x) with ("{"%char :: x). change (T "}" ++ r) with ("}"%char :: r). cbn [pv ws]. change (isWs "{") with false. cbv iota. change (isCh "{" """") with false. change (isCh "{" "[") with false. change (isCh "{" "{") with true. cbv iota.
  assert (X : exists q, j = """"%char :: q) by (unfold j; cbn [map fst snd]; unfold member at 1, escapeJSONString; destruct (map _ ms); eexists; reflexivity).
  destruct X as (q & X). assert (W : ws (j ++ "}"%char :: r) = j ++ "}"%char :: r) by (rewrite X; reflexivity). rewrite W, X. cbn [app]. change (isCh """" "}") with false. cbv iota.
  change (""""%char :: q ++ "}"%char :: r) with ((""""%char :: q) ++ "}"%char :: r). rewrite <- X. unfold j. rewrite pms_join; [reflexivity | discriminate | exact Fm | fold j; lia].
Qed.
(** ** Property maps *)
Lemma escape_binary : forall s, """"%char :: T "[binary data size: " ++ dec (Z.of_nat (length s)) ++ T "]" ++ [""""%char] = escapeJSONString (binary s).
Proof.
  assert (X : forall t, forallb (fun c => (32 <=? code c) && negb (isCh c """") && negb (isCh c "\")) t = true -> flat_map escapeChar t = t).
  { induction t as [|c t IH]; intros E; [reflexivity |]. cbn [forallb] in E. apply andb_true_iff in E. destruct E as (A & B). cbn [flat_map]. rewrite IH by exact B. change (c :: t) with ([c] ++ t). f_equal. clear -A. revert A. destruct c as [[] [] [] [] [] [] [] []]; vm_compute; congruence. }
  intros s. unfold escapeJSONString, binary. rewrite X.
  - rewrite <- !app_assoc. reflexivity.
  - rewrite !forallb_app. apply andb_true_iff. split; [reflexivity |]. apply andb_true_iff. split; [| reflexivity]. pose proof (dec_numChar (Z.of_nat (length s))) as D. rewrite forallb_forall in D |- *. intros c I. specialize (D c I). clear -D. revert D. destruct c as [[] [] [] [] [] [] [] []]; vm_compute; congruence.
Qed.
Lemma parses_data : forall e, (fst e = hUtf8 -> ~ In (chr 0) (snd e)) -> Parses (dataText (fst e) (snd e)) (jstr (if shown (fst e) (snd e) then snd e else binary (snd e))).
Proof.
  intros (h, s) N. cbn [fst snd] in *. unfold dataText. rewrite isAsciiPrintable_spec. destruct (shown h s) eqn:S; unfold shown in S.
  - rewrite S. rewrite cstr_id; [apply parses_string |]. destruct h; [apply andb_true_iff in S; apply printable_nonul; tauto | discriminate | apply N; reflexivity].
  - rewrite S. rewrite escape_binary. apply parses_string.
Qed.
Lemma mapO_map : forall {A B} (f : A -> outcome B) (g : A -> B) l, Forall (fun x => f x = Ok (g x)) l -> mapO f l = Ok (map g l).
Proof. intros A B f g l. induction 1 as [|x l E F IH]; [reflexivity |]. cbn [mapO map]. rewrite E. unfold obind at 1. rewrite IH. reflexivity. Qed.
Definition flText (f : fl) : text := match f with Fin t => t | _ => [] end.
Lemma F2_map : forall {A} (f : A -> text) (g : A -> json) l, Forall (fun x => Parses (f x) (g x)) l -> Forall2 Parses (map f l) (map g l).
Proof. intros A f g l. induction 1; cbn [map]; constructor; assumption. Qed.
Lemma arr_list : forall (ts : list text) vs, Forall2 Parses ts vs -> Parses (match length ts with O => T "null" | n => if (1 <? n)%nat then T "[" ++ join ts ++ T "]" else join ts end) (valueOf vs).
Proof.
  intros ts vs P. destruct P as [|t v ts vs P1 P]; [exact parses_null |]. destruct P as [|u w ts vs P2 P]; [exact P1 |]. cbn [length]. change (1 <? S (S (length ts)))%nat with true. cbv iota. cbn [valueOf]. apply parses_array; [repeat constructor; assumption | discriminate].
Qed.
Lemma arr_ok : forall a, properArr a -> exists t, arrText a = Ok t /\ Parses t (valueOf (elements a)).
Proof.
  intros a P.
  assert (X : forall A (f : A -> text) (g : A -> json) (l : list A), Forall (fun x => Parses (f x) (g x)) l -> exists t, match length l with O => Ok (T "null") | n => obind (Ok (join (map f l))) (fun t => Ok (if (1 <? n)%nat then T "[" ++ t ++ T "]" else t)) end = Ok t /\ Parses t (valueOf (map g l))).
  { intros A f g l Fl. pose proof (arr_list _ _ (F2_map f g l Fl)) as Q. rewrite map_length in Q. unfold obind. eexists. split; [| exact Q]. destruct (length l); reflexivity. }
  destruct a as [l | l | l | n]; cbn [properArr] in P; unfold arrText; cbn [numElems elements].
  - apply X. apply Forall_forall. intros v _. apply parses_number; [apply dec_isNumber | apply dec_numChar].
  - rewrite (mapO_map doubleToString flText l).
    + apply (X _ flText flNum). eapply Forall_impl; [| exact P]. intros [t| |] Pf; cbn [properFl] in Pf; [| destruct Pf ..]. cbn [flText flNum]. apply parses_number; tauto.
    + eapply Forall_impl; [| exact P]. intros [t| |] Pf; cbn [properFl] in Pf; [| destruct Pf ..]. cbn [doubleToString flText]. destruct (Nat.ltb_spec 100 (length t)); [lia | reflexivity].
  - apply X. eapply Forall_impl; [| exact P]. intros e Pe. apply parses_data. exact Pe.
  - subst n. exists (T "null"). split; [reflexivity | exact parses_null].
Qed.
Lemma map_ok : forall m, properMap m -> exists t, convertVSMapToJSON m = Ok t /\ Parses t (objOf m).
Proof.
  intros m P. assert (X : exists ms : list (text * text * json), Forall (fun e => Parses (snd (fst e)) (snd e)) ms /\ mapO (fun e => obind (arrText (snd e)) (fun v => Ok (escapeJSONString (fst e) ++ T ": " ++ v))) m = Ok (map (fun e => member (fst (fst e)) (snd (fst e))) ms)
     /\ map (fun e => (fst (fst e), snd e)) ms = map (fun e => (fst e, valueOf (elements (snd e)))) m).
  { induction P as [|(k, a) m Pa P IH]; [exists []; repeat split; constructor |]. destruct IH as (ms & F & E1 & E2). cbn [snd] in Pa. destruct (arr_ok a Pa) as (t & Ea & Pt). exists ((k, t, valueOf (elements a)) :: ms). split; [constructor; assumption |].
    split; [| cbn [map fst snd]; rewrite E2; reflexivity]. cbn [mapO snd fst]. rewrite Ea. cbn [obind]. unfold obind in E1 |- *. rewrite E1. reflexivity. }
  destruct X as (ms & F & E1 & E2). unfold convertVSMapToJSON. rewrite E1. cbn [obind]. eexists. split; [reflexivity |]. unfold objOf. rewrite <- E2. apply parses_object. exact F.
Qed.
Lemma map_parses : forall m, properMap m -> exists t, convertVSMapToJSON m = Ok t /\ parse t = Some (objOf m).
Proof.
  intros m P. destruct (map_ok m P) as (t & E & Pt). exists t. split; [exact E |]. unfold parse. specialize (Pt (S (length t)) [] ltac:(lia) I). rewrite app_nil_r in Pt. rewrite Pt. reflexivity.
Qed.
(** ** The file *)
Lemma lines_parse : forall ts vs, Forall2 Parses ts vs -> ts <> [] -> forall n r, (S (length (frameLines ts)) <= n)%nat -> pes n (frameLines ts ++ "]"%char :: r) = Some (vs, r).
Proof.
  induction 1 as [|t v ts vs P Ps IH]; intros N n r L; [congruence |]. destruct n as [|n]; [lia |]. cbn [frameLines]. change ((chr 9 :: ?a) ++ ?b) with (chr 9 :: (a ++ b)). rewrite pes_ws by reflexivity. cbn [pes]. rewrite <- !app_assoc.
  assert (Lt : (length t <= n)%nat) by (cbn [frameLines length] in L; rewrite !app_length in L; lia).
  destruct Ps as [|u w ts vs Pu Ps].
  - cbn [app frameLines]. rewrite P by (assumption || reflexivity). reflexivity.
  - change (T "," ++ ?x) with (","%char :: x). rewrite P; [| exact Lt | reflexivity]. cbn [ws]. change (isWs ",") with false. cbv iota. change (isCh "," ",") with true. cbv iota. change ((chr 10 :: ?a) ++ ?b) with (chr 10 :: (a ++ b)). rewrite pes_ws by reflexivity.
    rewrite IH; [reflexivity | discriminate |]. clear -L. cbn [frameLines length] in L |- *. rewrite !app_length in L |- *. cbn [length] in L |- *. rewrite !app_length in L. cbn [length] in L. lia.
Qed.
Lemma file_parses : forall frames, frames <> [] -> Forall properMap frames -> exists t, jsonFile frames = Ok t /\ parse t = Some (jarr (map objOf frames)).
Proof.
  intros frames N F. assert (X : exists ts, mapO convertVSMapToJSON frames = Ok ts /\ Forall2 Parses ts (map objOf frames)).
  { clear N. induction F as [|m l P F IH]; [exists []; split; constructor |]. destruct IH as (ts & E & Q). destruct (map_ok m P) as (t & Et & Pt). exists (t :: ts). cbn [mapO map]. rewrite Et. cbn [obind]. rewrite E. split; [reflexivity | constructor; assumption]. }
  destruct X as (ts & E & Q). assert (Nt : ts <> []) by (intros ->; destruct frames; [congruence | inversion Q]). unfold jsonFile. rewrite E. cbn [obind]. eexists. split; [reflexivity |]. unfold parse.
  pose proof (lines_parse _ _ Q Nt) as Pl. set (body := frameLines ts) in *.
  change (length ("["%char :: chr 10 :: body ++ ["]"%char; chr 10])) with (S (S (length (body ++ ["]"%char; chr 10])))). rewrite app_length. change (length ["]"%char; chr 10]) with 2%nat.
  assert (V : pv (S (S (S (length body + 2)))) ("["%char :: chr 10 :: body ++ ["]"%char; chr 10]) = Some (jarr (map objOf frames), [chr 10])).
  { remember (S (S (length body + 2))) as n eqn:En. cbn [pv ws]. change (isWs "[") with false. cbv iota. change (isCh "[" """") with false. change (isCh "[" "[") with true. cbv iota. change (isWs (chr 10)) with true. cbv iota.
    assert (Pn : pes n (body ++ ["]"%char; chr 10]) = Some (map objOf frames, [chr 10])) by (apply Pl; lia).
    assert (X : exists d q, ws (body ++ ["]"%char; chr 10]) = d :: q /\ isCh d "]" = false).
    { destruct n as [|n]; [discriminate |]. cbn [pes] in Pn. destruct (pv n (body ++ ["]"%char; chr 10])) as [p|] eqn:Ep; [| discriminate]. exact (pv_start _ _ _ Ep). }
    destruct X as (d & q & X & D). change (ws (chr 10 :: ?x)) with (ws x). rewrite X, D, pes_ws by reflexivity. rewrite Pn. reflexivity. }
  rewrite V. reflexivity.
Qed.
(** ** What cannot be written *)
Lemma not_json : forall k, parse (match convertVSMapToJSON [(k, Handles 1)] with Ok t => t | _ => [] end) = None /\ parse (match convertVSMapToJSON [(k, Floats [NaN false])] with Ok t => t | _ => [] end) = None.
Proof.
  intros k. assert (X : forall t v n, parse (T "{" ++ member k t ++ T "}") = v -> n = 0%nat -> parse (T "{" ++ member k t ++ T "}") = v) by auto.
  assert (Y : forall t, pv (length (member k t) + 1) (" "%char :: t ++ T "}") = None -> parse (T "{" ++ member k t ++ T "}") = None).
  { intros t E. unfold parse. rewrite !app_length. change (length (T "{")) with 1%nat. change (length (T "}")) with 1%nat. change (T "{" ++ ?x) with ("{"%char :: x).
    replace (S (1 + (length (member k t) + 1))) with (S (S (length (member k t) + 1))) by lia. remember (length (member k t) + 1)%nat as n eqn:En.
    unfold member, escapeJSONString. rewrite <- !app_assoc. change ((""""%char :: ?a) ++ ?b) with (""""%char :: (a ++ b)). rewrite <- !app_assoc. change ([""""%char] ++ ?b) with (""""%char :: b). change (T ": " ++ ?x) with (":"%char :: " "%char :: x).
    assert (P : pms (S n) (""""%char :: flat_map escapeChar k ++ """"%char :: ":"%char :: " "%char :: t ++ T "}") = None).
    { cbn [pms ws]. change (isWs """") with false. cbv iota. change (isCh """" """") with true. cbv iota. rewrite str_spec. cbn [ws]. change (isWs ":") with false. cbv iota. change (isCh ":" ":") with true. cbv iota. rewrite E. reflexivity. }
    remember (S n) as n1. cbn [pv ws]. change (isWs "{") with false. cbv iota. change (isCh "{" """") with false. change (isCh "{" "[") with false. change (isCh "{" "{") with true. change (isWs """") with false. cbv iota. change (isCh """" "}") with false. cbv iota. rewrite P. reflexivity. }
  split.
  - change (parse (T "{" ++ member k [] ++ T "}") = None). apply Y. rewrite pv_ws by reflexivity. rewrite Nat.add_1_r. reflexivity.
  - change (parse (T "{" ++ member k (T "nan") ++ T "}") = None). apply Y. rewrite pv_ws by reflexivity. rewrite Nat.add_1_r. reflexivity.
Qed.
Lemma cut_short : forall a b, parse (match convertVSMapToJSON [(T "k", Datas [(hUtf8, a ++ chr 0 :: b)])] with Ok t => t | _ => [] end) = Some (jobj [(T "k", jstr (cstr a))]).
Proof.
  intros a b. assert (C : cstr (a ++ chr 0 :: b) = cstr a) by (induction a as [|c a IH]; [reflexivity |]; cbn [app cstr]; rewrite IH; reflexivity).
  assert (N : ~ In (chr 0) (cstr a)).
  { clear C. induction a as [|c a IH]; [intros [] |]. cbn [cstr]. destruct (Z.eqb_spec (code c) 0) as [E | E]; [intros [] |]. intros [X | X]; [subst c; apply E; reflexivity | exact (IH X)]. }
  destruct (map_parses [(T "k", Datas [(hUtf8, cstr a)])]) as (t & E & P); [repeat constructor; intros _; exact N |].
  replace (convertVSMapToJSON [(T "k", Datas [(hUtf8, a ++ chr 0 :: b)])]) with (convertVSMapToJSON [(T "k", Datas [(hUtf8, cstr a)])]); [rewrite E; exact P |].
  unfold convertVSMapToJSON, arrText, dataText. cbn [numElems length map mapO fst snd obind join]. rewrite C, (cstr_id (cstr a) N). reflexivity.
Qed.
Lemma too_long : forall t k, (100 < length t)%nat -> convertVSMapToJSON [(k, Floats [Fin t])] = UB.
Proof. intros t k L. unfold convertVSMapToJSON, arrText. cbn [numElems length mapO snd fst doubleToString]. destruct (Nat.ltb_spec 100 (length t)); [reflexivity | lia]. Qed.
Lemma audio_not_json : exists frames t, Forall properMap frames /\ jsonFileAudio frames = Ok t /\ parse t = None.
Proof. exists [[(T "a", Ints [1])]; [(T "a", Ints [2])]]. eexists. split; [repeat constructor |]. split; reflexivity. Qed.
(** ** UTF-8 *)
Definition okState (s : u8) : Prop := match s with Cont _ lo _ => 128 <= lo | _ => True end.
Lemma u8_ok : forall s c, okState s -> okState (u8Step s c).
Proof.
  intros s c O. destruct s as [|n lo hi|]; cbn [u8Step okState] in *; cbv zeta; [| | exact I].
  - repeat match goal with |- context [if ?b then _ else _] => destruct b end; cbn; lia || exact I.
  - destruct (_ && _); [destruct n; cbn; lia || exact I | exact I].
Qed.
Lemma u8_ascii : forall s c, okState s -> code c < 128 -> u8Step s c = match s with Start => Start | _ => Bad end.
Proof.
  intros s c O L. destruct s as [|n lo hi|]; cbn [u8Step okState] in *; cbv zeta; [| | reflexivity].
  - destruct (Z.ltb_spec (code c) 128); [reflexivity | lia].
  - destruct (Z.leb_spec lo (code c)); [lia | reflexivity].
Qed.
Lemma u8_asciis : forall t s, okState s -> t <> [] -> Forall (fun c => code c < 128) t -> u8Run s t = match s with Start => Start | _ => Bad end.
Proof.
  intros t s O N F. destruct t as [|c t]; [congruence |]. inversion F as [|? ? A Fr]; subst. unfold u8Run. cbn [fold_left]. rewrite u8_ascii by assumption. clear -Fr. set (x := match s with Start => Start | _ => Bad end). assert (X : x = Start \/ x = Bad) by (unfold x; destruct s; auto). clearbody x.
  revert x X. induction Fr as [|d t A Fr IH]; intros x X; [reflexivity |]. cbn [fold_left]. rewrite u8_ascii by (exact A || destruct X as [-> | ->]; exact I). destruct X as [-> | ->]; apply IH; auto.
Qed.
Lemma escape_shape : forall c, (code c < 128 /\ escapeChar c <> [] /\ forallb (fun x => code x <? 128) (escapeChar c) = true) \/ escapeChar c = [c].
Proof. intros c. destruct (Z.ltb_spec (code c) 128) as [L | L]; [left | right]; revert L; destruct c as [[] [] [] [] [] [] [] []]; vm_compute; intros L; try (exfalso; apply L; reflexivity); try discriminate L; try reflexivity; split; try reflexivity; split; try reflexivity; discriminate. Qed.
Lemma u8_escape : forall t s, okState s -> u8Run s (flat_map escapeChar t) = u8Run s t.
Proof.
  induction t as [|c t IH]; intros s O; [reflexivity |]. cbn [flat_map]. unfold u8Run in *. rewrite fold_left_app. cbn [fold_left]. destruct (escape_shape c) as [(L & N & A) | ->]; [| cbn [fold_left]; apply IH, u8_ok, O].
  assert (F : Forall (fun x => code x < 128) (escapeChar c)) by (apply Forall_forall; intros x I; rewrite forallb_forall in A; specialize (A x I); lia).
  pose proof (u8_asciis _ s O N F) as X. unfold u8Run in X. rewrite X, u8_ascii by assumption. apply IH. destruct s; exact I.
Qed.
Lemma utf8_app : forall a b, isUtf8 a -> isUtf8 b -> isUtf8 (a ++ b).
Proof. intros a b A B. unfold isUtf8, u8Run in *. rewrite fold_left_app, A. exact B. Qed.
Lemma utf8_ascii : forall t, Forall (fun c => code c < 128) t -> isUtf8 t.
Proof. intros [|c t] F; [reflexivity |]. unfold isUtf8. rewrite (u8_asciis _ Start I); [reflexivity | discriminate | exact F]. Qed.
Lemma utf8_string : forall s, isUtf8 (escapeJSONString s) <-> isUtf8 s.
Proof.
  intros s. unfold escapeJSONString, isUtf8 at 1, u8Run. change (""""%char :: ?x ++ ?y) with ([""""%char] ++ x ++ y). rewrite !fold_left_app. change (fold_left u8Step [""""%char] Start) with Start. fold (u8Run Start (flat_map escapeChar s)). rewrite u8_escape by exact I. cbn [fold_left].
  assert (O : okState (u8Run Start s)) by (assert (G : forall t x, okState x -> okState (u8Run x t)) by (induction t as [|c t IH]; intros x Ox; [exact Ox | unfold u8Run; cbn [fold_left]; apply IH, u8_ok, Ox]); apply G; exact I).
  unfold isUtf8. rewrite u8_ascii by (exact O || reflexivity). destruct (u8Run Start s); split; congruence.
Qed.
Lemma utf8_join : forall l, Forall isUtf8 l -> isUtf8 (join l).
Proof.
  induction 1 as [|t l Ht F IH]; [reflexivity |]. destruct l as [|u l]; [exact Ht |]. rewrite join_cons by discriminate. apply utf8_app; [exact Ht |]. apply utf8_app; [reflexivity | exact IH].
Qed.
Lemma num_ascii : forall t, forallb numChar t = true -> isUtf8 t.
Proof. intros t A. apply utf8_ascii. apply Forall_forall. intros c I. rewrite forallb_forall in A. specialize (A c I). clear -A. revert A. destruct c as [[] [] [] [] [] [] [] []]; vm_compute; congruence. Qed.
Lemma ok_inj : forall {A} (a b : A), Ok a = Ok b -> a = b. Proof. intros A a b E. injection E. auto. Qed.
Lemma utf8_map : forall m t, properMap m -> utf8Map m -> convertVSMapToJSON m = Ok t -> isUtf8 t.
Proof.
  intros m t P U E.
  assert (A : forall a, properArr a -> match a with Datas l => Forall (fun d => shown (fst d) (snd d) = true -> isUtf8 (snd d)) l | _ => True end -> forall t, arrText a = Ok t -> isUtf8 t).
  { intros a Pa Ua t' Ea.
    assert (W : forall l : list text, Forall isUtf8 l -> forall n, match n with O => Ok (T "null") | S k => obind (Ok (join l)) (fun t => Ok (if (1 <? S k)%nat then T "[" ++ t ++ T "]" else t)) end = Ok t' -> isUtf8 t').
    { intros l Fl n En. destruct n as [|n]; [injection En as <-; reflexivity |]. cbn [obind] in En. apply ok_inj in En. rewrite <- En. apply utf8_join in Fl. destruct (1 <? S n)%nat; [| exact Fl]. apply utf8_app; [reflexivity |]. apply utf8_app; [exact Fl | reflexivity]. }
    destruct a as [l | l | l | n]; cbn [properArr] in Pa; unfold arrText in Ea; cbn [numElems] in Ea.
    - refine (W _ _ _ Ea). apply Forall_forall. intros x I. apply in_map_iff in I. destruct I as (v & <- & _). apply num_ascii, dec_numChar.
    - rewrite (mapO_map doubleToString flText l) in Ea by (eapply Forall_impl; [| exact Pa]; intros [x| |] Pf; cbn [properFl] in Pf; [| destruct Pf ..]; cbn [doubleToString flText]; destruct (Nat.ltb_spec 100 (length x)); [lia | reflexivity]).
      refine (W _ _ _ Ea). apply Forall_forall. intros x I. apply in_map_iff in I. destruct I as (f & <- & I). rewrite Forall_forall in Pa. specialize (Pa f I). destruct f as [x| |]; cbn [properFl] in Pa; [| destruct Pa ..]. apply num_ascii. tauto.
    - refine (W _ _ _ Ea). apply Forall_forall. intros x I. apply in_map_iff in I. destruct I as ((h, s) & <- & I). rewrite Forall_forall in Pa, Ua. specialize (Pa _ I). specialize (Ua _ I). cbn [fst snd] in *. unfold dataText. rewrite isAsciiPrintable_spec. destruct (shown h s) eqn:Sh; unfold shown in Sh; rewrite Sh.
      + apply utf8_string. rewrite cstr_id; [apply Ua; reflexivity |]. destruct h; [apply andb_true_iff in Sh; apply printable_nonul; tauto | discriminate | apply Pa; reflexivity].
      + rewrite escape_binary. apply utf8_string. unfold binary. apply utf8_app; [reflexivity |]. apply utf8_app; [apply num_ascii, dec_numChar | reflexivity].
    - subst n. injection Ea as <-. reflexivity. }
  unfold convertVSMapToJSON in E. destruct (mapO _ m) as [l| |] eqn:El; try discriminate E. cbn [obind] in E. apply ok_inj in E. rewrite <- E. apply utf8_app; [reflexivity |]. apply utf8_app; [| reflexivity]. apply utf8_join.
  clear -A P U El. revert l El. induction m as [|(k, a) m IH]; intros l El; [injection El as <-; constructor |]. inversion P; subst. inversion U as [|? ? (Uk & Ua) Ur]; subst. cbn [snd fst] in *. cbn [mapO snd fst] in El. destruct (arrText a) as [v| |] eqn:Ea; try discriminate El. cbn [obind] in El. destruct (mapO _ m) as [r| |]; try discriminate El. apply ok_inj in El. rewrite <- El.
  constructor; [| apply IH; auto]. apply utf8_app; [apply utf8_string; exact Uk |]. apply utf8_app; [reflexivity |]. eapply A; eassumption.
Qed.

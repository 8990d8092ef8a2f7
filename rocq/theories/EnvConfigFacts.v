(** Lookups in the configuration of vsscript. *)
From Coq Require Import String Ascii ZArith List Bool Lia.
From Verif Require Import Common OptSpec OptLemmas EnvConfig EnvConfigSpec.
Import ListNotations.
Open Scope Z_scope.
Local Notation length := List.length.

Lemma textEqb_iff : forall a b, textEqb a b = true <-> a = b.
Proof.
  induction a as [|x a IH]; intros [|y b]; cbn [textEqb]; split; intros H; try reflexivity; try discriminate.
  - apply andb_true_iff in H. destruct H as (A & B). apply Ascii.eqb_eq in A. apply IH in B. congruence.
  - injection H as -> ->. rewrite Ascii.eqb_refl. apply IH. reflexivity.
Qed.

(** ** Strings written are read back *)
Definition body (s : text) : text := flat_map (fun c => if Ascii.eqb c bsl then [bsl; bsl] else [c]) s.
Lemma unescape_body : forall s, unescape false (body s) = s.
Proof.
  induction s as [|c s IH]; [reflexivity|]. unfold body in *. cbn [flat_map]. destruct (Ascii.eqb_spec c bsl) as [-> | N]; cbn [app unescape negb andb].
  - rewrite Ascii.eqb_refl. cbn [unescape negb andb]. rewrite IH. reflexivity.
  - destruct (Ascii.eqb_spec c bsl); [contradiction|]. rewrite IH. reflexivity.
Qed.
Lemma body_in : forall s c, In c (body s) -> In c s.
Proof.
  induction s as [|x s IH]; intros c I; [destruct I|]. unfold body in *. cbn [flat_map] in I. apply in_app_or in I. destruct I as [I | I]; [left | right; apply IH; exact I].
  destruct (Ascii.eqb_spec x bsl) as [-> | N]; cbn [In] in I; intuition congruence.
Qed.
Lemma findCh_skip : forall c a b, ~ In c a -> findCh c (a ++ c :: b) = Some (length a).
Proof.
  induction a as [|x a IH]; intros b N; cbn [app findCh].
  - rewrite Ascii.eqb_refl. reflexivity.
  - destruct (Ascii.eqb_spec x c) as [-> | D]; [exfalso; apply N; left; reflexivity|]. rewrite IH; [reflexivity|]. intros I. apply N. right. exact I.
Qed.
Lemma skipn_len : forall (a b : text) n, n = length a -> skipn n (a ++ b) = b.
Proof. intros a b n ->. rewrite skipn_app, skipn_all, Nat.sub_diag. reflexivity. Qed.
Lemma toml_read : forall pre mid s rest, ~ In qt mid -> ~ In qt s ->
  tomlString (pre ++ mid ++ escapeToml s ++ rest) (length pre) = (s, length (pre ++ mid ++ escapeToml s)).
Proof.
  intros pre mid s rest M S. unfold escapeToml. fold (body s).
  assert (B : ~ In qt (body s)) by (intros I; apply S, body_in, I).
  unfold tomlString, findAt. rewrite skipn_len by reflexivity. cbn [app]. rewrite findCh_skip by exact M. cbn [option_map].
  assert (L1 : skipn (Datatypes.S (length pre + length mid)) (pre ++ mid ++ qt :: (body s ++ [qt]) ++ rest) = body s ++ qt :: rest).
  { replace (pre ++ mid ++ qt :: (body s ++ [qt]) ++ rest) with ((pre ++ mid ++ [qt]) ++ body s ++ qt :: rest).
    - apply skipn_len. rewrite !app_length. cbn [length]. lia.
    - repeat rewrite <- app_assoc. cbn [app]. reflexivity. }
  rewrite L1, findCh_skip by exact B. cbn [option_map].
  replace (Datatypes.S (length pre + length mid) + length (body s) - (length pre + length mid) - 1)%nat with (length (body s)) by lia.
  rewrite firstn_app, firstn_all, Nat.sub_diag. cbn [firstn]. rewrite app_nil_r, unescape_body. f_equal.
  rewrite !app_length. cbn [length]. rewrite app_length. cbn [length]. lia.
Qed.

(** ** Numbers *)
Lemma digits_leading : forall t acc v, digits acc t = Some v -> leadingDigits acc t = v.
Proof.
  induction t as [|c r IH]; intros acc v H; cbn [digits leadingDigits] in *; [congruence|]. unfold digit in H. cbv zeta in *.
  destruct ((48 <=? Z.of_nat (nat_of_ascii c)) && (Z.of_nat (nat_of_ascii c) <=? 57)); [|discriminate]. apply IH. exact H.
Qed.
Lemma digits_chars : forall t acc v, digits acc t = Some v -> forall c, In c t -> 48 <= Z.of_nat (nat_of_ascii c) <= 57.
Proof.
  induction t as [|x r IH]; intros acc v H c I; [destruct I|]. cbn [digits] in H. unfold digit in H. cbv zeta in H.
  destruct ((48 <=? Z.of_nat (nat_of_ascii x)) && (Z.of_nat (nat_of_ascii x) <=? 57)) eqn:E; [|discriminate].
  destruct I as [<- | I]; [apply andb_true_iff in E; destruct E as (A & B); apply Z.leb_le in A, B; lia | exact (IH _ _ H c I)].
Qed.
Lemma dec_plainText : forall v, plainText (dec v).
Proof.
  intros v. pose proof (dec_number v) as H. unfold numberOf in H. destruct (dec v) as [|x r]; [discriminate|].
  assert (K : forall c, In c (x :: r) -> c = "-"%char \/ 48 <= Z.of_nat (nat_of_ascii c) <= 57).
  { destruct (Ascii.eqb_spec x "-") as [-> | N].
    - intros c [<- | I]; [left; reflexivity | right]. destruct (natural r) as [w|] eqn:W; [|discriminate]. unfold natural in W. destruct r as [|y r]; [discriminate|]. exact (digits_chars _ _ _ W c I).
    - intros c I. right. exact (digits_chars _ _ _ H c I). }
  split; intros I; destruct (K _ I) as [E | E]; try discriminate E; cbv in E; destruct E as (A & _); apply A; reflexivity.
Qed.
Lemma atoll_dec : forall v, fits64 v -> atoll (dec v) = Ok v.
Proof.
  intros v F. pose proof (dec_number v) as H. unfold numberOf in H. unfold atoll. destruct (dec v) as [|x r]; [discriminate|].
  assert (FB : (- 2 ^ 63 <=? v) && (v <? 2 ^ 63) = true) by (unfold fits64 in F; apply andb_true_iff; split; [apply Z.leb_le | apply Z.ltb_lt]; lia).
  destruct (Ascii.eqb_spec x "-") as [-> | N].
  - change (skipSpace ("-"%char :: r)) with ("-"%char :: r). cbn [Ascii.eqb Bool.eqb]. destruct (natural r) as [w|] eqn:W; [|discriminate]. injection H as H.
    unfold natural in W. destruct r as [|y r]; [discriminate|]. rewrite (digits_leading _ _ _ W), H. cbv zeta. rewrite FB. reflexivity.
  - assert (D : 48 <= Z.of_nat (nat_of_ascii x) <= 57) by (unfold natural in H; apply (digits_chars _ _ _ H x); left; reflexivity).
    assert (SK : skipSpace (x :: r) = x :: r).
    { cbn [skipSpace]. cbv zeta. destruct (Z.eqb_spec (Z.of_nat (nat_of_ascii x)) 32); [lia|]. destruct (Z.leb_spec (Z.of_nat (nat_of_ascii x)) 13); [lia|]. rewrite andb_false_r. reflexivity. }
    rewrite SK. destruct (Ascii.eqb_spec x "-"); [contradiction|]. destruct (Ascii.eqb_spec x "+") as [-> | P]; [cbv in D; destruct D as (A & _); exfalso; apply A; reflexivity|].
    unfold natural in H. rewrite (digits_leading _ _ _ H). cbv zeta. rewrite FB. reflexivity.
Qed.

(** ** Lines *)
Lemma getLines_line : forall l r, ~ In nl l -> getLines (l ++ nl :: r) = l :: getLines r.
Proof.
  induction l as [|c l IH]; intros r N; cbn [app getLines]; [rewrite Ascii.eqb_refl; reflexivity|].
  destruct (Ascii.eqb_spec c nl) as [-> | D]; [exfalso; apply N; left; reflexivity|]. rewrite IH; [reflexivity|]. intros I. apply N. right. exact I.
Qed.
Definition entryOf (i : install) : entry := mkE (i_lib i) (i_exe i) (i_sym i) (dec (i_time i)).
Lemma escape_nl : forall s, ~ In nl s -> ~ In nl (escapeToml s).
Proof.
  intros s N. unfold escapeToml. fold (body s). intros [I | I]; [discriminate I|]. apply in_app_or in I. destruct I as [I | [I | []]]; [apply N, body_in, I | discriminate I].
Qed.
Lemma line_nl : forall i, plainInstall i -> ~ In nl (lineOf (entryOf i)).
Proof.
  intros i ((_ & A) & (_ & B) & (_ & C) & _). destruct (dec_plainText (i_time i)) as (_ & D). unfold lineOf, entryOf. cbn [e_key e_exe e_sym e_stamp].
  intros I. repeat (apply in_app_or in I; destruct I as [I | I]);
    try (revert I; apply escape_nl; assumption); cbn in I; repeat (destruct I as [I | I]; [discriminate I|]); destruct I.
Qed.
Lemma getLines_file : forall l, Forall plainInstall l -> getLines (fileOf (map entryOf l)) = map (fun i => lineOf (entryOf i)) l.
Proof.
  induction l as [|i l IH]; intros F; [reflexivity|]. inversion F as [|? ? P Q]; subst. unfold fileOf in *. cbn [map flat_map]. rewrite <- app_assoc. cbn [app].
  rewrite getLines_line by (apply line_nl; exact P). rewrite IH by exact Q. reflexivity.
Qed.
Lemma line_strings : forall i, plainInstall i -> let l := lineOf (entryOf i) in let s1 := tomlString l 0 in let s2 := tomlString l (snd s1) in let s3 := tomlString l (snd s2) in
  fst s1 = i_lib i /\ fst s2 = i_exe i /\ fst s3 = i_sym i /\ fst (tomlString l (snd s3)) = dec (i_time i).
Proof.
  intros i ((A & _) & (B & _) & (C & _) & _). destruct (dec_plainText (i_time i)) as (D & _). unfold lineOf, entryOf. cbn [e_key e_exe e_sym e_stamp]. cbv zeta.
  set (k := i_lib i) in *. set (e := i_exe i) in *. set (s := i_sym i) in *. set (d := dec (i_time i)) in *.
  assert (M1 : ~ In qt (T " = [")) by (cbn; intuition discriminate). assert (M2 : ~ In qt (T ",")) by (cbn; intuition discriminate).
  set (l := escapeToml k ++ T " = [" ++ escapeToml e ++ T "," ++ escapeToml s ++ T "," ++ escapeToml d ++ T "]").
  assert (E1 : tomlString l 0 = (k, length (escapeToml k))).
  { exact (toml_read [] [] k _ (fun x => x) A). }
  assert (E2 : tomlString l (length (escapeToml k)) = (e, length (escapeToml k ++ T " = [" ++ escapeToml e))).
  { exact (toml_read (escapeToml k) (T " = [") e _ M1 B). }
  assert (E3 : tomlString l (length (escapeToml k ++ T " = [" ++ escapeToml e)) = (s, length ((escapeToml k ++ T " = [" ++ escapeToml e) ++ T "," ++ escapeToml s))).
  { etransitivity; [|exact (toml_read (escapeToml k ++ T " = [" ++ escapeToml e) (T ",") s (T "," ++ escapeToml d ++ T "]") M2 C)]. f_equal. unfold l. repeat rewrite <- app_assoc. reflexivity. }
  assert (E4 : tomlString l (length ((escapeToml k ++ T " = [" ++ escapeToml e) ++ T "," ++ escapeToml s)) = (d, length (((escapeToml k ++ T " = [" ++ escapeToml e) ++ T "," ++ escapeToml s) ++ T "," ++ escapeToml d))).
  { etransitivity; [|exact (toml_read ((escapeToml k ++ T " = [" ++ escapeToml e) ++ T "," ++ escapeToml s) (T ",") d (T "]") M2 D)]. f_equal. unfold l. repeat rewrite <- app_assoc. reflexivity. }
  rewrite E1. cbn [snd fst]. rewrite E2. cbn [snd fst]. rewrite E3. cbn [snd fst]. rewrite E4. repeat split.
Qed.

(** ** Lookups *)
Lemma readLines_cons : forall mtime key line tl r, line = qt :: tl -> readLines mtime key (line :: r) =
  let s1 := tomlString line 0 in
  if textEqb (fst s1) key then
    let s2 := tomlString line (snd s1) in let s3 := tomlString line (snd s2) in let s4 := tomlString line (snd s3) in
    obind (atoll (fst s4)) (fun t => if t =? mtime (fst s2) then Ok (fst s2, fst s3) else readLines mtime key r)
  else readLines mtime key r.
Proof. intros mtime key line tl r ->. reflexivity. Qed.
Lemma read_found : forall mtime l lib, Forall plainInstall l ->
  exists answer, readEnvConfig mtime (Some (fileOf (map entryOf l))) lib = Ok answer /\ found mtime l lib answer.
Proof.
  intros mtime l lib F. unfold readEnvConfig. rewrite getLines_file by exact F. induction l as [|i l IH]; [exists ([], []); split; [reflexivity | right; split; [intros x [] | reflexivity]]|].
  inversion F as [|? ? P Q]; subst. destruct (IH Q) as (w & R & W). clear IH. cbn [map].
  destruct (line_strings i P) as (S1 & S2 & S3 & S4).
  assert (LN : exists tl, lineOf (entryOf i) = qt :: tl) by (eexists; reflexivity). destruct LN as (tl & LN).
  rewrite (readLines_cons mtime lib _ tl _ LN). cbv zeta. rewrite S1. destruct (textEqb (i_lib i) lib) eqn:K.
  - apply textEqb_iff in K. rewrite S2, S3, S4. rewrite atoll_dec by apply P. cbn [obind].
    destruct (Z.eqb_spec (i_time i) (mtime (i_exe i))) as [E | E].
    + eexists. split; [reflexivity|]. left. exists [], i, l. repeat split; [exact K | symmetry; exact E | intros x []].
    + exists w. split; [exact R|]. destruct W as [(a & j & b & -> & A & B & C & D) | (A & B)].
      * left. exists (i :: a), j, b. repeat split; try assumption. intros x [<- | I] X; [congruence | exact (D x I X)].
      * right. split; [|exact B]. intros x [<- | I] X; [congruence | exact (A x I X)].
  - assert (N : i_lib i <> lib) by (intros X; apply textEqb_iff in X; congruence). exists w. split; [exact R|].
    destruct W as [(a & j & b & -> & A & B & C & D) | (A & B)].
    + left. exists (i :: a), j, b. repeat split; try assumption. intros x [<- | I] X; [contradiction | exact (D x I X)].
    + right. split; [|exact B]. intros x [<- | I] X; [contradiction | exact (A x I X)].
Qed.

(** ** Keys *)
Lemma startsWith_iff : forall p t, startsWith p t = true <-> exists r, t = p ++ r.
Proof.
  induction p as [|x p IH]; intros t; cbn [startsWith]; [split; [intros _; exists t; reflexivity | reflexivity]|].
  destruct t as [|y t]; [split; [discriminate | intros (r & E); discriminate E]|]. rewrite andb_true_iff, Ascii.eqb_eq, IH. split.
  - intros (-> & r & ->). exists r. reflexivity.
  - intros (r & E). injection E as -> ->. split; [reflexivity | exists r; reflexivity].
Qed.
Lemma replace_none : forall t, ~ occursIn pat64 t -> replaceAll 0 t = t.
Proof.
  induction t as [|c r IH]; intros N; [reflexivity|]. cbn [replaceAll]. destruct (startsWith pat64 (c :: r)) eqn:S.
  - apply startsWith_iff in S. destruct S as (q & E). exfalso. apply N. exists [], q. exact E.
  - f_equal. apply IH. intros (x & y & ->). apply N. exists (c :: x), y. reflexivity.
Qed.
Lemma keys_agree : forall path, oneLib64 path -> mangleKey path = libraryPath path.
Proof.
  unfold mangleKey. induction path as [|c r IH]; intros O; [reflexivity|]. cbn [replaceAll libraryPath]. destruct (startsWith pat64 (c :: r)) eqn:S.
  - apply startsWith_iff in S. destruct S as (q & E). f_equal. rewrite E. pose proof (O [] q E) as N.
    assert (ER : r = T "lib64/" ++ q) by (cbn in E; injection E as _ E; exact E). rewrite ER. cbn. apply replace_none. exact N.
  - f_equal. apply IH. intros a b E. apply (O (c :: a) b). rewrite E. reflexivity.
Qed.

(** ** Configuring *)
Fixpoint setInstall (i : install) (l : list install) : list install :=
  match l with [] => [i] | x :: r => if textEqb (i_lib x) (i_lib i) then i :: r else x :: setInstall i r end.
Lemma set_entry : forall i l, setEntry (entryOf i) (map entryOf l) = map entryOf (setInstall i l).
Proof.
  induction l as [|x l IH]; [reflexivity|]. cbn [map setEntry setInstall]. change (e_key (entryOf x)) with (i_lib x). change (e_key (entryOf i)) with (i_lib i).
  destruct (textEqb (i_lib x) (i_lib i)); [reflexivity|]. rewrite IH. reflexivity.
Qed.
Lemma set_plain : forall i l, plainInstall i -> Forall plainInstall l -> Forall plainInstall (setInstall i l).
Proof.
  intros i l P F. induction F as [|x l Q F IH]; cbn [setInstall]; [constructor; [exact P | constructor]|]. destruct (textEqb _ _); constructor; assumption.
Qed.
Lemma set_split : forall i l, exists a b, setInstall i l = a ++ i :: b /\ (forall x, In x a -> i_lib x <> i_lib i) /\ (l = a \/ exists y, l = a ++ y :: b /\ i_lib y = i_lib i).
Proof.
  induction l as [|x l IH]; cbn [setInstall].
  - exists [], []. repeat split; [intros x [] | left; reflexivity].
  - destruct (textEqb (i_lib x) (i_lib i)) eqn:E.
    + apply textEqb_iff in E. exists [], l. repeat split; [intros y [] | right; exists x; split; [reflexivity | exact E]].
    + destruct IH as (a & b & A & B & C). exists (x :: a), b. rewrite A. repeat split.
      * intros y [<- | I] X; [apply textEqb_iff in X; congruence | exact (B y I X)].
      * destruct C as [-> | (y & -> & Y)]; [left; reflexivity | right; exists y; split; [reflexivity | exact Y]].
Qed.
Fixpoint pick (mtime : text -> Z) (l : list install) (lib : text) : text * text :=
  match l with [] => ([], []) | i :: r => if textEqb (i_lib i) lib && (i_time i =? mtime (i_exe i)) then (i_exe i, i_sym i) else pick mtime r lib end.
Lemma read_pick : forall mtime l lib, Forall plainInstall l -> readEnvConfig mtime (Some (fileOf (map entryOf l))) lib = Ok (pick mtime l lib).
Proof.
  intros mtime l lib F. unfold readEnvConfig. rewrite getLines_file by exact F. induction F as [|i l P F IH]; [reflexivity|].
  cbn [map pick]. destruct (line_strings i P) as (S1 & S2 & S3 & S4).
  assert (LN : exists tl, lineOf (entryOf i) = qt :: tl) by (eexists; reflexivity). destruct LN as (tl & LN).
  rewrite (readLines_cons mtime lib _ tl _ LN). cbv zeta. rewrite S1. destruct (textEqb (i_lib i) lib); cbn [andb]; [|exact IH].
  rewrite S2, S3, S4, atoll_dec by apply P. cbn [obind]. destruct (i_time i =? mtime (i_exe i)); [reflexivity | exact IH].
Qed.
Lemma textEqb_ne : forall a b, a <> b -> textEqb a b = false.
Proof. intros a b N. destruct (textEqb a b) eqn:E; [apply textEqb_iff in E; contradiction | reflexivity]. Qed.
Lemma textEqb_self : forall a, textEqb a a = true.
Proof. intros a. apply textEqb_iff. reflexivity. Qed.
Lemma pick_own : forall mtime i l, mtime (i_exe i) = i_time i -> pick mtime (setInstall i l) (i_lib i) = (i_exe i, i_sym i).
Proof.
  intros mtime i l M. assert (OK : forall r, pick mtime (i :: r) (i_lib i) = (i_exe i, i_sym i)) by (intros r; cbn [pick]; rewrite textEqb_self, M, Z.eqb_refl; reflexivity).
  induction l as [|x l IH]; cbn [setInstall]; [apply OK|]. destruct (textEqb (i_lib x) (i_lib i)) eqn:E; [apply OK|]. cbn [pick]. rewrite E. exact IH.
Qed.
Lemma pick_other : forall mtime i l lib, lib <> i_lib i -> pick mtime (setInstall i l) lib = pick mtime l lib.
Proof.
  intros mtime i l lib N. induction l as [|x l IH]; cbn [setInstall].
  - cbn [pick]. rewrite textEqb_ne by congruence. reflexivity.
  - destruct (textEqb (i_lib x) (i_lib i)) eqn:E; cbn [pick].
    + apply textEqb_iff in E. rewrite !textEqb_ne by congruence. reflexivity.
    + rewrite IH. reflexivity.
Qed.
Lemma replace_in : forall t k c, In c (replaceAll k t) -> In c t \/ In c patLib.
Proof.
  induction t as [|x r IH]; intros k c I; [destruct I|]. cbn [replaceAll] in I. destruct k as [|k].
  - destruct (startsWith pat64 (x :: r)).
    + apply in_app_or in I. destruct I as [I | I]; [right; exact I|]. destruct (IH _ _ I); [left; right; assumption | right; assumption].
    + destruct I as [<- | I]; [left; left; reflexivity|]. destruct (IH _ _ I); [left; right; assumption | right; assumption].
  - destruct (IH _ _ I); [left; right; assumption | right; assumption].
Qed.
Lemma mangle_plain : forall t, plainText t -> plainText (mangleKey t).
Proof.
  intros t (A & B). split; intros I; destruct (replace_in _ _ _ I) as [J | J]; try contradiction; cbn in J; intuition discriminate.
Qed.
Lemma configured : forall mtime old path exe sym stamp,
  Forall plainInstall old -> plainText path -> plainText exe -> plainText sym -> fits64 stamp -> oneLib64 path -> mtime exe = stamp ->
  readEnvConfig mtime (Some (configure (map entryOf old) path exe sym stamp)) (libraryPath path) = Ok (exe, sym) /\
  forall lib, lib <> libraryPath path ->
    readEnvConfig mtime (Some (configure (map entryOf old) path exe sym stamp)) lib = readEnvConfig mtime (Some (fileOf (map entryOf old))) lib.
Proof.
  intros mtime old path exe sym stamp F P E S B O M. unfold configure. set (i := mkI (mangleKey path) exe sym stamp).
  change (mkE (mangleKey path) exe sym (dec stamp)) with (entryOf i). rewrite set_entry, <- (keys_agree path O).
  assert (PI : plainInstall i) by (repeat split; cbn; try apply mangle_plain; try apply P; try apply E; try apply S; apply B).
  assert (FI : Forall plainInstall (setInstall i old)) by (apply set_plain; assumption).
  split.
  - rewrite read_pick by exact FI. f_equal. exact (pick_own mtime i old M).
  - intros lib N. rewrite !read_pick by assumption. f_equal. exact (pick_other mtime i old lib N).
Qed.
(** ** What can go wrong *)
Lemma quote_lost : exists mtime path exe sym stamp, mtime exe = stamp /\ fits64 stamp /\ mangleKey path = libraryPath path /\
  readEnvConfig mtime (Some (configure [] path exe sym stamp)) (libraryPath path) = Ok ([], []).
Proof.
  exists (fun _ => 1700000000), (T "/home/5""disk/lib/libvsscript.so"), (T "/usr/bin/python3"), (T "/usr/lib/libpython3.so"), 1700000000.
  split; [reflexivity|]. split; [unfold fits64; lia|]. split; reflexivity.
Qed.
Lemma lib64_lost : exists mtime path exe sym stamp, mtime exe = stamp /\ fits64 stamp /\ plainText path /\ plainText exe /\ plainText sym /\
  readEnvConfig mtime (Some (configure [] path exe sym stamp)) (libraryPath path) = Ok ([], []).
Proof.
  exists (fun _ => 1700000000), (T "/opt/lib64/env/lib64/python3/libvsscript.so"), (T "/usr/bin/python3"), (T "/usr/lib/libpython3.so"), 1700000000.
  split; [reflexivity|]. split; [unfold fits64; lia|]. repeat split; try (cbn; intuition discriminate); reflexivity.
Qed.

(** Numbers and options on the command line. *)
From Coq Require Import String Ascii ZArith List Bool Lia.
From Verif Require Import Common OptSpec Opt.
Import ListNotations.
Open Scope Z_scope.

Lemma teq_spec : forall a b, teq a b = true <-> a = b.
Proof. intros a b. unfold teq. destruct (list_eq_dec ascii_dec a b); split; congruence. Qed.
Lemma digit_range : forall c, digit c = let n := Z.of_nat (nat_of_ascii c) in if (48 <=? n) && (n <=? 57) then Some (n - 48) else None.
Proof. reflexivity. Qed.
Lemma scan_digits : forall t acc, match digits acc t with Some v => scan acc t = (v, []) | None => snd (scan acc t) <> [] end.
Proof.
  induction t as [|c r IH]; intros acc; [reflexivity |]. cbn [digits scan]. unfold digit. cbv zeta. destruct ((48 <=? Z.of_nat (nat_of_ascii c)) && (Z.of_nat (nat_of_ascii c) <=? 57)); [apply IH | discriminate].
Qed.
Lemma minus_no_digit : digit "-" = None. Proof. reflexivity. Qed.
Lemma svTo_spec : forall lo hi t target, svTo lo hi t target =
  match numberOf t with Some v => Ok (if (lo <=? v) && (v <=? hi) then v else target) | None => match t with [] => Ok target | _ => Err end end.
Proof.
  intros lo hi t target. unfold svTo, fromChars, numberOf. destruct t as [|c r]; [reflexivity |].
  assert (X : forall (neg : bool) (r t : text), t <> [] -> (let '(v, rest) := (let '(v, rest) := scan 0 r in if Nat.eqb (length rest) (length r) then (None, t) else (Some (if neg then - v else v), rest)) in
      match rest with [] => Ok (match v with Some v => if (lo <=? v) && (v <=? hi) then v else target | None => target end) | _ => Err end)
    = match natural r with Some v => let v := if neg then - v else v in Ok (if (lo <=? v) && (v <=? hi) then v else target) | None => Err end).
  { intros neg q t Ht. destruct t as [|c' t']; [congruence |]. unfold natural. destruct q as [|d q]; [reflexivity |]. pose proof (scan_digits (d :: q) 0) as D. destruct (digits 0 (d :: q)) as [v|].
    - rewrite D. reflexivity.
    - destruct (scan 0 (d :: q)) as [v rest]. cbn [snd] in D. destruct (Nat.eqb (length rest) (length (d :: q))); [reflexivity |]. destruct rest; [congruence | reflexivity]. }
  destruct (Ascii.eqb c "-").
  - rewrite (X true r (c :: r)) by discriminate. destruct (natural r); reflexivity.
  - rewrite (X false (c :: r) (c :: r)) by discriminate. destruct (natural (c :: r)); reflexivity.
Qed.
Lemma accepts_numbers : forall lo hi t v target, numberOf t = Some v -> lo <= v <= hi -> svTo lo hi t target = Ok v.
Proof. intros lo hi t v target E B. rewrite svTo_spec, E. destruct (Z.leb_spec lo v), (Z.leb_spec v hi); try lia. reflexivity. Qed.
Lemma refuses_others : forall lo hi t target, numberOf t = None -> t <> [] -> svTo lo hi t target = Err.
Proof. intros lo hi t target E N. rewrite svTo_spec, E. destruct t; [congruence | reflexivity]. Qed.
Lemma accepts_wrong : (exists t v, numberOf t = Some v /\ ~ fits64 v /\ exists o, parseOptions [T "-s"; t; T "script.vpy"; T "-"] = Ok o /\ o_start o = 0) /\
  (exists o, parseOptions [T "-r"; T ""; T "script.vpy"; T "-"] = Ok o /\ o_requests o = 0).
Proof.
  split.
  - exists (T "99999999999999999999"), 99999999999999999999. split; [vm_compute; reflexivity |]. split; [unfold fits64; lia |].
    assert (X : match parseOptions [T "-s"; T "99999999999999999999"; T "script.vpy"; T "-"] with Ok o => o_start o =? 0 | _ => false end = true) by (vm_compute; reflexivity).
    destruct (parseOptions _) as [o| |]; try discriminate X. exists o. split; [reflexivity | apply Z.eqb_eq, X].
  - assert (X : match parseOptions [T "-r"; T ""; T "script.vpy"; T "-"] with Ok o => o_requests o =? 0 | _ => false end = true) by (vm_compute; reflexivity).
    destruct (parseOptions _) as [o| |]; try discriminate X. exists o. split; [reflexivity | apply Z.eqb_eq, X].
Qed.
(** ** Written numbers *)
Lemma digits_app : forall a acc b, digits acc (a ++ b) = match digits acc a with Some x => digits x b | None => None end.
Proof. induction a as [|c a IH]; intros acc b; [reflexivity |]. cbn [app digits]. destruct (digit c); [apply IH | reflexivity]. Qed.
Lemma digit_ascii : forall d, 0 <= d < 10 -> digit (ascii_of_nat (Z.to_nat (48 + d))) = Some d.
Proof.
  intros d B. assert (C : d = 0 \/ d = 1 \/ d = 2 \/ d = 3 \/ d = 4 \/ d = 5 \/ d = 6 \/ d = 7 \/ d = 8 \/ d = 9) by lia.
  destruct C as [-> | [-> | [-> | [-> | [-> | [-> | [-> | [-> | [-> | ->]]]]]]]]]; vm_compute; reflexivity.
Qed.
Lemma decN_spec : forall k n, 0 <= n < 2 ^ Z.of_nat k -> digits 0 (decN k n) = Some n.
Proof.
  induction k as [|k IH]; intros n B.
  - change (2 ^ Z.of_nat 0) with 1 in B. replace n with 0 by lia. reflexivity.
  - cbn [decN]. pose proof (Z.mod_pos_bound n 10 ltac:(lia)) as M. rewrite digits_app. destruct (Z.ltb_spec n 10) as [L | L].
    + cbn [digits]. rewrite digit_ascii by exact M. rewrite Z.mod_small by lia. reflexivity.
    + rewrite Nat2Z.inj_succ, Z.pow_succ_r in B by lia. rewrite IH.
      * cbn [digits]. rewrite digit_ascii by exact M. f_equal. pose proof (Z.div_mod n 10 ltac:(lia)). lia.
      * pose proof (Z.div_mod n 10 ltac:(lia)). lia.
Qed.
Lemma decN_nonempty : forall k n, decN (S k) n <> [].
Proof. intros k n E. cbn [decN] in E. destruct (if n <? 10 then [] else decN k (n / 10)); discriminate. Qed.
Lemma decN_natural : forall n, 0 <= n -> natural (decN (S (Z.to_nat (Z.log2 n))) n) = Some n.
Proof.
  intros n B. unfold natural. destruct (decN (S (Z.to_nat (Z.log2 n))) n) eqn:E; [destruct (decN_nonempty _ _ E) |]. rewrite <- E. apply decN_spec. split; [exact B |]. rewrite Nat2Z.inj_succ, Z2Nat.id by apply Z.log2_nonneg.
  destruct (Z.eq_dec n 0) as [-> | N]; [reflexivity | apply Z.log2_spec; lia].
Qed.
Lemma natural_number : forall t v, natural t = Some v -> numberOf t = Some v.
Proof. intros t v E. unfold numberOf. destruct t as [|c r]; [discriminate |]. destruct (Ascii.eqb_spec c "-"); [subst; cbn [natural digits] in E; rewrite minus_no_digit in E; discriminate | exact E]. Qed.
Lemma dec_number : forall v, numberOf (dec v) = Some v.
Proof.
  intros v. unfold dec. destruct (Z.ltb_spec v 0).
  - cbn [numberOf Ascii.eqb]. change (Ascii.eqb "-" "-") with true. cbv iota. rewrite decN_natural by lia. cbn [option_map]. rewrite Z.opp_involutive. reflexivity.
  - apply natural_number, decN_natural. lia.
Qed.
Lemma dec64 : forall v old, fits64 v -> svToInt64 (dec v) old = Ok v.
Proof. intros v old B. apply accepts_numbers; [apply dec_number |]. unfold fits64 in B. change INT64_MIN with (- 2 ^ 63). change INT64_MAX with (2 ^ 63 - 1). lia. Qed.
Lemma dec32 : forall v old, fits32 v -> svToInt (dec v) old = Ok v.
Proof. intros v old B. apply accepts_numbers; [apply dec_number |]. unfold fits32 in B. change INT_MIN with (- 2 ^ 31). change INT_MAX with (2 ^ 31 - 1). lia. Qed.
(** ** Whole command lines *)
Lemma nodash : forall s t, dash s = false -> dash t = true -> teq s t = false.
Proof. intros s t A B. destruct (teq s t) eqn:E; [apply teq_spec in E; subst; congruence | reflexivity]. Qed.
Lemma splitEq_app : forall k v, ~ In "="%char k -> splitEq (k ++ "="%char :: v) = Some (k, v).
Proof.
  induction k as [|c k IH]; intros v N; [reflexivity |]. cbn [app splitEq]. destruct (Ascii.eqb_spec c "="); [exfalso; apply N; left; assumption |]. rewrite IH by (intros X; apply N; right; exact X). reflexivity.
Qed.
Lemma putArg_new : forall k v m, ~ In k (map fst m) -> putArg k v m = m ++ [(k, v)].
Proof.
  intros k v m. induction m as [|(k', v') m IH]; intros N; [reflexivity |]. cbn [putArg app]. destruct (teq k k') eqn:E; [apply teq_spec in E; exfalso; apply N; left; symmetry; exact E |]. rewrite IH by (intros X; apply N; right; exact X). reflexivity.
Qed.
Lemma parse_args : forall argc args r o, NoDup (map fst (o_args o ++ args)) -> Forall (fun a => ~ In "="%char (fst a)) args ->
  parse argc (flat_map (fun a => [T "--arg"; fst a ++ "="%char :: snd a]) args ++ r) o = parse argc r (setArgs (o_args o ++ args) o).
Proof.
  intros argc args. induction args as [|(k, v) args IH]; intros r o N Fa.
  - cbn [flat_map app]. rewrite app_nil_r. destruct o. reflexivity.
  - inversion Fa as [|? ? Fk Fr]; subst. cbn [fst] in Fk. cbn [flat_map app fst snd].
    transitivity (match splitEq (k ++ "="%char :: v) with None => Err | Some (k, x) => parse argc (flat_map (fun a => [T "--arg"; fst a ++ "="%char :: snd a]) args ++ r) (setArgs (putArg k x (o_args o)) o) end); [reflexivity |].
    rewrite splitEq_app by exact Fk. rewrite putArg_new.
    + rewrite IH; [| cbn [o_args setArgs]; rewrite <- app_assoc; exact N | exact Fr]. cbn [o_args setArgs]. rewrite <- app_assoc. destruct o. reflexivity.
    + intros X. rewrite map_app in N. cbn [map fst] in N. apply NoDup_remove_2 in N. apply N. apply in_or_app. left. exact X.
Qed.
Lemma parse_file1 : forall argc f r o, parse argc (file "--timecodes" f ++ r) o = parse argc r (setFiles (o_script o) (o_output o) (match f with [] => o_timecodes o | _ => f end) (o_json o) (o_graph o) o).
Proof. intros argc [|c f] r o; [destruct o; reflexivity | reflexivity]. Qed.
Lemma parse_file2 : forall argc f r o, parse argc (file "--json" f ++ r) o = parse argc r (setFiles (o_script o) (o_output o) (o_timecodes o) (match f with [] => o_json o | _ => f end) (o_graph o) o).
Proof. intros argc [|c f] r o; [destruct o; reflexivity | reflexivity]. Qed.
Lemma parse_file3 : forall argc f r o, parse argc (file "--filter-time-graph" f ++ r) o = parse argc r (setFiles (o_script o) (o_output o) (o_timecodes o) (o_json o) (match f with [] => o_graph o | _ => f end) o).
Proof. intros argc [|c f] r o; [destruct o; reflexivity | reflexivity]. Qed.
Lemma parse_flags : forall argc p d f r o, parse argc (flag p "--progress" ++ flag d "--frame-ref-debug" ++ flag f "--filter-time" ++ r) o = parse argc r (setFlags (p || o_progress o) (d || o_refDebug o) (f || o_filterTime o) o).
Proof. intros argc [] [] [] r o; destruct o; reflexivity. Qed.
Lemma parse_numbers : forall argc s e i q r o, 0 <= s < 2 ^ 63 -> -1 <= e < 2 ^ 63 -> fits32 i -> fits32 q ->
  parse argc ([T "--start"; dec s] ++ (if e =? -1 then [] else [T "--end"; dec e]) ++ [T "--outputindex"; dec i; T "--requests"; dec q] ++ r) o = parse argc r (setNums s (if e =? -1 then o_end o else e) i q o).
Proof.
  intros argc s e i q r o Bs Be Bi Bq.
  assert (S1 : forall r o, parse argc (T "--start" :: dec s :: r) o = parse argc r (setNums s (o_end o) (o_index o) (o_requests o) o)).
  { intros r' o'. transitivity (obind (svToInt64 (dec s) (o_start o')) (fun n => if n <? 0 then Err else parse argc r' (setNums n (o_end o') (o_index o') (o_requests o') o'))); [reflexivity |]. rewrite dec64 by (unfold fits64; lia). cbn [obind]. destruct (Z.ltb_spec s 0); [lia | reflexivity]. }
  assert (S2 : 0 <= e -> forall r o, parse argc (T "--end" :: dec e :: r) o = parse argc r (setNums (o_start o) e (o_index o) (o_requests o) o)).
  { intros P r' o'. transitivity (obind (svToInt64 (dec e) (o_end o')) (fun n => if n <? 0 then Err else parse argc r' (setNums (o_start o') n (o_index o') (o_requests o') o'))); [reflexivity |]. rewrite dec64 by (unfold fits64; lia). cbn [obind]. destruct (Z.ltb_spec e 0); [lia | reflexivity]. }
  assert (S3 : forall r o, parse argc (T "--outputindex" :: dec i :: r) o = parse argc r (setNums (o_start o) (o_end o) i (o_requests o) o)).
  { intros r' o'. transitivity (obind (svToInt (dec i) (o_index o')) (fun n => parse argc r' (setNums (o_start o') (o_end o') n (o_requests o') o'))); [reflexivity |]. rewrite dec32 by exact Bi. reflexivity. }
  assert (S4 : forall r o, parse argc (T "--requests" :: dec q :: r) o = parse argc r (setNums (o_start o) (o_end o) (o_index o) q o)).
  { intros r' o'. transitivity (obind (svToInt (dec q) (o_requests o')) (fun n => parse argc r' (setNums (o_start o') (o_end o') (o_index o') n o'))); [reflexivity |]. rewrite dec32 by exact Bq. reflexivity. }
  change ([T "--start"; dec s] ++ ?x) with (T "--start" :: dec s :: x). destruct (Z.eqb_spec e (-1)) as [E | E].
  - cbn [app]. rewrite S1, S3, S4. destruct o. reflexivity.
  - cbn [app]. rewrite S1, S2, S3, S4 by lia. destruct o. reflexivity.
Qed.
Lemma parse_script : forall argc s r o, dash s = false -> s <> [] -> o_script o = [] -> parse argc (s :: r) o = parse argc r (setFiles s (o_output o) (o_timecodes o) (o_json o) (o_graph o) o).
Proof.
  intros argc s r o D N E. cbn [parse]. unfold is. rewrite !(nodash s) by (exact D || reflexivity). cbn [orb]. rewrite E, D. destruct s; [congruence | reflexivity].
Qed.
Lemma parse_output : forall argc s o, (dash s = false \/ s = T "-" \/ s = T "--") -> s <> [] -> o_script o <> [] -> o_output o = [] -> parse argc [s] o = Ok (setFiles (o_script o) s (o_timecodes o) (o_json o) (o_graph o) o).
Proof.
  intros argc s o D N Es Eo. destruct (o_script o) as [|c t] eqn:Ec; [congruence |]. destruct D as [D | [-> | ->]].
  - cbn [parse]. unfold is. rewrite !(nodash s) by (exact D || reflexivity). cbn [orb]. rewrite Ec, Eo, D. destruct s; [congruence | reflexivity].
  - cbn [parse]. rewrite Ec, Eo. reflexivity.
  - cbn [parse]. rewrite Ec, Eo. reflexivity.
Qed.
Lemma parse_mode : forall argc m r, m <> mVersion -> m <> mHelp ->
  parse argc ((match m with mInfo => [T "--info"] | mSimpleGraph => [T "--graph"; T "simple"] | mFullGraph => [T "--graph"; T "full"] | mVersion => [T "--version"] | mHelp => [T "--help"] | mOutput => [] end) ++ r) defaults = parse argc r (setMode m defaults).
Proof. intros argc m r A B. destruct m; congruence || reflexivity. Qed.
Lemma parse_headers : forall argc h r o, o_headers o = hNone ->
  parse argc ((match h with hNone => [] | hY4M => [T "--container"; T "y4m"] | hWave => [T "--container"; T "wav"] | hWave64 => [T "--container"; T "w64"] end) ++ r) o = parse argc r (setHeaders h o).
Proof. intros argc h r o E. destruct h; [| reflexivity ..]. cbn [app]. destruct o. cbn in E. subst. reflexivity. Qed.
Lemma parse_render : forall argc o, proper o -> parse argc (render o) defaults = Ok o.
Proof.
  intros argc o (M1 & M2 & Bs & Be & Bi & Bq & Sn & Sd & On & Od & Nd & Fa). unfold render.
  rewrite parse_mode by assumption. rewrite parse_headers by reflexivity. rewrite parse_numbers by assumption. rewrite parse_flags, parse_file1, parse_file2, parse_file3. rewrite parse_args by (exact Nd || exact Fa).
  change ([o_script o] ++ ?x) with (o_script o :: x). rewrite parse_script by (assumption || reflexivity).
  assert (F : forall u, u = o_output o -> setFiles (o_script o) u (match o_timecodes o with [] => [] | _ => o_timecodes o end) (match o_json o with [] => [] | _ => o_json o end) (match o_graph o with [] => [] | _ => o_graph o end)
     (setArgs (o_args o) (setFlags (o_progress o || false) (o_refDebug o || false) (o_filterTime o || false) (setNums (o_start o) (if o_end o =? -1 then -1 else o_end o) (o_index o) (o_requests o) (setHeaders (o_headers o) (setMode (o_mode o) defaults))))) = o).
  { intros u ->. destruct o as [m h s e i q p d f sc ou tc j g a]. cbn [o_mode o_headers o_start o_end o_index o_requests o_progress o_refDebug o_filterTime o_script o_output o_timecodes o_json o_graph o_args]. rewrite !orb_false_r. destruct (Z.eqb_spec e (-1)); [subst e |]; destruct tc, j, g; reflexivity. }
  destruct (o_output o) as [|c t] eqn:Eo.
  - cbn [parse]. apply f_equal. exact (F [] eq_refl).
  - rewrite parse_output; [| exact Od | discriminate | exact Sn | reflexivity]. apply f_equal. exact (F (c :: t) eq_refl).
Qed.
Lemma round_trip : forall o, proper o -> parseOptions (render o) = Ok o.
Proof.
  intros o P. unfold parseOptions. cbv zeta. rewrite (parse_render _ o P). destruct P as (M1 & M2 & Bs & Be & Bi & Bq & Sn & Sd & On & Od & Nd & Fa). cbn [obind].
  assert (A : 1 < zlength (render o) + 1).
  { assert (render o <> []); [| destruct (render o); [congruence | rewrite zlength_cons; pose proof (zlength_nonneg _ l); lia]]. unfold render. intros E. apply app_eq_nil in E. destruct E as (_ & E). apply app_eq_nil in E. destruct E as (_ & E). discriminate. }
  destruct (Z.leb_spec (zlength (render o) + 1) 1); [lia |]. destruct (o_script o) eqn:Es; [congruence |]. cbn [empty]. rewrite andb_false_r. destruct (o_mode o) eqn:Em; try reflexivity. specialize (On eq_refl). destruct (o_output o); [congruence | reflexivity].
Qed.

(** ** Repeated arguments *)
Lemma parse_args_any : forall argc args r o, Forall (fun a => ~ In "="%char (fst a)) args ->
  parse argc (flat_map (fun a => [T "--arg"; fst a ++ "="%char :: snd a]) args ++ r) o = parse argc r (setArgs (fold_left (fun m a => putArg (fst a) (snd a) m) args (o_args o)) o).
Proof.
  intros argc args. induction args as [|(k, v) args IH]; intros r o Fa.
  - cbn [flat_map app fold_left]. destruct o. reflexivity.
  - inversion Fa as [|? ? Fk Fr]; subst. cbn [fst] in Fk. cbn [flat_map app fst snd fold_left].
    transitivity (match splitEq (k ++ "="%char :: v) with None => Err | Some (k, x) => parse argc (flat_map (fun a => [T "--arg"; fst a ++ "="%char :: snd a]) args ++ r) (setArgs (putArg k x (o_args o)) o) end); [reflexivity |].
    rewrite splitEq_app by exact Fk. rewrite IH by exact Fr. cbn [o_args setArgs]. destruct o. reflexivity.
Qed.
Lemma putArg_names : forall k v m, NoDup (map fst m) -> NoDup (map fst (putArg k v m)) /\ (forall x, In x (map fst (putArg k v m)) <-> x = k \/ In x (map fst m)).
Proof.
  intros k v m. induction m as [|(k', v') m IH]; intros N.
  - cbn. split; [repeat constructor; intros [] | intros x; split; [intros [->|[]]; left; reflexivity | intros [->|[]]; left; reflexivity]].
  - cbn [map fst] in N. inversion N as [|? ? N1 N2]; subst. destruct (IH N2) as (I1 & I2). cbn [putArg]. destruct (teq k k') eqn:E.
    + apply teq_spec in E. subst k'. cbn [map fst]. split; [exact N |]. intros x. cbn [In]. split; [intros [->|]; tauto | intros [->|[]]; auto].
    + cbn [map fst]. split.
      * constructor; [|exact I1]. intros X. apply I2 in X. destruct X as [-> | X]; [|tauto]. rewrite (proj2 (teq_spec k k) eq_refl) in E. discriminate.
      * intros x. cbn [In]. rewrite I2. intuition (subst; auto).
Qed.
Lemma assigned_put : forall k x v m, NoDup (map fst m) -> assigned k (putArg x v m) = if list_eq_dec ascii_dec k x then Some v else assigned k m.
Proof.
  intros k x v m. induction m as [|(k', v') m IH]; intros N; [reflexivity |]. cbn [map fst] in N. inversion N as [|? ? N1 N2]; subst. cbn [putArg]. destruct (teq x k') eqn:E.
  - apply teq_spec in E. subst k'. cbn [assigned].
    assert (A : forall y, ~ In y (map fst m) -> assigned y m = None).
    { clear. intros y. induction m as [|(a, b) m IH]; intros N; [reflexivity|]. cbn in *. rewrite IH by tauto. destruct (list_eq_dec ascii_dec y a); [exfalso; apply N; left; symmetry; assumption | reflexivity]. }
    destruct (list_eq_dec ascii_dec k x) as [->|D]; [rewrite (A x N1); reflexivity |]. destruct (assigned k m); reflexivity.
  - cbn [assigned]. rewrite IH by exact N2. destruct (list_eq_dec ascii_dec k x) as [->|D]; [reflexivity |]. reflexivity.
Qed.
Lemma fold_assigned : forall l m k, NoDup (map fst m) ->
  assigned k (fold_left (fun m a => putArg (fst a) (snd a) m) l m) = match assigned k l with Some x => Some x | None => assigned k m end
  /\ NoDup (map fst (fold_left (fun m a => putArg (fst a) (snd a) m) l m)).
Proof.
  induction l as [|(k', v') l IH]; intros m k N; [split; [reflexivity | exact N] |]. cbn [fold_left fst snd assigned].
  destruct (IH (putArg k' v' m) k (proj1 (putArg_names k' v' m N))) as (I1 & I2). split; [|exact I2]. rewrite I1, assigned_put by exact N.
  destruct (assigned k l); [reflexivity |]. destruct (list_eq_dec ascii_dec k k'); reflexivity.
Qed.
Lemma last_counts : forall l script, Forall (fun a => ~ In "="%char (fst a)) l -> script <> [] -> dash script = false ->
  exists o, parseOptions (flat_map (fun a => [T "--arg"; fst a ++ "="%char :: snd a]) l ++ [script; T "-"]) = Ok o /\ o_script o = script /\ o_output o = T "-" /\
  NoDup (map fst (o_args o)) /\ forall k, assigned k (o_args o) = assigned k l.
Proof.
  intros l script Fl Sn Sd. unfold parseOptions. rewrite parse_args_any by exact Fl. rewrite parse_script by (assumption || reflexivity).
  rewrite parse_output; [| right; left; reflexivity | discriminate | exact Sn | reflexivity]. cbn [obind].
  set (o := setFiles _ _ _ _ _ _). 
  assert (AG : (zlength (flat_map (fun a => [T "--arg"; fst a ++ "="%char :: snd a]) l ++ [script; T "-"]) + 1 <=? 1) = false).
  { apply Z.leb_gt. rewrite zlength_app, !zlength_cons. pose proof (zlength_nonneg _ (flat_map (fun a : list ascii * list ascii => [T "--arg"; fst a ++ "="%char :: snd a]) l)). pose proof (zlength_nonneg _ (@nil text)). lia. }
  rewrite AG. exists o. change (o_mode o) with mOutput. change (o_script o) with script. change (o_output o) with (T "-").
  change (o_args o) with (fold_left (fun m a => putArg (fst a) (snd a) m) l []).
  split; [destruct script; [congruence | reflexivity] |]. split; [reflexivity |]. split; [reflexivity |]. split; [apply (fold_assigned l [] []); constructor |].
  intros k. rewrite (proj1 (fold_assigned l [] k ltac:(constructor))). destruct (assigned k l); reflexivity.
Qed.

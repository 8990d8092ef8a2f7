(** Expr: tokens and parsing. *)
From Coq Require Import String.
From Coq Require Import ZArith List Lia Bool Ascii.
From Verif Require Import Common FormatSpec Format Spatial ExprSyntax ExprSpec Expr.
Import ListNotations.
Open Scope Z_scope.

(** ** Tokens *)
Lemma isspace_blank : forall c, isspace c = isBlank c.
Proof. intros [[|] [|] [|] [|] [|] [|] [|] [|]]; reflexivity. Qed.
Lemma append_assoc : forall a b c : string, ((a ++ b) ++ c = a ++ b ++ c)%string.
Proof. induction a as [|x a IH]; intros b c; [reflexivity|]. cbn. rewrite IH. reflexivity. Qed.
Lemma append_nil_r : forall a : string, (a ++ "" = a)%string.
Proof. induction a as [|x a IH]; [reflexivity|]. cbn. rewrite IH. reflexivity. Qed.
Lemma allChars_app : forall p a b, allChars p (a ++ b) = allChars p a && allChars p b.
Proof. induction a as [|x a IH]; intros b; [reflexivity|]. cbn. rewrite IH, andb_assoc. reflexivity. Qed.
Definition wordy (s : string) : Prop := allChars (fun c => negb (isBlank c)) s = true.

Lemma tokens_word : forall w s cur, wordy w -> tokenizeFrom (w ++ s) cur = tokenizeFrom s (cur ++ w).
Proof.
  induction w as [|c w IH]; intros s cur W; [cbn; rewrite append_nil_r; reflexivity|]. unfold wordy in W. cbn [allChars] in W. apply andb_prop in W. destruct W as (C & W).
  cbn [append tokenizeFrom]. rewrite isspace_blank. apply negb_true_iff in C. rewrite C, (IH _ _ W), append_assoc. reflexivity.
Qed.
Lemma tokens_blank : forall b s, allChars isBlank b = true -> tokenizeFrom (b ++ s) "" = tokenizeFrom s "".
Proof. induction b as [|c b IH]; intros s B; [reflexivity|]. cbn [allChars] in B. apply andb_prop in B. destruct B as (C & B). cbn [append tokenizeFrom]. rewrite isspace_blank, C. cbn. apply IH. exact B. Qed.
Lemma nonempty_eqb : forall w : string, w <> ""%string -> String.eqb w "" = false.
Proof. intros [|c w] H; [congruence | reflexivity]. Qed.

Theorem tokenize_words : forall ws s, written ws s -> tokenize s = ws.
Proof.
  intros ws s W. unfold tokenize. induction W as [s B | b w B W N | b w c r ws B W N C _ IH].
  - rewrite <- (append_nil_r s), tokens_blank by exact B. reflexivity.
  - rewrite tokens_blank by exact B. rewrite <- (append_nil_r w) at 1. rewrite tokens_word by exact W. cbn [tokenizeFrom append]. rewrite nonempty_eqb by exact N. reflexivity.
  - rewrite tokens_blank by exact B. rewrite tokens_word by exact W. cbn [tokenizeFrom append]. rewrite isspace_blank, C, nonempty_eqb by exact N. rewrite IH. reflexivity.
Qed.
Lemma written_blank : forall ws c r, isBlank c = true -> written ws r -> written ws (String c r).
Proof.
  intros ws c r C W. destruct W as [s B | b w B W N | b w d r ws B W N D R].
  - apply w_nil. cbn. rewrite C, B. reflexivity.
  - apply (w_last (String c b)); auto. cbn. rewrite C, B. reflexivity.
  - apply (w_cons (String c b)); auto. cbn. rewrite C, B. reflexivity.
Qed.
Theorem tokenize_written : forall s, written (tokenize s) s.
Proof.
  assert (G : forall s cur, wordy cur -> written (tokenizeFrom s cur) (cur ++ s)).
  { induction s as [|c r IH]; intros cur W.
    - rewrite append_nil_r. cbn [tokenizeFrom]. destruct (String.eqb_spec cur "") as [->|N]; [apply w_nil; reflexivity | apply (w_last "" cur); auto].
    - cbn [tokenizeFrom]. rewrite isspace_blank. destruct (isBlank c) eqn:C.
      + destruct (String.eqb_spec cur "") as [->|N]; [apply written_blank; [exact C | apply (IH ""%string); reflexivity]|].
        apply (w_cons "" cur); auto. apply (IH ""%string). reflexivity.
      + replace (cur ++ String c r)%string with ((cur ++ String c "") ++ r)%string by (rewrite append_assoc; reflexivity). apply IH.
        unfold wordy in *. rewrite allChars_app, W. cbn. rewrite C. reflexivity. }
  intros s. apply (G s ""%string). reflexivity.
Qed.

(** ** Decoded operations *)
Definition decoded (op : exprop) : Prop :=
  match o_type op with
  | oLoadU8 | oDup | oSwap => 0 <= o_imm op <= INT_MAX
  | oMux | oStoreU8 | oStoreU16 | oStoreF16 | oStoreF32 | oLoadU16 | oLoadF16 | oLoadF32 | oFma | oNeg => False
  | _ => True
  end.
Lemma fromChars_range : forall s v, fromChars s = Some v -> in_int v.
Proof.
  intros s v. unfold fromChars. assert (G : forall neg t, match t with EmptyString => None | _ => match digits t 0 with Some v => let v := if neg : bool then - v else v in if in_intb v then Some v else None | None => None end end = Some v -> in_int v).
  { intros neg t E. destruct t; [discriminate|]. destruct (digits _ _); [|discriminate]. cbv zeta in E. destruct (in_intb _) eqn:I in E; [|discriminate]. injection E as <-. apply in_intb_spec. exact I. }
  destruct s as [|c r]; [discriminate|]. destruct (Ascii.eqb c "-"); [apply (G true) | apply (G false (String c r))].
Qed.
Lemma lookup_in : forall A k (l : list (string * A)) v, lookup k l = Some v -> In (k, v) l.
Proof. induction l as [|(k', v') l IH]; intros v E; [discriminate|]. cbn in E. destruct (String.eqb_spec k k') as [->|N]; [injection E as <-; left; reflexivity | right; auto]. Qed.
Theorem decode_decoded : forall tf tok op, decodeToken tf tok = Ok op -> decoded op.
Proof.
  intros tf tok op. unfold decodeToken. destruct (lookup tok simple) eqn:L.
  - intros E. injection E as <-. apply lookup_in in L. unfold simple in L. cbn [In] in L.
    repeat (destruct L as [L|L]; [injection L as _ <-; cbn; unfold INT_MAX; (exact Logic.I || lia)|]). contradiction.
  - assert (F : match tf tok with Some b => Ok (mkOp oConst b) | None => Err end = Ok op -> decoded op) by (destruct (tf tok); [intros E; injection E as <-; exact Logic.I | discriminate]).
    assert (D : match dupPrefix tok with Some (t, r) => match fromChars r with Some v => if v <? 0 then Err else Ok (mkOp t v) | None => Err end | None => match tf tok with Some b => Ok (mkOp oConst b) | None => Err end end = Ok op -> decoded op).
    { destruct (dupPrefix tok) as [[t r]|] eqn:P; [|exact F]. destruct (fromChars r) as [v|] eqn:C; [|discriminate]. destruct (Z.ltb_spec v 0); [discriminate|].
      intros E. injection E as <-. apply fromChars_range in C. assert (T : t = oDup \/ t = oSwap).
      { unfold dupPrefix in P. repeat (match goal with H : match ?x with _ => _ end = _ |- _ => destruct x; try discriminate end); injection P as <- _; auto. }
      unfold decoded, in_int in *. cbn [o_type o_imm]. destruct T as [-> | ->]; lia. }
    destruct tok as [|c [|c' r]]; [exact D| |exact D]. destruct ((97 <=? code c) && (code c <=? 122)) eqn:C; [|exact F].
    intros E. injection E as <-. apply andb_prop in C. destruct C as (C1 & C2). apply Z.leb_le in C1. apply Z.leb_le in C2. unfold decoded, INT_MAX. cbn [o_type o_imm]. destruct (Z.leb_spec 120 (code c)); lia.
Qed.
(** The clip names x, y, z, a, b, ..., w are 0, 1, 2, ..., 25. *)
Theorem decode_clip : forall tf i, 0 <= i < 26 ->
  decodeToken tf (String (ascii_of_nat (Z.to_nat (if i <? 3 then 120 + i else 94 + i))) "") = Ok (mkOp oLoadU8 i).
Proof.
  intros tf i I. assert (E : In i (zseq 26)) by (apply In_zseq; lia). revert E. change (zseq 26) with [0;1;2;3;4;5;6;7;8;9;10;11;12;13;14;15;16;17;18;19;20;21;22;23;24;25].
  cbn [In]. intros E. repeat (destruct E as [<-|E]; [reflexivity|]). contradiction.
Qed.

(** ** Parsing *)
(** How the formats of the clips are loaded. *)
Definition loads (fmts : list vfmt) : list optype := map (fun f => loadFor (f_st f =? stInteger) (f_bytes f)) fmts.
Definition typed (f : vfmt) : Prop := f_st f = stInteger \/ f_st f = stFloat.
Lemma loadType_spec : forall f, typed f -> loadType f = loadFor (f_st f =? stInteger) (f_bytes f).
Proof.
  intros f [T|T]; unfold loadType, loadFor; rewrite T; change (stInteger =? stInteger) with true; change (stFloat =? stInteger) with false; change (stInteger =? stFloat) with false; change (stFloat =? stFloat) with true; cbn [andb];
  destruct (Z.eqb_spec (f_bytes f) 1); destruct (Z.eqb_spec (f_bytes f) 2); destruct (Z.eqb_spec (f_bytes f) 4); try lia; reflexivity.
Qed.
Lemma numOperands_arity : forall t, numOperands t = arity t.
Proof. intros []; reflexivity. Qed.
Theorem decode_words : forall tf, (forall w op, In (w, op) vocabulary -> decodeToken tf w = Ok op) /\ (forall w, In w nonsense -> decodeToken tf w = Err).
Proof.
  intros tf. split.
  - intros w op I. unfold vocabulary in I. cbn [In] in I. repeat (destruct I as [I|I]; [injection I as <- <-; reflexivity|]). contradiction.
  - intros w I. unfold nonsense in I. cbn [In] in I. repeat (destruct I as [<-|I]; [reflexivity|]). contradiction.
Qed.

(** Operations of expressions: neither MUX nor a store. *)
Definition plain (op : exprop) : Prop := o_type op <> oMux /\ isStore (o_type op) = false.
Inductive wf : tree -> Prop :=
| wf0 : forall op, plain op -> wf (Node op Nil Nil)
| wf1 : forall op l, plain op -> wf l -> wf (Node op l Nil)
| wf2 : forall op l r, plain op -> wf l -> wf r -> wf (Node op l r)
| wf3 : forall op m l a b, plain op -> o_type m = oMux -> wf l -> wf a -> wf b -> wf (Node op l (Node m a b)).

Lemma opIs_false : forall a b, a <> b -> opIs a b = false.
Proof. intros a b N. destruct (opIs a b) eqn:E; [apply opIs_true in E; contradiction | reflexivity]. Qed.
Lemma notMux : forall op, plain op -> opIs (o_type op) oMux = false.
Proof. intros op N. apply opIs_false, N. Qed.
Lemma wf_shape : forall t, wf t -> exists op l r, t = Node op l r /\ opIs (o_type op) oMux = false.
Proof. intros t W. destruct W; eexists _, _, _; (split; [reflexivity | apply notMux; assumption]). Qed.

Section Eval.
Variables (V : Type) (sem : exprop -> list V -> V).
Notation eval := (eval V sem).
Lemma eval0 : forall op, plain op -> eval (Node op Nil Nil) = Some (sem op []).
Proof. intros op N. cbn [ExprSpec.eval]. rewrite notMux by exact N. reflexivity. Qed.
Lemma eval1 : forall op l x, plain op -> wf l -> eval l = Some x -> eval (Node op l Nil) = Some (sem op [x]).
Proof. intros op l x N W E. destruct (wf_shape l W) as (o & a & b & -> & M). cbn [ExprSpec.eval] in *. rewrite notMux by exact N. rewrite E. reflexivity. Qed.
Lemma eval2 : forall op l r x y, plain op -> wf l -> wf r -> eval l = Some x -> eval r = Some y -> eval (Node op l r) = Some (sem op [x; y]).
Proof.
  intros op l r x y N W W' E E'. destruct (wf_shape l W) as (o & a & b & -> & M). destruct (wf_shape r W') as (o' & a' & b' & -> & M').
  cbn [ExprSpec.eval] in *. rewrite notMux by exact N. rewrite M', E in *. rewrite E'. reflexivity.
Qed.
Lemma eval3 : forall op m l a b x y z, plain op -> o_type m = oMux -> wf l -> eval l = Some x -> eval a = Some y -> eval b = Some z ->
  eval (Node op l (Node m a b)) = Some (sem op [x; y; z]).
Proof.
  intros op m l a b x y z N M W E E1 E2. destruct (wf_shape l W) as (o & c & d & -> & M'). cbn [ExprSpec.eval] in *. rewrite notMux by exact N. rewrite (proj2 (opIs_true _ _) M).
  rewrite E, E1, E2. reflexivity.
Qed.
Lemma wf_eval : forall t, wf t -> exists v, eval t = Some v.
Proof.
  induction 1 as [op N | op l N W (x & E) | op l r N W (x & E) W' (y & E') | op m l a b N M W (x & E) Wa (y & Ea) Wb (z & Eb)].
  - eexists. apply eval0. exact N.
  - eexists. apply eval1; eassumption.
  - eexists. apply eval2; eassumption.
  - eexists. apply eval3; eassumption.
Qed.
End Eval.

Lemma clone_id : forall t, clone t = t.
Proof. induction t as [|op l IHl r IHr]; [reflexivity|]. cbn. rewrite IHl, IHr. reflexivity. Qed.
Lemma exchange_map : forall A B (f : A -> B) n st, exchange n (map f st) = option_map (map f) (exchange n st).
Proof.
  intros A B f n st. unfold exchange. destruct st as [|top rest]; [destruct n; reflexivity|]. cbn [map]. change (f top :: map f rest) with (map f (top :: rest)). rewrite nth_error_map.
  destruct (nth_error (top :: rest) n) as [x|]; [|reflexivity]. cbn [option_map]. destruct n as [|m]; [reflexivity|]. cbn [map]. rewrite map_app, firstn_map. cbn [map]. rewrite skipn_map. reflexivity.
Qed.
Lemma skipn_tail : forall A m (l : list A) y r, skipn m l = y :: r -> skipn (S m) l = r.
Proof. induction m as [|m IH]; intros [|z l] y r E; try discriminate; [injection E as _ <-; reflexivity | apply (IH l y r E)]. Qed.
Lemma swapTop_exchange : forall n st, (n < List.length st)%nat -> exists st', swapTop n st = Ok st' /\ exchange n st = Some st'.
Proof.
  intros n st L. unfold swapTop, exchange. destruct st as [|top rest]; [cbn in L; lia|]. destruct (nth_error (top :: rest) n) as [x|] eqn:N; [|apply nth_error_None in N; lia].
  eexists. split; [reflexivity|]. f_equal. destruct n as [|m]; cbn in N; [injection N as <-; reflexivity|].
  unfold setNth. cbn [firstn skipn app]. f_equal. cbn in L. destruct (skipn m rest) as [|y r] eqn:S; [apply (f_equal (@List.length tree)) in S; rewrite skipn_length in S; cbn in S; lia|].
  do 2 f_equal. apply (skipn_tail tree m rest y r S).
Qed.

Lemma exchange_forall : forall A (P : A -> Prop) n st st', Forall P st -> exchange n st = Some st' -> Forall P st'.
Proof.
  intros A P n st st' F. unfold exchange. destruct st as [|top rest]; [discriminate|]. destruct (nth_error _ n) as [x|] eqn:N; [|discriminate]. apply nth_error_In in N.
  intros E. injection E as <-. rewrite Forall_forall in F. destruct n as [|m]; [apply Forall_forall; exact F|]. constructor; [auto|]. apply Forall_app. split.
  - apply Forall_forall. intros y Y. apply F. right. revert Y. clear. revert rest. induction m as [|m IH]; intros [|z l] Y; try contradiction. destruct Y as [<-|Y]; [left; reflexivity | right; auto].
  - constructor; [apply F; left; reflexivity|]. apply Forall_forall. intros y Y. apply F. right. revert Y. generalize (S m). clear. intros m. revert rest. induction m as [|m IH]; intros [|z l] Y; try contradiction; auto. right. apply IH. exact Y.
Qed.

Section Parse.
Variables (V : Type) (sem : exprop -> list V -> V) (fmts : list vfmt).
Hypothesis FT : Forall typed fmts.
Definition agrees (st : list tree) (vs : list V) : Prop := map (eval V sem) st = map Some vs /\ Forall wf st.

Lemma nthz_length : forall A (l : list A) i, 0 <= i -> (nthz l i = None <-> Z.of_nat (List.length l) <= i).
Proof.
  intros A l i I. unfold nthz. destruct (Z.ltb_spec i 0); [lia|]. rewrite nth_error_None. lia.
Qed.

Lemma parse_step : forall op st vs, decoded op -> agrees st vs ->
  match itemOf (loads fmts) op with
  | None => parseOp fmts op st = Err
  | Some it => match direct1 V sem it vs with
               | Some vs' => exists st', parseOp fmts op st = Ok st' /\ agrees st' vs'
               | None => parseOp fmts op st = Err
               end
  end.
Proof.
  intros op st vs D (M & W). assert (L : List.length st = List.length vs) by (apply (f_equal (@List.length _)) in M; rewrite !map_length in M; exact M).
  destruct (optype_eq_dec (o_type op) oLoadU8) as [T|T].
  { unfold itemOf, parseOp. unfold decoded in D. rewrite T in *. change (opIs oLoadU8 oLoadU8) with true. cbn [andb]. destruct (Z.leb_spec (Z.of_nat (List.length fmts)) (o_imm op)) as [G|G].
    - assert (NE : nth_error (loads fmts) (Z.to_nat (o_imm op)) = None) by (apply nth_error_None; unfold loads; rewrite map_length; lia). rewrite NE. reflexivity.
    - destruct (nthz fmts (o_imm op)) as [f|] eqn:N; [|apply nthz_length in N; lia].
      assert (NE : nth_error (loads fmts) (Z.to_nat (o_imm op)) = Some (loadType f)).
      { unfold nthz in N. destruct (Z.ltb_spec (o_imm op) 0); [lia|]. unfold loads. rewrite nth_error_map, N. cbn [option_map]. rewrite loadType_spec; [reflexivity|]. rewrite Forall_forall in FT. apply FT. eapply nth_error_In. exact N. }
      rewrite NE. cbn [option_map direct1].
      change (opIs oLoadU8 oDup || opIs oLoadU8 oSwap) with false. cbn [andb numOperands obind]. change (List.length st <? 0)%nat with false. cbn iota.
      assert (LT : (loadType f = oLoadU8 \/ loadType f = oLoadU16 \/ loadType f = oLoadF16 \/ loadType f = oLoadF32)) by (unfold loadType; repeat destruct (_ && _); auto).
      exists (Node (mkOp (loadType f) (o_imm op)) Nil Nil :: st). split; [cbn [o_type]; destruct LT as [-> | [-> | [-> | ->]]]; reflexivity|].
      assert (NM : plain (mkOp (loadType f) (o_imm op))) by (unfold plain; cbn [o_type]; destruct LT as [-> | [-> | [-> | ->]]]; split; (discriminate || reflexivity)).
      split; [cbn [map]; rewrite M, eval0 by exact NM; reflexivity | constructor; [apply wf0; exact NM | exact W]]. }
  destruct (optype_eq_dec (o_type op) oDup) as [T'|T'].
  { unfold itemOf, parseOp. unfold decoded in D. rewrite T' in *. change (opIs oDup oLoadU8) with false. change (opIs oDup oDup || opIs oDup oSwap) with true. cbn [andb direct1 numOperands]. change (List.length st <? 0)%nat with false. cbn iota. cbn [obind].
    rewrite T'. change (opIs oDup oDup) with true. cbn iota.
    destruct (Z.leb_spec (Z.of_nat (List.length st)) (o_imm op)) as [G|G].
    - destruct (nth_error vs (Z.to_nat (o_imm op))) eqn:N; [|reflexivity]. assert (nth_error vs (Z.to_nat (o_imm op)) <> None) by congruence. apply nth_error_Some in H. lia.
    - destruct (nth_error vs (Z.to_nat (o_imm op))) as [v|] eqn:N; [|apply nth_error_None in N; lia]. cbn [option_map].
      destruct (nth_error st (Z.to_nat (o_imm op))) as [t|] eqn:N'; [|apply nth_error_None in N'; lia]. rewrite clone_id. eexists. split; [reflexivity|].
      assert (E : eval V sem t = Some v).
      { apply (f_equal (fun l => nth_error l (Z.to_nat (o_imm op)))) in M. rewrite !nth_error_map, N, N' in M. cbn in M. congruence. }
      split; [cbn [map]; rewrite E, M; reflexivity | constructor; [|exact W]]. apply nth_error_In in N'. rewrite Forall_forall in W. auto. }
  destruct (optype_eq_dec (o_type op) oSwap) as [T''|T''].
  { unfold itemOf, parseOp. unfold decoded in D. rewrite T'' in *. change (opIs oSwap oLoadU8) with false. change (opIs oSwap oDup || opIs oSwap oSwap) with true. cbn [andb direct1 numOperands]. change (List.length st <? 0)%nat with false. cbn iota. cbn [obind].
    rewrite T''. change (opIs oSwap oDup) with false. change (opIs oSwap oSwap) with true. cbn iota.
    destruct (Z.leb_spec (Z.of_nat (List.length st)) (o_imm op)) as [G|G].
    - destruct (exchange (Z.to_nat (o_imm op)) vs) eqn:X; [|reflexivity]. unfold exchange in X. destruct vs; [discriminate|]. destruct (nth_error (v :: vs) (Z.to_nat (o_imm op))) eqn:N; [|discriminate].
      assert (NN : nth_error (v :: vs) (Z.to_nat (o_imm op)) <> None) by congruence. apply nth_error_Some in NN. lia.
    - destruct (swapTop_exchange (Z.to_nat (o_imm op)) st ltac:(lia)) as (st' & E & X).
      assert (XV : exchange (Z.to_nat (o_imm op)) (map (eval V sem) st) = Some (map (eval V sem) st')) by (rewrite exchange_map, X; reflexivity).
      rewrite M, exchange_map in XV. destruct (exchange (Z.to_nat (o_imm op)) vs) as [vs'|]; [|discriminate]. cbn [option_map] in XV.
      exists st'. split; [exact E|]. split; [congruence | eapply exchange_forall; eassumption]. }
  assert (NM : plain op) by (unfold decoded in D; unfold plain; destruct (o_type op); try contradiction; split; (discriminate || reflexivity)).
  assert (IT : itemOf (loads fmts) op = Some (match numOperands (o_type op) with O => Push op | n => Apply n op end)) by (unfold itemOf; rewrite numOperands_arity; destruct (o_type op); congruence || reflexivity).
  assert (F1 : opIs (o_type op) oLoadU8 = false) by (apply opIs_false; assumption).
  assert (F2 : opIs (o_type op) oDup = false) by (apply opIs_false; assumption).
  assert (F3 : opIs (o_type op) oSwap = false) by (apply opIs_false; assumption).
  rewrite IT. unfold parseOp. rewrite F1, F2, F3. cbn [andb orb obind]. rewrite F2, F3. clear IT F1 F2 F3.
  assert (N3 : (numOperands (o_type op) <= 3)%nat) by (destruct (o_type op); cbn; lia).
  destruct (numOperands (o_type op)) as [|[|[|[|n]]]] eqn:NO; [| | | |lia]; cbn [direct1].
  - change (List.length st <? 0)%nat with false. cbn iota. eexists. split; [reflexivity|]. split; [cbn [map]; rewrite M, eval0 by exact NM; reflexivity | constructor; [apply wf0; exact NM | exact W]].
  - destruct (Nat.leb_spec 1 (List.length vs)) as [G|G].
    + destruct (Nat.ltb_spec (List.length st) 1); [lia|]. destruct st as [|a st]; [cbn in *; lia|]. destruct vs as [|x vs]; [cbn in *; lia|].
      cbn [map] in M. injection M as Ma M. apply Forall_cons_iff in W. destruct W as (Wa & W). eexists. split; [reflexivity|]. cbn [firstn rev app skipn].
      split; [cbn [map]; rewrite M, (eval1 V sem op a x NM Wa Ma); reflexivity | constructor; [apply wf1; assumption | exact W]].
    + destruct (Nat.ltb_spec (List.length st) 1); [reflexivity | lia].
  - destruct (Nat.leb_spec 2 (List.length vs)) as [G|G].
    + destruct (Nat.ltb_spec (List.length st) 2); [lia|]. destruct st as [|b [|a st]]; [cbn in *; lia|cbn in *; lia|]. destruct vs as [|y [|x vs]]; [cbn in *; lia|cbn in *; lia|].
      cbn [map] in M. injection M as Mb Ma M. apply Forall_cons_iff in W. destruct W as (Wb & W). apply Forall_cons_iff in W. destruct W as (Wa & W). eexists. split; [reflexivity|]. cbn [firstn rev app skipn].
      split; [cbn [map]; rewrite M, (eval2 V sem op a b x y NM Wa Wb Ma Mb); reflexivity | constructor; [apply wf2; assumption | exact W]].
    + destruct (Nat.ltb_spec (List.length st) 2); [reflexivity | lia].
  - destruct (Nat.leb_spec 3 (List.length vs)) as [G|G].
    + destruct (Nat.ltb_spec (List.length st) 3); [lia|]. destruct st as [|c [|b [|a st]]]; try (cbn in *; lia). destruct vs as [|z [|y [|x vs]]]; try (cbn in *; lia).
      cbn [map] in M. injection M as Mc Mb Ma M. apply Forall_cons_iff in W. destruct W as (Wc & W). apply Forall_cons_iff in W. destruct W as (Wb & W). apply Forall_cons_iff in W. destruct W as (Wa & W).
      eexists. split; [reflexivity|]. cbn [firstn rev app skipn].
      split; [cbn [map]; rewrite M, (eval3 V sem op (op0 oMux) a b c x y z NM eq_refl Wa Ma Mb Mc); reflexivity | constructor; [apply wf3; auto | exact W]].
    + destruct (Nat.ltb_spec (List.length st) 3); [reflexivity | lia].
Qed.

Lemma parse_steps : forall ops its st vs, Forall decoded ops -> itemsOf (loads fmts) ops = Some its -> agrees st vs ->
  match direct V sem its vs with
  | Some vs' => exists st', parseOps fmts ops st = Ok st' /\ agrees st' vs'
  | None => parseOps fmts ops st = Err
  end.
Proof.
  induction ops as [|op ops IH]; intros its st vs D I A.
  - injection I as <-. cbn. eauto.
  - apply Forall_cons_iff in D. destruct D as (D1 & D). cbn [itemsOf] in I. pose proof (parse_step op st vs D1 A) as S. destruct (itemOf (loads fmts) op) as [it|]; [|discriminate].
    destruct (itemsOf (loads fmts) ops) as [r|] eqn:R; [|discriminate]. injection I as <-. cbn [direct parseOps]. destruct (direct1 V sem it vs) as [vs'|]; [|rewrite S; reflexivity].
    destruct S as (st' & -> & A'). cbn [obind]. apply IH; auto.
Qed.
End Parse.

Lemma parse_undefined : forall fmts ops st vs, Forall typed fmts -> Forall decoded ops -> itemsOf (loads fmts) ops = None -> agrees unit (fun _ _ => tt) st vs -> parseOps fmts ops st = Err.
Proof.
  intros fmts ops st vs FT. revert st vs. induction ops as [|op ops IH]; intros st vs D I A; [discriminate|]. apply Forall_cons_iff in D. destruct D as (D1 & D). cbn [itemsOf] in I.
  pose proof (parse_step unit (fun _ _ => tt) fmts FT op st vs D1 A) as S. cbn [parseOps]. destruct (itemOf (loads fmts) op) as [it|]; [|rewrite S; reflexivity].
  destruct (itemsOf (loads fmts) ops); [discriminate|]. destruct (direct1 _ _ it vs) as [vs'|]; [|rewrite S; reflexivity]. destruct S as (st' & -> & A'). cbn [obind]. apply (IH st' vs'); auto.
Qed.

(** Accepted exactly when the clips exist, the stack never underflows and one value remains; the tree has the value that direct evaluation gives. *)
Theorem parse_spec : forall fmts ops, Forall typed fmts -> Forall decoded ops ->
  match itemsOf (loads fmts) ops with
  | None => parseTree fmts ops = Err
  | Some its => forall V sem, match result V sem its with
                              | Some v => exists t, parseTree fmts ops = Ok t /\ wf t /\ eval V sem t = Some v
                              | None => parseTree fmts ops = Err
                              end
  end.
Proof.
  intros fmts ops FT D. unfold parseTree. destruct (itemsOf (loads fmts) ops) as [its|] eqn:I.
  - intros V sem. pose proof (parse_steps V sem fmts FT ops its [] [] D I (conj eq_refl (Forall_nil _))) as S. unfold result.
    destruct (direct V sem its []) as [vs|]; [|rewrite S; reflexivity]. destruct S as (st & -> & (M & W)). cbn [obind].
    destruct vs as [|v [|v' vs]]; destruct st as [|t [|t' st]]; try discriminate; try reflexivity.
    injection M as M. apply Forall_cons_iff in W. exists t. split; [reflexivity|]. split; [apply W | exact M].
  - rewrite (parse_undefined fmts ops [] [] FT D I (conj eq_refl (Forall_nil _))). reflexivity.
Qed.
Lemma decodeAll_decoded : forall tf toks ops, decodeAll tf toks = Ok ops -> Forall decoded ops.
Proof.
  induction toks as [|t r IH]; intros ops E; [injection E as <-; constructor|]. cbn in E. destruct (decodeToken tf t) as [op| |] eqn:T; try discriminate. cbn [obind] in E.
  destruct (decodeAll tf r) as [l| |]; try discriminate. injection E as <-. constructor; [eapply decode_decoded; exact T | auto].
Qed.
(** Whole expressions; parsing is never undefined. *)
Theorem parseExpr_spec : forall tf expr fmts, Forall typed fmts ->
  parseExpr tf expr fmts = Err \/
  exists ops its t, decodeAll tf (tokenize expr) = Ok ops /\ itemsOf (loads fmts) ops = Some its /\ parseExpr tf expr fmts = Ok t /\ wf t /\
    forall V sem, exists v, result V sem its = Some v /\ eval V sem t = Some v.
Proof.
  intros tf expr fmts FT. unfold parseExpr. destruct (decodeAll tf (tokenize expr)) as [ops| |] eqn:D.
  - pose proof (parse_spec fmts ops FT (decodeAll_decoded _ _ _ D)) as P. cbn [obind]. destruct (itemsOf (loads fmts) ops) as [its|] eqn:I; [|auto].
    pose proof (P unit (fun _ _ => tt)) as PU. destruct (result unit _ its); [|auto]. destruct PU as (t & E & W & _). right. exists ops, its, t. split; [reflexivity|]. split; [exact I|]. split; [exact E|]. split; [exact W|].
    intros V sem. specialize (P V sem). destruct (result V sem its) as [v|]; [|congruence]. destruct P as (t' & E' & _ & Q). exists v. split; [reflexivity | congruence].
  - left. reflexivity.
  - exfalso. revert D. generalize (tokenize expr). induction l as [|t r IH]; [discriminate|]. cbn. destruct (decodeToken tf t) eqn:T; cbn [obind]; [|discriminate|].
    + destruct (decodeAll tf r); cbn [obind]; congruence.
    + exfalso. revert T. clear. unfold decodeToken. destruct (lookup t simple); [discriminate|]. destruct t as [|c [|c' s]]; repeat (match goal with |- match ?x with _ => _ end = _ -> _ => destruct x | |- (if ?x then _ else _) = _ -> _ => destruct x end); try discriminate.
      all: try (destruct p; repeat (match goal with |- match ?x with _ => _ end = _ -> _ => destruct x | |- (if ?x then _ else _) = _ -> _ => destruct x end); discriminate).
Qed.

(** The number 2, for examples. *)
Definition two (s : string) : option Z := if String.eqb s "2" then Some 1073741824 else None.

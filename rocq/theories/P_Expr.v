(** C46, C47: parsing and compiling expressions. *)
From Coq Require Import String.
From Coq Require Import ZArith List.
From Verif Require Import Common FormatSpec Format SpatialFacts LutFacts ExprSyntax ExprSpec Expr ExprParse ExprCode.
Import ListNotations.
Open Scope Z_scope.

(** C46: words are what stands between white space. *)
Theorem C46_words : forall s, written (tokenize s) s /\ forall ws, written ws s -> ws = tokenize s.
Proof. intros s. split; [exact (tokenize_written s) | intros ws W; symmetry; exact (tokenize_words ws s W)]. Qed.
Print Assumptions C46_words.
Example C46_words_ex : tokenize "  x y+ 	 2 *" = ["x"; "y+"; "2"; "*"]%string.
Proof. reflexivity. Qed.

(** C46: what the words mean; dup and swap reach any depth an int can hold. *)
Theorem C46_meanings : forall tf, (forall w op, In (w, op) vocabulary -> decodeToken tf w = Ok op) /\ (forall w, In w nonsense -> decodeToken tf w = Err).
Proof. exact decode_words. Qed.
Print Assumptions C46_meanings.
Theorem C46_clip_letters : forall tf i, 0 <= i < 26 ->
  decodeToken tf (String (Ascii.ascii_of_nat (Z.to_nat (if i <? 3 then 120 + i else 94 + i))) "") = Ok (mkOp oLoadU8 i).
Proof. exact decode_clip. Qed.
Print Assumptions C46_clip_letters.

(** C46: accepted exactly when every clip exists, the stack never underflows and one value remains; the tree then has the value that evaluating
    the words on a stack gives, whatever the values and operations are. *)
Theorem C46_parse : forall fmts ops, Forall typed fmts -> Forall decoded ops ->
  match itemsOf (loads fmts) ops with
  | None => parseTree fmts ops = Err
  | Some its => forall V sem, match result V sem its with
                              | Some v => exists t, parseTree fmts ops = Ok t /\ wf t /\ eval V sem t = Some v
                              | None => parseTree fmts ops = Err
                              end
  end.
Proof. exact parse_spec. Qed.
Print Assumptions C46_parse.
Theorem C46_parse_text : forall tf expr fmts, Forall typed fmts ->
  parseExpr tf expr fmts = Err \/
  exists ops its t, decodeAll tf (tokenize expr) = Ok ops /\ itemsOf (loads fmts) ops = Some its /\ parseExpr tf expr fmts = Ok t /\ wf t /\
    forall V sem, exists v, result V sem its = Some v /\ eval V sem t = Some v.
Proof. exact parseExpr_spec. Qed.
Print Assumptions C46_parse_text.
Theorem C46_decoded : forall tf toks ops, decodeAll tf toks = Ok ops -> Forall decoded ops.
Proof. exact decodeAll_decoded. Qed.
Print Assumptions C46_decoded.
Example C46_parse_ex :
  parseExpr two "x y 2 swap2 dup1 - ?" [gray8; gray10] =
    Ok (Node (op0 oTernary) (Node (mkOp oConst 1073741824) Nil Nil) (Node (op0 oMux) (Node (mkOp oLoadU16 1) Nil Nil) (Node (op0 oSub) (Node (mkOp oLoadU8 0) Nil Nil) (Node (mkOp oLoadU16 1) Nil Nil)))) /\
  parseExpr two "x y +" [gray8] = Err /\ parseExpr two "x +" [gray8] = Err /\ parseExpr two "x x" [gray8] = Err /\ parseExpr two "x swap" [gray8] = Err /\ parseExpr two "" [gray8] = Err.
Proof. repeat split; reflexivity. Qed.
Example C46_parse_ex2 : Forall typed [gray8; gray10] /\
  option_map (result Z (fun op l => match o_type op, l with oSub, [a; b] => a - b | oConst, [] => 2 | _, _ => o_imm op end))
    (itemsOf (loads [gray8; gray10]) [mkOp oLoadU8 1; op0 oConst; op0 oDup; mkOp oSwap 2; op0 oSub; op0 oSub]) = Some (Some 1).
Proof. split; [repeat constructor | reflexivity]. Qed.

(** C47: the code, with common subexpressions numbered and registers renamed, stores the value of the tree for every input; each distinct
    subexpression is computed by exactly one instruction. *)
Theorem C47_compile : forall t f, wf t ->
  exists code, compile t f = Ok code /\
    (forall V sem R, run V sem code R = option_map (fun v => (storeOp f, v)) (eval V sem t)) /\
    exists T, NoDup T /\ (forall u, In u T <-> In u (subs t)) /\ List.length code = S (List.length T).
Proof. exact compile_spec. Qed.
Print Assumptions C47_compile.
Theorem C47_store : forall f, typed f -> storeOp f = storeFor (f_st f =? stInteger) (f_bytes f) (f_bits f).
Proof. exact storeOp_spec. Qed.
Print Assumptions C47_store.
(** C47: any renaming of code in which instruction i writes register i leaves what is stored unchanged. *)
Theorem C47_rename : forall V sem code R R', ssa 0 code -> run V sem (rename code (fun _ => None) []) R' = run V sem code R.
Proof. exact rename_fresh. Qed.
Print Assumptions C47_rename.
Example C47_compile_ex :
  obind (parseExpr two "x y - dup * x y - 2 / +" [gray8; gray10]) (fun t => compile t gray10) =
    Ok [mkIn (mkOp oLoadU8 0) 0 (-1) (-1) (-1); mkIn (mkOp oLoadU16 1) 1 (-1) (-1) (-1); mkIn (op0 oSub) 0 0 1 (-1); mkIn (op0 oMul) 1 0 0 (-1);
        mkIn (mkOp oConst 1073741824) 2 (-1) (-1) (-1); mkIn (op0 oDiv) 0 0 2 (-1); mkIn (op0 oAdd) 0 1 0 (-1); mkIn (mkOp oStoreU16 10) (-1) 0 (-1) (-1)].
Proof. reflexivity. Qed.

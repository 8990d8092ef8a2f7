(** The optimiser of Expr: src/core/expr/expr.cpp:342-1404 and the loops in compile, :1460-1473.
    Every definition works on trees with actual parents; combinePowerTerms and swapNodeContents leave some
    parent pointers behind, which only influence which rule is tried, not what a rule does. *)
From Coq Require Import ZArith List Bool Lia.
From Verif Require Import RwSyntax.
Import ListNotations.
Open Scope Z_scope.

Section Rw.
Context {A : arith}.
Notation ex := (ex A).
Notation k0 := (kint A 0). Notation k1 := (kint A 1).

(** isConstantExpr, isConstant: expr.cpp:342-365 *)
Fixpoint isConstE (t : ex) : bool :=
  match t with
  | Const _ => true | Load _ => false
  | Un _ a => isConstE a | Bin _ a c => isConstE a && isConstE c | Cmp _ a b => isConstE a && isConstE b
  | Fma _ a b c => isConstE a && (isConstE b && isConstE c) | Tern c a b => isConstE c && (isConstE a && isConstE b)
  end.
Definition isC (t : ex) : bool := match t with Const _ => true | _ => false end.
Definition isCv (t : ex) (v : K A) : bool := match t with Const k => keq A k v | _ => false end.

(** evalConstantExpr: expr.cpp:367-421.  A load gives NaN there; it is never asked about (k0 here). *)
Definition kbool (b : bool) : K A := if b then k1 else k0.
Definition khold (x : K A) : bool := klt A k0 x.
Definition kle (x y : K A) : bool := klt A x y || keq A x y.
Fixpoint evalC (t : ex) : K A :=
  match t with
  | Const k => k | Load _ => k0
  | Un u a => let x := evalC a in
      match u with uAbs => kabs A x | uNeg => kneg A x | uNot => kbool (negb (khold x)) | _ => kfun A u x end
  | Bin b a c => let x := evalC a in let y := evalC c in
      match b with
      | bAdd => kadd A x y | bSub => ksub A x y | bMul => kmul A x y | bDiv => kdiv A x y
      | bMax => if klt A x y then y else x | bMin => if klt A y x then y else x
      | bAnd => kbool (khold x && khold y) | bOr => kbool (khold x || khold y) | bXor => kbool (xorb (khold x) (khold y))
      | bPow => kpow A x y
      end
  | Cmp c a b => let x := evalC a in let y := evalC b in
      kbool match c with cEQ => keq A x y | cLT => klt A x y | cLE => kle x y | cNEQ => negb (keq A x y) | cNLT => kle y x | cNLE => klt A y x end
  | Fma f a b c => let x := evalC a in let y := kmul A (evalC b) (evalC c) in
      match f with fMADD => kadd A y x | fMSUB => ksub A y x | fNMADD => kadd A (kneg A y) x | fNMSUB => ksub A (kneg A y) x end
  | Tern c a b => if khold (evalC c) then evalC a else evalC b
  end.

(** The rules of one visit are tried one after the other, each on what the one before has left. *)
Definition rule := ex -> option ex.
Definition try (s : ex * bool) (r : rule) : ex * bool := match r (fst s) with Some t => (t, true) | None => s end.
Definition runRules (rs : list rule) (t : ex) (ch : bool) : ex * bool := fold_left try rs (t, ch).

(** applyLocalOptimizations: expr.cpp:1040-1176 *)
Definition l_fold : rule := fun t => if negb (isC t) && isConstE t then Some (Const (evalC t)) else None.
Definition l_right : rule := fun t =>
  match t with
  | Bin bAdd a b => if isC a && negb (isC b) then Some (Add b a) else None
  | Bin bMul a b => if isC a && negb (isC b) then Some (Mul b a) else None
  | _ => None end.
Definition l_add0 : rule := fun t =>
  match t with Bin bAdd a b => if isCv b k0 then Some a else None | Bin bSub a b => if isCv b k0 then Some a else None | _ => None end.
Definition l_mul0 : rule := fun t =>
  match t with
  | Bin bMul a b => if isCv b k0 then Some (Const k0) else None | Bin bDiv a b => if isCv a k0 then Some (Const k0) else None
  | _ => None end.
Definition l_mul1 : rule := fun t =>
  match t with Bin bMul a b => if isCv b k1 then Some a else None | Bin bDiv a b => if isCv b k1 then Some a else None | _ => None end.
Definition l_logexp : rule := fun t =>
  match t with Un uLog (Un uExp a) => Some a | Un uExp (Un uLog a) => Some a | _ => None end.
Definition l_powX0 : rule := fun t => match t with Bin bPow a b => if isCv b k0 then Some (Const k1) else None | _ => None end.
Definition l_powX1 : rule := fun t => match t with Bin bPow a b => if isCv b k1 then Some a else None | _ => None end.
Definition l_pow0X : rule := fun t => match t with Bin bPow a b => if isCv a k0 then Some (Const k0) else None | _ => None end.
Definition l_pow1X : rule := fun t => match t with Bin bPow a b => if isCv a k1 then Some (Const k1) else None | _ => None end.
Definition l_powpow : rule := fun t =>
  match t with
  | Bin bPow (Bin bPow a (Const b)) (Const c) =>
      if kisint A b && Z.even (ktoint A b) && negb (kisint A c) then Some (Pow (Abs a) (Const (kmul A b c)))
      else Some (Pow a (Const (kmul A b c)))
  | _ => None end.
Definition l_absabs : rule := fun t => match t with Un uAbs (Un uAbs a) => Some (Abs a) | _ => None end.
Definition l_tern : rule := fun t => match t with Tern (Const k) a b => Some (if klt A k0 k then a else b) | _ => None end.
Definition l_ternle : rule := fun t =>
  match t with
  | Tern (Cmp cLE x y) a b => Some (Tern (Cmp cNLE x y) b a) | Tern (Cmp cNLT x y) a b => Some (Tern (Cmp cLT x y) b a)
  | _ => None end.
Definition l_ternnot : rule := fun t => match t with Tern (Un uNot c) a b => Some (Tern c b a) | _ => None end.
Definition flipCmp (c : cmp) : cmp :=
  match c with cEQ => cNEQ | cLT => cNLT | cLE => cNLE | cNEQ => cEQ | cNLT => cLT | cNLE => cLE end.
Definition l_notcmp : rule := fun t => match t with Un uNot (Cmp c a b) => Some (Cmp (flipCmp c) a b) | _ => None end.
Definition localRules : list rule :=
  [l_fold; l_right; l_add0; l_mul0; l_mul1; l_logexp; l_powX0; l_powX1; l_pow0X; l_pow1X; l_powpow; l_absabs; l_tern; l_ternle; l_ternnot; l_notcmp].

(** ExpressionTreeNode::postorder: the operands from left to right, then the node: expr.cpp:74-94. *)
Fixpoint localPass (t : ex) : ex * bool :=
  match t with
  | Const _ => runRules localRules t false | Load _ => runRules localRules t false
  | Un u a => let '(a', ca) := localPass a in runRules localRules (Un u a') ca
  | Bin b a c => let '(a', ca) := localPass a in let '(c', cc) := localPass c in runRules localRules (Bin b a' c') (ca || cc)
  | Cmp o a b => let '(a', ca) := localPass a in let '(b', cb) := localPass b in runRules localRules (Cmp o a' b') (ca || cb)
  | Fma f a b c => let '(a', ca) := localPass a in let '(b', cb) := localPass b in let '(c', cc) := localPass c in
      runRules localRules (Fma f a' b' c') (ca || cb || cc)
  | Tern c a b => let '(c', cc) := localPass c in let '(a', ca) := localPass a in let '(b', cb) := localPass b in
      runRules localRules (Tern c' a' b') (ca || cb || cc)
  end.

(** combinePowerTerms: expr.cpp:899-941.  Value numbers are those from before the pass: of a power we also
    return what its base was then.  The result tells nobody whether anything was changed (the variable of the
    inner scope shadows the outer one, :901 and :907). *)
Definition opteq (o : option ex) (t : ex) : bool := match o with Some u => exeq u t | None => false end.
Definition opteq2 (o p : option ex) : bool := match o, p with Some u, Some v => exeq u v | _, _ => false end.
Fixpoint comb (t : ex) : ex * option ex :=
  match t with
  | Const _ => (t, None) | Load _ => (t, None)
  | Un u a => let '(a', _) := comb a in match u with uSqrt => (Pow a' (Const (khalf A)), Some a) | _ => (Un u a', None) end
  | Bin b a c => let '(a', oa) := comb a in let '(c', oc) := comb c in
      match b with
      | bPow => (Pow a' c', Some a)
      | bMul => match a' with
                | Bin bPow p q => if opteq oa c then (Pow p (Add q (Const k1)), oa)
                                  else match c' with
                                       | Bin bPow _ r => if opteq2 oa oc then (Pow p (Add q r), oa) else (Mul a' c', None)
                                       | _ => (Mul a' c', None) end
                | _ => (Mul a' c', None) end
      | _ => (Bin b a' c', None)
      end
  | Cmp o a b => (Cmp o (fst (comb a)) (fst (comb b)), None)
  | Fma f a b c => (Fma f (fst (comb a)) (fst (comb b)) (fst (comb c)), None)
  | Tern c a b => (Tern (fst (comb c)) (fst (comb a)) (fst (comb b)), None)
  end.

(** applyValueNumbering: expr.cpp:450-475.  Only equality and order of the numbers matter: equal trees have
    equal numbers, and they are ordered by first appearance in postorder. *)
Fixpoint subs (t : ex) : list ex :=
  match t with
  | Const _ => [t] | Load _ => [t]
  | Un _ a => subs a ++ [t] | Bin _ a c => subs a ++ subs c ++ [t] | Cmp _ a b => subs a ++ subs b ++ [t]
  | Fma _ a b c => subs a ++ subs b ++ subs c ++ [t] | Tern c a b => subs c ++ subs a ++ subs b ++ [t]
  end.
Fixpoint indexOf (t : ex) (l : list ex) : nat := match l with [] => O | u :: r => if exeq t u then O else S (indexOf t r) end.

Section Algebra.
Variable num : ex -> nat.

(** CanonicalCompare: expr.cpp:491-524 *)
Definition category (t : ex) : nat := match t with Const _ => 2%nat | Load _ => 1%nat | _ => 0%nat end.
Definition canonLt (x y : ex * K A) : bool :=
  let '(t, e) := x in let '(u, f) := y in
  if exeq t u then klt A e f
  else if negb (Nat.eqb (category t) (category u)) then Nat.ltb (category t) (category u)
  else match t, u with Const j, Const k => klt A j k | Load i, Load j => Nat.ltb i j | _, _ => Nat.ltb (num t) (num u) end.

(** std::sort and std::is_sorted *)
Section Sorting.
Context {T : Type}.
Variable lt : T -> T -> bool.
Fixpoint insert (x : T) (l : list T) : list T := match l with [] => [x] | y :: r => if lt x y then x :: l else y :: insert x r end.
Fixpoint sort (l : list T) : list T := match l with [] => [] | x :: r => insert x (sort r) end.
Fixpoint isSorted (l : list T) : bool := match l with x :: ((y :: _) as r) => negb (lt y x) && isSorted r | _ => true end.
End Sorting.

(** ExponentMap: expr.cpp:490-714.  map: factors with their exponents in the order of their numbers. *)
Definition emap := list (ex * K A).
(* map[t] += e *)
Fixpoint madd (t : ex) (e : K A) (m : emap) : emap :=
  match m with
  | [] => [(t, kadd A k0 e)]
  | (u, f) :: r => if exeq t u then (u, kadd A f e) :: r else if Nat.ltb (num t) (num u) then (t, kadd A k0 e) :: m else (u, f) :: madd t e r
  end.
(* expandOnePass until nothing changes: every product, quotient and power with a constant exponent is replaced
   by its operands *)
Fixpoint factors (t : ex) (e : K A) : emap :=
  match t with
  | Bin bPow a (Const c) => factors a (kmul A e c)
  | Bin bMul a b => factors a e ++ factors b e
  | Bin bDiv a b => factors a e ++ factors b (kneg A e)
  | _ => [(t, e)]
  end.
(* expandOrigSequence until nothing changes *)
Fixpoint origSeq (t : ex) : list ex :=
  match t with
  | Bin bPow a (Const _) => origSeq a
  | Bin bMul a b => origSeq a ++ origSeq b
  | Bin bDiv a b => origSeq a ++ origSeq b
  | _ => [t]
  end.
Record term := mkT { tmap : emap; tcoeff : K A }.
(* combineConstants *)
Definition coeffStep (c : K A) (x : ex * K A) : K A := match fst x with Const k => kmul A c (kpow A k (snd x)) | _ => c end.
Definition combineC (m : emap) (c : K A) : term := mkT (filter (fun x => negb (isC (fst x))) m) (fold_left coeffStep m c).
(* addTerm for each of [l], mulCoeff, expand *)
Definition mkMap (l : list (ex * K A)) : emap :=
  fold_left (fun m x => madd (fst x) (snd x) m) (flat_map (fun x => factors (fst x) (snd x)) l) [].
Definition expand (l : list (ex * K A)) (c : K A) : term := combineC (mkMap l) c.
Definition numFactors (x : term) : nat := length (tmap x) + (if keq A (tcoeff x) k1 then 0 else 1).
Fixpoint sameTerm (m m' : emap) : bool :=
  match m, m' with
  | [], [] => true
  | (t, e) :: r, (u, f) :: s => exeq t u && keq A e f && sameTerm r s
  | _, _ => false end.
Definition isCanonical (l : list ex) : bool := isSorted canonLt (map (fun t => (t, k1)) l).
(* emit, expr.cpp:661-701 *)
Definition emitFactor (x : ex * K A) : ex := if keq A (snd x) k1 then fst x else Pow (fst x) (Const (snd x)).
Definition emitTerm (x : term) : ex :=
  match map emitFactor (sort canonLt (tmap x)) with
  | [] => Const (tcoeff x)
  | t :: r => let p := fold_left (fun a b => Mul a b) r t in if keq A (tcoeff x) k1 then p else Mul p (Const (tcoeff x))
  end.
(* canonicalOrder: std::lexicographical_compare, expr.cpp:703-713 *)
Fixpoint lexLt (l m : emap) : bool :=
  match l, m with
  | _, [] => false
  | [], _ :: _ => true
  | x :: r, y :: s => if canonLt x y then true else if canonLt y x then false else lexLt r s
  end.
Definition termLt (x y : term) : bool := lexLt (sort canonLt (tmap x)) (sort canonLt (tmap y)).

(** AdditiveSequence: expr.cpp:716-809 *)
Definition scalars (l : list term) : K A := fold_left (fun s x => match tmap x with [] => kadd A s (tcoeff x) | _ => s end) l k0.
Definition proper (l : list term) : list term := filter (fun x => match tmap x with [] => false | _ => true end) l.
(* :748-762; [n] is the number of terms *)
Definition addSame (x : term) (l : list term) : term :=
  fold_left (fun a y => if sameTerm (tmap x) (tmap y) then mkT (tmap a) (kadd A (tcoeff a) (tcoeff y)) else a) l x.
Definition zeroSame (x : term) (l : list term) : list term :=
  map (fun y => if sameTerm (tmap x) (tmap y) then mkT (tmap y) (kmul A (tcoeff y) k0) else y) l.
Fixpoint merge (n : nat) (l : list term) : list term :=
  match n, l with
  | S n, x :: r => let x' := addSame x r in let r' := zeroSame x r in
      if keq A (tcoeff x') k0 then merge n r' else x' :: merge n r'
  | _, _ => []
  end.
(* emit, :779-808.  [fix]: false for the program, which loses the scalar if no term is left; true for the sum *)
Definition emitSum (fix_ : bool) (l : list term) (s : K A) : ex :=
  match map emitTerm l with
  | [] => Const (if fix_ then s else k0)
  | t :: r => let p := fold_left (fun a b => Add a b) r t in
      if keq A s k0 then p else if klt A s k0 then Sub p (Const (kabs A s)) else Add p (Const (kabs A s))
  end.

(** analyzeAdditiveExpression: expr.cpp:811-851 *)
Fixpoint addTerms (pos : bool) (t : ex) : list (ex * bool) :=
  match t with
  | Bin bAdd a b => addTerms pos a ++ addTerms pos b
  | Bin bSub a b => addTerms pos a ++ addTerms (negb pos) b
  | _ => [(t, pos)] end.
Definition sign (pos : bool) : K A := if pos then k1 else kint A (-1).
Definition analyzeAdd (fix_ : bool) (t : ex) : option ex :=
  let ts := addTerms true t in
  let es := map (fun x => expand [(fst x, k1)] (kmul A k1 (sign (snd x)))) ts in
  let s := scalars es in
  let l := merge (length (proper es)) (proper es) in
  let canonical := isSorted termLt l in
  let l' := if canonical then l else sort termLt l in
  if Nat.ltb (length l' + (if keq A s k0 then 0 else 1)) (length ts) || negb canonical then Some (emitSum fix_ l' s) else None.

(** analyzeMultiplicativeExpression: expr.cpp:853-897 *)
Fixpoint mulTerms (pos : bool) (t : ex) : list (ex * bool) :=
  match t with
  | Bin bMul a b => mulTerms pos a ++ mulTerms pos b
  | Bin bDiv a b => mulTerms pos a ++ mulTerms (negb pos) b
  | _ => [(t, pos)] end.
Fixpoint numDivs (t : ex) : nat :=
  match t with
  | Bin bMul a b => numDivs a + numDivs b
  | Bin bDiv a b => S (numDivs a + numDivs b)
  | _ => O end.
Definition analyzeMul (t : ex) : option ex :=
  let ts := mulTerms true t in
  let x := expand (map (fun x => (fst x, sign (snd x))) ts) k1 in
  if Nat.ltb (numFactors x) (length ts) || negb (isCanonical (flat_map (fun x => origSeq (fst x)) ts)) || Nat.ltb 0 (numDivs t)
  then Some (emitTerm x) else None.

(** applyAlgebraicOptimizations: expr.cpp:943-965; the visitor goes down until it has changed something *)
Definition isAddSub (t : ex) : bool := match t with Bin bAdd _ _ => true | Bin bSub _ _ => true | _ => false end.
Definition isMulDiv (t : ex) : bool := match t with Bin bMul _ _ => true | Bin bDiv _ _ => true | _ => false end.
Variable fix_ : bool.
Fixpoint alg (pAdd pMul : bool) (t : ex) (ch : bool) : ex * bool :=
  if ch then (t, true)
  else match (if isAddSub t && negb pAdd then analyzeAdd fix_ t else if isMulDiv t && negb pMul then analyzeMul t else None) with
  | Some t' => (t', true)
  | None =>
      match t with
      | Const _ => (t, false) | Load _ => (t, false)
      | Un u a => let '(a', c1) := alg false false a false in (Un u a', c1)
      | Bin b a c => let '(a', c1) := alg (isAddSub t) (isMulDiv t) a false in let '(c', c2) := alg (isAddSub t) (isMulDiv t) c c1 in (Bin b a' c', c2)
      | Cmp o a b => let '(a', c1) := alg false false a false in let '(b', c2) := alg false false b c1 in (Cmp o a' b', c2)
      | Fma f a b c => let '(a', c1) := alg false false a false in let '(b', c2) := alg false false b c1 in
          let '(c', c3) := alg false false c c2 in (Fma f a' b' c', c3)
      | Tern c a b => let '(c', c1) := alg false false c false in let '(a', c2) := alg false false a c1 in
          let '(b', c3) := alg false false b c2 in (Tern c' a' b', c3)
      end
  end.
End Algebra.
Definition algPass (fix_ : bool) (t : ex) : ex * bool := alg (fun u => indexOf u (subs t)) fix_ false false t false.

(** applyComparisonOptimizations: expr.cpp:967-1038.  [cond]: the parent is AND, OR, XOR or the node is a condition *)
Definition isBool (b : bop) : bool := match b with bAnd => true | bOr => true | bXor => true | _ => false end.
Definition cmpRule (cond : bool) (t : ex) : option ex :=
  match t with
  | Cmp c a b =>
      if exeq a b then Some (Const (match c with cEQ => k1 | cLE => k1 | cNLT => k1 | _ => k0 end))
      else if cond then match c with cLT => Some (Sub b a) | cNLE => Some (Sub a b) | _ => None end
      else None
  | Tern c a b =>
      if exeq a b then Some a
      else match c with
           | Cmp o x y =>
               let same := (exeq x a && exeq y b) || (exeq x b && exeq y a) in
               let mn := match o with cLT => Some (exeq x a) | cLE => Some (exeq x a) | cNLE => Some (negb (exeq x a)) | cNLT => Some (negb (exeq x a)) | _ => None end in
               match mn with Some m => if same then Some (Bin (if m then bMin else bMax) x y) else None | None => None end
           | _ => None end
  | _ => None
  end.
Fixpoint cmpPass (cond : bool) (t : ex) : ex * bool :=
  match cmpRule cond t with
  | Some t' => (t', true)
  | None =>
      match t with
      | Const _ => (t, false) | Load _ => (t, false)
      | Un u a => let '(a', c1) := cmpPass false a in (Un u a', c1)
      | Bin b a c => let '(a', c1) := cmpPass (isBool b) a in let '(c', c2) := cmpPass (isBool b) c in (Bin b a' c', c1 || c2)
      | Cmp o a b => let '(a', c1) := cmpPass false a in let '(b', c2) := cmpPass false b in (Cmp o a' b', c1 || c2)
      | Fma f a b c => let '(a', c1) := cmpPass false a in let '(b', c2) := cmpPass false b in let '(c', c3) := cmpPass false c in
          (Fma f a' b' c', c1 || c2 || c3)
      | Tern c a b => let '(c', c1) := cmpPass true c in let '(a', c2) := cmpPass false a in let '(b', c3) := cmpPass false b in
          (Tern c' a' b', c1 || c2 || c3)
      end
  end.

(** emitIntegerPow: expr.cpp:477-486; the recursion is as deep as the exponent has digits *)
Fixpoint intPow (fuel : nat) (t : ex) (n : Z) : ex :=
  match fuel with
  | O => t
  | S f => if n =? 1 then t else Mul (intPow f t (Z.quot (n + 1) 2)) (intPow f t (n - Z.quot (n + 1) 2))
  end.

(** applyStrengthReduction: expr.cpp:1178-1327.  [pa]: the parent is ADD or SUB *)
Definition s_neg : rule := fun t => match t with Bin bSub a b => if isCv a k0 then Some (Neg b) else None | _ => None end.
Definition s_mulm1 : rule := fun t =>
  match t with
  | Bin bMul a b => if isCv b (kint A (-1)) then Some (Neg a) else None | Bin bDiv a b => if isCv b (kint A (-1)) then Some (Neg a) else None
  | _ => None end.
Definition s_addneg : rule := fun t => match t with Bin bAdd a (Un uNeg b) => Some (Sub a b) | Bin bSub a (Un uNeg b) => Some (Add a b) | _ => None end.
Definition s_negadd : rule := fun t => match t with Bin bAdd (Un uNeg a) b => Some (Sub b a) | _ => None end.
Definition s_negsub : rule := fun t => match t with Un uNeg (Bin bSub a b) => Some (Sub b a) | _ => None end.
Definition s_double (pa : bool) : rule := fun t => match t with Bin bMul a b => if isCv b (kint A 2) && negb pa then Some (Add a a) else None | _ => None end.
Definition s_recip : rule := fun t =>
  match t with
  | Bin bDiv a (Const k) => let r := kdiv A k1 k in if kfinite A r then Some (Mul a (Const r)) else None
  | _ => None end.
Definition s_recmul : rule := fun t => match t with Bin bMul (Bin bDiv a x) y => if isCv a k1 then Some (Div y x) else None | _ => None end.
Definition s_mulrec : rule := fun t => match t with Bin bMul x (Bin bDiv a y) => if isCv a k1 then Some (Div x y) else None | _ => None end.
Definition s_divmul : rule := fun t => match t with Bin bMul (Bin bDiv a b) c => Some (Div (Mul a c) b) | _ => None end.
Definition s_muldiv : rule := fun t => match t with Bin bMul a (Bin bDiv b c) => Some (Div (Mul a b) c) | _ => None end.
Definition s_divdiv : rule := fun t => match t with Bin bDiv a (Bin bDiv b c) => Some (Div (Mul a c) b) | _ => None end.
Definition s_divdiv2 : rule := fun t => match t with Bin bDiv (Bin bDiv a b) c => Some (Div a (Mul b c)) | _ => None end.
Definition s_sqrt : rule := fun t =>
  match t with
  | Bin bPow a (Const k) => if negb (kisint A k) && kisint A (kmul A k (kint A 4)) then Some (Sqrt (Pow a (Const (kmul A k (kint A 2))))) else None
  | _ => None end.
Definition s_powneg : rule := fun t =>
  match t with
  | Bin bPow a (Const k) => if kisint A k && klt A k k0 then Some (Div (Const k1) (Pow a (Const (kneg A k)))) else None
  | _ => None end.
Definition s_pow : rule := fun t =>
  match t with
  | Bin bPow a (Const k) => if kisint A k && klt A k0 k then Some (let n := ktoint A k in intPow (Z.to_nat (Z.log2 n) + 2) a n) else None
  | _ => None end.
Definition strengthRules (pa : bool) : list rule :=
  [s_neg; s_mulm1; s_addneg; s_negadd; s_negsub; s_double pa; s_recip; s_recmul; s_mulrec; s_divmul; s_muldiv; s_divdiv; s_divdiv2; s_sqrt; s_powneg; s_pow].
Fixpoint strength (pa : bool) (t : ex) : ex * bool :=
  match t with
  | Const _ => runRules (strengthRules pa) t false | Load _ => runRules (strengthRules pa) t false
  | Un u a => let '(a', ca) := strength false a in runRules (strengthRules pa) (Un u a') ca
  | Bin b a c => let q := isAddSub t in let '(a', ca) := strength q a in let '(c', cc) := strength q c in runRules (strengthRules pa) (Bin b a' c') (ca || cc)
  | Cmp o a b => let '(a', ca) := strength false a in let '(b', cb) := strength false b in runRules (strengthRules pa) (Cmp o a' b') (ca || cb)
  | Fma f a b c => let '(a', ca) := strength false a in let '(b', cb) := strength false b in let '(c', cc) := strength false c in
      runRules (strengthRules pa) (Fma f a' b' c') (ca || cb || cc)
  | Tern c a b => let '(c', cc) := strength false c in let '(a', ca) := strength false a in let '(b', cb) := strength false b in
      runRules (strengthRules pa) (Tern c' a' b') (ca || cb || cc)
  end.

(** applyOpFusion: expr.cpp:1329-1404.  [cnt]: how often a value occurs; [eL], [eR]: canElide of the operands *)
Definition f_addR (eR : bool) : rule := fun t => match t with Bin bAdd a (Bin bMul b c) => if eR then Some (Fma fMADD a b c) else None | _ => None end.
Definition f_addL (eL : bool) : rule := fun t => match t with Bin bAdd (Bin bMul b c) a => if eL then Some (Fma fMADD a b c) else None | _ => None end.
Definition f_subR (eR : bool) : rule := fun t => match t with Bin bSub a (Bin bMul b c) => if eR then Some (Fma fNMADD a b c) else None | _ => None end.
Definition f_subL (eL : bool) : rule := fun t => match t with Bin bSub (Bin bMul b c) a => if eL then Some (Fma fMSUB a b c) else None | _ => None end.
Definition f_dist (eL : bool) : rule := fun t =>
  match t with
  | Bin bMul (Bin bAdd a (Const j)) (Const k) => if eL then Some (Add (Mul a (Const k)) (Const (kmul A j k))) else None
  | Bin bMul (Bin bSub a (Const j)) (Const k) => if eL then Some (Sub (Mul a (Const k)) (Const (kmul A j k))) else None
  | _ => None end.
Definition negFma (f : fma) : fma := match f with fMADD => fNMSUB | fMSUB => fNMADD | fNMADD => fMSUB | fNMSUB => fMADD end.
Definition f_neg (eL : bool) : rule := fun t => match t with Un uNeg (Fma f a b c) => if eL then Some (Fma (negFma f) a b c) else None | _ => None end.
Definition fusionRules (eL eR : bool) : list rule := [f_addR eR; f_addL eL; f_subR eR; f_subL eL; f_dist eL; f_neg eL].
Section Fusion.
Variable cnt : ex -> nat.
Definition canElide (node cand : ex) : bool := Nat.ltb 1 (cnt node) || Nat.leb (cnt cand) 1.
Fixpoint fusion (t : ex) : ex * bool :=
  match t with
  | Const _ => (t, false) | Load _ => (t, false)
  | Un u a => let '(a', ca) := fusion a in runRules (fusionRules (canElide t a) false) (Un u a') ca
  | Bin b a c => let '(a', ca) := fusion a in let '(c', cc) := fusion c in
      runRules (fusionRules (canElide t a) (canElide t c)) (Bin b a' c') (ca || cc)
  | Cmp o a b => let '(a', ca) := fusion a in let '(b', cb) := fusion b in (Cmp o a' b', ca || cb)
  | Fma f a b c => let '(a', ca) := fusion a in let '(b', cb) := fusion b in let '(c', cc) := fusion c in (Fma f a' b' c', ca || cb || cc)
  | Tern c a b => let '(c', cc) := fusion c in let '(a', ca) := fusion a in let '(b', cb) := fusion b in (Tern c' a' b', ca || cb || cc)
  end.
End Fusion.
Definition fusionPass (t : ex) : ex * bool := fusion (fun u => length (filter (exeq u) (subs t))) t.

(** The loops of compile: expr.cpp:1460-1473; None: "expression compilation did not complete" *)
Definition first (fix_ : bool) (t : ex) : ex * bool :=
  let '(t1, c1) := localPass t in if c1 then (t1, true) else
  let t2 := fst (comb t1) in
  let '(t3, c3) := algPass fix_ t2 in if c3 then (t3, true) else
  cmpPass false t3.
Definition second (t : ex) : ex * bool :=
  let '(t1, c1) := localPass t in if c1 then (t1, true) else
  let '(t2, c2) := strength false t1 in if c2 then (t2, true) else
  fusionPass t2.
Fixpoint loop (body : ex -> ex * bool) (fuel : nat) (t : ex) : option (ex * nat) :=
  let '(t', ch) := body t in
  if ch then match fuel with O => None | S f => loop body f t' end else Some (t', fuel).
Definition maxPasses : nat := Z.to_nat 1000.
Definition optimise (fix_ : bool) (t : ex) : option ex :=
  match loop (first fix_) maxPasses t with
  | Some (t1, f) => match loop second f t1 with Some (t2, _) => Some t2 | None => None end
  | None => None end.
End Rw.

(** What expressions mean over the real numbers; None: not defined. *)
From Coq Require Import ZArith List Bool Reals.
From Verif Require Import RwSyntax.
Import ListNotations.
Open Scope R_scope.

(** Powers: any exponent for positive bases, integer exponents for negative ones.  [z]: whether 0 to the
    power 0 counts as 1 (as in C) or as not defined. *)
Definition rpow (z : bool) (a b : R) : option R :=
  if Rlt_dec 0 a then Some (Rpower a b)
  else if Req_EM_T a 0 then (if Rlt_dec 0 b then Some 0 else if Req_EM_T b 0 then (if z then Some 1 else None) else None)
  else if Req_EM_T b (IZR (Int_part b)) then Some (powerRZ a (Int_part b)) else None.

Definition truth (b : bool) : R := if b then 1 else 0.
Definition holds (x : R) : bool := if Rlt_dec 0 x then true else false.
Definition usem (u : uop) (x : R) : option R :=
  match u with
  | uSqrt => if Rle_dec 0 x then Some (sqrt x) else None
  | uAbs => Some (Rabs x) | uNeg => Some (- x) | uNot => Some (truth (negb (holds x)))
  | uExp => Some (exp x) | uLog => if Rlt_dec 0 x then Some (ln x) else None | uSin => Some (sin x) | uCos => Some (cos x)
  end.
Definition bsem (z : bool) (b : bop) (x y : R) : option R :=
  match b with
  | bAdd => Some (x + y) | bSub => Some (x - y) | bMul => Some (x * y) | bDiv => if Req_EM_T y 0 then None else Some (x / y)
  | bMax => Some (Rmax x y) | bMin => Some (Rmin x y)
  | bAnd => Some (truth (holds x && holds y)) | bOr => Some (truth (holds x || holds y)) | bXor => Some (truth (xorb (holds x) (holds y)))
  | bPow => rpow z x y
  end.
Definition csem (c : cmp) (x y : R) : R :=
  match c with
  | cEQ => if Req_EM_T x y then 1 else 0 | cNEQ => if Req_EM_T x y then 0 else 1
  | cLT => if Rlt_dec x y then 1 else 0 | cNLT => if Rlt_dec x y then 0 else 1
  | cLE => if Rle_dec x y then 1 else 0 | cNLE => if Rle_dec x y then 0 else 1
  end.
Definition fsem (f : fma) (a b c : R) : R :=
  match f with fMADD => b * c + a | fMSUB => b * c - a | fNMADD => - (b * c) + a | fNMSUB => - (b * c) - a end.

Section Meaning.
Variable A : arith.
Variable den : K A -> R.      (* the number a constant stands for *)
Variable z : bool.            (* 0 ** 0 *)
Variable rho : nat -> R.      (* the samples of the clips *)

Definition bind2 (x y : option R) (f : R -> R -> option R) : option R := match x, y with Some a, Some b => f a b | _, _ => None end.
(** The branch that is not taken need not be defined. *)
Fixpoint eval (t : ex A) : option R :=
  match t with
  | Const k => Some (den k)
  | Load i => Some (rho i)
  | Un u a => match eval a with Some x => usem u x | None => None end
  | Bin b a c => bind2 (eval a) (eval c) (bsem z b)
  | Cmp c a b => bind2 (eval a) (eval b) (fun x y => Some (csem c x y))
  | Fma f a b c => match eval a, eval b, eval c with Some x, Some y, Some z => Some (fsem f x y z) | _, _, _ => None end
  | Tern c a b => match eval c with Some x => if holds x then eval a else eval b | None => None end
  end.
(** Expressions for which the laws of powers that the optimiser uses hold: a square root or a power inside sums,
    products and quotients has an integer exponent, or a base that can be seen not to be negative.  What is asked
    of an expression depends on where it stands: [NonNeg] below such a power; [Any] in sums, products, quotients,
    comparisons and exponents; [Free] elsewhere. *)
Inductive mode := Free | Any | NonNeg.
Definition inM (m : mode) (x : R) : Prop := match m with NonNeg => 0 <= x | _ => True end.
Definition inner (m : mode) : mode := match m with NonNeg => NonNeg | _ => Any end.
Definition outer (m : mode) : mode := match m with NonNeg => NonNeg | _ => Free end.
Definition below (m : mode) : mode := match m with Free => Free | _ => NonNeg end.
Definition signed (m : mode) : Prop := m <> NonNeg.
(* an integer constant, or the sum of such *)
Fixpoint expo (t : ex A) : Prop :=
  match t with Const k => exists n, den k = IZR n | Bin bAdd a b => expo a /\ expo b | _ => False end.
Fixpoint covered (m : mode) (t : ex A) : Prop :=
  match t with
  | Const k => inM m (den k)
  | Load i => inM m (rho i)
  | Un u a =>
      match u with
      | uSqrt => covered (below m) a
      | uAbs | uNot => covered Free a
      | uExp => covered m a
      | uLog => signed m /\ covered m a
      | uNeg | uSin | uCos => signed m /\ covered Free a
      end
  | Bin b a c =>
      match b with
      | bAdd | bMul | bDiv => covered (inner m) a /\ covered (inner m) c
      | bSub => signed m /\ covered Any a /\ covered Any c
      | bMax | bMin => covered (outer m) a /\ covered (outer m) c
      | bAnd | bOr | bXor => covered Free a /\ covered Free c
      | bPow => (covered (below m) a /\ covered Any c) \/ (m = Any /\ covered Any a /\ expo c)
      end
  | Cmp _ a b => covered Any a /\ covered Any b
  | Fma _ a b c => signed m /\ covered Any a /\ covered Any b /\ covered Any c
  | Tern c a b => signed m /\ covered Free c /\ match eval c with Some x => if holds x then covered m a else covered m b | None => True end
  end.
(** [t'] has the value of [t] wherever that is defined. *)
Definition refines (t t' : ex A) : Prop := forall v, eval t = Some v -> eval t' = Some v.
End Meaning.

(** An arithmetic without rounding. *)
Record exact (A : arith) (den : K A -> R) : Prop := mkE {
  e_eq : forall a b, keq A a b = true <-> den a = den b;
  e_lt : forall a b, klt A a b = true <-> den a < den b;
  e_int : forall z, den (kint A z) = IZR z;
  e_half : den (khalf A) = / 2;
  e_add : forall a b, den (kadd A a b) = den a + den b;
  e_sub : forall a b, den (ksub A a b) = den a - den b;
  e_mul : forall a b, den (kmul A a b) = den a * den b;
  e_div : forall a b, den b <> 0 -> den (kdiv A a b) = den a / den b;
  e_neg : forall a, den (kneg A a) = - den a;
  e_abs : forall a, den (kabs A a) = Rabs (den a);
  e_pow : forall a b v, rpow false (den a) (den b) = Some v -> den (kpow A a b) = v;
  e_fun : forall u a v, usem u (den a) = Some v -> den (kfun A u a) = v;
  e_isint : forall a, kisint A a = true <-> exists z, den a = IZR z;
  e_toint : forall a z, den a = IZR z -> ktoint A a = z }.

(** Expr: parsing, value numbering, code generation and register renaming.  src/core/expr/expr.cpp *)
From Coq Require Import String.
From Coq Require Import ZArith List Lia Bool Ascii.
From Verif Require Import Common FormatSpec Format Spatial ExprSyntax.
Import ListNotations.
Open Scope Z_scope.

(** std::isspace in the C locale *)
Definition isspace (c : ascii) : bool := existsb (Ascii.eqb c) [" "; "009"; "010"; "011"; "012"; "013"]%char.
(** tokenize, expr.cpp:142-162; [cur]: the characters from prev up to it. *)
Fixpoint tokenizeFrom (s cur : string) : list string :=
  match s with
  | EmptyString => if String.eqb cur "" then [] else [cur]
  | String c r =>
      if isspace c then (if String.eqb cur "" then tokenizeFrom r "" else cur :: tokenizeFrom r "")
      else tokenizeFrom r (cur ++ String c "")
  end.
Definition tokenize (s : string) : list string := tokenizeFrom s "".

(** decodeToken, expr.cpp:164-219 *)
Definition simple : list (string * exprop) :=
  [("+", op0 oAdd); ("-", op0 oSub); ("*", op0 oMul); ("/", op0 oDiv); ("sqrt", op0 oSqrt); ("abs", op0 oAbs); ("max", op0 oMax); ("min", op0 oMin);
   ("<", mkOp oCmp cmpLT); (">", mkOp oCmp cmpNLE); ("=", mkOp oCmp cmpEQ); (">=", mkOp oCmp cmpNLT); ("<=", mkOp oCmp cmpLE);
   ("and", op0 oAnd); ("or", op0 oOr); ("xor", op0 oXor); ("not", op0 oNot); ("?", op0 oTernary); ("exp", op0 oExp); ("log", op0 oLog); ("pow", op0 oPow);
   ("sin", op0 oSin); ("cos", op0 oCos); ("dup", op0 oDup); ("swap", mkOp oSwap 1)]%string.
Fixpoint lookup {A} (k : string) (l : list (string * A)) : option A :=
  match l with [] => None | (k', v) :: r => if String.eqb k k' then Some v else lookup k r end.
Definition code (c : ascii) : Z := Z.of_nat (nat_of_ascii c).
(** std::from_chars for int when all characters are used and the value fits; otherwise the caller throws. *)
Fixpoint digits (s : string) (acc : Z) : option Z :=
  match s with
  | EmptyString => Some acc
  | String c r => if (48 <=? code c) && (code c <=? 57) then digits r (10 * acc + (code c - 48)) else None
  end.
Definition fromChars (s : string) : option Z :=
  let num neg t := match t with
                   | EmptyString => None
                   | _ => match digits t 0 with Some v => let v := if neg : bool then - v else v in if in_intb v then Some v else None | None => None end
                   end in
  match s with String c r => if Ascii.eqb c "-" then num true r else num false s | EmptyString => None end.
Definition dupPrefix (s : string) : option (optype * string) :=
  match s with
  | String "d" (String "u" (String "p" r)) => Some (oDup, r)
  | String "s" (String "w" (String "a" (String "p" r))) => Some (oSwap, r)
  | _ => None
  end.
(** [toFloat]: the bits of the number when the whole token is one (std::istringstream, not modelled). *)
Definition decodeToken (toFloat : string -> option Z) (tok : string) : outcome exprop :=
  match lookup tok simple with
  | Some op => Ok op
  | None =>
      match tok with
      | String c EmptyString =>
          if (97 <=? code c) && (code c <=? 122) then Ok (mkOp oLoadU8 (if 120 <=? code c then code c - 120 else code c - 97 + 3))
          else match toFloat tok with Some b => Ok (mkOp oConst b) | None => Err end
      | _ =>
          match dupPrefix tok with
          | Some (t, r) => match fromChars r with Some v => if v <? 0 then Err else Ok (mkOp t v) | None => Err end
          | None => match toFloat tok with Some b => Ok (mkOp oConst b) | None => Err end
          end
      end
  end.

(** numOperands, expr.cpp:223-257 *)
Definition numOperands (t : optype) : nat :=
  match t with
  | oAdd | oSub | oMul | oDiv | oMax | oMin | oCmp | oAnd | oOr | oXor | oPow => 2
  | oFma | oTernary => 3
  | oSqrt | oAbs | oNeg | oNot | oExp | oLog | oSin | oCos => 1
  | _ => 0
  end.
(** The load for the format of the clip, expr.cpp:278-289 *)
Definition loadType (f : vfmt) : optype :=
  if (f_st f =? stInteger) && (f_bytes f =? 1) then oLoadU8
  else if (f_st f =? stInteger) && (f_bytes f =? 2) then oLoadU16
  else if (f_st f =? stFloat) && (f_bytes f =? 2) then oLoadF16
  else if (f_st f =? stFloat) && (f_bytes f =? 4) then oLoadF32
  else oLoadU8.
(** ExpressionTree::clone, expr.cpp:107-116: nodes are values here. *)
Fixpoint clone (t : tree) : tree := match t with Nil => Nil | Node op l r => Node op (clone l) (clone r) end.
(** std::swap of the top, the head, with element n below it. *)
Definition setNth {A} (n : nat) (x : A) (l : list A) : list A := firstn n l ++ match skipn n l with [] => [] | _ :: r => x :: r end.
Definition swapTop (n : nat) (st : list tree) : outcome (list tree) :=
  match st, nth_error st n with top :: _, Some x => Ok (setNth 0 x (setNth n top st)) | _, _ => UB end.
(** One token, expr.cpp:266-331.  The head of [st] is stack.back(). *)
Definition parseOp (fmts : list vfmt) (op : exprop) (st : list tree) : outcome (list tree) :=
  if opIs (o_type op) oLoadU8 && (Z.of_nat (List.length fmts) <=? o_imm op) then Err
  else if (opIs (o_type op) oDup || opIs (o_type op) oSwap) && (Z.of_nat (List.length st) <=? o_imm op) then Err
  else if (List.length st <? numOperands (o_type op))%nat then Err
  else
    obind (if opIs (o_type op) oLoadU8 then match nthz fmts (o_imm op) with Some f => Ok (mkOp (loadType f) (o_imm op)) | None => UB end else Ok op) (fun op =>
    if opIs (o_type op) oDup then match nth_error st (Z.to_nat (o_imm op)) with Some t => Ok (clone t :: st) | None => UB end
    else if opIs (o_type op) oSwap then swapTop (Z.to_nat (o_imm op)) st
    else match numOperands (o_type op), st with
         | 0%nat, _ => Ok (Node op Nil Nil :: st)
         | 1%nat, c :: r => Ok (Node op c Nil :: r)
         | 2%nat, b :: a :: r => Ok (Node op a b :: r)
         | 3%nat, c :: b :: a :: r => Ok (Node op a (Node (op0 oMux) b c) :: r)
         | _, _ => UB
         end).
Fixpoint parseOps (fmts : list vfmt) (ops : list exprop) (st : list tree) : outcome (list tree) :=
  match ops with [] => Ok st | op :: r => obind (parseOp fmts op st) (parseOps fmts r) end.
(** An exception at a token stops everything, so tokens may be decoded first. *)
Fixpoint decodeAll (toFloat : string -> option Z) (toks : list string) : outcome (list exprop) :=
  match toks with [] => Ok [] | t :: r => obind (decodeToken toFloat t) (fun op => obind (decodeAll toFloat r) (fun l => Ok (op :: l))) end.
Definition parseTree (fmts : list vfmt) (ops : list exprop) : outcome tree :=
  obind (parseOps fmts ops []) (fun st => match st with [t] => Ok t | _ => Err end).
Definition parseExpr (toFloat : string -> option Z) (expr : string) (fmts : list vfmt) : outcome tree :=
  obind (decodeAll toFloat (tokenize expr)) (parseTree fmts).

(** ** Value numbering.  equalSubTree, expr.cpp:126-140; applyValueNumbering, expr.cpp:452-476 *)
Inductive ntree := NNil | NNode (op : exprop) (l r : ntree) (vn : Z).
Definition vnOf (t : ntree) : Z := match t with NNil => -1 | NNode _ _ _ n => n end.
Definition nIsMux (t : ntree) : bool := match t with NNil => false | NNode op _ _ _ => opIs (o_type op) oMux end.
Fixpoint equalSubTree (a b : ntree) : bool :=
  match a, b with
  | NNil, NNil => true
  | NNode oa la ra na, NNode ob lb rb nb =>
      if (0 <=? na) && (0 <=? nb) then na =? nb
      else if negb (opIs (o_type oa) (o_type ob)) || negb (o_imm oa =? o_imm ob) then false
      else equalSubTree la lb && equalSubTree ra rb
  | _, _ => false
  end.
Fixpoint number (t : tree) (s : list ntree * Z) : ntree * (list ntree * Z) :=
  match t with
  | Nil => (NNil, s)
  | Node op l r =>
      let '(l', s) := number l s in let '(r', s) := number r s in
      let node := NNode op l' r' (-1) in
      if opIs (o_type op) oMux then (node, s)
      else match find (equalSubTree node) (fst s) with
           | Some test => (NNode op l' r' (vnOf test), s)
           | None => let node := NNode op l' r' (snd s) in (node, (fst s ++ [node], snd s + 1))
           end
  end.
Definition applyValueNumbering (t : tree) : ntree := fst (number t ([], 0)).

(** ** Code generation, expr.cpp:1475-1504 *)
Fixpoint emit (t : ntree) (s : list instr * list Z) : list instr * list Z :=
  match t with
  | NNil => s
  | NNode op l r n =>
      let s := emit r (emit l s) in
      if opIs (o_type op) oMux then s
      else if existsb (Z.eqb n) (snd s) then s
      else (fst s ++ [mkIn op n (vnOf l) (match r with NNode m a b _ => if opIs (o_type m) oMux then vnOf a else vnOf r | NNil => -1 end)
                                (match r with NNode m a b _ => if opIs (o_type m) oMux then vnOf b else -1 | NNil => -1 end)], n :: snd s)
  end.
(** The store for the output format, expr.cpp:1506-1523 *)
Definition storeType (f : vfmt) : optype :=
  if (f_st f =? stInteger) && (f_bytes f =? 1) then oStoreU8
  else if (f_st f =? stInteger) && (f_bytes f =? 2) then oStoreU16
  else if (f_st f =? stFloat) && (f_bytes f =? 2) then oStoreF16
  else if (f_st f =? stFloat) && (f_bytes f =? 4) then oStoreF32
  else oStoreU8.
Definition storeOp (f : vfmt) : exprop := mkOp (storeType f) (if opIs (storeType f) oStoreU16 then f_bits f else 0).

(** ** renameRegisters, expr.cpp:1397-1442.  [table]: the assigned registers; [free]: a set whose begin() is the least. *)
Definition uses (i : instr) (r : Z) : bool := (in_src1 i =? r) || (in_src2 i =? r) || (in_src3 i =? r).
Definition renamedOf (table : Z -> option Z) (r : Z) : Z := match table r with Some q => q | None => r end.
Definition renameSrc (table : Z -> option Z) (rest : list instr) (r : Z) (free : list Z) : Z * list Z :=
  if r <? 0 then (r, free)
  else let q := renamedOf table r in (q, if existsb (fun i => uses i r) rest then free else q :: free).
Definition least (x : Z) (l : list Z) : Z := fold_right Z.min x l.
Fixpoint rename (code : list instr) (table : Z -> option Z) (free : list Z) : list instr :=
  match code with
  | [] => []
  | i :: rest =>
      let '(s1, free) := renameSrc table rest (in_src1 i) free in
      let '(s2, free) := renameSrc table rest (in_src2 i) free in
      let '(s3, free) := renameSrc table rest (in_src3 i) free in
      let d := in_dst i in
      match free with
      | x :: l =>
          if d <? 0 then mkIn (in_op i) d s1 s2 s3 :: rename rest table free
          else let q := least x l in
               mkIn (in_op i) q s1 s2 s3 :: rename rest (fun r => if r =? d then Some q else table r) (d :: filter (fun f => negb (f =? q)) free)
      | [] => mkIn (in_op i) d s1 s2 s3 :: rename rest table free
      end
  end.

(** compile without optimisations, expr.cpp:1444-1533 *)
Definition codeBefore (t : tree) (f : vfmt) : outcome (list instr) :=
  let code := fst (emit (applyValueNumbering t) ([], [])) in
  match rev code with
  | [] => UB
  | i :: _ => Ok (code ++ [mkIn (storeOp f) (-1) (in_dst i) (-1) (-1)])
  end.
Definition compile (t : tree) (f : vfmt) : outcome (list instr) :=
  match t with Nil => Ok [] | _ => obind (codeBefore t f) (fun c => Ok (rename c (fun _ => None) [])) end.

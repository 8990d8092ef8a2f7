(** What postfix expressions, trees and instruction sequences mean, for any values and any meaning of the operations. *)
From Coq Require Import ZArith List Bool String Ascii.
From Verif Require Import Common ExprSyntax.
Import ListNotations.
Open Scope Z_scope.

Section Meaning.
Variable V : Type.
Variable sem : exprop -> list V -> V.

(** A tree: a third operand hangs below a MUX node. *)
Fixpoint eval (t : tree) : option V :=
  match t with
  | Nil => None
  | Node op l r =>
      if opIs (o_type op) oMux then None
      else match l, r with
           | Nil, Nil => Some (sem op [])
           | Nil, _ => None
           | _, Nil => option_map (fun a => sem op [a]) (eval l)
           | _, Node m a b =>
               if opIs (o_type m) oMux
               then match eval l, eval a, eval b with Some x, Some y, Some z => Some (sem op [x; y; z]) | _, _, _ => None end
               else match eval l, eval r with Some x, Some y => Some (sem op [x; y]) | _, _ => None end
           end
  end.

(** The expressions inside an expression. *)
Fixpoint subs (t : tree) : list tree :=
  match t with Nil => [] | Node op l r => (if opIs (o_type op) oMux then [] else [t]) ++ subs l ++ subs r end.

(** Direct evaluation of a postfix expression; the head of the list is the top of the stack. *)
Inductive item := Push (op : exprop) | Apply (n : nat) (op : exprop) | Dup (n : nat) | Swap (n : nat).
Definition exchange {A} (n : nat) (st : list A) : option (list A) :=
  match st, nth_error st n with
  | top :: rest, Some x => Some (match n with O => st | S m => x :: firstn m rest ++ top :: skipn n rest end)
  | _, _ => None
  end.
Definition direct1 (i : item) (st : list V) : option (list V) :=
  match i with
  | Push op => Some (sem op [] :: st)
  | Apply n op => if (n <=? List.length st)%nat then Some (sem op (rev (firstn n st)) :: skipn n st) else None
  | Dup n => option_map (fun x => x :: st) (nth_error st n)
  | Swap n => exchange n st
  end.
Fixpoint direct (l : list item) (st : list V) : option (list V) :=
  match l with [] => Some st | i :: r => match direct1 i st with Some st' => direct r st' | None => None end end.
(** Exactly one value must remain. *)
Definition result (l : list item) : option V := match direct l [] with Some [v] => Some v | _ => None end.

(** Instructions: all sources are read, then the destination is written.  None: a register is read that was never written. *)
Definition regs := Z -> option V.
Definition source (R : regs) (r : Z) (rest : option (list V)) : option (list V) :=
  if r <? 0 then rest else match R r, rest with Some v, Some l => Some (v :: l) | _, _ => None end.
Definition sources (R : regs) (i : instr) : option (list V) := source R (in_src1 i) (source R (in_src2 i) (source R (in_src3 i) (Some []))).
Definition isStore (t : optype) : bool := existsb (opIs t) [oStoreU8; oStoreU16; oStoreF16; oStoreF32].
(** The stored value: that of the first store. *)
Fixpoint run (code : list instr) (R : regs) : option (exprop * V) :=
  match code with
  | [] => None
  | i :: rest =>
      match sources R i with
      | None => None
      | Some vs =>
          if isStore (o_type (in_op i)) then match vs, rest with [v], [] => Some (in_op i, v) | _, _ => None end
          else if in_dst i <? 0 then None
          else run rest (fun r => if r =? in_dst i then Some (sem (in_op i) vs) else R r)
      end
  end.
End Meaning.

(** What the words mean, how many operands they take, and how samples of a format are loaded. *)
Definition vocabulary : list (string * exprop) :=
  [("+", mkOp oAdd 0); ("-", mkOp oSub 0); ("*", mkOp oMul 0); ("/", mkOp oDiv 0); ("max", mkOp oMax 0); ("min", mkOp oMin 0); ("pow", mkOp oPow 0);
   ("sqrt", mkOp oSqrt 0); ("abs", mkOp oAbs 0); ("exp", mkOp oExp 0); ("log", mkOp oLog 0); ("sin", mkOp oSin 0); ("cos", mkOp oCos 0);
   ("=", mkOp oCmp cmpEQ); ("<", mkOp oCmp cmpLT); ("<=", mkOp oCmp cmpLE); (">=", mkOp oCmp cmpNLT); (">", mkOp oCmp cmpNLE);
   ("and", mkOp oAnd 0); ("or", mkOp oOr 0); ("xor", mkOp oXor 0); ("not", mkOp oNot 0); ("?", mkOp oTernary 0);
   ("dup", mkOp oDup 0); ("swap", mkOp oSwap 1); ("dup0", mkOp oDup 0); ("dup17", mkOp oDup 17); ("swap1", mkOp oSwap 1); ("swap205", mkOp oSwap 205); ("dup2147483647", mkOp oDup 2147483647);
   ("x", mkOp oLoadU8 0); ("y", mkOp oLoadU8 1); ("z", mkOp oLoadU8 2); ("a", mkOp oLoadU8 3); ("w", mkOp oLoadU8 25)]%string.
Definition nonsense : list string := ["dup-1"; "swap-3"; "dupx"; "swap"  ++ "1 "; "dup2147483648"; "swap99999999999"; "dup "; "swap1.5"]%string.
Definition arity (t : optype) : nat :=
  if existsb (opIs t) [oSqrt; oAbs; oNeg; oNot; oExp; oLog; oSin; oCos] then 1
  else if existsb (opIs t) [oAdd; oSub; oMul; oDiv; oMax; oMin; oCmp; oAnd; oOr; oXor; oPow] then 2
  else if existsb (opIs t) [oTernary; oFma] then 3 else 0.
Definition loadFor (integer : bool) (bytes : Z) : optype :=
  if integer then (if bytes =? 2 then oLoadU16 else oLoadU8) else if bytes =? 2 then oLoadF16 else if bytes =? 4 then oLoadF32 else oLoadU8.
(** One word; [loads]: how to load the samples of each clip. *)
Definition itemOf (loads : list optype) (op : exprop) : option item :=
  match o_type op with
  | oLoadU8 => option_map (fun t => Push (mkOp t (o_imm op))) (nth_error loads (Z.to_nat (o_imm op)))
  | oDup => Some (Dup (Z.to_nat (o_imm op)))
  | oSwap => Some (Swap (Z.to_nat (o_imm op)))
  | t => Some (match arity t with O => Push op | n => Apply n op end)
  end.
Fixpoint itemsOf (loads : list optype) (ops : list exprop) : option (list item) :=
  match ops with [] => Some [] | op :: r => match itemOf loads op, itemsOf loads r with Some i, Some l => Some (i :: l) | _, _ => None end end.
Definition storeFor (integer : bool) (bytes bits : Z) : exprop :=
  if integer then (if bytes =? 2 then mkOp oStoreU16 bits else mkOp oStoreU8 0)
  else if bytes =? 2 then mkOp oStoreF16 0 else if bytes =? 4 then mkOp oStoreF32 0 else mkOp oStoreU8 0.

(** Words separated by white space. *)
Definition isBlank (c : ascii) : bool := let n := Z.of_nat (nat_of_ascii c) in (n =? 32) || ((9 <=? n) && (n <=? 13)).
Fixpoint allChars (p : ascii -> bool) (s : string) : bool := match s with EmptyString => true | String c r => p c && allChars p r end.
Inductive written : list string -> string -> Prop :=
| w_nil : forall s, allChars isBlank s = true -> written [] s
| w_last : forall b w, allChars isBlank b = true -> allChars (fun c => negb (isBlank c)) w = true -> w <> EmptyString -> written [w] (b ++ w)
| w_cons : forall b w c r ws, allChars isBlank b = true -> allChars (fun c => negb (isBlank c)) w = true -> w <> EmptyString -> isBlank c = true ->
    written ws r -> written (w :: ws) (b ++ w ++ String c r).

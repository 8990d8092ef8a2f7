(** JSON texts (RFC 8259) as bytes: a parser, numbers, UTF-8; and the value meant by a property map. *)
From Coq Require Import String Ascii ZArith List Bool Lia.
From Verif Require Import OptSpec.
Import ListNotations.
Open Scope Z_scope.
Inductive json := jnull | jbool (b : bool) | jnum (t : text) | jstr (s : text) | jarr (l : list json) | jobj (l : list (text * json)).
Definition code (c : ascii) : Z := Z.of_nat (nat_of_ascii c).
Definition chr (n : Z) : ascii := ascii_of_nat (Z.to_nat n).
Definition isCh (c x : ascii) : bool := Ascii.eqb c x.
Definition isDigit (c : ascii) : bool := (48 <=? code c) && (code c <=? 57).
(** ** Strings *)
Definition hexVal (c : ascii) : option Z :=
  let n := code c in if (48 <=? n) && (n <=? 57) then Some (n - 48) else if (65 <=? n) && (n <=? 70) then Some (n - 55) else if (97 <=? n) && (n <=? 102) then Some (n - 87) else None.
(** The bytes of a code point of the basic plane; surrogates are not accepted. *)
Definition utf8Of (n : Z) : option text :=
  if n <? 128 then Some [chr n] else if n <? 2048 then Some [chr (192 + n / 64); chr (128 + n mod 64)]
  else if (55296 <=? n) && (n <? 57344) then None else Some [chr (224 + n / 4096); chr (128 + n / 64 mod 64); chr (128 + n mod 64)].
Definition simpleEscape (c : ascii) : option ascii :=
  if isCh c """" then Some """"%char else if isCh c "\" then Some "\"%char else if isCh c "/" then Some "/"%char else if isCh c "b" then Some (chr 8) else if isCh c "f" then Some (chr 12)
  else if isCh c "n" then Some (chr 10) else if isCh c "r" then Some (chr 13) else if isCh c "t" then Some (chr 9) else None.
Definition more (s : text) (r : option (text * text)) : option (text * text) := match r with Some (l, r) => Some (s ++ l, r) | None => None end.
(** The rest of a string after its opening quote. *)
Fixpoint str (t : text) : option (text * text) :=
  match t with
  | [] => None
  | c :: r =>
      if isCh c """" then Some ([], r)
      else if isCh c "\" then
        match r with
        | [] => None
        | e :: r =>
            match simpleEscape e with
            | Some x => more [x] (str r)
            | None =>
                if isCh e "u" then
                  match r with
                  | a :: b :: c :: d :: r =>
                      match hexVal a, hexVal b, hexVal c, hexVal d with
                      | Some a, Some b, Some c, Some d => match utf8Of (((a * 16 + b) * 16 + c) * 16 + d) with Some s => more s (str r) | None => None end
                      | _, _, _, _ => None
                      end
                  | _ => None
                  end
                else None
            end
        end
      else if code c <? 32 then None else more [c] (str r)
  end.
(** ** Numbers *)
Fixpoint dropDigits (t : text) : text := match t with c :: r => if isDigit c then dropDigits r else t | [] => [] end.
Definition digits1 (t : text) : option text := match t with c :: r => if isDigit c then Some (dropDigits r) else None | [] => None end.
Definition intPart (t : text) : option text := match t with c :: r => if isCh c "0" then Some r else digits1 t | [] => None end.
Definition fracPart (t : text) : option text := match t with c :: r => if isCh c "." then digits1 r else Some t | [] => Some t end.
Definition expPart (t : text) : option text :=
  match t with c :: r => if isCh c "e" || isCh c "E" then digits1 (match r with s :: q => if isCh s "+" || isCh s "-" then q else r | [] => r end) else Some t | [] => Some t end.
Definition isNumber (t : text) : bool :=
  match intPart (match t with c :: r => if isCh c "-" then r else t | [] => t end) with
  | Some t => match fracPart t with Some t => match expPart t with Some [] => true | _ => false end | None => false end
  | None => false
  end.
Definition numChar (c : ascii) : bool := isDigit c || isCh c "-" || isCh c "+" || isCh c "." || isCh c "e" || isCh c "E".
Fixpoint span (t : text) : text * text := match t with c :: r => if numChar c then (c :: fst (span r), snd (span r)) else ([], t) | [] => ([], []) end.
(** ** Values *)
Definition isWs (c : ascii) : bool := (code c =? 32) || (code c =? 9) || (code c =? 10) || (code c =? 13).
Fixpoint ws (t : text) : text := match t with c :: r => if isWs c then ws r else t | [] => [] end.
Definition lit (w t : text) : option text := if list_eq_dec ascii_dec (firstn (List.length w) t) w then Some (skipn (List.length w) t) else None.
(** A value at the start of the text and what follows it; elements of an array, members of an object up to the closing bracket.  [n] bounds the depth of calls. *)
Fixpoint pv (n : nat) (t : text) : option (json * text) :=
  match n with
  | O => None
  | S n =>
      match ws t with
      | [] => None
      | c :: r =>
          if isCh c """" then match str r with Some (s, r) => Some (jstr s, r) | None => None end
          else if isCh c "[" then
            match ws r with
            | [] => None
            | d :: q => if isCh d "]" then Some (jarr [], q) else match pes n r with Some (l, r) => Some (jarr l, r) | None => None end
            end
          else if isCh c "{" then
            match ws r with
            | [] => None
            | d :: q => if isCh d "}" then Some (jobj [], q) else match pms n r with Some (l, r) => Some (jobj l, r) | None => None end
            end
          else match lit (T "null") (c :: r) with Some r => Some (jnull, r) | None =>
               match lit (T "true") (c :: r) with Some r => Some (jbool true, r) | None =>
               match lit (T "false") (c :: r) with Some r => Some (jbool false, r) | None =>
               let '(m, r) := span (c :: r) in if isNumber m then Some (jnum m, r) else None end end end
      end
  end
with pes (n : nat) (t : text) : option (list json * text) :=
  match n with
  | O => None
  | S n =>
      match pv n t with
      | None => None
      | Some (v, r) =>
          match ws r with
          | [] => None
          | c :: r => if isCh c "," then match pes n r with Some (l, r) => Some (v :: l, r) | None => None end else if isCh c "]" then Some ([v], r) else None
          end
      end
  end
with pms (n : nat) (t : text) : option (list (text * json) * text) :=
  match n with
  | O => None
  | S n =>
      match ws t with
      | [] => None
      | c :: r =>
          if isCh c """" then
            match str r with
            | None => None
            | Some (k, r) =>
                match ws r with
                | [] => None
                | c :: r =>
                    if isCh c ":" then
                      match pv n r with
                      | None => None
                      | Some (v, r) =>
                          match ws r with
                          | [] => None
                          | c :: r => if isCh c "," then match pms n r with Some (l, r) => Some ((k, v) :: l, r) | None => None end else if isCh c "}" then Some ([(k, v)], r) else None
                          end
                      end
                    else None
                end
            end
          else None
      end
  end.
(** A whole text. *)
Definition parse (t : text) : option json := match pv (S (List.length t)) t with Some (v, r) => match ws r with [] => Some v | _ => None end | None => None end.
(** ** UTF-8 as a machine: how many continuation bytes are expected, and the range of the next one. *)
Inductive u8 := Start | Cont (n : nat) (lo hi : Z) | Bad.
Definition u8Step (s : u8) (c : ascii) : u8 :=
  let b := code c in
  match s with
  | Bad => Bad
  | Start => if b <? 128 then Start else if b <? 194 then Bad else if b <? 224 then Cont 0 128 191 else if b =? 224 then Cont 1 160 191 else if b =? 237 then Cont 1 128 159 else if b <? 240 then Cont 1 128 191
             else if b =? 240 then Cont 2 144 191 else if b <? 244 then Cont 2 128 191 else if b =? 244 then Cont 2 128 143 else Bad
  | Cont n lo hi => if (lo <=? b) && (b <=? hi) then match n with O => Start | S n => Cont n 128 191 end else Bad
  end.
Definition u8Run (s : u8) (t : text) : u8 := fold_left u8Step t s.
Definition isUtf8 (t : text) : Prop := u8Run Start t = Start.
(** ** Property maps *)
Inductive hint := hUnknown | hBinary | hUtf8.
(** A double: the decimals of a finite one as the library writes them in fixed notation. *)
Inductive fl := Fin (t : text) | Inf (neg : bool) | NaN (neg : bool).
Inductive arr := Ints (l : list Z) | Floats (l : list fl) | Datas (l : list (hint * text)) | Handles (n : nat).
Definition pmap := list (text * arr).
Definition printable (s : text) : bool := forallb (fun c => (32 <=? code c) && (code c <=? 126)) s.
Definition shown (h : hint) (s : text) : bool := match h with hUtf8 => true | hUnknown => (Z.of_nat (List.length s) <? 200) && printable s | hBinary => false end.
Definition binary (s : text) : text := T "[binary data size: " ++ dec (Z.of_nat (List.length s)) ++ T "]".
(** What is to be in the file: one value as itself, several as an array, none as null. *)
Definition valueOf (l : list json) : json := match l with [] => jnull | [v] => v | _ => jarr l end.
Definition flNum (f : fl) : json := match f with Fin t => jnum t | _ => jnull end.
Definition elements (a : arr) : list json :=
  match a with Ints l => map (fun v => jnum (dec v)) l | Floats l => map flNum l | Datas l => map (fun e => jstr (if shown (fst e) (snd e) then snd e else binary (snd e))) l | Handles n => [] end.
Definition objOf (m : pmap) : json := jobj (map (fun e => (fst e, valueOf (elements (snd e)))) m).
(** Maps that can be written: finite doubles that fit the buffer, no handles, no NUL in UTF-8 text. *)
Definition properFl (f : fl) : Prop := match f with Fin t => isNumber t = true /\ forallb numChar t = true /\ (List.length t <= 100)%nat | _ => False end.
Definition properArr (a : arr) : Prop :=
  match a with Ints _ => True | Floats l => Forall properFl l | Datas l => Forall (fun e => fst e = hUtf8 -> ~ In (chr 0) (snd e)) l | Handles n => n = 0%nat end.
Definition properMap (m : pmap) : Prop := Forall (fun e => properArr (snd e)) m.
(** Keys and strings shown are UTF-8. *)
Definition utf8Map (m : pmap) : Prop := Forall (fun e => isUtf8 (fst e) /\ match snd e with Datas l => Forall (fun d => shown (fst d) (snd d) = true -> isUtf8 (snd d)) l | _ => True end) m.

(** JSON output of vspipe: src/vspipe/vsjson.cpp:23-111; the file around it: src/vspipe/vspipe.cpp:395-402, 525-541. *)
From Coq Require Import String Ascii ZArith List Bool Lia.
From Verif Require Import Common OptSpec JsonSpec.
Import ListNotations.
Open Scope Z_scope.

(** 23-28; bytes above 127 are negative chars. *)
Definition isAsciiPrintable (s : text) : bool := forallb (fun c => let v := if code c <? 128 then code c else code c - 256 in negb ((v <? 32) || (126 <? v))) s.
(** 30-34: a result longer than the buffer leaves the bytes of the buffer unspecified, and all of them are used. *)
Definition doubleToString (f : fl) : outcome text :=
  match f with
  | Fin t => if (100 <? length t)%nat then UB else Ok t
  | Inf neg => Ok (if neg then T "-inf" else T "inf")
  | NaN neg => Ok (if neg then T "-nan" else T "nan")
  end.
Definition hexDigit (n : Z) : ascii := nth (Z.to_nat n) (T "0123456789abcdef") zero.
(** 36-64. *)
Definition escapeChar (c : ascii) : text :=
  if Ascii.eqb c "\" then T "\\" else if code c =? 8 then T "\b" else if code c =? 12 then T "\f" else if code c =? 10 then T "\n" else if code c =? 13 then T "\r" else if code c =? 9 then T "\t"
  else if Ascii.eqb c """" then ["\"; """"]%char
  else if code c <? 32 then T "\u00" ++ [hexDigit (code c / 16 mod 16); hexDigit (code c mod 16)] else [c].
Definition escapeJSONString (s : text) : text := """"%char :: flat_map escapeChar s ++ [""""%char].
(** mapGetData is read as a C string. *)
Fixpoint cstr (s : text) : text := match s with [] => [] | c :: r => if code c =? 0 then [] else c :: cstr r end.
(** The loops over the elements, [(j ? ", " : "")] before each. *)
Fixpoint join (l : list text) : text := match l with [] => [] | [t] => t | t :: r => t ++ T ", " ++ join r end.
Fixpoint mapO {A B} (f : A -> outcome B) (l : list A) : outcome (list B) := match l with [] => Ok [] | x :: r => obind (f x) (fun y => obind (mapO f r) (fun r => Ok (y :: r))) end.
Definition dataText (h : hint) (s : text) : text :=
  if match h with hUtf8 => true | hUnknown => (Z.of_nat (length s) <? 200) && isAsciiPrintable s | hBinary => false end
  then escapeJSONString (cstr s) else """"%char :: T "[binary data size: " ++ dec (Z.of_nat (length s)) ++ T "]" ++ [""""%char].
Definition numElems (a : arr) : nat := match a with Ints l => length l | Floats l => length l | Datas l => length l | Handles n => n end.
Definition arrText (a : arr) : outcome text :=
  match numElems a with
  | O => Ok (T "null")
  | n => obind (match a with
                | Ints l => Ok (join (map dec l))
                | Floats l => obind (mapO doubleToString l) (fun l => Ok (join l))
                | Datas l => Ok (join (map (fun e => dataText (fst e) (snd e)) l))
                | Handles _ => Ok []
                end) (fun t => Ok (if (1 <? n)%nat then T "[" ++ t ++ T "]" else t))
  end.
Definition convertVSMapToJSON (m : pmap) : outcome text :=
  obind (mapO (fun e => obind (arrText (snd e)) (fun v => Ok (escapeJSONString (fst e) ++ T ": " ++ v))) m) (fun l => Ok (T "{" ++ join l ++ T "}")).
(** The file when no error occurs; the last frame has no comma. *)
Fixpoint frameLines (l : list text) : text :=
  match l with [] => [] | t :: r => chr 9 :: t ++ (match r with [] => [] | _ => T "," end) ++ chr 10 :: frameLines r end.
Definition jsonFile (frames : list pmap) : outcome text :=
  obind (mapO convertVSMapToJSON frames) (fun l => Ok ("["%char :: chr 10 :: frameLines l ++ ["]"%char; chr 10])).
(** Audio clips: frameDoneCallback is the same, but initializeAudioOutput (vspipe.cpp:547-585) and the end (1254-1262) write nothing. *)
Definition jsonFileAudio (frames : list pmap) : outcome text := obind (mapO convertVSMapToJSON frames) (fun l => Ok (frameLines l)).

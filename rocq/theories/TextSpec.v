(** Text drawn on frames: which characters are shown, in which lines, and which pixels belong to them. *)
From Coq Require Import ZArith List Bool Lia.
From Verif Require Import FormatSpec.
Import ListNotations.
Open Scope Z_scope.

(** A text is a list of bytes in code page 1252; lines end at LF, CR or CR LF. *)
Fixpoint linesOf (cur : list Z) (t : list Z) : list (list Z) :=
  match t with
  | [] => [rev cur]
  | 13 :: ((10 :: r') as r) => linesOf cur r
  | c :: r => if (c =? 10) || (c =? 13) then rev cur :: linesOf [] r else linesOf (c :: cur) r
  end.
(** Codes without a glyph. *)
Definition absent : list Z := [129; 141; 143; 144; 157].
Definition drawable (c : Z) : bool := (32 <=? c) && negb (existsb (Z.eqb c) absent).
(** The glyphs are stored in the order of their codes; an underscore stands for what cannot be drawn. *)
Definition glyphIndex (c : Z) : Z := let c := if drawable c then c else 95 in c - Z.of_nat (length (filter (fun a => a <? c) absent)).
(** Pieces of [n] characters. *)
Definition pieces (n : nat) (l : list Z) : list (list Z) :=
  map (fun i => firstn n (skipn (i * n) l)) (seq 0 (Nat.max 1 (Nat.div (length l + n - 1) n))).
(** Glyphs are 8 by 16 points, each [s] by [s] pixels; the margins are 16 pixels. *)
Definition columns (W s : Z) : Z := (W - 32) / (8 * s).
Definition rowsOfText (H s : Z) : Z := (H - 32) / (16 * s).
Definition layout (t : list Z) (W H s : Z) : list (list Z) :=
  firstn (Z.to_nat (rowsOfText H s)) (concat (map (pieces (Z.to_nat (columns W s))) (linesOf [] t))).
(** The places of a numeric keypad. *)
Inductive side := Low | Middle | High.
Definition hSide (a : Z) : side := match a mod 3 with 1 => Low | 2 => Middle | _ => High end.
Definition vSide (a : Z) : side := if 7 <=? a then Low else if 4 <=? a then Middle else High.
Definition place (w : side) (size extent : Z) : Z := match w with Low => 16 | Middle => (size - extent) / 2 | High => size - extent - 16 end.
Definition originX (a W s : Z) (l : list Z) : Z := place (hSide a) W (Z.of_nat (length l) * (8 * s)).
Definition originY (a H s : Z) (ls : list (list Z)) : Z := place (vSide a) H (Z.of_nat (length ls) * (16 * s)).
(** The character at a pixel and the point of its glyph. *)
Definition charAt (ls : list (list Z)) (a W H s x y : Z) : option (Z * Z * Z) :=
  let v := y - originY a H s ls in
  if v <? 0 then None else
  match nth_error ls (Z.to_nat (v / (16 * s))) with
  | None => None
  | Some l =>
      let u := x - originX a W s l in
      if u <? 0 then None else
      match nth_error l (Z.to_nat (u / (8 * s))) with
      | None => None
      | Some c => Some (c, u mod (8 * s) / s, v mod (16 * s) / s)
      end
  end.
(** The font: 16 rows of 8 points for each glyph, the leftmost point in the highest bit. *)
Definition inked (font : Z -> Z) (c gx gy : Z) : bool := Z.testbit (font (16 * glyphIndex c + gy)) (7 - gx).
(** Where the characters are: left and upper edge of each. *)
Definition spots (ls : list (list Z)) (a W H s : Z) : list (Z * Z) :=
  flat_map (fun r => let l := nth r ls [] in map (fun c => (originX a W s l + Z.of_nat c * (8 * s), originY a H s ls + Z.of_nat r * (16 * s))) (seq 0 (length l))) (seq 0 (length ls)).
(** Samples of a plane with subsampling that are made colourless. *)
Definition within (lo n x : Z) : bool := (lo <=? x) && (x <? lo + n).
Definition blanked (ss_w ss_h s : Z) (sp : list (Z * Z)) (x y : Z) : bool :=
  existsb (fun p => within (fst p / 2 ^ ss_w) (8 * s / 2 ^ ss_w) x && within (snd p / 2 ^ ss_h) (16 * s / 2 ^ ss_h) y) sp.
(** White, black and no colour: of limited range when samples are integers, 1.0 and 0.0 in half (bias 15, 10 bits of fraction) or single precision (bias 127, 23 bits) otherwise. *)
Definition whiteS (f : vfmt) : Z := if f_st f =? stInteger then 235 * 2 ^ (f_bits f - 8) else if f_bits f =? 16 then 15 * 2 ^ 10 else 127 * 2 ^ 23.
Definition blackS (f : vfmt) : Z := if f_st f =? stInteger then 16 * 2 ^ (f_bits f - 8) else 0.
Definition neutralS (f : vfmt) : Z := if f_st f =? stInteger then 2 ^ (f_bits f - 1) else 0.
(** The picture with the text, in a plane that shows it and in one that must only lose its colours. *)
Definition withText (font : Z -> Z) (ls : list (list Z)) (a W H s white black : Z) (g : Z -> Z -> Z) (x y : Z) : Z :=
  match charAt ls a W H s x y with Some (c, gx, gy) => if inked font c gx gy then white else black | None => g x y end.
Definition withoutColour (ss_w ss_h s neutral : Z) (sp : list (Z * Z)) (g : Z -> Z -> Z) (x y : Z) : Z :=
  if blanked ss_w ss_h s sp x y then neutral else g x y.
Definition planeWithText (font : Z -> Z) (f : vfmt) (ls : list (list Z)) (a W H s i : Z) (g : Z -> Z -> Z) : Z -> Z -> Z :=
  if (f_cf f =? cfRGB) || (i =? 0) then withText font ls a W H s (whiteS f) (blackS f) g
  else withoutColour (f_ssw f) (f_ssh f) s (neutralS f) (spots ls a W H s) g.

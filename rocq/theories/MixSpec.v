(** How channels are mixed when the layout changes, as a table.  Does not import the model. *)
From Coq Require Import ZArith List Bool.
From Coq Require Import SpecFloat.
From Verif Require Import Common Soft.
Import ListNotations.
Open Scope Z_scope.

(** Positions: include/VapourSynth4.h:198-224 *)
Definition FL := 0. Definition FR := 1. Definition FC := 2. Definition LFE := 3. Definition BL := 4. Definition BR := 5. Definition FLC := 6. Definition FRC := 7. Definition BC := 8. Definition SL := 9. Definition SR := 10.
Definition LFE2 := 35.
Definition positions : list Z := [0; 1; 2; 3; 4; 5; 6; 7; 8; 9; 10; 11; 12; 13; 14; 15; 16; 17; 29; 30; 31; 32; 33; 34; 35].
Definition isLfe (c : Z) : bool := (c =? LFE) || (c =? LFE2).
(** Left and right exchanged. *)
Definition pairs : list (Z * Z) := [(0, 1); (4, 5); (6, 7); (9, 10); (12, 14); (15, 17); (29, 30); (31, 32); (33, 34)].
Definition mirror (c : Z) : Z :=
  match find (fun p => (fst p =? c) || (snd p =? c)) pairs with Some p => if fst p =? c then snd p else fst p | None => c end.

(** Levels: 1, -3 dB and -6 dB; their power in quarters. *)
Inductive lev := Unity | Minus3 | Minus6.
Definition power (l : lev) : Z := match l with Unity => 4 | Minus3 => 2 | Minus6 => 1 end.
Definition powerOf (l : option lev) : Z := match l with Some x => power x | None => 0 end.

(** The position on the ground that a raised or extra position belongs to. *)
Definition ground (c : Z) : Z :=
  if existsb (Z.eqb c) [12; 29; 31] then FL else if existsb (Z.eqb c) [14; 30; 32] then FR else if existsb (Z.eqb c) [11; 13] then FC
  else if existsb (Z.eqb c) [15; 33] then BL else if existsb (Z.eqb c) [17; 34] then BR else if c =? 16 then BC else c.
(** Where a channel goes: the first line all of whose targets exist. *)
Definition lines (c : Z) : list (list (Z * lev)) :=
  if c =? FC then [[(FL, Minus3); (FR, Minus3)]; [(FL, Minus3)]; [(FR, Minus3)]]
  else if c =? FL then [[(FC, Minus3)]; [(FR, Minus3)]]
  else if c =? FR then [[(FC, Minus3)]; [(FL, Minus3)]]
  else if c =? BL then [[(SL, Unity)]; [(FL, Minus3)]; [(FC, Minus6)]]
  else if c =? BR then [[(SR, Unity)]; [(FR, Minus3)]; [(FC, Minus6)]]
  else if c =? SL then [[(BL, Unity)]; [(FL, Minus3)]; [(FC, Minus6)]]
  else if c =? SR then [[(BR, Unity)]; [(FR, Minus3)]; [(FC, Minus6)]]
  else if c =? BC then [[(BL, Minus3); (BR, Minus3)]; [(SL, Minus3); (SR, Minus3)]; [(FL, Minus6); (FR, Minus6)]; [(FC, Minus3)]]
  else if c =? FLC then [[(FL, Minus3); (FC, Minus3)]; [(FL, Unity)]; [(FC, Unity)]]
  else if c =? FRC then [[(FR, Minus3); (FC, Minus3)]; [(FR, Unity)]; [(FC, Unity)]]
  else if c =? LFE then [[(LFE2, Unity)]]
  else if c =? LFE2 then [[(LFE, Unity)]]
  else [].
Definition targets (has : Z -> bool) (c : Z) : list (Z * lev) :=
  match find (forallb (fun t => has (fst t))) ([(c, Unity)] :: [(ground c, Unity)] :: lines (ground c)) with Some l => l | None => [] end.
(** The level at which channel [c] reaches output [o]. *)
Definition gain (has : Z -> bool) (c o : Z) : option lev := match find (fun t => fst t =? o) (targets has c) with Some t => Some (snd t) | None => None end.

(** Channels of a layout in order. *)
Definition inLayout (layout c : Z) : bool := (0 <=? c) && (c <? 64) && Z.testbit layout c.
Definition channelsOf (layout : Z) : list Z := filter (inLayout layout) (zseq 64).

(** The numbers: 1, sqrt(1/2) rounded to double, and its square. *)
Definition sqrtHalf : fl := S754_finite false 6369051672525773 (-53).
Definition number (l : option lev) : fl := match l with None => S754_zero false | Some Unity => of64 1 0 | Some Minus3 => sqrtHalf | Some Minus6 => mul64 sqrtHalf sqrtHalf end.
(** Sum of a row of doubles in order, and the largest of the rows. *)
Definition rowSum (l : list fl) : fl := fold_left add64 l (S754_zero false).
Definition peakOf (rows : list (list fl)) : fl := fold_left fmax (map rowSum rows) (S754_zero false).
Definition plainRow (inL outL o : Z) : list fl := map (fun c => number (gain (inLayout outL) c o)) (channelsOf inL).
(** The weight from channel [c] to [o]. *)
Definition weight (inL outL : Z) (normalize : bool) (c o : Z) : fl :=
  let w := number (gain (inLayout outL) c o) in
  let peak := peakOf (map (plainRow inL outL) (channelsOf outL)) in
  to32 (if normalize && SFltb (of64 1 0) peak then div64 w peak else w).

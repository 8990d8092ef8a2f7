(** Video files of vspipe: what a clip is and how a y4m file is read. *)
From Coq Require Import String Ascii ZArith List Bool Lia.
From Verif Require Import OptSpec.
Import ListNotations.
Open Scope Z_scope.

Inductive family := Gray | RGB | YUV.
Record format := mkF { f_family : family; f_float : bool; f_bits : Z; f_ssw : Z; f_ssh : Z }.
(** Bytes of one sample. *)
Definition sampleBytes (bits : Z) : Z := if bits <=? 8 then 1 else if bits <=? 16 then 2 else 4.
(** A plane is a list of rows of bytes. *)
Definition rows := list text.
Record video := mkV { v_format : format; v_w : Z; v_h : Z; v_num : Z; v_den : Z; v_frames : list (list rows) }.
Definition planeCount (f : format) : nat := match f_family f with Gray => 1%nat | _ => 3%nat end.
Definition planeW (f : format) (w : Z) (p : nat) : Z := match p with O => w | _ => w / 2 ^ f_ssw f end.
Definition planeH (f : format) (h : Z) (p : nat) : Z := match p with O => h | _ => h / 2 ^ f_ssh f end.
Definition planeIs (w h bytes : Z) (r : rows) : Prop := Z.of_nat (length r) = h /\ Forall (fun t => Z.of_nat (length t) = w * bytes) r.
Definition frameIs (f : format) (w h : Z) (fr : list rows) : Prop :=
  length fr = planeCount f /\ forall p r, nth_error fr p = Some r -> planeIs (planeW f w p) (planeH f h p) (sampleBytes (f_bits f)) r.
Definition formatIs (f : format) : Prop :=
  (if f_float f then f_bits f = 16 \/ f_bits f = 32 else 8 <= f_bits f <= 32) /\ 0 <= f_ssw f <= 4 /\ 0 <= f_ssh f <= 4 /\
  (f_family f <> YUV -> f_ssw f = 0 /\ f_ssh f = 0).
Definition videoIs (v : video) : Prop :=
  formatIs (v_format v) /\ 0 < v_w v /\ 0 < v_h v /\ v_w v mod 2 ^ f_ssw (v_format v) = 0 /\ v_h v mod 2 ^ f_ssh (v_format v) = 0 /\
  0 <= v_num v /\ 0 <= v_den v /\ v_frames v <> [] /\ Forall (frameIs (v_format v) (v_w v) (v_h v)) (v_frames v).

(** Reading: a line, the words of a line, the word with a given first letter. *)
Definition nl : ascii := ascii_of_nat 10.
Fixpoint upTo (c : ascii) (t : text) : option (text * text) :=
  match t with [] => None | d :: r => if Ascii.eqb c d then Some ([], r) else match upTo c r with Some (a, b) => Some (d :: a, b) | None => None end end.
Fixpoint words (t : text) : list text :=
  match t with
  | [] => [[]]
  | c :: r => if Ascii.eqb c " " then [] :: words r else match words r with w :: ws => (c :: w) :: ws | [] => [[c]] end
  end.
Fixpoint field (c : ascii) (l : list text) : option text :=
  match l with [] => None | w :: r => match w with d :: v => if Ascii.eqb c d then Some v else field c r | [] => field c r end end.
Definition bind {A B} (o : option A) (f : A -> option B) : option B := match o with Some a => f a | None => None end.
(** The colour space: mono, mono10; 420, 420p10, 420ph, 420ps. *)
Definition strip (p t : text) : option text := if list_eq_dec ascii_dec p (firstn (length p) t) then Some (skipn (length p) t) else None.
Definition samplingOf (a b c : ascii) : option (Z * Z) :=
  if list_eq_dec ascii_dec [a; b; c] (T "420") then Some (1, 1) else if list_eq_dec ascii_dec [a; b; c] (T "422") then Some (1, 0)
  else if list_eq_dec ascii_dec [a; b; c] (T "444") then Some (0, 0) else if list_eq_dec ascii_dec [a; b; c] (T "410") then Some (2, 2)
  else if list_eq_dec ascii_dec [a; b; c] (T "411") then Some (2, 0) else if list_eq_dec ascii_dec [a; b; c] (T "440") then Some (0, 1) else None.
Definition depthOf (t : text) : option (bool * Z) :=
  match t with
  | [] => Some (false, 8)
  | p :: r => if Ascii.eqb p "p" then
      if list_eq_dec ascii_dec r (T "h") then Some (true, 16) else if list_eq_dec ascii_dec r (T "s") then Some (true, 32)
      else bind (natural r) (fun n => Some (false, n))
    else None
  end.
Definition formatOf (t : text) : option format :=
  match strip (T "mono") t with
  | Some [] => Some (mkF Gray false 8 0 0)
  | Some r => bind (natural r) (fun n => Some (mkF Gray false n 0 0))
  | None => match t with
            | a :: b :: c :: r => bind (samplingOf a b c) (fun s => bind (depthOf r) (fun d => Some (mkF YUV (fst d) (snd d) (fst s) (snd s))))
            | _ => None end
  end.
(** Reading n bytes, k rows of n bytes, the planes of a frame, frames until nothing is left. *)
Definition takeB (n : Z) (t : text) : option (text * text) := if n <=? Z.of_nat (length t) then Some (firstn (Z.to_nat n) t, skipn (Z.to_nat n) t) else None.
Fixpoint takeRows (k : nat) (n : Z) (t : text) : option (rows * text) :=
  match k with O => Some ([], t) | S k => bind (takeB n t) (fun x => bind (takeRows k n (snd x)) (fun y => Some (fst x :: fst y, snd y))) end.
Definition takePlane (f : format) (w h : Z) (p : nat) (t : text) : option (rows * text) :=
  takeRows (Z.to_nat (planeH f h p)) (planeW f w p * sampleBytes (f_bits f)) t.
Fixpoint takePlanes (f : format) (w h : Z) (ps : list nat) (t : text) : option (list rows * text) :=
  match ps with [] => Some ([], t) | p :: ps => bind (takePlane f w h p t) (fun x => bind (takePlanes f w h ps (snd x)) (fun y => Some (fst x :: fst y, snd y))) end.
Fixpoint takeFrames (fuel : nat) (f : format) (w h : Z) (t : text) : option (list (list rows)) :=
  match t with
  | [] => Some []
  | _ => match fuel with
         | O => None
         | S k => bind (upTo nl t) (fun x => bind (strip (T "FRAME") (fst x)) (fun _ =>
             bind (takePlanes f w h (seq 0 (planeCount f)) (snd x)) (fun y => bind (takeFrames k f w h (snd y)) (fun r => Some (fst y :: r)))))
         end
  end.
(** The whole file.  XLENGTH must be the number of frames, the rate is two numbers with a colon. *)
Definition ratio (t : text) : option (Z * Z) := bind (upTo ":" t) (fun x => bind (natural (fst x)) (fun n => bind (natural (snd x)) (fun d => Some (n, d)))).
Definition readY4m (t : text) : option video :=
  bind (upTo nl t) (fun x =>
  match words (fst x) with
  | magic :: ws =>
    bind (strip (T "YUV4MPEG2") magic) (fun _ =>
    bind (bind (field "C" ws) formatOf) (fun f =>
    bind (bind (field "W" ws) natural) (fun w =>
    bind (bind (field "H" ws) natural) (fun h =>
    bind (bind (field "F" ws) ratio) (fun r =>
    bind (bind (field "X" ws) (fun l => bind (strip (T "LENGTH=") l) natural)) (fun n =>
    bind (takeFrames (length t) f w h (snd x)) (fun fs =>
    if Z.of_nat (length fs) =? n then Some (mkV f w h (fst r) (snd r) fs) else None)))))))
  | [] => None
  end).

(** Formats for which there is a name: what y4m files can hold. *)
Definition named (f : format) : Prop :=
  match f_family f with
  | Gray => f_float f = false
  | YUV => In (f_ssw f, f_ssh f) [(1, 1); (1, 0); (0, 0); (2, 2); (2, 0); (0, 1)]
  | RGB => False
  end.

(** Without headers: the planes one after the other, of RGB frames the green, blue and red one, and then the alpha plane. *)
Definition bytesOf (r : rows) : text := concat r.
Definition rawFrame (f : format) (fr : list rows) : text :=
  match f_family f, fr with RGB, [r; g; b] => bytesOf g ++ bytesOf b ++ bytesOf r | _, _ => concat (map bytesOf fr) end.
Definition rawFile (f : format) (fs : list (list rows * option rows)) : text :=
  concat (map (fun x => rawFrame f (fst x) ++ match snd x with Some a => bytesOf a | None => [] end) fs).

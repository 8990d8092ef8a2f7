(** The filter graph and the table of filter times of vspipe (src/vspipe/printgraph.cpp). *)
From Coq Require Import String Ascii ZArith List Bool Lia.
From Verif Require Import Common OptSpec.
Import ListNotations.
Open Scope Z_scope.

(** ---- Texts, sets of texts and maps to them ---- *)

(** The order of std::string: characters as unsigned bytes, a prefix first. *)
Fixpoint tcmp (a b : text) : comparison :=
  match a, b with
  | [], [] => Eq
  | [], _ :: _ => Lt
  | _ :: _, [] => Gt
  | x :: a, y :: b => match N.compare (N_of_ascii x) (N_of_ascii y) with Eq => tcmp a b | c => c end
  end.

(** std::set<std::string>::insert: the elements in order, each once. *)
Fixpoint setInsert (x : text) (l : list text) : list text :=
  match l with
  | [] => [x]
  | y :: tl => match tcmp x y with Lt => x :: l | Eq => l | Gt => y :: setInsert x tl end
  end.

(** nodes[key].insert(x) of a std::map<std::string, std::set<std::string>>. *)
Fixpoint mapInsert (k x : text) (m : list (text * list text)) : list (text * list text) :=
  match m with
  | [] => [(k, [x])]
  | (k', s) :: tl =>
      match tcmp k k' with
      | Lt => (k, [x]) :: m
      | Eq => (k', setInsert x s) :: tl
      | Gt => (k', s) :: mapInsert k x tl
      end
  end.

(** ---- Escaping, printgraph.cpp:60-75 ---- *)

Fixpoint starts (p s : text) : bool :=
  match p, s with
  | [], _ => true
  | _ :: _, [] => false
  | a :: p, b :: s => Ascii.eqb a b && starts p s
  end.

(** replaceAll: std::string::find resumes after the text just put in, so that this is
    one scan from left to right; [skip] characters are left of the text last found. *)
Fixpoint replaceScan (from to : text) (skip : nat) (s : text) : text :=
  match s with
  | [] => []
  | c :: tl =>
      match skip with
      | S k => replaceScan from to k tl
      | O => if starts from s then to ++ replaceScan from to (pred (length from)) tl else c :: replaceScan from to 0 tl
      end
  end.
Definition replaceAll (s from to : text) : text := replaceScan from to 0 s.

Definition bs : ascii := "092"%char.
Definition quote : ascii := "034"%char.
Definition CR : ascii := "013"%char.
Definition LF : ascii := "010"%char.

(** escapeDotString. *)
Definition escapeDot (s : text) : text :=
  replaceAll (replaceAll (replaceAll (replaceAll s [bs] [bs; bs]) [CR; LF] [bs; "n"%char]) [CR] [bs; "n"%char]) [LF] [bs; "n"%char].

(** ---- Nodes ---- *)

(** A value of an argument map. Floating point numbers and the descriptions of clips
    come already written; data comes with its hint (true: dtUtf8); text, read as a C
    string, goes up to its first null character. Any other type: the number of its elements. *)
Inductive argVal :=
| AInts (l : list Z)
| ATexts (l : list text)
| AData (l : list (bool * text))
| AOther (n : Z).

(** VSFunctionFrame: one call on the stack of calls a node was created in. [r_addr]:
    the address of its argument map. *)
Record frameRec := mkRec { r_addr : Z; r_ns : text; r_fn : text; r_args : list (text * argVal) }.

(** A node: its name, filter mode, processing time, the calls it was created in
    (innermost first) and the sources it depends on. *)
Record gnode := mkNode { g_name : text; g_mode : Z; g_time : Z; g_frames : list frameRec; g_deps : list Z }.

(** ---- Descriptions, printgraph.cpp:77-153 ---- *)

Definition mangleNode (a : Z) : text := "n"%char :: dec a.
Definition mangleFrame (f : frameRec) : text := "s"%char :: dec (r_addr f).

(** The first five elements and the number of the others. *)
Definition printElems (l : list text) : text :=
  let shown := firstn 5 l in
  (match shown with [] => [] | x :: r => x ++ flat_map (fun e => T ", " ++ e) r end)
  ++ (if 5 <? Z.of_nat (length l) then T ", <" ++ dec (Z.of_nat (length l) - 5) ++ T ">" else []).

Definition printData (d : bool * text) : text :=
  if fst d then escapeDot (snd d) else T "[binary data " ++ dec (Z.of_nat (length (snd d))) ++ T " bytes]".

Definition printVal (v : argVal) : text :=
  match v with
  | AInts l => printElems (map dec l)
  | ATexts l => printElems l
  | AData l => printElems (map printData l)
  | AOther n => T "<" ++ dec n ++ T ">"
  end.

(** printVSMap. *)
Definition printArgs (args : list (text * argVal)) : text :=
  flat_map (fun a => [bs; "n"%char] ++ fst a ++ T "=" ++ printVal (snd a)) args.

Inductive gmode := GSimple | GFull | GTimes.

(** getMaxLevel and level 0: the outermost and the innermost call. *)
Definition innermost (x : gnode) : option frameRec := hd_error (g_frames x).
Definition outermost (x : gnode) : option frameRec := hd_error (rev (g_frames x)).

Definition named (m : gmode) (x : gnode) : option frameRec := match m with GSimple => outermost x | _ => innermost x end.

Definition filterMode (fm : Z) : text :=
  if fm =? 0 then T "parallel" else if fm =? 1 then T "parreq" else if fm =? 2 then T "unordered" else if fm =? 3 then T "fstate" else T "unordered".

(** The label of the box of a call: the call named, but always the arguments of the
    innermost call, printgraph.cpp:162 and 170. *)
Definition labelText (f : frameRec) (args : list (text * argVal)) : text :=
  T "label=" ++ [quote] ++ r_ns f ++ T "." ++ r_fn f ++ printArgs args ++ [quote].

(** The line of the node itself, printgraph.cpp:171-174; [times] writes the two
    processing times. *)
Definition ovalText (times : Z -> text) (m : gmode) (a : Z) (x : gnode) : text :=
  mangleNode a ++ T " [label=" ++ [quote] ++ g_name x ++
  (match m with GTimes => [bs; "n"%char] ++ T "Mode: " ++ filterMode (g_mode x) ++ times (g_time x) | _ => [] end) ++ [quote] ++ T ", shape=oval]".

Definition edgeText (source a : Z) : text := mangleNode source ++ T " -> " ++ mangleNode a.

(** ---- The walk over the graph ---- *)

(** Both helpers, printgraph.cpp:155-183 and 219-229, mark the node as visited or
    return, record it, and for every dependency record the edge and recurse. [None]:
    deeper than [fuel] levels of recursion. *)
Section Walk.
  Variables (deps : Z -> list Z) (St : Type) (enter : Z -> St -> St) (edge : Z -> Z -> St -> St).

  Fixpoint walk (fuel : nat) (x : list Z * St) (a : Z) : option (list Z * St) :=
    match fuel with
    | O => None
    | S k =>
        if existsb (Z.eqb a) (fst x) then Some x
        else fold_left (fun o s => match o with None => None | Some y => walk k (fst y, edge s a (snd y)) s end)
               (deps a) (Some (a :: fst x, enter a (snd x)))
    end.
End Walk.

(** What printNodeGraph collects: the lines of edges, and what is in every box. *)
Definition parts := (list text * list (text * list text))%type.

(** A node created outside any call has no argument map; printVSMap and the
    std::string constructor are given null pointers. *)
Definition enterGraph (g : Z -> gnode) (times : Z -> text) (m : gmode) (a : Z) (o : outcome parts) : outcome parts :=
  obind o (fun p =>
    match named m (g a), innermost (g a) with
    | Some f, Some f0 =>
        Ok (fst p, mapInsert (mangleFrame f) (ovalText times m a (g a)) (mapInsert (mangleFrame f) (labelText f (r_args f0)) (snd p)))
    | _, _ => UB
    end).

Definition edgeGraph (s a : Z) (o : outcome parts) : outcome parts :=
  obind o (fun p => Ok (setInsert (edgeText s a) (fst p), snd p)).

(** The collecting part of printNodeGraph, printgraph.cpp:185-190. *)
Definition collect (g : Z -> gnode) (times : Z -> text) (m : gmode) (fuel : nat) (a : Z) : option (outcome parts) :=
  option_map snd (walk (fun x => g_deps (g x)) _ (enterGraph g times m) edgeGraph fuel ([], Ok ([], [])) a).

(** The printing part, printgraph.cpp:191-209. *)
Definition printBox (b : text * list text) : text :=
  if 1 <? Z.of_nat (length (snd b))
  then T "  subgraph cluster_" ++ fst b ++ T " {" ++ [LF] ++ flat_map (fun l => T "    " ++ l ++ [LF]) (snd b) ++ T "  }" ++ [LF]
  else flat_map (fun l => T "  " ++ l ++ [LF]) (snd b).
Definition printParts (p : parts) : text :=
  T "digraph {" ++ [LF] ++ flat_map printBox (snd p) ++ flat_map (fun l => T "  " ++ l ++ [LF]) (fst p) ++ T "}".

(** printNodeTimes, printgraph.cpp:231-236: the records in the order of the walk,
    then std::list::sort, which is stable, longest time first. *)
Definition enterTimes (g : Z -> gnode) (a : Z) (l : list (text * Z * Z)) : list (text * Z * Z) :=
  l ++ [(g_name (g a), g_mode (g a), g_time (g a))].
Fixpoint sortIn (x : text * Z * Z) (l : list (text * Z * Z)) : list (text * Z * Z) :=
  match l with
  | [] => [x]
  | y :: tl => if snd x <? snd y then y :: sortIn x tl else x :: l
  end.
Definition timeTable (g : Z -> gnode) (fuel : nat) (a : Z) : option (list (text * Z * Z)) :=
  option_map (fun r => fold_right sortIn [] (snd r)) (walk (fun x => g_deps (g x)) _ (enterTimes g) (fun _ _ l => l) fuel ([], []) a).

(** Command lines of vspipe: options, numbers and how they are written. *)
From Coq Require Import String Ascii ZArith List Bool Lia.
Import ListNotations.
Open Scope Z_scope.
Definition text := list ascii.
Definition T (s : string) : text := list_ascii_of_string s.
(** Decimal numbers: digits, with a minus sign in front or not. *)
Definition digit (c : ascii) : option Z := let n := Z.of_nat (nat_of_ascii c) in if (48 <=? n) && (n <=? 57) then Some (n - 48) else None.
Fixpoint digits (acc : Z) (t : text) : option Z := match t with [] => Some acc | c :: r => match digit c with Some d => digits (acc * 10 + d) r | None => None end end.
Definition natural (t : text) : option Z := match t with [] => None | _ => digits 0 t end.
Definition numberOf (t : text) : option Z := match t with [] => None | c :: r => if Ascii.eqb c "-" then option_map Z.opp (natural r) else natural t end.
Definition fits64 (v : Z) : Prop := - 2 ^ 63 <= v < 2 ^ 63.
Definition fits32 (v : Z) : Prop := - 2 ^ 31 <= v < 2 ^ 31.
(** Writing a number. *)
Fixpoint decN (fuel : nat) (n : Z) : text := match fuel with O => [] | S k => (if n <? 10 then [] else decN k (n / 10)) ++ [ascii_of_nat (Z.to_nat (48 + n mod 10))] end.
Definition dec (v : Z) : text := if v <? 0 then ("-"%char :: decN (S (Z.to_nat (Z.log2 (- v)))) (- v)) else decN (S (Z.to_nat (Z.log2 v))) v.

Inductive mode := mOutput | mVersion | mHelp | mInfo | mSimpleGraph | mFullGraph.
Inductive headers := hNone | hY4M | hWave | hWave64.
Record opts := mkO { o_mode : mode; o_headers : headers; o_start : Z; o_end : Z; o_index : Z; o_requests : Z; o_progress : bool; o_refDebug : bool; o_filterTime : bool;
  o_script : text; o_output : text; o_timecodes : text; o_json : text; o_graph : text; o_args : list (text * text) }.
Definition defaults : opts := mkO mOutput hNone 0 (-1) 0 0 false false false [] [] [] [] [] [].
(** A command line for given options. *)
Definition flag (b : bool) (s : string) : list text := if b then [T s] else [].
Definition file (s : string) (f : text) : list text := match f with [] => [] | _ => [T s; f] end.
Definition render (o : opts) : list text :=
  (match o_mode o with mInfo => [T "--info"] | mSimpleGraph => [T "--graph"; T "simple"] | mFullGraph => [T "--graph"; T "full"] | mVersion => [T "--version"] | mHelp => [T "--help"] | mOutput => [] end)
  ++ (match o_headers o with hNone => [] | hY4M => [T "--container"; T "y4m"] | hWave => [T "--container"; T "wav"] | hWave64 => [T "--container"; T "w64"] end)
  ++ [T "--start"; dec (o_start o)] ++ (if o_end o =? -1 then [] else [T "--end"; dec (o_end o)]) ++ [T "--outputindex"; dec (o_index o); T "--requests"; dec (o_requests o)]
  ++ flag (o_progress o) "--progress" ++ flag (o_refDebug o) "--frame-ref-debug" ++ flag (o_filterTime o) "--filter-time"
  ++ file "--timecodes" (o_timecodes o) ++ file "--json" (o_json o) ++ file "--filter-time-graph" (o_graph o)
  ++ flat_map (fun a => [T "--arg"; fst a ++ "="%char :: snd a]) (o_args o)
  ++ [o_script o] ++ match o_output o with [] => [] | t => [t] end.
(** Options that can be asked for: numbers that fit, a script not taken for an option, distinct argument names without an equals sign. *)
Definition dash (t : text) : bool := match t with c :: _ => Ascii.eqb c "-" | [] => false end.
Definition proper (o : opts) : Prop :=
  o_mode o <> mVersion /\ o_mode o <> mHelp /\ 0 <= o_start o < 2 ^ 63 /\ -1 <= o_end o < 2 ^ 63 /\ fits32 (o_index o) /\ fits32 (o_requests o) /\
  o_script o <> [] /\ dash (o_script o) = false /\ (o_mode o = mOutput -> o_output o <> []) /\ (dash (o_output o) = false \/ o_output o = T "-" \/ o_output o = T "--") /\
  NoDup (map fst (o_args o)) /\ Forall (fun a => ~ In "="%char (fst a)) (o_args o).
(** What a name stands for in a list of assignments, the last one counting. *)
Fixpoint assigned (k : text) (l : list (text * text)) : option text :=
  match l with [] => None | (k', v) :: r => match assigned k r with Some x => Some x | None => if list_eq_dec ascii_dec k k' then Some v else None end end.

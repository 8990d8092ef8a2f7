(** C60: numbers and options on the command line of vspipe. *)
From Coq Require Import String Ascii ZArith List Bool.
From Verif Require Import Common OptSpec Opt OptLemmas.
Import ListNotations.
Open Scope Z_scope.

(** What the conversion does with any text: the value of a complete decimal number that fits; otherwise, for a number that does not fit or no text at all, success without a value; an error for the rest. *)
Theorem C60_exact : forall lo hi t target, svTo lo hi t target =
  match numberOf t with Some v => Ok (if (lo <=? v) && (v <=? hi) then v else target) | None => match t with [] => Ok target | _ => Err end end.
Proof. exact svTo_spec. Qed.
Print Assumptions C60_exact.
(** A complete decimal number that fits is accepted with its value. *)
Theorem C60_accepts_partial : forall lo hi t v target, numberOf t = Some v -> lo <= v <= hi -> svTo lo hi t target = Ok v.
Proof. exact accepts_numbers. Qed.
Print Assumptions C60_accepts_partial.
(** Text that is no number is refused, when it is not empty. *)
Theorem C60_refuses_partial : forall lo hi t target, numberOf t = None -> t <> [] -> svTo lo hi t target = Err.
Proof. exact refuses_others. Qed.
Print Assumptions C60_refuses_partial.
(** The property fails: a start frame that does not fit and an empty number of requests are accepted, and the defaults are used. *)
Theorem C60_refuted : (exists t v, numberOf t = Some v /\ ~ fits64 v /\ exists o, parseOptions [T "-s"; t; T "script.vpy"; T "-"] = Ok o /\ o_start o = 0) /\
  (exists o, parseOptions [T "-r"; T ""; T "script.vpy"; T "-"] = Ok o /\ o_requests o = 0).
Proof. exact accepts_wrong. Qed.
Print Assumptions C60_refuted.
(** Every value of the target type can be written and is read back. *)
Theorem C60_every_int64 : forall v old, fits64 v -> svToInt64 (dec v) old = Ok v.
Proof. exact dec64. Qed.
Print Assumptions C60_every_int64.
Theorem C60_every_int : forall v old, fits32 v -> svToInt (dec v) old = Ok v.
Proof. exact dec32. Qed.
Print Assumptions C60_every_int.
(** Every proper combination of options has a command line that is understood as exactly those options. *)
Theorem C60_round_trip : forall o, proper o -> parseOptions (render o) = Ok o.
Proof. exact round_trip. Qed.
Print Assumptions C60_round_trip.
(** A script argument given several times has its last value. *)
Theorem C60_last_argument : forall l script, Forall (fun a => ~ In "="%char (fst a)) l -> script <> [] -> dash script = false ->
  exists o, parseOptions (flat_map (fun a => [T "--arg"; fst a ++ "="%char :: snd a]) l ++ [script; T "-"]) = Ok o /\ o_script o = script /\ o_output o = T "-" /\
  NoDup (map fst (o_args o)) /\ forall k, assigned k (o_args o) = assigned k l.
Proof. exact last_counts. Qed.
Print Assumptions C60_last_argument.
Example C60_ex : svToInt (T "-12") 7 = Ok (-12) /\ svToInt (T "12x") 7 = Err /\ svToInt (T "+12") 7 = Err /\ svToInt (T "-") 7 = Err /\ svToInt (T "2147483648") 7 = Ok 7 /\ svToInt64 (T "2147483648") 7 = Ok 2147483648
  /\ dec (-120) = T "-120".
Proof. vm_compute. repeat split. Qed.
Example C60_line_ex : parseOptions [T "-c"; T "y4m"; T "-s"; T "10"; T "-e"; T "20"; T "-a"; T "k=v=w"; T "a.vpy"; T "-"] =
  Ok (mkO mOutput hY4M 10 20 0 0 false false false (T "a.vpy") (T "-") [] [] [] [(T "k", T "v=w")])
  /\ parseOptions [T "-s"; T "-1"; T "a.vpy"; T "-"] = Err /\ parseOptions [T "a.vpy"] = Err /\ parseOptions [T "-i"; T "-g"; T "full"; T "a.vpy"] = Err.
Proof. vm_compute. repeat split. Qed.

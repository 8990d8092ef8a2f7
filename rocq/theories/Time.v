(** Timecodes of vspipe: src/vspipe/vspipe.cpp:150-160 (getCurrentTimecode) and 364-394 (frameDoneCallback), 519-524. *)
From Coq Require Import ZArith QArith List Bool Lia SpecFloat.
From Verif Require Import Common Soft TimeSpec.
Import ListNotations.
Open Scope Z_scope.

(** std::map<std::pair<int64_t, int64_t>, int64_t> in the order of its keys; ++m[k].  The counts stay below the number of frames, an int. *)
Definition counts := list (duration * Z).
Definition keyLt (a b : duration) : bool := (fst a <? fst b) || ((fst a =? fst b) && (snd a <? snd b)).
Definition keyEq (a b : duration) : bool := (fst a =? fst b) && (snd a =? snd b).
Fixpoint increment (k : duration) (m : counts) : counts :=
  match m with
  | [] => [(k, 1)]
  | (j, c) :: r => if keyEq k j then (j, c + 1) :: r else if keyLt k j then (k, 1) :: m else (j, c) :: increment k r
  end.
(** iter.second * (static_cast<double>(iter.first.first) / iter.first.second) *)
Definition portion (x : duration * Z) : fl := mul64 (of64 (snd x) 0) (div64 (of64 (fst (fst x)) 0) (of64 (snd (fst x)) 0)).
Definition getCurrentTimecode (m : counts) : fl := fold_left (fun s x => add64 s (portion x)) m (S754_zero false).
(** The number written for a frame (doubleToString writes it in full). *)
Definition line (m : counts) : fl := mul64 (getCurrentTimecode m) (of64 1000 0).
(** The frames in their order: _DurationNum and _DurationDen of each.  What was written and whether the output stopped with an error. *)
Definition props := (option Z * option Z)%type.
Definition durationOf (p : props) : option duration :=
  match p with (Some n, Some d) => if (d <=? 0) || (n <=? 0) then None else Some (n, d) | _ => None end.
Fixpoint timecodes (m : counts) (fs : list props) : list fl * bool :=
  match fs with
  | [] => ([], false)
  | p :: r => match durationOf p with
              | None => ([line m], true)
              | Some d => let '(ls, e) := timecodes (increment d m) r in (line m :: ls, e)
              end
  end.

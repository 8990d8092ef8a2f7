(** Channels, integer sample grids and clip reports, independent of the filter models. *)
From Coq Require Import ZArith List Bool QArith Qabs.
From Verif Require Import Common FormatSpec AudioSpec.
Import ListNotations.
Open Scope Z_scope.

(** A node delivering several channels.  [an_fmt] numbers the combination of sample rate,
    bits per sample and sample type. *)
Record anode (B : Type) := mkN { an_fmt : Z; an_layout : Z; an_samples : Z; an_frames : Z;
                                 an_chans : list (clip B) }.
Arguments mkN {B} _ _ _ _ _.
Arguments an_fmt {B} _.
Arguments an_layout {B} _.
Arguments an_samples {B} _.
Arguments an_frames {B} _.
Arguments an_chans {B} _.

(** The node delivers the streams, one per channel of its layout. *)
Definition nodeServes {B} (nd : anode B) (L : Z) (ss : list (stream B)) : Prop :=
  0 < an_layout nd < 2 ^ 64 /\ zlength ss = popcount 64 (an_layout nd) /\
  an_samples nd = L /\ framesFor L (an_frames nd) /\
  Forall2 (fun c s => serves c L s) (an_chans nd) ss.

(** Plane of a channel: the number of lower channels in the layout. *)
Definition planeOf (layout ch : Z) : Z := popcount (Z.to_nat ch) layout.

(** Which channel of a source a request number means (negative: by position). *)
Definition picks (layout c : Z) : option Z :=
  if c <? 0 then (if - c - 1 <? popcount 64 layout then Some (- c - 1) else None)
  else if c =? 0 then Some 0
  else if Z.testbit layout c then Some (planeOf layout c) else None.

(** A stream continued with silence. *)
Definition padded {B} (zero : B) (L : Z) (s : stream B) : stream B :=
  fun i => if (0 <=? i) && (i <? L) then s i else Some zero.

Fixpoint layoutOf (chs : list Z) : Z :=
  match chs with [] => 0 | c :: t => Z.lor (2 ^ c) (layoutOf t) end.

(** Channels of a layout, lowest first. *)
Definition channelsOf (layout : Z) : list Z := filter (Z.testbit layout) (zseq 64).

(** *** What ShuffleChannels is asked *)

(** Node for position [i] of the channel lists: the last one repeats. *)
Definition nodeAt {B} (nodes : list (anode B)) (i : Z) : option (anode B) :=
  nthz nodes (Z.min (zlength nodes - 1) i).

Definition inRange (c d : Z) : Prop := -64 <= c < 64 /\ 0 <= d < 64.

(** A legal request: one destination per source channel, at least one channel per node, every source channel
    exists, no destination twice, one sample format. *)
Definition shuffleAsks {B} (nodes : list (anode B)) (cin cout : list Z) : Prop :=
  zlength cin = zlength cout /\ zlength nodes <= zlength cin /\ Forall2 inRange cin cout /\ NoDup cout /\
  (forall n1 n2, In n1 nodes -> In n2 nodes -> an_fmt n1 = an_fmt n2) /\
  (forall k c nd, nth_error cin k = Some c -> nodeAt nodes (Z.of_nat k) = Some nd ->
     picks (an_layout nd) c <> None).

Definition goodNode {B} (nd : anode B) : Prop := exists L ss, nodeServes nd L ss.

(** The result of a legal request: every source channel, continued with silence, on the plane its
    destination has in the new layout; as long as the longest source. *)
Definition shuffled {B} (zero : B) (nodes : list (anode B)) (cin cout : list Z) (r : anode B) : Prop :=
  an_layout r = layoutOf cout /\ goodNode r /\
  (forall nd, In nd nodes -> an_fmt r = an_fmt nd) /\
  (forall nd, In nd nodes -> an_samples nd <= an_samples r) /\
  (exists nd, In nd nodes /\ an_samples nd = an_samples r) /\
  forall k c d nd p, nth_error cin k = Some c -> nth_error cout k = Some d ->
    nodeAt nodes (Z.of_nat k) = Some nd -> picks (an_layout nd) c = Some p ->
    exists cl, nthz (an_chans r) (planeOf (layoutOf cout) d) = Some cl /\
      forall L ss s, nodeServes nd L ss -> nthz ss p = Some s ->
        serves cl (an_samples r) (padded zero L s).

(** [r] is the channel [ch] of [nd] alone. *)
Definition isChannel {B} (nd : anode B) (ch : Z) (r : anode B) : Prop :=
  an_fmt r = an_fmt nd /\ an_layout r = 2 ^ ch /\
  forall L ss s, nodeServes nd L ss -> nthz ss (planeOf (an_layout nd) ch) = Some s -> nodeServes r L [s].

Definition chanOk (c : Z) : Prop := 0 <= c < 64.

(** *** Integer sample grids *)

(** What a double can be, its finite values as rationals. *)
Inductive dbl := Fin (q : Q) | PInf | NInf | NaN.

(** Samples with [bits] significant bits in [bytes] bytes are left aligned. *)
Definition gridStep (bits bytes : Z) : Z := 2 ^ (8 * bytes - bits).
Definition onGrid (bits bytes x : Z) : Prop :=
  exists k, x = k * gridStep bits bytes /\ - 2 ^ (bits - 1) <= k <= 2 ^ (bits - 1) - 1.

(** [x] is a grid value nearest to [v]. *)
Definition nearestOnGrid (bits bytes : Z) (v : dbl) (x : Z) : Prop :=
  onGrid bits bytes x /\
  match v with
  | Fin q => forall y, onGrid bits bytes y -> (Qabs (inject_Z x - q) <= Qabs (inject_Z y - q))%Q
  | PInf => forall y, onGrid bits bytes y -> y <= x
  | NInf => forall y, onGrid bits bytes y -> x <= y
  | NaN => False
  end.

(** Meaning of the clip flag: unset, the stored value is within half a step; set, it is off by at least that. *)
Definition clipMeans (bits bytes : Z) (v : dbl) (x : Z) (flag : bool) : Prop :=
  match v with
  | Fin q => if flag then (inject_Z (gridStep bits bytes) * (1 # 2) <= Qabs (inject_Z x - q))%Q
             else (Qabs (inject_Z x - q) <= inject_Z (gridStep bits bytes) * (1 # 2))%Q
  | _ => flag = true
  end.

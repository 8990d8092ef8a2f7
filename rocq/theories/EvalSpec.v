(** What FrameEval and ModifyFrame promise, said without their code. *)
From Coq Require Import ZArith List Lia Bool.
From Verif Require Import Common FormatSpec Frame Spatial Eval.
Import ListNotations.
Open Scope Z_scope.

(** The arguments the function is entitled to for frame [n]. *)
Definition argsFor (serve : Z -> Z -> media) (sources : list Z) (n : Z) : inMap :=
  mkIn [n] (map (fun k => serve k n) sources).

(** A frame of the size the output clip declares; a clip declaring 0 by 0 takes any. *)
Definition sizeFits (vi : vinfo) (m : media) : Prop :=
  vi_w vi = 0 /\ vi_h vi = 0 \/ exists f id, m = MVideo f (vi_w vi) (vi_h vi) id.

(** A frame of the format the output clip declares; one without a format takes any. *)
Definition formatFits (vi : vinfo) (m : media) : Prop :=
  f_cf (vi_fmt vi) = cfUndefined \/
  exists f w h id, m = MVideo f w h id /\
    f_cf f = f_cf (vi_fmt vi) /\ f_st f = f_st (vi_fmt vi) /\ f_bits f = f_bits (vi_fmt vi) /\
    f_ssw f = f_ssw (vi_fmt vi) /\ f_ssh f = f_ssh (vi_fmt vi).

(** What FrameEval owes for frame [n] when the function answered [o]. *)
Definition evalOwes (vi : vinfo) (serve : Z -> Z -> media) (n : Z) (o : outMap) (r : reply) : Prop :=
  match out_err o, out_val o with
  | Some msg, _ => r = RFail msg
  | None, VNode k :: _ =>
      let m := serve k n in
      sizeFits vi m /\ formatFits vi m /\ r = RFrame m \/
      ~ sizeFits vi m /\ r = RFail msgSize \/
      sizeFits vi m /\ ~ formatFits vi m /\ r = RFail msgFormat
  | None, _ => r = RFail msgNoClip
  end.

(** What ModifyFrame owes when the function answered [o]. *)
Definition modifyOwes (vi : vinfo) (o : outMap) (r : reply) : Prop :=
  match out_err o, out_val o with
  | Some msg, _ => r = RFail msg
  | None, VFrame m :: _ =>
      sizeFits vi m /\ formatFits vi m /\ r = RFrame m \/
      ~ formatFits vi m /\ r = RFail msgFormat \/
      formatFits vi m /\ ~ sizeFits vi m /\ r = RFail msgSize
  | None, _ => r = RFail msgNoFrame
  end.

(** Call number [j] was made for frame [n], with a result map that was still empty. *)
Definition calledFor (serve : Z -> Z -> media) (sources : list Z) (s : inst) (j : nat) (n : Z) : Prop :=
  nth_error (rev (e_calls s)) j = Some (argsFor serve sources n, outEmpty).

Definition cnt {A} (p : A -> bool) (l : list A) : Z := Z.of_nat (length (filter p l)).

Definition callIsFor (n : Z) (c : inMap * outMap) : bool := match in_n (fst c) with [m] => m =? n | _ => false end.
Definition waitsFor (n : Z) (c : ctx) : bool := c_n c =? n.
Definition undecided (n : Z) (c : ctx) : bool := (c_n c =? n) && match c_fd c with None => true | Some _ => false end.
Definition holds (k : Z) (c : ctx) : bool := match c_fd c with Some x => x =? k | None => false end.
Definition doneFor (n : Z) (d : Z * reply) : bool := fst d =? n.
Definition brokenFor (n : Z) (d : Z * reply) : bool := (fst d =? n) && match snd d with RNothing => true | _ => false end.
Definition startOf (n : Z) (e : event) : bool := match e with EvStart m => m =? n | _ => false end.

(** The instance is as new, but for what it remembers of earlier calls. *)
Definition clean (s : inst) : Prop := e_in s = inEmpty /\ e_out s = outEmpty /\ e_frames s = 0.

Definition isVideo (m : media) : Prop := exists f w h id, m = MVideo f w h id.

(** Events the core can make happen: for contexts that exist. *)
Definition possible (w : world) (e : event) : Prop :=
  match e with EvStart _ => True | EvReady i | EvFail i => (i < length (w_ctx w))%nat end.

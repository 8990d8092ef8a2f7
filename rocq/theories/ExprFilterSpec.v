(** What Expr is documented to do (doc/functions/video/expr.rst). *)
From Coq Require Import String.
From Coq Require Import ZArith List Bool.
From Verif Require Import Common FormatSpec Format FrameSpec ImageSpec Spatial SpatialLemmas SpatialStack.
Import ListNotations.
Open Scope Z_scope.

(** 8 to 16 bit integers or float. *)
Definition depthOk (f : vfmt) : Prop := f_st f = stInteger /\ f_bits f <= 16 \/ f_st f = stFloat.
(** Clips that can be used together. *)
Definition sameShape (v0 v : vinfo) : Prop :=
  f_np (vi_fmt v) = f_np (vi_fmt v0) /\ f_ssw (vi_fmt v) = f_ssw (vi_fmt v0) /\ f_ssh (vi_fmt v) = f_ssh (vi_fmt v0) /\
  vi_w v = vi_w v0 /\ vi_h v = vi_h v0.
Definition clipsOk (v0 : vinfo) (clips : list vinfo) : Prop :=
  Forall (fun v => 0 < vi_w v /\ 0 < vi_h v /\ f_cf (vi_fmt v) <> cfUndefined /\ sameShape v0 v /\ depthOk (vi_fmt v)) clips.
(** "The expression given for the previous plane is used if the expr array contains fewer
    expressions". *)
Definition exprFor (exprs : list string) (i : Z) : string := nth (Z.to_nat i) exprs (last exprs ""%string).
(** The output has the shape of the first clip. *)
Definition shapeOf (f0 f : vfmt) : Prop :=
  fmt_valid f /\ f_cf f = f_cf f0 /\ f_ssw f = f_ssw f0 /\ f_ssh f = f_ssh f0 /\ f_np f = f_np f0.

(** The format asked for: the first clip's, or the one with the identifier (C08), if of the same shape. *)
Definition formatAsked (r : reg) (f0 : vfmt) (format : option Z) (f : vfmt) : Prop :=
  match format with
  | None => f = f0
  | Some id => getVideoFormatByID r (wrapu32 (sat32 id)) = Some (true, f) /\ shapeOf f0 f
  end.

(** The calls Expr accepts. *)
Definition accepted {prog} (compile : string -> list vfmt -> vfmt -> option prog) (r : reg) (clips : list vinfo) (exprs : list string) (format : option Z) (v0 : vinfo) (f : vfmt) : Prop :=
  nthz clips 0 = Some v0 /\ zlength clips <= 26 /\ clipsOk v0 clips /\ formatAsked r (vi_fmt v0) format f /\ depthOk f /\
  zlength exprs <= f_np f /\
  forall i, 0 <= i < f_np f -> exprFor exprs i <> ""%string -> compile (exprFor exprs i) (map vi_fmt clips) f <> None.

(** A function of the samples of all pictures at a place. *)
Definition pointwise (F : list Z -> Z) (w h : Z) (imgs : list image) : image :=
  mkI w h (fun x y => F (map (fun a => i_at a x y) imgs)).
(** [imgs] are the pictures of plane [i]. *)
Definition planeImgs (i : Z) (srcs : list vframe) (imgs : list image) : Prop :=
  Forall2 (fun s a => planeImg s i = Some a) srcs imgs.

(** Plane [i] of the output: the expression everywhere; the plane of the first clip for an
    empty expression if the samples are of the same kind; otherwise nothing is said. *)
Definition planeRight {prog} (compile : string -> list vfmt -> vfmt -> option prog) (run : prog -> list Z -> Z)
    (clips : list vinfo) (exprs : list string) (f0 f : vfmt) (srcs : list vframe) (r : vframe) (i : Z) : Prop :=
  let e := exprFor exprs i in
  (e <> ""%string -> exists p imgs b, compile e (map vi_fmt clips) f = Some p /\ planeImgs i srcs imgs /\
     planeImg r i = Some b /\ same b (pointwise (run p) (planeW f (vf_w r) i) (planeH f (vf_h r) i) imgs)) /\
  (e = ""%string -> f_bits f = f_bits f0 -> f_st f = f_st f0 ->
     exists s0 a b, nthz srcs 0 = Some s0 /\ planeImg s0 i = Some a /\ planeImg r i = Some b /\ same b a).

(** Creation of lookup filters, witnesses. *)
From Coq Require Import String.
From Coq Require Import ZArith List Lia Bool.
From Verif Require Import Common FormatSpec Format FormatLemmas FrameSpec Frame FrameLemmas FrameGeom FrameFacts ImageSpec PlaneMem Spatial
  SpatialLemmas SpatialFrames SpatialStack SpatialShuffle SpatialFacts Pixel PixelLemmas PixelSpec Lut LutLemmas LutFrames Lut2Frames.
Import ListNotations.
Open Scope Z_scope.

Section Accept.
Variable D : Type.
Variable tofloat : D -> Z.

(** Exactly one source of values, of the right kind and length. *)
Definition oneSource (a : lutArgs D) (n : Z) : Prop :=
  match la_func a, la_lut a, la_lutf a with
  | Some _, None, None => True
  | None, Some l, None => la_float a = false /\ zlength l = n
  | None, None, Some l => la_float a = true /\ zlength l = n
  | _, _, _ => False
  end.

Theorem lut_complete : forall vbmi vi a pr, fmt_valid (vi_fmt vi) -> constantFormat vi = true ->
  f_st (vi_fmt vi) = stInteger -> f_bits (vi_fmt vi) <= 16 -> getPlanesArg (la_planes a) = Some pr ->
  oneSource a (2 ^ f_bits (vi_fmt vi)) ->
  (let bo := bitsOut (la_bits a) (la_float a) (f_bits (vi_fmt vi)) in
   (if la_float a then bo = 32 else 8 <= bo <= 16) /\
   forall i, 0 <= i < 2 ^ f_bits (vi_fmt vi) -> exists v, given D tofloat a bo i v) ->
  exists d, lutCreate tofloat vbmi vi a = Ok d.
Proof.
  intros vbmi vi a pr V CF ST B16 GP OS (BO & GV). unfold lutCreate. fold (bitsOut (la_bits a) (la_float a) (f_bits (vi_fmt vi))).
  set (bo := bitsOut (la_bits a) (la_float a) (f_bits (vi_fmt vi))) in *. rewrite CF, ST, GP. cbn [negb]. rewrite Z.eqb_refl.
  destruct (Z.ltb_spec 16 (f_bits (vi_fmt vi))); [lia|]. cbn [negb orb]. cbv zeta.
  match goal with |- context [if ?b then Err else _] => assert (G : b = false) end.
  { destruct (la_float a); cbn [andb negb orb].
    - rewrite BO. reflexivity.
    - destruct (Z.ltb_spec bo 8); [lia|]. destruct (Z.ltb_spec 16 bo); [lia|]. reflexivity. }
  rewrite G. clear G.
  destruct (bytes_of _ V) as (_ & B2 & _ & B4).
  assert (AF : arraysFit D a (2 ^ f_bits (vi_fmt vi))).
  { intros LF. unfold oneSource in OS. rewrite LF in OS. destruct (la_lut a); destruct (la_lutf a); try contradiction; destruct OS as (-> & OS); exact OS. }
  assert (BT : exists t, buildTable tofloat (f_bits (vi_fmt vi)) (f_bytes (vi_fmt vi)) bo a = Ok t).
  { apply (buildTable_spec D tofloat (f_bits (vi_fmt vi)) (f_bytes (vi_fmt vi)) bo a); [lia | exact AF | |].
    - intros f LF j J E. destruct (GV j J) as (v & Gv). unfold given in Gv. rewrite LF in Gv. destruct Gv as (x & y & Q & _). congruence.
    - intros i I. destruct (GV i I) as (v & Gv). apply entry_given in Gv. rewrite Gv. discriminate. }
  destruct BT as (t & BT).
  assert (QF : exists fo, queryFmt (f_cf (vi_fmt vi)) (if la_float a then stFloat else stInteger) bo (f_ssw (vi_fmt vi)) (f_ssh (vi_fmt vi)) = Ok fo).
  { destruct (query_valid (f_cf (vi_fmt vi)) (if la_float a then stFloat else stInteger) bo (f_ssw (vi_fmt vi)) (f_ssh (vi_fmt vi))) as (fo & Q & _).
    - pose proof V as (V1 & _ & _ & V4 & _). split; [exact V1|]. split; [|exact V4]. destruct (la_float a); [right | left]; (split; [reflexivity | lia]).
    - exists fo. unfold queryFmt. rewrite Q. reflexivity. }
  destruct QF as (fo & QF). rewrite QF. cbn [obind]. rewrite BT. cbn [obind].
  unfold oneSource in OS. destruct (la_func a); destruct (la_lut a) as [l|]; destruct (la_lutf a) as [lf|]; try contradiction; cbn [isSet Z.eqb Z.add Z.ltb Z.compare Pos.eqb Pos.compare Pos.compare_cont Pos.add andb option_map].
  - eexists; reflexivity.
  - destruct OS as (-> & ->). cbn [andb negb].
    pose proof (Z.pow_pos_nonneg 2 (f_bits (vi_fmt vi)) ltac:(lia) ltac:(lia)). rewrite Z.max_l by lia. rewrite Z.eqb_refl.
    destruct (0 <=? 2 ^ f_bits (vi_fmt vi)); eexists; reflexivity.
  - destruct OS as (-> & ->). cbn [andb negb].
    pose proof (Z.pow_pos_nonneg 2 (f_bits (vi_fmt vi)) ltac:(lia) ltac:(lia)). rewrite Z.max_r by lia. rewrite Z.eqb_refl.
    destruct (0 <=? 2 ^ f_bits (vi_fmt vi)); eexists; reflexivity.
Qed.

End Accept.

(** ** Witnesses *)

Definition noFloat (x : Z) : Z := x mod 2 ^ 32.
Lemma noFloat_bits : forall x, 0 <= noFloat x < 2 ^ 32.
Proof. intros. apply Z.mod_pos_bound. reflexivity. Qed.

Definition viOf (f : vfmt) (w h : Z) : vinfo := mkVI f w h 10.
Definition gray10 : vfmt := mkV cfGray stInteger 10 2 0 0 1.

(** A function whose error message is empty. *)
Definition silent : lutArgs Z := mkLA [] None None (Some (fun i => if i =? 0 then RVal (Some 7) None else RError ""%string)) None false.

Lemma silent_error : exists d, lutCreate noFloat false (viOf gray8 2 2) silent = Ok d /\
  lutGetFrame 32 (fun _ _ => 0) d (drawn 32 gray8 2 2 (fun _ x y => x)) = UB.
Proof.
  assert (H : match lutCreate noFloat false (viOf gray8 2 2) silent with
    | Ok d => match lutGetFrame 32 (fun _ _ => 0) d (drawn 32 gray8 2 2 (fun _ x y => x)) with UB => true | _ => false end
    | _ => false end = true) by (vm_compute; reflexivity).
  destruct (lutCreate noFloat false (viOf gray8 2 2) silent) as [d| |]; [|discriminate|discriminate]. exists d. split; [reflexivity|].
  destruct (lutGetFrame 32 (fun _ _ => 0) d (drawn 32 gray8 2 2 (fun _ x y => x))); [discriminate|discriminate|reflexivity].
Qed.

(** One plane of three converted to 16 bits: the others keep their 8 bit buffers. *)
Definition widen : lutArgs Z := mkLA [0] None None (Some (fun i => RVal (Some (257 * i)) None)) (Some 16) false.

Lemma shared_plane_too_small : exists d r p, lutCreate noFloat false (viOf yuv420p8 64 64) widen = Ok d /\
  lutGetFrame 32 (fun _ _ => 0) d (drawn 32 yuv420p8 64 64 (fun _ x y => 5)) = Ok r /\
  f_bytes (vf_fmt r) = 2 /\ nthz (vf_planes r) 1 = Some p /\
  p_stride p < planeW (vf_fmt r) (vf_w r) 1 * f_bytes (vf_fmt r).
Proof.
  assert (H : match lutCreate noFloat false (viOf yuv420p8 64 64) widen with
    | Ok d => match lutGetFrame 32 (fun _ _ => 0) d (drawn 32 yuv420p8 64 64 (fun _ x y => 5)) with
              | Ok r => match nthz (vf_planes r) 1 with
                        | Some p => (f_bytes (vf_fmt r) =? 2) && (p_stride p <? planeW (vf_fmt r) (vf_w r) 1 * f_bytes (vf_fmt r))
                        | None => false end
              | _ => false end
    | _ => false end = true) by (vm_compute; reflexivity).
  destruct (lutCreate noFloat false (viOf yuv420p8 64 64) widen) as [d| |]; [|discriminate|discriminate]. exists d.
  destruct (lutGetFrame 32 (fun _ _ => 0) d (drawn 32 yuv420p8 64 64 (fun _ x y => 5))) as [r| |]; [|discriminate|discriminate]. exists r.
  destruct (nthz (vf_planes r) 1) as [p|]; [|discriminate]. exists p. apply andb_prop in H. destruct H as (H1 & H2).
  apply Z.eqb_eq in H1. apply Z.ltb_lt in H2. auto.
Qed.

(** A three plane clip and a one plane clip. *)
Definition yuv444p8 : vfmt := mkV cfYUV stInteger 8 1 0 0 3.
Definition product : lut2Args Z := mkLA2 [] None None (Some (fun x y => RVal (Some (x * y / 255)) None)) None false.
Lemma missing_plane : exists d, lut2Create noFloat false (viOf yuv444p8 2 2) (viOf gray8 2 2) product = Ok d /\
  lut2GetFrame 32 (fun _ _ => 0) d (fun _ => 0) (drawn 32 yuv444p8 2 2 (fun _ x y => x)) (drawn 32 gray8 2 2 (fun _ x y => x)) = UB.
Proof.
  assert (H : match lut2Create noFloat false (viOf yuv444p8 2 2) (viOf gray8 2 2) product with
    | Ok d => match lut2GetFrame 32 (fun _ _ => 0) d (fun _ => 0) (drawn 32 yuv444p8 2 2 (fun _ x y => x)) (drawn 32 gray8 2 2 (fun _ x y => x)) with UB => true | _ => false end
    | _ => false end = true) by (vm_compute; reflexivity).
  destruct (lut2Create noFloat false (viOf yuv444p8 2 2) (viOf gray8 2 2) product) as [d| |]; [|discriminate|discriminate]. exists d. split; [reflexivity|].
  destruct (lut2GetFrame 32 (fun _ _ => 0) d (fun _ => 0) (drawn 32 yuv444p8 2 2 (fun _ x y => x)) (drawn 32 gray8 2 2 (fun _ x y => x))); [discriminate|discriminate|reflexivity].
Qed.

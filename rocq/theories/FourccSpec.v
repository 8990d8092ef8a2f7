(** What a buffer of Video for Windows holds. *)
From Coq Require Import String ZArith List Bool Lia.
From Verif Require Import Common FormatSpec Fourcc.
Import ListNotations.
Open Scope Z_scope.

(** Dimensions of a clip with such subsampling. *)
Definition dimsOk (f : vfmt) (w h : Z) : Prop :=
  0 < w /\ 0 < h /\ w mod 2 ^ f_ssw f = 0 /\ h mod 2 ^ f_ssh f = 0.
Definition roundUp (x m : Z) : Z := ((x + m - 1) / m) * m.

(** A row of the interleaved layouts as documented: 32 and 64 bits per pixel, r210 in rows of
    256 bytes, 4:2:2 in 16 bits per pixel, v210 in units of 48 pixels in 128 bytes. *)
Definition docRow (p : packing) (w : Z) : Z :=
  match p with
  | p_argb32 | p_y410 => 4 * w
  | p_rgb30 => roundUp (4 * w) 256
  | p_argb64 | p_y416 => 8 * w
  | p_yuy2 | p_uyvy => 2 * w
  | p_v210 => 128 * ((w + 47) / 48)
  | _ => 0
  end.
Definition planesBytes (f : vfmt) (w h : Z) : Z :=
  f_bytes f * (w * h + (f_np f - 1) * ((w / 2 ^ f_ssw f) * (h / 2 ^ f_ssh f))).
(** The bytes of a picture. *)
Definition docSize (f : vfmt) (w h alt : Z) : Z :=
  match findTraits f alt with
  | Some t => if isPlanar (t_pack t) || t_nv t then planesBytes f w h else docRow (t_pack t) w * h
  | None => planesBytes f w h
  end.

(** Row [y] of a block takes the bytes from here to there. *)
Definition rowFrom (b : block) (y : Z) : Z := b_off b + y * b_stride b.
Definition rowTo (b : block) (y : Z) : Z := rowFrom b y + b_len b.
(** All rows lie in a buffer of [n] bytes, and no two rows overlap. *)
Definition insideBuffer (n : Z) (bs : list block) : Prop :=
  forall b y, In b bs -> 0 <= y < b_rows b -> 0 <= rowFrom b y /\ rowTo b y <= n.
Definition noOverlap (bs : list block) : Prop :=
  forall i j b c y z, nth_error bs i = Some b -> nth_error bs j = Some c -> 0 <= y < b_rows b -> 0 <= z < b_rows c ->
    (i, y) <> (j, z) -> rowTo b y <= rowFrom c z \/ rowTo c z <= rowFrom b y.
(** The bytes written in all. *)
Definition written (bs : list block) : Z := fold_right (fun b a => b_len b * b_rows b + a) 0 bs.

(** The planes in the order of the code: luma, then V and U, or U and V for I420 and IYUV. *)
Definition planeOrder (f : vfmt) (alt : Z) : list Z :=
  if f_np f =? 1 then [0]
  else match findTraits f alt with
       | Some t => if String.eqb (t_fcc t) "I420" || String.eqb (t_fcc t) "IYUV" then [0; 1; 2] else [0; 2; 1]
       | None => [0; 2; 1]
       end.

(** C86: how AudioResample mixes channels. *)
From Coq Require Import ZArith List Bool Lia.
From Coq Require Import SpecFloat.
From Verif Require Import Common PlaneMem Soft SoftVal MixSpec Mix MixLemmas MixBuild MixLoud MixFinal.
Import ListNotations.
Open Scope Z_scope.

Theorem C86_matrix : forall inL outL normalize, exists w silent, buildMixMatrix inL outL normalize = Ok (w, silent) /\
  forall o co, nthz (channelsOf outL) o = Some co ->
    (forall i ci, nthz (channelsOf inL) i = Some ci -> w (o * zlength (channelsOf inL) + i) = weight inL outL normalize ci co) /\
    silent o = Ok (forallb (fun c => match gain (inLayout outL) c co with None => true | Some _ => false end) (channelsOf inL)).
Proof. exact mix_built. Qed.
Print Assumptions C86_matrix.
Theorem C86_same : forall h c o, h c = true -> gain h c o = if o =? c then Some Unity else None.
Proof. exact gain_same. Qed.
Print Assumptions C86_same.
Theorem C86_exists : forall h c o l, gain h c o = Some l -> h o = true.
Proof. exact gain_exists. Qed.
Print Assumptions C86_exists.
Theorem C86_bass : forall h c o l, gain h c o = Some l -> isLfe o = isLfe c.
Proof. exact gain_lfe. Qed.
Print Assumptions C86_bass.
Theorem C86_power : forall h c os, NoDup os -> fold_right (fun o a => powerOf (gain h c o) + a) 0 os <= 4.
Proof. exact gain_power. Qed.
Print Assumptions C86_power.
Theorem C86_mirror : forall h c o, gain (fun x => h (mirror x)) (mirror c) (mirror o) = gain h c o.
Proof. exact gain_mirror. Qed.
Print Assumptions C86_mirror.
Theorem C86_heard : forall h c, In c positions -> isLfe c = false -> h FL = true -> h FR = true -> exists o, gain h c o <> None.
Proof. exact gain_heard. Qed.
Print Assumptions C86_heard.
Theorem C86_loud : forall inL outL o, In o (channelsOf outL) -> fold_right (fun c a => V (weight inL outL true c o) + a) 0 (channelsOf inL) * 2 ^ 23 <= 2 ^ sc * (2 ^ 23 + 1).
Proof. exact mix_loud. Qed.
Print Assumptions C86_loud.

(** 5.1 (FL FR FC LFE BL BR) to stereo: the centre and the back go to the front at -3 dB, the bass is dropped. *)
Example C86_ex_stereo : map (fun c => map (gain (inLayout 3) c) (channelsOf 3)) (channelsOf 63) =
  [[Some Unity; None]; [None; Some Unity]; [Some Minus3; Some Minus3]; [None; None]; [Some Minus3; None]; [None; Some Minus3]].
Proof. vm_compute. reflexivity. Qed.
(** The loudest row is 1 + 2 sqrt(1/2) = 2.414...; the front is scaled to 0.4142136 and the centre to 0.2928933. *)
Example C86_ex_scaled : weight 63 3 true 0 0 = S754_finite false 13898701 (-25) /\ weight 63 3 true 2 1 = S754_finite false 9827866 (-25).
Proof. vm_compute. split; reflexivity. Qed.
Example C86_ex_silent : match buildMixMatrix 3 63 false with Ok (_, s) => map s [0; 1; 2; 3; 4; 5] | _ => [] end = [Ok false; Ok false; Ok true; Ok true; Ok true; Ok true].
Proof. vm_compute. reflexivity. Qed.
(** Stereo to mono (FC): both at -3 dB, halves after normalisation. *)
Example C86_ex_mono : match buildMixMatrix 3 4 true with Ok (w, _) => [w 0; w 1] | _ => [] end = [S754_finite false 8388608 (-24); S754_finite false 8388608 (-24)].
Proof. vm_compute. reflexivity. Qed.

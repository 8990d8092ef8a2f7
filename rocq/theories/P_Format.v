(** C08 and C64: format identifiers. *)
From Coq Require Import ZArith List String.
From Verif Require Import Common FormatSpec Format FormatLemmas FormatLemmas2.
Import ListNotations.
Open Scope Z_scope.

Theorem C08_format_to_id_and_back : forall r f, fmt_valid f ->
  0 < fmtID f < 2 ^ 32 /\ getVideoFormatByID r (fmtID f) = Some (true, f).
Proof. exact id_roundtrip. Qed.
Print Assumptions C08_format_to_id_and_back.

Example C08_format_to_id_and_back_ex :
  fmtID (mkV cfYUV stInteger 10 2 1 1 3) = 805961985 /\
  getVideoFormatByID reg0 805961985 = Some (true, mkV cfYUV stInteger 10 2 1 1 3).
Proof. split; vm_compute; reflexivity. Qed.

Theorem C08_distinct_formats_distinct_ids : forall f g,
  fmt_valid f -> fmt_valid g -> fmtID f = fmtID g -> f = g.
Proof. exact id_injective. Qed.
Print Assumptions C08_distinct_formats_distinct_ids.

Theorem C08_accepted_ids_denote_formats : forall r id f,
  getVideoFormatByID r id = Some (true, f) -> f = undefFmt \/ fmt_valid f.
Proof. exact accepted_sound. Qed.
Print Assumptions C08_accepted_ids_denote_formats.

Theorem C08_id_to_format_and_back : forall r id f, 0 <= id < 2 ^ 32 -> isV3ID id = false ->
  getVideoFormatByID r id = Some (true, f) -> f <> undefFmt -> fmtID f = id.
Proof. exact accepted_id. Qed.
Print Assumptions C08_id_to_format_and_back.

Example C08_id_to_format_and_back_ex :
  isV3ID 268959744 = false /\
  getVideoFormatByID reg0 268959744 = Some (true, mkV cfGray stInteger 8 1 0 0 1) /\
  fst (match getVideoFormatByID reg0 268959745 with Some x => x | None => (true, undefFmt) end) = false.
Proof. repeat split; vm_compute; reflexivity. Qed.

Theorem C08_query_accepts_exactly_valid : forall f, fmt_valid f ->
  queryVideoFormat (f_cf f) (f_st f) (f_bits f) (f_ssw f) (f_ssh f) = Some (true, f).
Proof. exact query_exact. Qed.
Print Assumptions C08_query_accepts_exactly_valid.

Theorem C08_struct_check : forall f,
  isValidVideoFormatS f = true <-> fmt_valid f \/ f_cf f = cfUndefined /\ f_bytes f = 0 /\ f_np f = 0 /\
     isValidVideoFormat (f_cf f) (f_st f) (f_bits f) (f_ssw f) (f_ssh f) = true.
Proof. exact isValidS_iff. Qed.
Print Assumptions C08_struct_check.

Theorem C08_names_distinct : forall f g, fmt_valid f -> fmt_valid g ->
  getVideoFormatName f = getVideoFormatName g -> f = g.
Proof. exact names_injective. Qed.
Print Assumptions C08_names_distinct.

Theorem C08_names_fit : forall f, fmt_valid f ->
  exists s, getVideoFormatName f = Some s /\ (0 < String.length s < 32)%nat.
Proof. exact names_fit. Qed.
Print Assumptions C08_names_fit.

Example C08_names_ex :
  getVideoFormatName (mkV cfYUV stInteger 10 2 1 1 3) = Some "YUV420P10"%string /\
  getVideoFormatName (mkV cfYUV stInteger 8 1 4 0 3) = Some "YUVssw4ssh0P8"%string /\
  getVideoFormatName (mkV cfRGB stInteger 16 2 0 0 3) = Some "RGB48"%string.
Proof. repeat split; vm_compute; reflexivity. Qed.

Theorem C64_same_description_same_id : forall r cf st bits w h,
  reg_reach r -> In cf fams -> q3_ok cf st bits w h ->
  exists r' f, queryVideoFormat3 r cf st bits w h false 0 = (r', Some f) /\
    descr f = (cf, st, bits, w, h) /\ getV3VideoFormat r' (t_id f) = Some f /\
    (forall r2, reg_reach r2 -> (forall g, In g (r_fmts r') -> In g (r_fmts r2)) ->
       queryVideoFormat3 r2 cf st bits w h false 0 = (r2, Some f)).
Proof. exact q3_found. Qed.
Print Assumptions C64_same_description_same_id.

Theorem C64_ids_never_change : forall r cf st bits w h id f, reg_reach r -> In cf fams ->
  getV3VideoFormat r id = Some f ->
  getV3VideoFormat (fst (queryVideoFormat3 r cf st bits w h false 0)) id = Some f.
Proof. exact ids_stable. Qed.
Print Assumptions C64_ids_never_change.

Theorem C64_ids_distinct : forall r f g, reg_reach r -> In f (r_fmts r) -> In g (r_fmts r) ->
  t_id f = t_id g -> f = g.
Proof. exact ids_distinct. Qed.
Print Assumptions C64_ids_distinct.

Theorem C64_api4_api3_api4 : forall r f, reg_reach r -> fmt_valid f ->
  exists r' t, VideoFormatToV3 r f = Some (r', Some t) /\ reg_reach r' /\
    VideoFormatFromV3 (Some t) = Some (true, f) /\
    getVideoFormatByID r' (t_id t) = Some (true, f) /\ t_id t <> fmtID f.
Proof. exact v3_roundtrip. Qed.
Print Assumptions C64_api4_api3_api4.

Example C64_ex :
  let q := queryVideoFormat3 reg0 cmYUV 0 11 3 1 false 0 in
  snd q = Some (mk3 3001000 cmYUV 0 11 3 1) /\
  queryVideoFormat3 (fst q) cmYUV 0 11 3 1 false 0 = q /\
  snd (queryVideoFormat3 (fst q) cmYUV 0 8 1 1 false 0) = Some (mk3 3000010 cmYUV 0 8 1 1) /\
  getVideoFormatByID (fst q) 3001000 = Some (true, mkV cfYUV 0 11 2 3 1 3).
Proof. repeat split; vm_compute; reflexivity. Qed.

Theorem C65_audio_query : forall st bits layout, 0 <= layout < 2 ^ 64 ->
  match queryAudioFormat st bits layout with
  | Some a => afmt_valid a /\ a_st a = st /\ a_bits a = bits /\ a_layout a = layout
  | None => ~ exists a, afmt_valid a /\ a_st a = st /\ a_bits a = bits /\ a_layout a = layout
  end.
Proof. exact queryAudio_iff. Qed.
Print Assumptions C65_audio_query.

Theorem C65_audio_struct_check : forall a, 0 <= a_layout a < 2 ^ 64 ->
  isValidAudioFormatS a = true <-> afmt_valid a.
Proof. exact isValidAudioS_iff. Qed.
Print Assumptions C65_audio_struct_check.

Example C65_ex :
  queryAudioFormat stInteger 24 3 = Some (mkA 0 24 4 2 3) /\ queryAudioFormat stFloat 16 3 = None /\
  isValidAudioFormatS (mkA 0 24 4 2 3) = true /\ isValidAudioFormatS (mkA 0 24 4 3 3) = false.
Proof. repeat split; vm_compute; reflexivity. Qed.

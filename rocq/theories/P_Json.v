(** C61: JSON output. *)
From Coq Require Import String Ascii ZArith List Bool.
From Verif Require Import Common OptSpec JsonSpec Json JsonLemmas.
Import ListNotations.
Open Scope Z_scope.

(** Every string, of any bytes, is read back, whatever follows it. *)
Theorem C61_strings : forall s r, str (flat_map escapeChar s ++ """"%char :: r) = Some (s, r).
Proof. exact str_spec. Qed.
Print Assumptions C61_strings.
(** Maps of integers, finite doubles that fit the buffer and data give well-formed JSON that means the map ... *)
Theorem C61_map_partial : forall m, properMap m -> exists t, convertVSMapToJSON m = Ok t /\ parse t = Some (objOf m).
Proof. exact map_parses. Qed.
Print Assumptions C61_map_partial.
(** ... in UTF-8 if the keys and strings are. *)
Theorem C61_utf8 : forall m t, properMap m -> utf8Map m -> convertVSMapToJSON m = Ok t -> isUtf8 t.
Proof. exact utf8_map. Qed.
Print Assumptions C61_utf8.
(** The file of a whole clip is an array with one object for each frame, in order. *)
Theorem C61_file_partial : forall frames, frames <> [] -> Forall properMap frames -> exists t, jsonFile frames = Ok t /\ parse t = Some (jarr (map objOf frames)).
Proof. exact file_parses. Qed.
Print Assumptions C61_file_partial.
(** A property with a clip, frame or function, or with a NaN, makes the text ill-formed. *)
Theorem C61_wellformed_refuted : forall k, parse (match convertVSMapToJSON [(k, Handles 1)] with Ok t => t | _ => [] end) = None /\ parse (match convertVSMapToJSON [(k, Floats [NaN false])] with Ok t => t | _ => [] end) = None.
Proof. exact not_json. Qed.
Print Assumptions C61_wellformed_refuted.
(** UTF-8 data is cut at the first NUL. *)
Theorem C61_nul_refuted : forall a b, parse (match convertVSMapToJSON [(T "k", Datas [(hUtf8, a ++ chr 0 :: b)])] with Ok t => t | _ => [] end) = Some (jobj [(T "k", jstr (cstr a))]).
Proof. exact cut_short. Qed.
Print Assumptions C61_nul_refuted.
(** A double with more than 100 characters in fixed notation, such as 1e100, leaves unspecified bytes. *)
Theorem C61_long_refuted : forall t k, (100 < List.length t)%nat -> convertVSMapToJSON [(k, Floats [Fin t])] = UB.
Proof. exact too_long. Qed.
Print Assumptions C61_long_refuted.
(** The file written for an audio clip has no brackets around its objects. *)
Theorem C61_audio_refuted : exists frames t, Forall properMap frames /\ jsonFileAudio frames = Ok t /\ parse t = None.
Proof. exact audio_not_json. Qed.
Print Assumptions C61_audio_refuted.
Example C61_ex : convertVSMapToJSON [(T "_Matrix", Ints [1]); (T "v", Ints [3; -4]); (T "x", Floats [Fin (T "0.5")]); (T "n", Datas [(hUtf8, T "a""b\" ++ [chr 10; chr 1])]); (T "b", Datas [(hBinary, T "xyz")]); (T "e", Ints [])] =
  Ok (T "{""_Matrix"": 1, ""v"": [3, -4], ""x"": 0.5, ""n"": ""a\""b\\\n\u0001"", ""b"": ""[binary data size: 3]"", ""e"": null}").
Proof. vm_compute. reflexivity. Qed.
Example C61_file_ex : jsonFile [[(T "a", Ints [1])]; []] = Ok (T "[" ++ [chr 10; chr 9] ++ T "{""a"": 1}," ++ [chr 10; chr 9] ++ T "{}" ++ [chr 10] ++ T "]" ++ [chr 10])
  /\ parse (T "[{""a"" : [1 , 2.5e-3, null,true]}]") = Some (jarr [jobj [(T "a", jarr [jnum (T "1"); jnum (T "2.5e-3"); jnull; jbool true])]]) /\ parse (T "{""a"": 01}") = None /\ parse (T "[1,]") = None.
Proof. vm_compute. repeat split. Qed.

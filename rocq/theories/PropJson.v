(** Properties C126 and C127: the human-readable wire format, and the example protocol run with it; C88 for this format. *)
From Coq Require Import List Arith NArith Bool String.
From Verif Require Import Base BMap Errors RoundId Message Protocol Transcript Evidence Session Typed Network RunSync Simple Text SerMap
  SpecCrypto SpecEvidence SpecNet SpecSync SpecTyped TestParams Json JsonFacts JsonLocal TypedFacts ToyJson.
Import ListNotations.
Set Implicit Arguments.

(** C126. With the test parameters and [HumanReadableFormat], whatever (correct) text encodings of byte strings are used, the
    assumptions made about the wire format and the signatures by the other properties hold. *)
Theorem C126_assumptions_hold : forall hex, enc_ok hex ->
  wire_total (jsonP hex) /\ signatures_correct (jsonP hex) /\ echo_codec (jsonP hex) /\ prefix_free_meta (jsonP hex).
Proof. exact (fun hex H => conj (json_wire H) (conj (@json_signatures hex) (conj (json_echo_codec H) (json_prefix_free H)))). Qed.
Print Assumptions C126_assumptions_hold.

(** A message and an evidence are read back from their texts, whatever follows. *)
Theorem C126_read_back : forall hex base64 utf8 rest, enc_ok hex -> enc_ok base64 ->
  (forall m, json_read (@of_message hex base64) (put_json (to_message base64 m) ++ rest) = Some (m, rest)) /\
  (forall s ev, utf8 s = true -> json_read (@of_evidence hex base64 utf8) (put_json (to_evidence base64 (s, ev)) ++ rest) = Some ((s, ev), rest)).
Proof. exact (fun hex base64 utf8 rest H1 H2 => conj (fun m => json_message H1 H2 m rest) (fun s ev => json_evidence H1 H2 utf8 s ev rest)). Qed.
Print Assumptions C126_read_back.

(** No proper prefix of such a text is accepted. *)
Theorem C126_truncation_noticed : forall hex base64 utf8 p q, enc_ok hex -> enc_ok base64 -> q <> [] ->
  (forall m : @Message (jsonP hex), put_json (to_message base64 m) = (p ++ q)%list -> json_read (@of_message hex base64) p = None) /\
  (forall s (ev : @Evidence (jsonP hex)), utf8 s = true ->
     put_json (to_evidence base64 (s, ev)) = (p ++ q)%list -> json_read (@of_evidence hex base64 utf8) p = None).
Proof. exact json_truncated. Qed.
Print Assumptions C126_truncation_noticed.

(** What is read from any text, by whomever it was written, depends only on the part which was read. *)
Theorem C126_rest_untouched : forall hex base64 utf8 b rest,
  (forall m, json_read (@of_message hex base64) b = Some (m, rest) ->
     exists taken, b = (taken ++ rest)%list /\ forall rest', json_read (@of_message hex base64) (taken ++ rest') = Some (m, rest')) /\
  (forall x, json_read (@of_evidence hex base64 utf8) b = Some (x, rest) ->
     exists taken, b = (taken ++ rest)%list /\ forall rest', json_read (@of_evidence hex base64 utf8) (taken ++ rest') = Some (x, rest')).
Proof. exact json_rest. Qed.
Print Assumptions C126_rest_untouched.

(** A text with two values for a field of a structure, or two values for a key of a map, is refused. *)
Theorem C126_ambiguity_refused :
  (forall names n l, In n names -> 2 <= List.length (with_key (text_bytes n) l) -> of_struct names (JObj l) = None) /\
  (forall K V (OK : Ord K) ofk ofv (l : list json) (kvs : list (K * V)),
     map (of_pair ofk ofv) l = map Some kvs -> ~ NoDup (map fst kvs) -> of_map ofk ofv (JArr l) = None).
Proof. exact (conj field_twice (@json_duplicates)). Qed.
Print Assumptions C126_ambiguity_refused.

(** There are such encodings; texts of metadata, signatures and strings, and a text of the same metadata written differently. *)
Example C126_hex : enc_ok hex_enc.
Proof. exact hex_enc_ok. Qed.
Example C126_case :
  option_map show (@ser_meta (jsonP hex_enc) the_meta) = Some "{""session_id"":""0x07ab"",""round_id"":{""round"":2,""groups"":[3,14],""is_echo"":true}}"%string /\
  json_read (of_meta hex_enc) (text_bytes other_text) = Some (the_meta, [123%N]) /\
  option_map show (@ser_sig (jsonP hex_enc) (mkTestSignature 5 18446744073709551615)) = Some "{""signed_by"":5,""randomness"":18446744073709551615}"%string /\
  json_read (@of_message hex_enc hex_enc) (put_json (to_message hex_enc jmessage) ++ [1]%N) = Some (jmessage, [1]%N) /\
  json_read (@of_evidence hex_enc hex_enc (fun _ => true)) (put_json (to_evidence hex_enc ([34; 10; 1; 92]%N, jevidence)) ++ [1]%N) = Some (([34; 10; 1; 92]%N, jevidence), [1]%N) /\
  show (put_json (JStr [34; 10; 1; 92]%N)) = """\""\n\u0001\\"""%string.
Proof. exact json_case. Qed.

(** C127. simple.rs, run by [run_sync] with the test parameters and [HumanReadableFormat], gives each of 2 to 16 parties the
    result n(n-1), whatever the order of delivery and the random choices. *)
Theorem C127_results : forall hex, enc_ok hex -> forall (ids : bset N) r sid picks,
  let n := List.length (elements ids) in 2 <= n <= 16 ->
  exists fuel0 reports results, (forall fuel, fuel0 <= fuel ->
      run_sync (P := jsonP hex) fuel r picks sid (map (fun v => (v, simple_entry (P := jsonP hex) jsonW ids)) (elements ids)) = Some (Ok reports)) /\
    exec_results reports = Some results /\ is_map (P := jsonP hex) results ids (fun _ => N.of_nat n * (N.of_nat n - 1))%N.
Proof. exact json_simple. Qed.
Print Assumptions C127_results.

Example C127_case : List.length (elements (set_of_list [0; 1; 2]%N)) = 3 /\ json_results (fun k => 3 * k + 1) = [6; 6; 6]%N.
Proof. exact json_simple_case. Qed.

(** C88 is false for this format too, whatever the text encodings of byte strings: there is a text that can be read as evidence for the
    dining cryptographers and makes the verification panic. *)
Theorem C88_text_refuted : forall hex base64 utf8, enc_ok hex -> enc_ok base64 -> utf8 [] = true -> exists b ev,
  json_read (@of_evidence hex base64 utf8) b = Some (([], ev), []) /\ verify_evidence (wrap (json_dining hex)) ev tt = Panic.
Proof. exact text_panic. Qed.
Print Assumptions C88_text_refuted.

(** With hexadecimal numbers it has 479 characters. *)
Example C88_text_case : let b := put_json (to_evidence hex_enc ([], crash_ev hex_enc)) in
  List.length b = 479 /\ exists ev, json_read (@of_evidence hex_enc hex_enc (fun _ => true)) b = Some (([], ev), []) /\ verify_evidence (wrap (json_dining hex_enc)) ev tt = Panic.
Proof. exact text_panic_case. Qed.

(** What holds: no text does this if the protocol has its own error types and their verification does not panic. *)
Theorem C88_text_partial : forall hex base64 utf8 (T : TProto (P := jsonP hex)) b description ev rest (sd : Shared (wrap T)),
  errors_total T -> json_read (@of_evidence hex base64 utf8) b = Some ((description, ev), rest) -> verify_evidence (wrap T) ev sd <> Panic.
Proof. exact (fun hex _ _ T _ _ ev _ sd H _ => @typed_verify_total (jsonP hex) T ev sd H). Qed.
Print Assumptions C88_text_partial.

Example C88_text_total_case : forall hex, errors_total (@simple (jsonP hex) jsonW).
Proof. exact json_errors_total. Qed.

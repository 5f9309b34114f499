(** The human-readable format: concrete texts, and simple.rs run with it. Used by PropJson.v only. *)
From Coq Require Import List Arith NArith Bool String Ascii Lia.
From Verif Require Import Base BMap Errors RoundId Message Protocol Transcript Evidence Session Typed Network RunSync SerMap Simple Dining Text
  SpecCrypto SpecEvidence SpecNet SpecSync SpecTyped SignFacts IntakeFacts HistoryFacts TypedFacts TestParams Json JsonFacts JsonLocal ToySimple ToySync.
Import ListNotations.
Set Implicit Arguments.
Local Open Scope list_scope.

Lemma structs_local hex base64 utf8 : structured (@of_message hex base64) /\ structured (@of_evidence hex base64 utf8).
Proof. split; intros n; reflexivity. Qed.
Lemma json_rest hex base64 utf8 b rest :
  (forall m, json_read (@of_message hex base64) b = Some (m, rest) ->
     exists taken, b = (taken ++ rest)%list /\ forall rest', json_read (@of_message hex base64) (taken ++ rest') = Some (m, rest')) /\
  (forall x, json_read (@of_evidence hex base64 utf8) b = Some (x, rest) ->
     exists taken, b = (taken ++ rest)%list /\ forall rest', json_read (@of_evidence hex base64 utf8) (taken ++ rest') = Some (x, rest')).
Proof.
  split; intros x H.
  - eapply read_local; [exact (proj1 (@structs_local hex base64 utf8))|exact H].
  - eapply read_local; [exact (proj2 (@structs_local hex base64 utf8))|exact H].
Qed.
Lemma json_truncated hex base64 utf8 p q : enc_ok hex -> enc_ok base64 -> q <> [] ->
  (forall m : @Message (jsonP hex), put_json (@to_message hex base64 m) = (p ++ q)%list -> json_read (@of_message hex base64) p = None) /\
  (forall s ev, utf8 s = true -> put_json (@to_evidence hex base64 (s, ev)) = (p ++ q)%list -> json_read (@of_evidence hex base64 utf8) p = None).
Proof.
  intros H1 H2 Hq. split.
  - intros m E. apply (@read_cut _ _ m p q (proj1 (@structs_local hex base64 utf8))); auto. rewrite <- E, <- (app_nil_r (put_json _)). now apply json_message.
  - intros s ev U E. apply (@read_cut _ _ (s, ev) p q (proj2 (@structs_local hex base64 utf8))); auto. rewrite <- E, <- (app_nil_r (put_json _)). now apply json_evidence.
Qed.
Lemma json_duplicates K V (OK : Ord K) ofk ofv (l : list json) (kvs : list (K * V)) :
  map (of_pair ofk ofv) l = map Some kvs -> ~ NoDup (map fst kvs) -> of_map ofk ofv (JArr l) = None.
Proof.
  intros E H. cbn [of_map]. rewrite E. destruct (sm_deserialize (map Some kvs)) as [m|] eqn:Em; auto. exfalso. apply H. apply sm_deserialize_exists. eauto.
Qed.

Lemma json_simple hex (Hh : enc_ok hex) (ids : bset N) r sid picks : let n := List.length (elements ids) in 2 <= n <= 16 ->
  exists fuel0 reports results, (forall fuel, fuel0 <= fuel ->
      run_sync (P := jsonP hex) fuel r picks sid (map (fun v => (v, simple_entry (P := jsonP hex) jsonW ids)) (elements ids)) = Some (Ok reports)) /\
    exec_results reports = Some results /\ is_map (P := jsonP hex) results ids (fun _ => N.of_nat n * (N.of_nat n - 1))%N.
Proof.
  intros n Hn. apply (@simple_run_sync (jsonP hex) jsonW json_codecs r sid ids (json_wire Hh) (@json_signatures _) (fun v => v)).
  - intros v _. reflexivity.
  - exact Hn.
Qed.

Definition show (b : bytes) : string := string_of_list_ascii (map ascii_of_N b).
(** What is read from a text, and the rest. *)
Definition reads (s : string) : option (json * string) := option_map (fun x => (fst x, show (snd x))) (json_read (fun j => Some j) (text_bytes s)).
Definition the_meta : Meta := mkMeta [7; 171]%N (mkRid 2 [3; 14]%N true).
(** The same, written differently. *)
Definition other_text : string :=
  "{ ""round_id"" : [2, [3,14] ,true], ""comment"": {""author"":[]}, ""session_id"":""0x07Ab""}{".
(** A message with a direct message, no echo broadcast and an empty normal broadcast. *)
Definition jpart {k} (x : body) : SPart k := mkSPart [1; 0]%N the_meta x.
Definition jmessage : @Message (jsonP hex_enc) := @mkMessage (jsonP hex_enc) 2%N (jpart (Some [1; 2]%N)) (jpart None) (jpart (Some [])).
Definition jevidence : @Evidence (jsonP hex_enc) :=
  @mkEvidence (jsonP hex_enc) 1%N (EvProtocol (@mkProtoEv (jsonP hex_enc) [4]%N (Some (jpart (Some [1; 2]%N))) None None
    (of_list [(rid_new 1, jpart None)]) empty empty
    (of_list [(rid_new 1, of_list [(3%N : @Verifier (jsonP hex_enc), jpart (Some [9]%N)); (4%N : @Verifier (jsonP hex_enc), jpart None)])]) empty)).
Lemma json_case :
  option_map show (@ser_meta (jsonP hex_enc) the_meta) = Some "{""session_id"":""0x07ab"",""round_id"":{""round"":2,""groups"":[3,14],""is_echo"":true}}"%string /\
  json_read (of_meta hex_enc) (text_bytes other_text) = Some (the_meta, [123%N]) /\
  option_map show (@ser_sig (jsonP hex_enc) (mkTestSignature 5 18446744073709551615)) = Some "{""signed_by"":5,""randomness"":18446744073709551615}"%string /\
  json_read (@of_message hex_enc hex_enc) (put_json (to_message hex_enc jmessage) ++ [1]%N) = Some (jmessage, [1]%N) /\
  json_read (@of_evidence hex_enc hex_enc (fun _ => true)) (put_json (to_evidence hex_enc ([34; 10; 1; 92]%N, jevidence)) ++ [1]%N) = Some (([34; 10; 1; 92]%N, jevidence), [1]%N) /\
  show (put_json (JStr [34; 10; 1; 92]%N)) = """\""\n\u0001\\"""%string.
Proof.
  split; [vm_compute; reflexivity|]. split; [vm_compute; reflexivity|]. split; [vm_compute; reflexivity|].
  split; [exact (json_message hex_enc_ok hex_enc_ok jmessage [1]%N)|]. split; [apply (json_evidence hex_enc_ok hex_enc_ok); reflexivity|vm_compute; reflexivity].
Qed.

Definition json_rng : NetRng (P := jsonP hex_enc) := @mkNetRng (jsonP hex_enc) (fun _ _ => 5%N) (fun v _ d _ => (v + 300 * d)%N) (fun _ _ _ => 7%N).
Definition json_results picks : list N :=
  match run_sync (P := jsonP hex_enc) 40 json_rng picks [1; 2]%N
    (map (fun v => (v, simple_entry (P := jsonP hex_enc) jsonW (set_of_list [0; 1; 2]%N))) (elements (set_of_list [0; 1; 2]%N))) with
  | Some (Ok reports) => flat_map (fun kv => match rep_outcome (snd kv) with OResult x => [x] | _ => [] end) (to_list reports)
  | _ => []
  end.
Lemma json_simple_case : List.length (elements (set_of_list [0; 1; 2]%N)) = 3 /\ json_results (fun k => 3 * k + 1) = [6; 6; 6]%N.
Proof. split; vm_compute; reflexivity. Qed.

Definition json_bool : Codec bool := json_codec JBool of_bool.
(** The dining cryptographers in this format. *)
Definition json_dining hex : TProto (P := jsonP hex) :=
  @dining (jsonP hex) (fun n => n) (fun v => v) json_bool json_bool (fun b => match json_deser of_unit b with Some _ => true | None => false end).
Definition crash_ev hex : @Evidence (jsonP hex) :=
  @mkEvidence (jsonP hex) 1%N (EvProtocol (@mkProtoEv (jsonP hex) (text_bytes "null")
    (Some (mkSPart (text_bytes "{""signed_by"":1,""randomness"":0}") (mkMeta [] (rid_new 1)) (Some (text_bytes "true"))))
    None None empty empty empty empty empty)).
Lemma text_panic hex base64 utf8 : enc_ok hex -> enc_ok base64 -> utf8 [] = true -> exists b ev,
  json_read (@of_evidence hex base64 utf8) b = Some (([], ev), []) /\ verify_evidence (wrap (json_dining hex)) ev tt = Panic.
Proof.
  intros Hh Hb U. exists (put_json (to_evidence base64 ([], crash_ev hex))), (crash_ev hex). split.
  - rewrite <- (app_nil_r (put_json _)). now apply json_evidence.
  - vm_compute. reflexivity.
Qed.
Lemma text_panic_case : let b := put_json (to_evidence hex_enc ([], crash_ev hex_enc)) in
  List.length b = 479 /\ exists ev, json_read (@of_evidence hex_enc hex_enc (fun _ => true)) b = Some (([], ev), []) /\ verify_evidence (wrap (json_dining hex_enc)) ev tt = Panic.
Proof.
  split; [vm_compute; reflexivity|]. exists (crash_ev hex_enc). split; [|vm_compute; reflexivity].
  rewrite <- (app_nil_r (put_json _)). apply json_evidence; [exact hex_enc_ok|exact hex_enc_ok|reflexivity].
Qed.
Lemma json_errors_total hex : errors_total (@simple (jsonP hex) jsonW).
Proof.
  assert (D : forall A (x : A), @Ok EvidenceError A x <> Panic) by discriminate.
  assert (C : forall m (es : EvMsgs (P := jsonP hex)) n, combined_echos m es n <> Panic).
  { intros m es n. unfold combined_echos. apply bind_no_panic; [apply ok_or_no_panic|]. intros c. apply bind_no_panic; [|discriminate].
    induction (to_list c) as [|[u b] l IH]; simpl; [discriminate|]. apply bind_no_panic; [|intros z; apply bind_no_panic; [exact IH|discriminate]].
    apply bind_no_panic; [apply ok_or_no_panic|discriminate]. }
  intros [|]; cbn -[es_direct_message combined_echos bind]; intros e rid v sid sd es.
  - apply bind_no_panic; [exact (@es_part_no_panic (msg json_position) _)|]. intros; apply D.
  - apply bind_no_panic; [exact (@es_part_no_panic (msg json_position) _)|]. intros _. apply bind_no_panic; [exact (C (msg (sw_echo1 jsonW)) es 1%N)|]. intros; apply D.
Qed.

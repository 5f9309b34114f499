(** Property C131: the texts which [HumanReadableFormat] takes for messages and evidence. *)
From Coq Require Import List Arith NArith Bool String.
From Verif Require Import Base BMap Errors RoundId Message Protocol Transcript Evidence Text TestParams Json SpecJson SpecJsonTypes JsonTypes ToyJson.
Import ListNotations.
Set Implicit Arguments.

(** C131. A message is read exactly from the texts of the JSON values that stand for it. *)
Theorem C131_messages : forall hex base64 b m r, json_read (@of_message hex base64) b = Some (m, r) <->
  exists w t j, b = (w ++ t ++ r)%list /\ space w /\ json_text 127 j t /\ is_message base64 j m.
Proof. exact message_text. Qed.
Print Assumptions C131_messages.

(** So is evidence, with its description. *)
Theorem C131_evidence : forall hex base64 utf8 b x r, json_read (@of_evidence hex base64 utf8) b = Some (x, r) <->
  exists w t j, b = (w ++ t ++ r)%list /\ space w /\ json_text 127 j t /\ is_evidence base64 utf8 j x.
Proof. exact evidence_text. Qed.
Print Assumptions C131_evidence.

(** The parts of messages which the library itself reads: echo round messages and signatures. *)
Theorem C131_inner : forall hex,
  (forall b m, @deser_echo (jsonP hex) b = Some m <-> exists w t j r, b = (w ++ t ++ r)%list /\ space w /\ json_text 127 j t /\ is_echo hex j m) /\
  (forall b g, @deser_sig (jsonP hex) b = Some g <-> exists w t j r, b = (w ++ t ++ r)%list /\ space w /\ json_text 127 j t /\ is_signature j g).
Proof. exact part_texts. Qed.
Print Assumptions C131_inner.

(** A signature written in three ways, and texts that are none: too long, a field missing or repeated, a wrong type. Evidence of a
    protocol error with the optional fields left out, and one where such a field is not readable. *)
Definition absent {A} (x : option A) : bool := match x with None => true | Some _ => false end.
Definition proto_fields (x : list (bytes * json)) : json :=
  JObj ((text_bytes "error", JStr (text_bytes "0x")) :: map (fun n => (text_bytes n, JArr [])) ["direct_messages"; "echo_broadcasts"; "normal_broadcasts"; "other_echo_broadcasts"; "echo_hashes"]%string
        ++ x ++ [(text_bytes "phantom", JNull)]).
Example C131_case :
  map (fun s => @deser_sig (jsonP hex_enc) (text_bytes s)) ["{""signed_by"":5,""randomness"":7}"; " {""x"":[{}], ""randomness"" : 7, ""signed_by"":5}zz"; "[5,7]"]%string =
    repeat (Some (mkTestSignature 5 7)) 3 /\
  map (fun s => @deser_sig (jsonP hex_enc) (text_bytes s)) ["[5,7,8]"; "{""signed_by"":5}"; "{""signed_by"":5,""randomness"":7,""randomness"":7}"; "{""signed_by"":5,""randomness"":""7""}"; "5"]%string =
    repeat None 5 /\
  (exists e, is_proto hex_enc (hex := hex_enc) (proto_fields []) e /\ pe_direct e = None) /\
  (exists e, is_proto hex_enc (hex := hex_enc) (proto_fields [(text_bytes "direct_message", JNull)]) e /\ pe_direct e = None) /\
  (forall e, ~ is_proto hex_enc (hex := hex_enc) (proto_fields [(text_bytes "direct_message", JNum 5)]) e).
Proof.
  assert (Y : forall x d, option_map (fun e => absent (pe_direct e)) (@of_proto hex_enc hex_enc (proto_fields x)) = Some d ->
    exists e, is_proto hex_enc (hex := hex_enc) (proto_fields x) e /\ absent (pe_direct e) = d).
  { intros x d H. destruct (of_proto hex_enc hex_enc (proto_fields x)) as [e|] eqn:E; [|discriminate]. exists e. split; [now apply proto_ex|]. cbn in H. congruence. }
  split; [vm_compute; reflexivity|]. split; [vm_compute; reflexivity|]. split; [|split].
  - destruct (Y [] true) as (e & H1 & H2); [vm_compute; reflexivity|]. exists e. split; auto. destruct (pe_direct e); [discriminate|reflexivity].
  - destruct (Y [(text_bytes "direct_message", JNull)] true) as (e & H1 & H2); [vm_compute; reflexivity|]. exists e. split; auto. destruct (pe_direct e); [discriminate|reflexivity].
  - intros e H. apply proto_ex in H. assert (E : absent (@of_proto hex_enc hex_enc (proto_fields [(text_bytes "direct_message", JNum 5)])) = true) by (vm_compute; reflexivity).
    rewrite H in E. discriminate.
Qed.

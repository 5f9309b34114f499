(** Property C129: the reader of [HumanReadableFormat] accepts exactly the JSON texts. *)
From Coq Require Import List Arith NArith Bool String.
From Verif Require Import Base BMap Errors RoundId Message Protocol Transcript Evidence Text TestParams Json SpecJson JsonText ToyJson.
Import ListNotations.
Set Implicit Arguments.

(** C129. A value of some type is read from [b], leaving [r], exactly if [b] starts, after white space, with a JSON text of a value that
    stands for it; a number must not be continued by what follows. *)
Theorem C129_reads_json : forall A (of : json -> option A) b x r,
  json_read of b = Some (x, r) <->
  exists w t j, b = (w ++ t ++ r)%list /\ space w /\ json_text 127 j t /\ ended j r /\ of j = Some x.
Proof. exact read_exact. Qed.
Print Assumptions C129_reads_json.

(** A text has one meaning only. *)
Theorem C129_one_value : forall d j j' t, json_text d j t -> json_text d j' t -> j = j'.
Proof. exact one_value. Qed.
Print Assumptions C129_one_value.

(** Every value that can be read is written as one of its texts; messages and evidence are such values. *)
Theorem C129_writes_json :
  (forall d j t, json_text d j t -> json_text d j (put_json j)) /\
  (forall hex base64, enc_ok hex -> enc_ok base64 ->
    (forall m : @Message (jsonP hex), json_text 127 (to_message base64 m) (put_json (to_message base64 m))) /\
    (forall s (ev : @Evidence (jsonP hex)), json_text 127 (to_evidence base64 (s, ev)) (put_json (to_evidence base64 (s, ev))))).
Proof. exact (conj written_is_text written_values). Qed.
Print Assumptions C129_writes_json.

(** Some texts, and some that are none. *)
Example C129_case :
  reads " [ 10 ,null,[ ] ,{""aA\n"" : true , ""b"":{}}] x" =
    Some (JArr [JNum 10; JNull; JArr []; JObj [([97; 65; 10]%N, JBool true); ([98]%N, JObj [])]], " x"%string) /\
  reads "0," = Some (JNum 0, ","%string) /\
  map reads ["01"; "1.5"; "[1,]"; "[,1]"; "[1 2]"; "{""a"":1,}"; "{a:1}"; "[1}"; """a"; """\x"""; "nul"; "tru e"; "-1"; ""; " "]%string = repeat None 15 /\
  (exists w t, text_bytes other_text = (w ++ t ++ [123%N])%list /\ exists j, json_text 127 j t /\ of_meta hex_enc j = Some the_meta).
Proof.
  split; [vm_compute; reflexivity|]. split; [vm_compute; reflexivity|]. split; [vm_compute; reflexivity|].
  destruct (proj1 (C129_reads_json (of_meta hex_enc) (text_bytes other_text) the_meta [123%N]) (proj1 (proj2 json_case))) as (w & t & j & E & _ & H & _ & Ej).
  exists w, t. split; [exact E|]. exists j. split; [exact H|exact Ej].
Qed.

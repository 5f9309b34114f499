(** Evidence data types (manul/src/session/evidence.rs) and manul/src/session/transcript.rs. *)
From Coq Require Import List NArith Bool.
From Verif Require Import Base BMap Errors RoundId Message Protocol.
Import ListNotations.
Set Implicit Arguments.

Section WithParams.
  Context {P : Params}.

  (** [ProtocolEvidence] (session/evidence.rs:345-356). *)
  Record ProtoEv := mkProtoEv {
    pe_error : bytes;
    pe_direct : option (SPart KDirect);
    pe_echo : option (SPart KEcho);
    pe_normal : option (SPart KNormal);
    pe_directs : bmap RoundId (SPart KDirect);
    pe_echos : bmap RoundId (SPart KEcho);
    pe_normals : bmap RoundId (SPart KNormal);
    pe_others : bmap RoundId (bmap Verifier (SPart KEcho));   (* other_echo_broadcasts *)
    pe_hashes : bmap RoundId (SPart KNormal)                  (* echo_hashes *)
  }.

  (** [EvidenceEnum] (session/evidence.rs:215-222, 225-228, 252-254, 263, 290, 317). *)
  Inductive EvEnum :=
  | EvProtocol (e : ProtoEv)
  | EvDirect (p : SPart KDirect)
  | EvEcho (p : SPart KEcho)
  | EvNormal (p : SPart KNormal)
  | EvInvalidEcho (p : SPart KNormal) (invalid_echo_sender : Verifier)
  | EvMismatched (guilty : Verifier) (we_received : SPart KEcho) (echoed_to_us : SHash).

  (** [Evidence] (session/evidence.rs:30-34), without the description string. *)
  Record Evidence := mkEvidence { ev_guilty : Verifier; ev_body : EvEnum }.

  (** [Transcript] (session/transcript.rs:16-23). *)
  Record Transcript := mkTr {
    tr_echo : bmap RoundId (bmap Verifier (SPart KEcho));
    tr_normal : bmap RoundId (bmap Verifier (SPart KNormal));
    tr_direct : bmap RoundId (bmap Verifier (SPart KDirect));
    tr_provable : bmap Verifier Evidence;
    tr_unprovable : bmap Verifier RemoteError;
    tr_missing : bmap RoundId (bset Verifier)
  }.

  (** session/transcript.rs:30-39 *)
  Definition tr_new : Transcript := mkTr empty empty empty empty empty empty.

  (** The loops of session/transcript.rs:88-95 and 97-104: insert, fail if the key was present. *)
  Definition merge_new {V} (err : LocalError) (all new : bmap Verifier V) : res LocalError (bmap Verifier V) :=
    fold_res (fun m kv => if contains (fst kv) m then Err err else Ok (insert (fst kv) (snd kv) m)) all (to_list new).

  (** session/transcript.rs:42-128 *)
  Definition tr_update (t : Transcript) (rid : RoundId) (me : Verifier) (my_echo : SPart KEcho)
      (echos : bmap Verifier (SPart KEcho)) (normals : bmap Verifier (SPart KNormal))
      (directs : bmap Verifier (SPart KDirect)) (provable : bmap Verifier Evidence)
      (unprovable : bmap Verifier RemoteError) (missing : bset Verifier) : res LocalError Transcript :=
    let* all_echo := if contains rid (tr_echo t) then Err LE_TrEcho
                     else Ok (insert rid (insert me my_echo echos) (tr_echo t)) in
    let* all_normal := if contains rid (tr_normal t) then Err LE_TrNormal
                       else Ok (insert rid normals (tr_normal t)) in
    let* all_direct := if contains rid (tr_direct t) then Err LE_TrDirect
                       else Ok (insert rid directs (tr_direct t)) in
    let* all_provable := merge_new LE_TrProvable (tr_provable t) provable in
    let* all_unprovable := merge_new LE_TrUnprovable (tr_unprovable t) unprovable in
    let* all_missing := if contains rid (tr_missing t) then Err LE_TrMissing
                        else Ok (if is_empty missing then tr_missing t else insert rid missing (tr_missing t)) in
    Ok (mkTr all_echo all_normal all_direct all_provable all_unprovable all_missing).

  (** Lookup in a two-level map, both misses being local errors. *)
  Definition get2 {V} (err : LocalError) (m : bmap RoundId (bmap Verifier V)) (rid : RoundId) (from : Verifier)
    : res LocalError V :=
    let* m' := ok_or (get rid m) err in ok_or (get from m') err.

  (** session/transcript.rs:130-141 *)
  Definition get_echo_broadcast (t : Transcript) := get2 LE_NoEchoRound (tr_echo t).
  (** session/transcript.rs:143-154 *)
  Definition get_normal_broadcast (t : Transcript) := get2 LE_NoNormalRound (tr_normal t).
  (** session/transcript.rs:156-167 *)
  Definition get_direct_message (t : Transcript) := get2 LE_NoDirectRound (tr_direct t).

  (** session/transcript.rs:169-171 *)
  Definition tr_is_banned (t : Transcript) (from : Verifier) : bool :=
    (contains from (tr_provable t) || contains from (tr_unprovable t))%bool.

  (** session/transcript.rs:173-181 *)
  Definition tr_echo_broadcasts (t : Transcript) (rid : RoundId) : res LocalError (bmap Verifier (SPart KEcho)) :=
    ok_or (get rid (tr_echo t)) LE_NoEchos.

  (** session/transcript.rs:183-194 ([without]: utils/traits.rs:10-30) *)
  Definition get_other_echo_broadcasts (t : Transcript) (rid : RoundId) (except_for : Verifier)
    : res LocalError (bmap Verifier (SPart KEcho)) :=
    let* m := ok_or (get rid (tr_echo t)) LE_NoEchos in Ok (remove except_for m).

  (** [SessionOutcome] (session/transcript.rs:199-206). *)
  Inductive SessionOutcome (R : Type) := OResult (r : R) | ONotEnough | OTerminated.

  (** [SessionReport] (session/transcript.rs:224-233). *)
  Record Report (R : Type) := mkReport {
    rep_outcome : SessionOutcome R;
    rep_provable : bmap Verifier Evidence;
    rep_unprovable : bmap Verifier RemoteError;
    rep_missing : bmap RoundId (bset Verifier)
  }.

  (** session/transcript.rs:240-247 *)
  Definition report_new {R} (o : SessionOutcome R) (t : Transcript) : Report R :=
    mkReport o (tr_provable t) (tr_unprovable t) (tr_missing t).

  (** session/transcript.rs:250-255 *)
  Definition report_result {R} (r : Report R) : option R :=
    match rep_outcome r with OResult x => Some x | _ => None end.
End WithParams.
Arguments OResult {R} _.
Arguments ONotEnough {R}.
Arguments OTerminated {R}.
Arguments Transcript {P}.
Arguments Evidence {P}.
Arguments EvEnum {P}.
Arguments ProtoEv {P}.

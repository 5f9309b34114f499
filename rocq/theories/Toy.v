(** A concrete, computable instance of the parameters and a small configurable protocol. Used only by the [Example]s
    accompanying the property theorems and by the witnesses of the refutations; no property theorem depends on it. *)
From Coq Require Import List Arith NArith Bool Lia.
From Verif Require Import Base BMap Errors RoundId Message Protocol Transcript Evidence Session Spec MessageFacts RunFacts IntakeFacts Exec.
Import ListNotations.
Set Implicit Arguments.

(** ** Codecs: length-prefixed lists *)
Definition enc (l : bytes) : bytes := N.of_nat (length l) :: l.
Definition dec (l : bytes) : option (bytes * bytes) :=
  match l with
  | [] => None
  | n :: l => if Nat.leb (N.to_nat n) (length l) then Some (firstn (N.to_nat n) l, skipn (N.to_nat n) l) else None
  end.
Definition pop (l : bytes) : option (N * bytes) := match l with [] => None | x :: l => Some (x, l) end.

Lemma dec_enc l r : dec (enc l ++ r) = Some (l, r).
Proof.
  simpl. rewrite Nat2N.id, app_length.
  replace (Nat.leb (length l) (length l + length r)) with true by (symmetry; apply Nat.leb_le; lia).
  rewrite firstn_app, Nat.sub_diag, firstn_all, skipn_app, Nat.sub_diag, skipn_all. simpl. now rewrite app_nil_r.
Qed.

Definition toy_ser_meta (m : Meta) : bytes :=
  enc (m_session m) ++ enc (rid_groups (m_round m)) ++
  [rid_round (m_round m); if rid_echo (m_round m) then 1 else 0]%N.
Definition toy_deser_meta (l : bytes) : option (Meta * bytes) :=
  match dec l with
  | Some (sid, l) =>
      match dec l with
      | Some (gs, n :: e :: l) => Some (mkMeta sid (mkRid n gs (N.eqb e 1)), l)
      | _ => None
      end
  | None => None
  end.

Lemma deser_ser_meta m r : toy_deser_meta (toy_ser_meta m ++ r) = Some (m, r).
Proof.
  destruct m as [sid [n gs e]]. unfold toy_ser_meta, toy_deser_meta. simpl m_session; simpl m_round.
  rewrite <- !app_assoc, dec_enc. simpl rid_groups. rewrite dec_enc. simpl. destruct e; reflexivity.
Qed.

Definition ser_entry (kv : N * SHash) : bytes :=
  [fst kv] ++ toy_ser_meta (sh_meta (snd kv)) ++ enc (sh_sig (snd kv)) ++ enc (sh_hash (snd kv)).
Definition deser_entry (l : bytes) : option ((N * SHash) * bytes) :=
  match l with
  | [] => None
  | v :: l =>
      match toy_deser_meta l with
      | Some (m, l) => match dec l with
                       | Some (g, l) => match dec l with
                                        | Some (h, l) => Some ((v, mkSHash g m h), l)
                                        | None => None
                                        end
                       | None => None
                       end
      | None => None
      end
  end.
Lemma deser_ser_entry kv r : deser_entry (ser_entry kv ++ r) = Some (kv, r).
Proof.
  destruct kv as [v [g m h]]. unfold ser_entry. cbn [fst snd sh_meta sh_sig sh_hash app deser_entry].
  rewrite <- !app_assoc, deser_ser_meta, dec_enc, dec_enc. reflexivity.
Qed.

Fixpoint ser_entries (l : list (N * SHash)) : bytes :=
  match l with [] => [0%N] | kv :: l => 1%N :: ser_entry kv ++ ser_entries l end.
Fixpoint deser_entries (fuel : nat) (l : bytes) : option (list (N * SHash)) :=
  match fuel with
  | O => None
  | S fuel =>
      match l with
      | 0%N :: [] => Some []
      | 1%N :: l => match deser_entry l with
                    | Some (kv, l) => match deser_entries fuel l with Some r => Some (kv :: r) | None => None end
                    | None => None
                    end
      | _ => None
      end
  end.
Lemma ser_entries_length l : length l < length (ser_entries l).
Proof. induction l as [|kv l IH]; simpl; [lia|]. rewrite app_length. lia. Qed.
Lemma deser_ser_entries l fuel : length l < fuel -> deser_entries fuel (ser_entries l) = Some l.
Proof.
  revert fuel; induction l as [|kv l IH]; intros [|fuel] H; simpl in H; try lia; cbn [ser_entries deser_entries]; auto.
  rewrite deser_ser_entry, IH by lia. reflexivity.
Qed.

(** Duplicate keys are rejected, as [SerializableMap] does. *)
Fixpoint nodup_keys (l : list (N * SHash)) : bool :=
  match l with [] => true | kv :: l => (negb (existsb (fun kv' => N.eqb (fst kv) (fst kv')) l) && nodup_keys l)%bool end.
Lemma nodup_keys_spec l : NoDup (map fst l) -> nodup_keys l = true.
Proof.
  induction l as [|kv l IH]; simpl; auto. intros H. inversion H as [|? ? Hn Hd]; subst.
  rewrite IH by auto. rewrite andb_true_r, negb_true_iff. apply not_true_iff_false. intros He. apply Hn.
  apply existsb_exists in He as (kv' & Hin & He). apply N.eqb_eq in He. rewrite He. now apply in_map.
Qed.

Definition toy_ser_echo (m : bmap N SHash) : bytes := ser_entries (to_list m).
Definition toy_deser_echo (b : bytes) : option (bmap N SHash) :=
  match deser_entries (length b) b with
  | Some l => if nodup_keys l then Some (of_list l) else None
  | None => None
  end.
Lemma toy_echo_round_trip m : toy_deser_echo (toy_ser_echo m) = Some m.
Proof.
  unfold toy_deser_echo, toy_ser_echo. rewrite deser_ser_entries by apply ser_entries_length.
  rewrite nodup_keys_spec by apply NoDup_keys. now rewrite of_list_to_list.
Qed.

Definition toy_deser_sig (b : bytes) : option (N * bytes) := match b with k :: d => Some (k, d) | [] => None end.

(** Ideal signatures (a signature is the pair of key and digest), hash = identity. *)
#[global] Instance toyP : Params := {|
  Verifier := N;
  OrdVerifier := OrdN;
  Signer := N;
  signer_key := fun s => s;
  Sig := N * bytes;
  sign := fun _ s d => Some (s, d);
  verify_sig := fun v d g => (N.eqb (fst g) v && bytes_eqb (snd g) d)%bool;
  hash := fun x => x;
  ser_sig := fun g => Some (fst g :: snd g);
  deser_sig := toy_deser_sig;
  ser_meta := fun m => Some (toy_ser_meta m);
  ser_echo := fun m => Some (toy_ser_echo m);
  deser_echo := toy_deser_echo
|}.

(** ** A configurable protocol *)

(** [c_last]: number of the last round; [c_echo]: does round [n] have an echo broadcast; [c_comm]: who talks to whom. *)
Record Cfg := mkCfg {
  c_last : N;
  c_echo : N -> bool;
  c_comm : N -> N -> CommInfo (P := toyP)   (* round, party *)
}.

Record ToySt := mkToySt { ts_round : N; ts_me : N; ts_sum : N }.

Section Cfg.
  Context (c : Cfg).

  Definition toy_tinfo (st : ToySt) : TransitionInfo :=
    let n := ts_round st in
    let parents := if N.ltb 1 n then set_of_list [rid_new (n - 1)] else sempty in
    if N.ltb n (c_last c) then mkTI (rid_new n) parents sempty (set_of_list [rid_new (n + 1)]) false
    else mkTI (rid_new n) parents sempty sempty true.

  Definition one_byte (b : body) : option N := match b with Some [x] => Some x | _ => None end.

  (** Direct messages are one byte: 97, 98, 99 stand for a local, an unprovable, a provable protocol error; 100 is a
      provable error that refers to the messages and echoes of the previous round. *)
  Definition toy_receive (st : ToySt) (from : N) (m : DynMsg) : res RecvErr N :=
    match one_byte (dm_direct m) with
    | None => Err RDirect
    | Some d =>
        if negb (Bool.eqb (c_echo c (ts_round st)) (match one_byte (dm_echo m) with Some _ => true | None => false end))
        then Err REchoB else
        if negb (is_none (dm_normal m)) then Err RNormal else
        if N.eqb d 97 then Err (RL (LE_Protocol 0)) else
        if N.eqb d 98 then Err (RUnprovable (RE_Protocol 0)) else
        if N.eqb d 99 then
          Err (RProtocol (mkBoxedError (mkRequired (mkReqParts false false true) None None) (Some [ts_round st])))
        else if N.eqb d 100 then
          let prev := rid_new (ts_round st - 1) in
          Err (RProtocol (mkBoxedError (mkRequired (mkReqParts false false true)
            (Some (of_list [(prev, mkReqParts true false true)])) (Some (set_of_list [prev]))) (Some [ts_round st])))
        else Ok d
    end.

  Definition toy_info (n : N) : RInfo unit :=
    mkRInfo
      (fun b => match one_byte b with None => Ok tt | Some _ => Err EE_Invalid end)
      (fun b => if Bool.eqb (c_echo c n) (match one_byte b with Some _ => true | None => false end)
                then Err EE_Invalid else Ok tt)
      (fun b => if is_none b then Err EE_Invalid else Ok tt)
      (fun _ e _ _ _ m prev comb =>
        if (bytes_eqb e [n] && (match em_direct m with Some (Some [99%N]) => true | _ => false end ||
              (match em_direct m with Some (Some [100%N]) => true | _ => false end &&
               match get (rid_new (n - 1)) prev with Some (mkEvMsg (Some (Some _)) None (Some (Some _))) => true | _ => false end &&
               match get (rid_new (n - 1)) comb with Some echos => negb (is_empty echos) | None => false end)))%bool
        then Ok tt else Err EE_Invalid).

  Definition toyPr : Proto (P := toyP) := {|
    St := ToySt; Rslt := N; Shared := unit; Payload := N; Artifact := N;
    tinfo := toy_tinfo;
    cinfo := fun st => c_comm c (ts_round st) (ts_me st);
    mk_direct := fun st g dest => Ok (Some [10 + ts_me st]%N, dest);
    mk_echo := fun st g => Ok (if c_echo c (ts_round st) then Some [20 + ts_me st]%N else None);
    mk_normal := fun st g => Ok None;
    receive := toy_receive;
    finalize := fun st g ps _ =>
      let sum := fold_left N.add (map snd (to_list ps)) (ts_sum st) in
      if N.ltb (ts_round st) (c_last c) then Ok (AnotherRound (mkToySt (ts_round st + 1) (ts_me st) sum))
      else Ok (Finished_ sum);
    round_info := fun r => if (match rid_groups r with [] => true | _ => false end && negb (rid_echo r))%bool
                           then Some (toy_info (rid_round r)) else None
  |}.

  Definition toyEP : EntryPoint toyPr := @mkEP toyP toyPr (rid_new 1) (fun _ _ me => Ok (mkToySt 1 me 0)).

  Definition g0 : rng := fun _ => 0%N.
  Definition sid0 : bytes := [7; 7]%N.

  Definition dummy_part {k} : SPart k := mkSPart [] (mkMeta [] (rid_new 0)) None.
  Definition dummy_msg : Message (P := toyP) := @mkMessage toyP 0%N dummy_part dummy_part dummy_part.
  Definition dummy_session : Session toyPr :=
    @mkSession toyP toyPr [] 0%N 0%N (RMain (mkToySt 0 0 0 : St toyPr)) (mkComm sempty sempty EPDefault) None
      dummy_part dummy_part (mkTI (rid_new 0) sempty sempty sempty false) tr_new.
  Definition ok_def {E A} (d : A) (r : res E A) : A := match r with Ok a => a | _ => d end.

  Definition tsession (me : N) : Session toyPr := ok_def dummy_session (session_new g0 sid0 me toyEP).
  (** The message [s] makes for [dest]. *)
  Definition tmsg (s : Session toyPr) (dest : N) : Message (P := toyP) :=
    ok_def dummy_msg (let* (m, _) := make_message s g0 dest in Ok m).
  (** A message made by [me] in round [rid] of session [sid] with the given parts (as a party deviating from the protocol
      could make it). *)
  Definition tforge (me : N) (sid : bytes) (rid : RoundId) (direct e n : body) : Message (P := toyP) :=
    @mkMessage toyP 0%N (ok_def dummy_part (sign_part KDirect g0 (me : Signer) sid rid direct))
                 (ok_def dummy_part (sign_part KEcho g0 (me : Signer) sid rid e))
                 (ok_def dummy_part (sign_part KNormal g0 (me : Signer) sid rid n)).

  (** Preprocess, process and add one message. *)
  Definition deliver (s : Session toyPr) (a : Accum toyPr) (from : N) (m : Message (P := toyP)) : Accum toyPr * res LocalError unit :=
    match preprocess_message s a (from : Verifier (Params := toyP)) m with
    | (a, Ok (ToProcess vm)) => add_processed s a (process_message s vm)
    | (a, Ok _) => (a, Ok tt)
    | (a, Err e) => (a, Err e)
    | (a, Panic) => (a, Panic)
    end.
  Definition deliver_all (s : Session toyPr) (a : Accum toyPr) (l : list (N * Message (P := toyP))) : Accum toyPr :=
    fold_left (fun a fm => fst (deliver s a (fst fm) (snd fm))) l a.
  Definition next (s : Session toyPr) (a : Accum toyPr) : Session toyPr :=
    match finalize_round s g0 a with Ok (ROAnother s' _) => s' | _ => dummy_session end.
  Definition next_cached (s : Session toyPr) (a : Accum toyPr) : list (VMessage (P := toyP)) :=
    match finalize_round s g0 a with Ok (ROAnother s' c) => c | _ => [] end.
End Cfg.

(** Three parties, two rounds, all-to-all, echo broadcast in round 1. *)
Definition others3 (me : N) : bset N := srem me (set_of_list [0; 1; 2]%N).
Definition cfg3 : Cfg := mkCfg 2 (fun n => N.eqb n 1) (fun _ me => @mkComm toyP (others3 me) (others3 me) (@EPDefault toyP)).
(** The same without echo broadcasts. *)
Definition cfg3n : Cfg := mkCfg 2 (fun n => false) (fun _ me => @mkComm toyP (others3 me) (others3 me) (@EPDefault toyP)).

Lemma toy_plain c : plain_ids (toyPr c).
Proof. intros [n me sm]. simpl. unfold toy_tinfo. simpl. destruct (N.ltb n (c_last c)); reflexivity. Qed.

Lemma toy_initial c me : initial (tsession c me).
Proof.
  exists g0, sid0, me, (toyEP c). unfold tsession.
  destruct (session_new g0 sid0 (me : @Signer toyP) (toyEP c)) as [s|e|] eqn:E; auto; exfalso;
  unfold session_new, new_for_next_round, sign_part in E; simpl in E;
  destruct (is_empty _); simpl in E; discriminate.
Qed.

Definition tstart (c : Cfg) (me : N) : DState (toyPr c) := start (tsession c me).
Definition tfinal (c : Cfg) (me : N) (cs : list (cmd (P := toyP))) : DState (toyPr c) := final g0 (tstart c me) cs.
Definition ttrace (c : Cfg) (me : N) (cs : list (cmd (P := toyP))) : list (event (toyPr c)) := trace g0 (tstart c me) cs.

(** The checks are boolean so that [vm_compute] never has to print a state. *)
Definition runs (c : Cfg) (me : N) (cs : list (cmd (P := toyP))) : bool := is_some (exec g0 (tstart c me) cs).

Lemma toy_reachable c me cs : runs c me cs = true -> reachable (tfinal c me cs).
Proof.
  unfold runs. intros H. apply final_reachable; [apply toy_initial|]. intros E. unfold tstart in H. rewrite E in H. discriminate.
Qed.

Lemma toy_run c me cs : runs c me cs = true -> run (tstart c me) (ttrace c me cs) (tfinal c me cs).
Proof. unfold runs. intros H. apply final_run. intros E. rewrite E in H. discriminate. Qed.

Lemma is_ok_ex {E A} (r : res E A) : is_ok r = true -> exists x, r = Ok x.
Proof. destruct r; simpl; try discriminate; eauto. Qed.
Lemma contains_ex {V} k (m : bmap N V) : contains k m = true -> exists v, get k m = Some v.
Proof. apply contains_get. Qed.

Lemma toy_start c me : round_start (tstart c me).
Proof. left. exists (tsession c me). split; auto. apply toy_initial. Qed.

Lemma toy_reachable_start c me : reachable (tstart c me).
Proof. exists (tsession c me), []. split; [apply toy_initial|constructor]. Qed.

(** Shorthand: the message of [from] to [to] in round 1. *)
Definition pre (c : Cfg) (from to : N) : cmd (P := toyP) := @CPre toyP from (tmsg (tsession c from) to).

Ltac toy := vm_compute; reflexivity.

Example toy_works :
  let s := tsession cfg3n 0 in
  let a := deliver_all s (make_accumulator s) [(1, tmsg (tsession cfg3n 1) 0); (2, tmsg (tsession cfg3n 2) 0)]%N in
  can_finalize a = Yes /\ s_round_id (next s a) = rid_new 2.
Proof. vm_compute. auto. Qed.

(** ** Helpers for the cases and witnesses *)
Lemma tmsg_made c (s : Session (toyPr c)) (dest : N) :
  is_ok (make_message s g0 (dest : @Verifier toyP)) = true ->
  exists art, make_message s g0 (dest : @Verifier toyP) = Ok (tmsg s dest, art).
Proof.
  intros H. unfold tmsg. destruct (make_message s g0 (dest : @Verifier toyP)) as [[m art]| |]; try discriminate. simpl. eauto.
Qed.

Lemma toy_receive_total c : receive_total (toyPr c).
Proof.
  intros st from m. simpl. unfold toy_receive. destruct (one_byte _); [|discriminate].
  repeat (match goal with |- (if ?b then _ else _) <> _ => destruct b end; [discriminate|]). discriminate.
Qed.

Lemma toy_broadcasts c : (forall n me tg, ci_part (c_comm c n me) = EPReceive tg -> c_echo c n = true) ->
  echo_rounds_have_broadcasts (toyPr c).
Proof.
  intros Hc st Hp from m p. simpl in *. unfold toy_receive.
  assert (He : c_echo c (ts_round st) = true).
  { destruct Hp as [[tg H]|[_ (g & b & H)]]; [eauto|]. destruct (c_echo c (ts_round st)); auto. discriminate. }
  destruct (one_byte (dm_direct m)); [|discriminate]. rewrite He.
  destruct (dm_echo m); [discriminate|]. simpl. discriminate.
Qed.

Definition dummy_vm : VMessage (P := toyP) := @mkVMessage toyP 0%N (mkMeta [] (rid_new 0)) dummy_part dummy_part dummy_part.

(** Continuing from a state. *)
Definition truns {c} (d : DState (toyPr c)) (cs : list (cmd (P := toyP))) : bool := is_some (exec g0 d cs).
Definition tthen {c} (d : DState (toyPr c)) (cs : list (cmd (P := toyP))) : DState (toyPr c) := final g0 d cs.
Definition tsteps {c} (d : DState (toyPr c)) (cs : list (cmd (P := toyP))) : list (event (toyPr c)) := trace g0 d cs.

Lemma then_run c (d : DState (toyPr c)) cs : truns d cs = true -> run d (tsteps d cs) (tthen d cs).
Proof. unfold truns. intros H. apply final_run. intros E. rewrite E in H. discriminate. Qed.

Lemma then_fin c (d : DState (toyPr c)) : truns d [CFin] = true -> step d (EFin g0) (tthen d [CFin]).
Proof.
  unfold truns, tthen, final. cbn [exec]. destruct (exec1 g0 d CFin) as [[e d1]|] eqn:E; [|discriminate]. intros _.
  pose proof (exec1_step _ _ _ E) as Hs. destruct d as [s a todo]. cbn [exec1] in E.
  destruct (can_finalize a); try discriminate. destruct (finalize_round s g0 a) as [[]| |]; try discriminate. inv E. exact Hs.
Qed.

Lemma then_round_start c (d : DState (toyPr c)) : reachable d -> truns d [CFin] = true -> round_start (tthen d [CFin]).
Proof.
  intros Hre H. apply then_fin in H. inversion H as [| | |s a todo g s' cc Hy Hf]. subst.
  right. exists s, a, todo, g0, s', cc. auto.
Qed.

Lemma then_reachable c (d : DState (toyPr c)) cs : reachable d -> truns d cs = true -> reachable (tthen d cs).
Proof. intros (s & es & Hi & Hr) H. exists s, (es ++ tsteps d cs). split; auto. eapply run_app; eauto. now apply then_run. Qed.

Lemma tsteps_pre c (d : DState (toyPr c)) cs v m o : In (EPre v m o) (tsteps d cs) -> In (CPre v m) cs.
Proof.
  unfold tsteps, trace. destruct (exec g0 d cs) as [[es d']|] eqn:E; [|simpl; tauto].
  revert es d d' E. induction cs as [|c1 cs IH]; intros es d d' E.
  - inv E. simpl; tauto.
  - cbn [exec] in E. destruct (exec1 g0 d c1) as [[e d1]|] eqn:E1; [|discriminate].
    destruct (exec g0 d1 cs) as [[es' d2]|] eqn:E2; [|discriminate]. inv E. intros [->|Hin]; [|simpl; right; eapply IH; eauto].
    left. destruct d as [s a todo]. destruct c1; cbn [exec1] in E1.
    + destruct (preprocess_message s a from m0) as [a' []]; inv E1; auto.
    + destruct (take_nth n todo) as [[[? ?] ?]|]; [|discriminate].
      destruct (add_processed s a _) as [a' [[]| |]]; discriminate.
    + destruct (mem dest _); [|discriminate]. destruct (make_message s g0 dest) as [[? [? ?]]| |]; try discriminate.
      destruct (eqb _ _); [|discriminate]. destruct (add_artifact a _) as [a' [[]| |]]; discriminate.
    + destruct (can_finalize a); try discriminate. destruct (finalize_round s g0 a) as [[]| |]; discriminate.
Qed.

(** Two rounds; in round 1 party 1 sends to 0 and 2 without taking part in the echo round, 0 and 2 only receive and echo
    to each other; round 2 is all-to-all. *)
Definition cfgS : Cfg := mkCfg 2 (fun n => N.eqb n 1) (fun n me =>
  if N.eqb n 1 then
    if N.eqb me 1 then @mkComm toyP (others3 1) sempty (@EPSend toyP)
    else @mkComm toyP sempty (set_of_list [1]%N) (@EPReceive toyP (srem me (set_of_list [0; 2]%N)))
  else @mkComm toyP (others3 me) (others3 me) (@EPDefault toyP)).

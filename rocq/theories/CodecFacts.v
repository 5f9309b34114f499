(** What is written as a message or as evidence is read back. *)
From Coq Require Import List Arith NArith Bool Lia.
From Verif Require Import Base BMap Errors RoundId Message Protocol Transcript SerMap SignFacts TestParams TestParamsFacts Codec.
Import ListNotations.
Set Implicit Arguments.

Section Reads.
  Context {A : Type}.
  Definition reads (put : A -> bytes) (read : bytes -> option (A * bytes)) : Prop := forall x b, read (put x ++ b)%list = Some (x, b).
End Reads.

Lemma option_ok A (put : A -> bytes) read : reads put read -> reads (put_option put) (read_option read).
Proof.
  intros H [x|] b; unfold read_option, put_option; cbn [app read_byte and_then].
  - change (N.eqb 1 0) with false. change (N.eqb 1 1) with true. cbn iota. rewrite H. reflexivity.
  - reflexivity.
Qed.

Lemma elements_ok A (put : A -> bytes) read : reads put read ->
  forall l b, read_elements read (length l) (flat_map put l ++ b) = (map Some l, b).
Proof.
  intros H l b. induction l as [|x l IH]; [reflexivity|]. cbn [length flat_map map read_elements]. rewrite <- app_assoc, H, IH. reflexivity.
Qed.

Lemma pair_ok A B (put_a : A -> bytes) read_a (put_b : B -> bytes) read_b : reads put_a read_a -> reads put_b read_b ->
  reads (fun kv : A * B => put_a (fst kv) ++ put_b (snd kv))%list
        (fun b => and_then (read_a b) (fun k b => and_then (read_b b) (fun v b => Some ((k, v), b)))).
Proof. intros Ha Hb [k v] b. cbn [fst snd]. rewrite <- app_assoc, Ha. cbn [and_then]. rewrite Hb. reflexivity. Qed.

Lemma map_ok K V (OK : Ord K) (put_k : K -> bytes) read_k (put_v : V -> bytes) read_v : reads put_k read_k -> reads put_v read_v ->
  reads (@put_map K V OK put_k put_v) (read_map read_k read_v).
Proof.
  intros Hk Hv m b. unfold read_map, put_map. rewrite <- app_assoc, varint_ok. cbn [and_then]. rewrite Nat2N.id.
  cbn [sm_serialize fst]. rewrite (elements_ok (pair_ok Hk Hv)).
  change (to_list m) with (snd (sm_serialize m)). rewrite sm_round_trip. reflexivity.
Qed.

Lemma body_ok : reads put_body read_body.
Proof. exact (option_ok bytes_ok). Qed.
Lemma part_ok k : reads (@put_part k) read_part.
Proof.
  intros [g m x] b. unfold read_part, put_part. cbn [sp_sig sp_meta sp_body]. rewrite <- !app_assoc, bytes_ok. cbn [and_then].
  rewrite meta_ok. cbn [and_then]. rewrite body_ok. reflexivity.
Qed.
Lemma verifier_ok : reads put_verifier read_verifier.
Proof. intros v b. reflexivity. Qed.

Lemma message_ok : reads put_message read_message.
Proof.
  intros [v d e n] b. unfold read_message, put_message. cbn [msg_dest msg_direct msg_echo msg_normal]. rewrite <- !app_assoc, verifier_ok.
  cbn [and_then]. rewrite part_ok. cbn [and_then]. rewrite part_ok. cbn [and_then]. rewrite part_ok. reflexivity.
Qed.

Lemma proto_ok : reads put_proto read_proto.
Proof.
  intros [err d e n ds es ns os hs] b. unfold read_proto, put_proto.
  cbn [pe_error pe_direct pe_echo pe_normal pe_directs pe_echos pe_normals pe_others pe_hashes]. rewrite <- !app_assoc, bytes_ok. cbn [and_then].
  do 3 (rewrite (option_ok (@part_ok _)); cbn [and_then]).
  do 3 (rewrite (map_ok rid_ok (@part_ok _)); cbn [and_then]).
  rewrite (map_ok rid_ok (map_ok (OK := OrdVerifier (Params := testP)) verifier_ok (@part_ok _))). cbn [and_then].
  rewrite (map_ok rid_ok (@part_ok _)). reflexivity.
Qed.

Lemma enum_ok : reads put_enum read_enum.
Proof.
  intros x b. unfold read_enum, put_enum. destruct x; rewrite <- ?app_assoc, varint_ok; cbn [and_then].
  - rewrite proto_ok. reflexivity.
  - rewrite part_ok. reflexivity.
  - rewrite part_ok. reflexivity.
  - rewrite part_ok. reflexivity.
  - rewrite part_ok. cbn [and_then]. rewrite verifier_ok. reflexivity.
  - rewrite verifier_ok. cbn [and_then]. rewrite part_ok. cbn [and_then]. rewrite shash_ok. reflexivity.
Qed.

Lemma evidence_ok utf8 s ev b : utf8 s = true -> read_evidence utf8 (put_evidence s ev ++ b)%list = Some ((s, ev), b).
Proof.
  intros H. destruct ev as [v x]. unfold read_evidence, put_evidence, read_string. cbn [ev_guilty ev_body]. rewrite <- !app_assoc, verifier_ok.
  cbn [and_then]. rewrite bytes_ok. cbn [and_then]. rewrite H. cbn [and_then]. rewrite enum_ok. reflexivity.
Qed.
Lemma evidence_utf8 utf8 s ev b : utf8 s = false -> read_evidence utf8 (put_evidence s ev ++ b)%list = None.
Proof.
  intros H. destruct ev as [v x]. unfold read_evidence, put_evidence, read_string. cbn [ev_guilty ev_body]. rewrite <- !app_assoc, verifier_ok.
  cbn [and_then]. rewrite bytes_ok. cbn [and_then]. rewrite H. reflexivity.
Qed.

(** ** What is read depends on the bytes taken only *)
Section Local.
  Context {A : Type}.
  Definition local (read : bytes -> option (A * bytes)) : Prop :=
    forall b x r, read b = Some (x, r) -> exists p, b = (p ++ r)%list /\ forall r', read (p ++ r')%list = Some (x, r').
End Local.

Lemma then_local A B (read : bytes -> option (A * bytes)) (f : A -> bytes -> option (B * bytes)) :
  local read -> (forall a, local (f a)) -> local (fun b => and_then (read b) f).
Proof.
  intros H Hf b y r E. destruct (read b) as [[a b1]|] eqn:Ea; [|discriminate]. cbn [and_then] in E.
  destruct (H _ _ _ Ea) as (p & -> & Hp). destruct (Hf a _ _ _ E) as (q & -> & Hq).
  exists (p ++ q)%list. split; [apply app_assoc|]. intros r'. rewrite <- app_assoc, Hp. cbn [and_then]. apply Hq.
Qed.
Lemma ret_local A (x : A) : local (fun b => Some (x, b)).
Proof. intros b y r E. injection E as <- <-. exists []. split; [reflexivity|]. intros r'. reflexivity. Qed.
Lemma none_local A : local (fun _ => @None (A * bytes)).
Proof. intros b y r E. discriminate. Qed.

Lemma byte_local : local read_byte.
Proof. intros [|x b] y r E; [discriminate|]. injection E as <- <-. exists [x]. split; reflexivity. Qed.
Lemma varint_local : local read_varint.
Proof.
  intros b. induction b as [|x b IH]; intros n r E; [discriminate|]. cbn [read_varint] in E. destruct (N.ltb x 128) eqn:Hx.
  - injection E as <- <-. exists [x]. split; [reflexivity|]. intros r'. cbn [app read_varint]. rewrite Hx. reflexivity.
  - destruct (read_varint b) as [[m c]|]; [|discriminate]. injection E as <- <-. destruct (IH _ _ eq_refl) as (p & -> & Hp).
    exists (x :: p). split; [reflexivity|]. intros r'. cbn [app read_varint]. rewrite Hx, Hp. reflexivity.
Qed.
Lemma take_local n : local (fun b => if N.ltb (N.of_nat (length b)) n then None else Some (firstn (N.to_nat n) b, skipn (N.to_nat n) b)).
Proof.
  intros b x r E. destruct (N.ltb_spec (N.of_nat (length b)) n) as [|Hn]; [discriminate|]. injection E as <- <-.
  exists (firstn (N.to_nat n) b). split; [symmetry; apply firstn_skipn|]. intros r'.
  assert (L : length (firstn (N.to_nat n) b) = N.to_nat n) by (rewrite firstn_length; lia).
  rewrite app_length, L. destruct (N.ltb_spec (N.of_nat (N.to_nat n + length r')) n); [lia|].
  rewrite firstn_app, L, Nat.sub_diag, skipn_app, L, Nat.sub_diag. cbn [firstn skipn]. rewrite app_nil_r, firstn_firstn, Nat.min_id.
  rewrite skipn_all2 by lia. reflexivity.
Qed.
Lemma local_ext A (f g : bytes -> option (A * bytes)) : (forall b, f b = g b) -> local f -> local g.
Proof. intros E H b x r. rewrite <- E. intros K. destruct (H _ _ _ K) as (p & -> & Hp). exists p. split; [reflexivity|]. intros r'. rewrite <- E. apply Hp. Qed.
Lemma bytes_local : local read_bytes.
Proof.
  eapply local_ext; [|exact (@then_local _ _ read_varint _ varint_local take_local)]. intros b. unfold read_bytes. destruct (read_varint b) as [[n c]|]; reflexivity.
Qed.
Lemma bool_local : local read_bool.
Proof.
  eapply local_ext with (f := fun b => and_then (read_byte b) (fun x b => if N.eqb x 0 then Some (false, b) else if N.eqb x 1 then Some (true, b) else None)).
  - intros [|x b]; reflexivity.
  - apply then_local; [exact byte_local|]. intros x. destruct (N.eqb x 0); [apply ret_local|]. destruct (N.eqb x 1); [apply ret_local|apply none_local].
Qed.
Ltac step_local l := apply then_local; [apply l|intro].
Lemma rid_local : local read_rid.
Proof. unfold read_rid. step_local byte_local. step_local bytes_local. step_local bool_local. apply ret_local. Qed.
Lemma meta_local : local read_meta.
Proof. unfold read_meta. step_local bytes_local. step_local rid_local. apply ret_local. Qed.
Lemma shash_local : local read_shash.
Proof. unfold read_shash. step_local bytes_local. step_local meta_local. step_local bytes_local. apply ret_local. Qed.

Lemma option_local A (read : bytes -> option (A * bytes)) : local read -> local (read_option read).
Proof.
  intros H. unfold read_option. step_local byte_local. destruct (N.eqb a 0); [apply ret_local|]. destruct (N.eqb a 1); [|apply none_local].
  step_local H. apply ret_local.
Qed.

(** A sequence is refused if one of its elements is. *)
Lemma elements_local A (read : bytes -> option (A * bytes)) : local read -> forall n b l r, read_elements read n b = (l, r) ->
  (In None l) \/ exists p, b = (p ++ r)%list /\ forall r', read_elements read n (p ++ r')%list = (l, r').
Proof.
  intros H n. induction n as [|n IH]; intros b l r E; cbn [read_elements] in E.
  - injection E as <- <-. right. exists []. split; reflexivity.
  - destruct (read b) as [[x c]|] eqn:Er.
    + destruct (read_elements read n c) as [l' r0] eqn:El. injection E as <- <-. destruct (H _ _ _ Er) as (p & -> & Hp).
      destruct (IH _ _ _ El) as [K|(q & -> & Hq)]; [left; right; exact K|]. right. exists (p ++ q)%list. split; [apply app_assoc|].
      intros r'. rewrite <- app_assoc. cbn [read_elements]. rewrite Hp, Hq. reflexivity.
    + injection E as <- <-. left. now left.
Qed.
Lemma visit_none K V (OK : Ord K) (l : list (option (K * V))) m : In None l -> sm_visit m l = None.
Proof.
  revert m. induction l as [|[[k v]|] l IH]; intros m H; [destruct H| |reflexivity]. destruct H as [E|E]; [discriminate|]. cbn [sm_visit].
  destruct (contains k m); [reflexivity|]. now apply IH.
Qed.
Lemma map_local K V (OK : Ord K) (read_k : bytes -> option (K * bytes)) (read_v : bytes -> option (V * bytes)) :
  local read_k -> local read_v -> local (read_map read_k read_v).
Proof.
  intros Hk Hv. unfold read_map. step_local varint_local. intros b m r E.
  match goal with H : context [read_elements ?f ?n b] |- _ => set (g := f) in * end.
  assert (Hg : local g). { unfold g. step_local Hk. step_local Hv. apply ret_local. }
  destruct (read_elements g (N.to_nat a) b) as [l r0] eqn:El. destruct (sm_deserialize l) as [m'|] eqn:Ed; [|discriminate].
  injection E as <- <-. destruct (elements_local Hg _ _ El) as [N|(p & -> & Hp)].
  - unfold sm_deserialize in Ed. rewrite visit_none in Ed; [discriminate|exact N].
  - exists p. split; [reflexivity|]. intros r'. rewrite Hp, Ed. reflexivity.
Qed.

Lemma body_local : local read_body.
Proof. exact (option_local bytes_local). Qed.
Lemma part_local k : local (@read_part k).
Proof. unfold read_part. step_local bytes_local. step_local meta_local. step_local body_local. apply ret_local. Qed.
Lemma verifier_local : local read_verifier.
Proof. exact byte_local. Qed.
Lemma message_local : local read_message.
Proof. unfold read_message. step_local verifier_local. do 3 step_local part_local. apply ret_local. Qed.
Lemma parts_local k : local (read_map read_rid (@read_part k)).
Proof. exact (map_local rid_local (@part_local k)). Qed.
Lemma some_part_local k : local (read_option (@read_part k)).
Proof. exact (option_local (@part_local k)). Qed.
Lemma others_local : local (read_map read_rid (read_map (OK := OrdVerifier (Params := testP)) read_verifier (@read_part KEcho))).
Proof. exact (map_local rid_local (map_local verifier_local (@part_local KEcho))). Qed.
Lemma proto_local : local read_proto.
Proof.
  unfold read_proto. step_local bytes_local. do 3 step_local some_part_local. do 3 step_local parts_local. step_local others_local.
  step_local parts_local. apply ret_local.
Qed.
Lemma enum_local : local read_enum.
Proof.
  unfold read_enum. step_local varint_local.
  destruct a as [|[[[q|q|]|[q|q|]|]|[[q|q|]|[q|q|]|]|]]; try apply none_local.
  - step_local proto_local. apply ret_local.
  - step_local verifier_local. step_local part_local. step_local shash_local. apply ret_local.
  - step_local part_local. apply ret_local.
  - step_local part_local. step_local verifier_local. apply ret_local.
  - step_local part_local. apply ret_local.
  - step_local part_local. apply ret_local.
Qed.
Lemma string_local utf8 : local (read_string utf8).
Proof. unfold read_string. step_local bytes_local. destruct (utf8 a); [apply ret_local|apply none_local]. Qed.
Lemma evidence_local utf8 : local (read_evidence utf8).
Proof. unfold read_evidence. step_local verifier_local. step_local (string_local utf8). step_local enum_local. apply ret_local. Qed.

(** What has been cut off is refused. *)
Lemma cut_off A (read : bytes -> option (A * bytes)) x p q : local read -> read (p ++ q)%list = Some (x, []) -> q <> [] -> read p = None.
Proof.
  intros H E Hq. destruct (read p) as [[y r]|] eqn:Ey; [|reflexivity]. exfalso. destruct (H _ _ _ Ey) as (s & -> & Hs).
  rewrite <- app_assoc, Hs in E. injection E as _ E. apply app_eq_nil in E as [_ E]. auto.
Qed.

(** A repeated key is refused. *)
Lemma repeated_key K V (OK : Ord K) (put_k : K -> bytes) read_k (put_v : V -> bytes) read_v : reads put_k read_k -> reads put_v read_v ->
  forall (kvs : list (K * V)) b, ~ NoDup (map fst kvs) ->
  read_map read_k read_v (varint (N.of_nat (length kvs)) ++ flat_map (fun kv => put_k (fst kv) ++ put_v (snd kv)) kvs ++ b)%list = None.
Proof.
  intros Hk Hv kvs b H. unfold read_map. rewrite varint_ok. cbn [and_then]. rewrite Nat2N.id, (elements_ok (pair_ok Hk Hv)).
  destruct (sm_deserialize (map Some kvs)) as [m|] eqn:E; [|reflexivity]. exfalso. apply H. apply sm_deserialize_exists. eauto.
Qed.

(** A description that is not well-formed is refused in any case. *)
Lemma evidence_cut utf8 s ev p q : put_evidence s ev = (p ++ q)%list -> q <> [] -> read_evidence utf8 p = None.
Proof.
  intros E H. destruct (utf8 s) eqn:Hu.
  - apply (@cut_off _ (read_evidence utf8) (s, ev) p q (@evidence_local utf8)); [|exact H]. rewrite <- E, <- (app_nil_r (put_evidence s ev)).
    apply evidence_ok. exact Hu.
  - destruct (read_evidence utf8 p) as [[x r]|] eqn:K; [|reflexivity]. exfalso. destruct (@evidence_local utf8 _ _ _ K) as (t & -> & Ht).
    specialize (Ht (r ++ q)%list). rewrite app_assoc, <- E, <- (app_nil_r (put_evidence s ev)), evidence_utf8 in Ht; [discriminate|exact Hu].
Qed.

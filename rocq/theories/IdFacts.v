(** Facts about round ids, linear round graphs, required parts and session outcomes. *)
From Coq Require Import List NArith Bool Lia.
From Verif Require Import Base BMap Errors RoundId Message Protocol Transcript Evidence Session Spec SpecCrypto SerMap
  MessageFacts SessionFacts RunFacts SignFacts.
Import ListNotations.
Set Implicit Arguments.

Lemma split_group_fails r : split_group r <> Panic /\ ((exists e, split_group r = Err e) <-> rid_groups r = []).
Proof.
  destruct (split_group_total r) as [[H1 H2]|(g & r' & H)].
  - split; [congruence|]. split; auto. intros _. eauto.
  - split; [congruence|]. split; [intros [e He]; congruence|]. intros E. apply split_group_ok in H. subst r.
    destruct r'; simpl in E. destruct rid_groups; discriminate.
Qed.

Lemma echo_inverse r r' : (echo r = Ok r' <-> non_echo r' = Ok r) /\
  ((exists e, echo r = Err e) <-> rid_echo r = true) /\ ((exists e, non_echo r = Err e) <-> rid_echo r = false) /\
  echo r <> Panic /\ non_echo r <> Panic.
Proof.
  destruct r as [n gs e], r' as [n' gs' e']. unfold echo, non_echo. simpl.
  split; [|split; [|split; [|split]]].
  - destruct e, e'; simpl; split; intros H; try discriminate H; injection H as <- <-; reflexivity.
  - destruct e; simpl; split; intros H; eauto; try discriminate. destruct H as [? H]. discriminate.
  - destruct e; simpl; split; intros H; eauto; try discriminate. destruct H as [? H]. discriminate.
  - destruct e; discriminate.
  - destruct e; discriminate.
Qed.

Lemma echo_group r g :
  echo (group_under r g) = (let* e := echo r in Ok (group_under e g)) /\
  non_echo (group_under r g) = (let* e := non_echo r in Ok (group_under e g)).
Proof. destruct r as [n gs []]; split; reflexivity. Qed.

Lemma nesting gs r : rid_groups (fold_left group_under gs r) = (rid_groups r ++ gs)%list /\
  fold_right (fun g x => let* r := x in let* (g', r') := split_group r in if N.eqb g g' then Ok r' else Err LE_BadGroup)
    (Ok (fold_left group_under gs r)) gs = Ok r.
Proof.
  revert r. induction gs as [|g gs IH]; intros r; cbn [fold_left fold_right].
  - now rewrite app_nil_r.
  - destruct (IH (group_under r g)) as [H1 H2]. split.
    + rewrite H1. simpl. now rewrite <- app_assoc.
    + rewrite H2. cbn [bind]. rewrite split_group_under. cbn [bind]. now rewrite N.eqb_refl.
Qed.

Lemma rid_order (a b c : RoundId) :
  (rid_cmp a b = Eq <-> a = b) /\ (rid_cmp a b = Lt <-> rid_cmp b a = Gt) /\
  (rid_cmp a b = Lt -> rid_cmp b c = Lt -> rid_cmp a c = Lt).
Proof.
  change rid_cmp with (@cmp RoundId _). split; [apply cmp_eq|]. split; [|apply cmp_trans]. rewrite cmp_gt. reflexivity.
Qed.

Lemma rid_entries V (m : bmap RoundId V) r r' x : r <> r' -> get r (insert r' x m) = get r m.
Proof. apply get_insert_ne. Qed.

Lemma sm_round_trip' K V (OK : Ord K) (m : bmap K V) :
  fst (sm_serialize m) = length (snd (sm_serialize m)) /\ sm_deserialize (map Some (snd (sm_serialize m))) = Some m.
Proof. split; [reflexivity|apply sm_round_trip]. Qed.

Lemma terminate_outcome {P : Params} {Pr : Proto} (s : Session Pr) a rep :
  terminate s a = Ok rep \/ terminate_due_to_errors s a = Ok rep -> rep_outcome rep = OTerminated.
Proof.
  unfold terminate, terminate_due_to_errors, terminate_inner.
  intros [H|H]; apply bind_ok in H as (t & _ & H); inv H; reflexivity.
Qed.

Lemma outcome_reason (P : Params) (Pr : Proto) (s : Session Pr) a rep :
  (terminate s a = Ok rep -> rep_outcome rep = OTerminated) /\
  (terminate_due_to_errors s a = Ok rep -> rep_outcome rep = OTerminated) /\
  (forall g, finalize_round s g a = Ok (ROFinished rep) -> exists x, rep_outcome rep = OResult x).
Proof.
  split; [intros H; apply (@terminate_outcome _ _ s a); auto|]. split; [intros H; apply (@terminate_outcome _ _ s a); auto|].
  intros g H. apply finalize_finished in H as (t & x & _ & _ & _ & ->). simpl. eauto.
Qed.

(** ** Linear round graphs *)
Lemma mem_single {K} {OK : Ord K} (k r : K) : mem r (set_of_list [k]) = true <-> r = k.
Proof. rewrite mem_set_of_list. simpl. intuition. Qed.

Lemma linear_rounds n k : (1 <= k)%N -> (k <= n)%N -> (n <= u8_max)%N ->
  exists t, linear_round n k = Ok t /\ ti_id t = rid_new k /\
    (forall r, mem r (ti_children t) = true <-> (k < n)%N /\ r = rid_new (k + 1)) /\
    (forall r, mem r (ti_parents t) = true <-> (1 < k)%N /\ r = rid_new (k - 1)) /\
    (ti_result t = true <-> k = n) /\
    (forall r, mem r (ti_siblings t) = false) /\
    (forall e, exists rs, simultaneous_rounds t e = Ok rs /\ forall r, mem r rs = true <->
       ((k < n)%N /\ r = rid_new (k + 1)) \/
       (if e then r = mkRid k [] true else (1 < k)%N /\ r = rid_new (k - 1))).
Proof.
  intros H1 H2 H3.
  assert (Hpar : forall r, mem r (if N.ltb 1 k then set_of_list [rid_new (k - 1)] else sempty) = true <-> (1 < k)%N /\ r = rid_new (k - 1)).
  { intros r. destruct (N.ltb_spec 1 k); [rewrite mem_single|rewrite mem_empty]; intuition; try discriminate; lia. }
  assert (Hok : exists t, linear_round n k = Ok t /\ ti_id t = rid_new k /\
    (forall r, mem r (ti_children t) = true <-> (k < n)%N /\ r = rid_new (k + 1)) /\
    ti_parents t = (if N.ltb 1 k then set_of_list [rid_new (k - 1)] else sempty) /\
    (ti_result t = true <-> k = n) /\ ti_siblings t = sempty).
  { unfold linear_round. destruct (N.ltb_spec k n).
    - unfold new_linear. destruct (N.leb_spec u8_max k); [lia|]. eexists. split; [reflexivity|]. simpl. split; auto.
      split; [intros r; rewrite mem_single; intuition|]. split; auto. split; auto. split; [discriminate|lia].
    - eexists. split; [reflexivity|]. simpl. split; auto.
      split; [intros r; rewrite mem_empty; split; [discriminate|lia]|]. split; auto. split; auto. split; auto. lia. }
  destruct Hok as (t & Ht & Hid & Hc & Hp & Hr & Hs). exists t. split; auto. split; auto. split; auto.
  split; [intros r; rewrite Hp; apply Hpar|]. split; auto. split; [intros r; rewrite Hs; apply mem_empty|].
  intros e. destruct (@simultaneous_total t e) as [rs Hrs]; [intros _; now rewrite Hid|].
  exists rs. split; auto. intros r. rewrite (simultaneous_window _ _ Hrs r), Hc, Hs, Hid. cbn [rid_round rid_groups rid_new].
  rewrite mem_empty. destruct e; [|rewrite Hp, Hpar]; intuition discriminate.
Qed.

Lemma linear_overflow k : (k <= u8_max)%N -> (new_linear k = Panic <-> k = u8_max).
Proof. intros H. unfold new_linear. destruct (N.leb_spec u8_max k); split; intros; try discriminate; auto; lia. Qed.

Lemma api_parts_nonempty p : api_parts p -> rp_echo p = true \/ rp_normal p = true \/ rp_direct p = true.
Proof.
  intros Hp. destruct Hp as [p H|p H|p H|p q _ H|p q _ H|p q _ H];
    unfold req_echo, req_normal, req_direct, and_echo, and_normal, and_direct, req_new in H;
    try destruct p as [x y z]; simpl in H; rewrite ?orb_true_r in H; simpl in H;
    injection H; intros; subst; simpl; auto.
Qed.

Lemma api_never_panics p : req_echo <> Panic /\ req_normal <> Panic /\ req_direct <> Panic /\
  and_echo p <> Panic /\ and_normal p <> Panic /\ and_direct p <> Panic.
Proof.
  destruct p as [x y z]. unfold req_echo, req_normal, req_direct, and_echo, and_normal, and_direct, req_new. simpl.
  rewrite ?orb_true_r. repeat split; discriminate.
Qed.

Lemma api_exact p :
  req_echo = Ok (mkReqParts true false false) /\ req_normal = Ok (mkReqParts false true false) /\
  req_direct = Ok (mkReqParts false false true) /\
  and_echo p = Ok (mkReqParts true (rp_normal p) (rp_direct p)) /\
  and_normal p = Ok (mkReqParts (rp_echo p) true (rp_direct p)) /\
  and_direct p = Ok (mkReqParts (rp_echo p) (rp_normal p) true).
Proof. destruct p as [[] [] []]; repeat split. Qed.

Lemma other_session_rejected (P : Params) (Pr : Proto) (d : DState Pr) (s' : Session Pr) a' g dest m art from r :
  reachable d -> make_message (d_s d) g dest = Ok (m, art) -> s_id s' <> s_id (d_s d) ->
  snd (preprocess_message s' a' from m) = Ok r -> exists e, r = PreError e.
Proof.
  intros Hre Hm Hid H. destruct (preprocess_message s' a' from m) as [a'' r'] eqn:E. simpl in H. subst r'.
  assert (Hmeta : sp_meta (msg_direct m) = mkMeta (s_id (d_s d)) (s_round_id (d_s d))).
  { unfold make_message in Hm. apply bind_ok in Hm as ([b x] & _ & Hm). apply bind_ok in Hm as (m' & H2 & Hm). inv Hm.
    unfold message_new in H2. apply bind_ok in H2 as (dm & H2 & H). inv H. apply sign_part_ok in H2 as [H2 _]. exact H2. }
  apply preprocess_cases in E. inv E; eauto; exfalso;
  match goal with H : message_authentic _ _ _ _ |- _ => destruct H as (_ & _ & _ & H & _) end; rewrite Hmeta in *; congruence.
Qed.

(** The JSON values that the reader takes for messages and evidence (C131). *)
From Coq Require Import List Arith NArith Bool String Lia.
From Verif Require Import Base BMap Errors RoundId Message Protocol Transcript Evidence Text SerMap SignFacts TestParams Json SpecJson SpecJsonTypes JsonText.
Import ListNotations.
Set Implicit Arguments.
Local Open Scope list_scope.

Lemma obind {A B} (x : option A) (f : A -> option B) y : option_bind x f = Some y <-> exists a, x = Some a /\ f a = Some y.
Proof. destruct x; cbn; split; [eauto|intros (a' & E & H); inversion E; subst; auto|discriminate|intros (? & ? & _); discriminate]. Qed.

Lemma with_key_cons k k' v l : with_key k ((k', v) :: l) = if bytes_eqb k' k then v :: with_key k l else with_key k l.
Proof. unfold with_key. cbn. now destruct (bytes_eqb k' k). Qed.

Lemma with_key_none k l : with_key k l = [] <-> ~ In k (map fst l).
Proof.
  induction l as [|[k' v] l IH]; [cbn; tauto|]. rewrite with_key_cons. cbn [map fst In]. destruct (bytes_eqb k' k) eqn:E.
  - apply bytes_eqb_spec in E. subst. split; [discriminate|tauto].
  - rewrite IH. assert (k' <> k) by (intros ->; rewrite bytes_eqb_refl in E; discriminate). tauto.
Qed.

Lemma with_key_one k l v : with_key k l = [v] <-> exists l1 l2, l = l1 ++ (k, v) :: l2 /\ ~ In k (map fst (l1 ++ l2)).
Proof.
  induction l as [|[k' v'] l IH].
  - split; [discriminate|]. intros ([|? ?] & ? & E & _); discriminate.
  - rewrite with_key_cons. destruct (bytes_eqb k' k) eqn:E.
    + apply bytes_eqb_spec in E. subst. split.
      * intros H. inversion H; subst. exists [], l. split; auto. cbn [app]. now apply with_key_none.
      * intros (l1 & l2 & E & N). destruct l1 as [|x l1].
        -- inversion E; subst. apply with_key_none in N. cbn [app] in N. now rewrite N.
        -- inversion E; subst. cbn in N. tauto.
    + assert (Hne : k' <> k) by (intros ->; rewrite bytes_eqb_refl in E; discriminate). rewrite IH. split.
      * intros (l1 & l2 & -> & N). exists ((k', v') :: l1), l2. split; auto. cbn. tauto.
      * intros (l1 & l2 & E' & N). destruct l1 as [|x l1]; [inversion E'; congruence|]. inversion E'; subst. exists l1, l2. split; auto. cbn in N. tauto.
Qed.

Lemma field_iff n l v : field n l = Some v <-> has_field l n v.
Proof.
  unfold field, has_field. destruct v as [v|].
  - rewrite <- with_key_one. destruct (with_key (text_bytes n) l) as [|x [|y r]]; split; intros H; try discriminate; congruence.
  - rewrite <- with_key_none. destruct (with_key (text_bytes n) l) as [|x [|y r]]; split; intros H; try discriminate; congruence.
Qed.

Lemma struct_iff names j vals : of_struct names j = Some vals <-> has_fields names vals j.
Proof.
  unfold has_fields. destruct j as [| | | |l|l]; cbn [of_struct];
    try (split; [discriminate|intros [(? & E & _)|(? & E & _)]; discriminate]).
  - split.
    + destruct (Nat.eqb_spec (List.length l) (List.length names)) as [E|]; [|discriminate]. intros H. right. exists l. split; auto. split; auto. congruence.
    + intros [(? & E & _)|(l' & E & H & ->)]; [discriminate|]. inversion E; subst. apply Nat.eqb_eq in H. now rewrite H.
  - transitivity (Forall2 (has_field l) names vals).
    + revert vals. induction names as [|n names IH]; intros vals; cbn [lookup_fields].
      * split; [intros H; inversion H; constructor|intros H; inversion H; auto].
      * rewrite obind. split.
        -- intros (a & H1 & H). apply obind in H as (xs & H2 & H). inversion H; subst. constructor; [now apply field_iff|now apply IH].
        -- intros H. inversion H; subst. exists y. split; [now apply field_iff|]. apply obind. exists l'. split; auto. now apply IH.
    + split; [eauto|]. intros [(l' & E & H)|(? & E & _)]; [inversion E; subst; auto|discriminate].
Qed.

(** A reader [of] accepts exactly the values described by [is]. *)
Definition exactly {A} (of : json -> option A) (is : json -> A -> Prop) : Prop := forall j x, of j = Some x <-> is j x.

Lemma number_ex : exactly of_number is_number.
Proof. intros j x. unfold is_number. destruct j; cbn; split; congruence. Qed.
Lemma bool_ex : exactly of_bool is_bool.
Proof. intros j x. unfold is_bool. destruct j; cbn; split; congruence. Qed.
Lemma bytes_ex t : exactly (of_bytes t) (is_bytes t).
Proof.
  intros j x. unfold is_bytes. destruct j; cbn; split; try discriminate; try (intros (? & ? & _); discriminate); [eauto|].
  intros (s' & E & H). inversion E; subst; auto.
Qed.
Lemma all_iff {A} (of : json -> option A) is : exactly of is -> forall l xs, all_of of l = Some xs <-> Forall2 is l xs.
Proof.
  intros Hx. induction l as [|j l IH]; intros xs; cbn.
  - split; [intros H; inversion H; constructor|intros H; inversion H; auto].
  - rewrite obind. split.
    + intros (a & H1 & H). apply obind in H as (ys & H2 & H). inversion H; subst. constructor; [now apply Hx|now apply IH].
    + intros H. inversion H; subst. exists y. split; [now apply Hx|]. apply obind. exists l'. split; auto. now apply IH.
Qed.
Lemma array_ex {A} (of : json -> option A) is : exactly of is -> exactly (of_array of) (is_array is).
Proof.
  intros Hx j xs. unfold is_array. destruct j; cbn [of_array]; try (split; [discriminate|intros (? & ? & _); discriminate]).
  rewrite (all_iff Hx). split; [eauto|]. intros (l' & E & H). inversion E; subst; auto.
Qed.
Lemma option_ex {A} (of : json -> option A) is : exactly of is -> exactly (of_option of) (is_option is).
Proof.
  intros Hx j x. unfold is_option.
  assert (G : option_bind (of j) (fun x => Some (Some x)) = Some x <-> exists y, x = Some y /\ is j y).
  { rewrite obind. split.
    - intros (a & H1 & H). exists a. split; [congruence|now apply Hx].
    - intros (y & -> & H). exists y. split; auto. now apply Hx. }
  destruct j; cbn [of_option]; try (rewrite G; split; [right; split; [discriminate|auto]|intros [[? _]|[_ ?]]; [discriminate|auto]]).
  split; [intros H; left; split; congruence|]. intros [[_ ->]|[? _]]; congruence.
Qed.
Lemma may_iff {A} (of : json -> option A) is : exactly of is -> forall j x, may of j = Some x <-> is_optional is j x.
Proof.
  intros Hx j x. unfold is_optional. destruct j as [j|]; cbn [may].
  - rewrite (option_ex Hx j x). split; [eauto|]. intros [[? _]|(j' & E & H)]; [discriminate|]. inversion E; subst; auto.
  - split; [intros H; left; split; congruence|]. intros [[_ ->]|(? & ? & _)]; [auto|discriminate].
Qed.
Lemma must_iff {A} (of : json -> option A) is : exactly of is -> forall j x, must of j = Some x <-> exists j', j = Some j' /\ is j' x.
Proof. intros Hx j x. unfold must. rewrite obind. split; intros (a & H1 & H2); exists a; (split; [auto|now apply Hx]). Qed.
Lemma pair_ex {A B} (ofa : json -> option A) isa (ofb : json -> option B) isb : exactly ofa isa -> exactly ofb isb ->
  exactly (of_pair ofa ofb) (fun j kv => exists a b, j = JArr [a; b] /\ isa a (fst kv) /\ isb b (snd kv)).
Proof.
  intros Ha Hb j [x y]. destruct j as [| | | |[|a [|b [|c l]]]|]; cbn [of_pair]; try (split; [discriminate|intros (? & ? & E & _); discriminate]).
  cbn [fst snd]. rewrite obind. split.
  - intros (x' & H1 & H). apply obind in H as (y' & H2 & H). inversion H; subst. exists a, b. split; auto. split; [now apply Ha|now apply Hb].
  - intros (a' & b' & E & H1 & H2). inversion E; subst. exists x. split; [now apply Ha|]. apply obind. exists y. split; auto. now apply Hb.
Qed.
Lemma map_ex {K V} {OK : Ord K} (ofk : json -> option K) isk (ofv : json -> option V) isv : exactly ofk isk -> exactly ofv isv ->
  exactly (of_map ofk ofv) (is_map isk isv).
Proof.
  intros Hk Hv j m. unfold is_map. pose proof (pair_ex Hk Hv) as Hp.
  assert (G : forall l kvs, map (of_pair ofk ofv) l = map Some kvs <-> Forall2 (fun j kv => exists a b, j = JArr [a; b] /\ isk a (fst kv) /\ isv b (snd kv)) l kvs).
  { induction l as [|x l IH]; intros [|kv kvs]; cbn [map]; split; intros H; try discriminate; try (now inversion H); try constructor.
    - inversion H. now apply Hp.
    - inversion H. now apply IH.
    - inversion H; subst. f_equal; [now apply Hp|now apply IH]. }
  destruct j as [| | | |l|]; cbn [of_map]; try (split; [discriminate|intros (? & (? & E & _) & _); discriminate]).
  rewrite sm_deserialize_iff. split.
  - intros (kvs & H1 & H2 & H3). exists kvs. split; [exists l; split; auto; now apply G|]. auto.
  - intros (kvs & (l' & E & H1) & H2 & H3). inversion E; subst l'. exists kvs. split; [now apply G|]. auto.
Qed.

(** Going through the fields of a structure. *)
Ltac fields_of H := match type of H with
  match of_struct ?n ?j with _ => _ end = _ =>
    let E := fresh "Hs" in destruct (of_struct n j) as [?l|] eqn:E; [|discriminate H];
    repeat match type of H with match ?l with _ => _ end = Some _ => destruct l as [|?a l]; try discriminate H end;
    apply struct_iff in E
  end.
Ltac take_field H ex := apply obind in H as (?x & ?Hf & H);
  match goal with Hf : must _ _ = Some _ |- _ => apply (must_iff ex) in Hf as (?j & -> & ?Hj) end.

Section Encodings.
  Variables hex base64 : TextEnc.

  Lemma rid_ex : exactly of_rid is_rid.
  Proof.
    intros j r. unfold of_rid, is_rid. split.
    - intros H. fields_of H. take_field H number_ex. take_field H (array_ex number_ex). take_field H bool_ex.
      inversion H; subst. eauto 10.
    - intros (a & b & c & Hs & H1 & H2 & H3). apply struct_iff in Hs. change rid_names with ["round"; "groups"; "is_echo"]%string. rewrite Hs.
      unfold must. cbn [option_bind]. rewrite (proj2 (number_ex _ _) H1). cbn [option_bind]. rewrite (proj2 (array_ex number_ex _ _) H2).
      cbn [option_bind]. rewrite (proj2 (bool_ex _ _) H3). cbn [option_bind]. now destruct r.
  Qed.

  Lemma meta_ex : exactly (of_meta hex) (is_meta hex).
  Proof.
    intros j r. unfold of_meta, is_meta. split.
    - intros H. fields_of H. take_field H (bytes_ex hex). take_field H rid_ex. inversion H; subst. eauto 10.
    - intros (a & b & Hs & H1 & H2). apply struct_iff in Hs. change meta_names with ["session_id"; "round_id"]%string. rewrite Hs.
      unfold must. cbn [option_bind]. rewrite (proj2 (bytes_ex _ _ _) H1). cbn [option_bind]. rewrite (proj2 (rid_ex _ _) H2).
      cbn [option_bind]. now destruct r.
  Qed.

  Lemma shash_ex : exactly (of_shash hex) (is_shash hex).
  Proof.
    intros j r. unfold of_shash, is_shash. split.
    - intros H. fields_of H. take_field H (bytes_ex hex). take_field H meta_ex. take_field H (bytes_ex hex). inversion H; subst. eauto 10.
    - intros (a & b & c & Hs & H1 & H2 & H3). apply struct_iff in Hs. change shash_names with ["signature"; "metadata"; "message_part_hash"]%string. rewrite Hs.
      unfold must. cbn [option_bind]. rewrite (proj2 (bytes_ex _ _ _) H1). cbn [option_bind]. rewrite (proj2 (meta_ex _ _) H2).
      cbn [option_bind]. rewrite (proj2 (bytes_ex _ _ _) H3). cbn [option_bind]. now destruct r.
  Qed.

  Lemma echo_ex : exactly (of_echo hex) (is_echo hex).
  Proof.
    intros j r. unfold of_echo, is_echo. split.
    - intros H. fields_of H. apply (must_iff (map_ex number_ex shash_ex)) in H as (j' & -> & H). eauto.
    - intros (a & Hs & H1). apply struct_iff in Hs. change echo_names with ["message_hashes"]%string. rewrite Hs.
      apply (must_iff (map_ex number_ex shash_ex)). eauto.
  Qed.

  Lemma part_ex k : exactly (of_part hex base64 (k := k)) (is_part hex base64 (k := k)).
  Proof.
    assert (W : exactly (of_with_meta hex base64) (fun j mx => exists c d, has_fields ["metadata"; "message"]%string [Some c; Some d] j /\
       is_meta hex c (fst mx) /\ is_option (is_bytes base64) d (snd mx))).
    { intros j [m x]. unfold of_with_meta. split.
      - intros H. fields_of H. take_field H meta_ex. unfold of_body in H. take_field H (option_ex (bytes_ex base64)). inversion H; subst. eauto.
      - intros (c & d & Hs & H1 & H2). apply struct_iff in Hs. change with_meta_names with ["metadata"; "message"]%string. rewrite Hs.
        unfold must. cbn [option_bind]. rewrite (proj2 (meta_ex _ _) H1). cbn [option_bind]. unfold of_body. rewrite (proj2 (option_ex (bytes_ex base64) _ _) H2). reflexivity. }
    intros j p. unfold of_part, is_part. split.
    - intros H. fields_of H. take_field H (bytes_ex hex). take_field H W. destruct Hj0 as (c & d & G1 & G2 & G3). inversion H; subst. cbn [sp_sig sp_meta sp_body]. eauto 10.
    - intros (a & b & c & d & Hs & H1 & H2 & H3 & H4). apply struct_iff in Hs. change part_names with ["signature"; "message_with_metadata"]%string. rewrite Hs.
      unfold must. cbn [option_bind]. rewrite (proj2 (bytes_ex _ _ _) H1). cbn [option_bind].
      rewrite (proj2 (W b (sp_meta p, sp_body p))) by eauto. cbn [option_bind fst snd]. now destruct p.
  Qed.

  Lemma message_ex : exactly (@of_message hex base64) (is_message base64).
  Proof.
    intros j m. unfold of_message, is_message. split.
    - intros H. fields_of H. take_field H number_ex. take_field H (part_ex (k := KDirect)). take_field H (part_ex (k := KEcho)). take_field H (part_ex (k := KNormal)).
      inversion H; subst. cbn [msg_dest msg_direct msg_echo msg_normal]. exists j0, j1, j2, j3. auto 10.
    - intros (a & b & c & d & Hs & H1 & H2 & H3 & H4). apply struct_iff in Hs.
      change message_names with ["destination"; "direct_message"; "echo_broadcast"; "normal_broadcast"]%string. rewrite Hs.
      unfold must. cbn [option_bind]. rewrite (proj2 (number_ex _ _) H1). cbn [option_bind]. rewrite (proj2 (part_ex _ _) H2). cbn [option_bind].
      rewrite (proj2 (part_ex _ _) H3). cbn [option_bind]. rewrite (proj2 (part_ex _ _) H4). cbn [option_bind]. now destruct m.
  Qed.

  Lemma unit_ex : exactly of_unit (fun j _ => j = JNull).
  Proof. intros j []. destruct j; cbn; split; congruence. Qed.

  Lemma proto_ex : exactly (@of_proto hex base64) (is_proto base64).
  Proof.
    pose proof (map_ex rid_ex (part_ex (k := KDirect))) as Md. pose proof (map_ex rid_ex (part_ex (k := KEcho))) as Me.
    pose proof (map_ex rid_ex (part_ex (k := KNormal))) as Mn.
    pose proof (map_ex rid_ex (map_ex (OK := @OrdVerifier (jsonP hex)) number_ex (part_ex (k := KEcho)))) as Mo.
    intros j x. unfold of_proto, is_proto. split.
    - intros H. fields_of H. take_field H (bytes_ex base64).
      apply obind in H as (d & Hd & H). apply (may_iff (part_ex (k := KDirect))) in Hd.
      apply obind in H as (e & He & H). apply (may_iff (part_ex (k := KEcho))) in He.
      apply obind in H as (n & Hn & H). apply (may_iff (part_ex (k := KNormal))) in Hn.
      take_field H Md. take_field H Me. take_field H Mn. take_field H Mo. take_field H Mn. take_field H unit_ex.
      inversion H; subst. cbn [pe_error pe_direct pe_echo pe_normal pe_directs pe_echos pe_normals pe_others pe_hashes].
      do 9 eexists. split; [exact Hs|]. auto 12.
    - intros (a & b & c & d & e & f & g & h & i & Hs & H1 & H2 & H3 & H4 & H5 & H6 & H7 & H8 & H9). apply struct_iff in Hs.
      match type of Hs with of_struct ?n _ = _ => change proto_names with n end. rewrite Hs.
      unfold must. cbn [option_bind]. rewrite (proj2 (bytes_ex _ _ _) H1). cbn [option_bind].
      rewrite (proj2 (may_iff (part_ex (k := KDirect)) _ _) H2). cbn [option_bind].
      rewrite (proj2 (may_iff (part_ex (k := KEcho)) _ _) H3). cbn [option_bind].
      rewrite (proj2 (may_iff (part_ex (k := KNormal)) _ _) H4). cbn [option_bind].
      rewrite (proj2 (Md _ _) H5). cbn [option_bind]. rewrite (proj2 (Me _ _) H6). cbn [option_bind]. rewrite (proj2 (Mn _ _) H7). cbn [option_bind].
      rewrite (proj2 (Mo _ _) H8). cbn [option_bind]. rewrite (proj2 (Mn _ _) H9). cbn [option_bind of_unit]. now destruct x.
  Qed.

  Lemma invalid_echo_ex j x : @of_invalid_echo hex base64 j = Some x <->
    exists p v a b c, x = @EvInvalidEcho (jsonP hex) p v /\ has_fields ["normal_broadcast"; "error"]%string [Some a; Some b] j /\
        is_part hex base64 a p /\ has_fields ["invalid_echo_sender"]%string [Some c] b /\ is_number c v.
  Proof.
    assert (E : exactly (fun j => match of_struct echo_error_names j with Some [c] => must of_number c | _ => None end)
      (fun j v => exists c, has_fields ["invalid_echo_sender"]%string [Some c] j /\ is_number c v)).
    { intros j' v. split.
      - intros H. fields_of H. apply (must_iff number_ex) in H as (c & -> & H). eauto.
      - intros (c & Hs & H). apply struct_iff in Hs. change echo_error_names with ["invalid_echo_sender"]%string. rewrite Hs. apply (must_iff number_ex). eauto. }
    unfold of_invalid_echo. split.
    - intros H. fields_of H. take_field H (part_ex (k := KNormal)). take_field H E. destruct Hj0 as (c & G1 & G2). inversion H; subst. eauto 12.
    - intros (p & v & a & b & c & -> & Hs & H1 & H2 & H3). apply struct_iff in Hs. change invalid_echo_names with ["normal_broadcast"; "error"]%string. rewrite Hs.
      unfold must at 1. cbn [option_bind]. rewrite (proj2 (part_ex _ _) H1). cbn [option_bind].
      apply obind. exists v. split; auto. apply (must_iff E). eauto.
  Qed.

  Lemma mismatch_ex j x : @of_mismatch hex base64 j = Some x <->
    exists v p h j'' a b c, x = @EvMismatched (jsonP hex) v p h /\ has_fields ["error"]%string [Some j''] j /\
        has_fields ["guilty_party"; "we_received"; "echoed_to_us"]%string [Some a; Some b; Some c] j'' /\ is_number a v /\ is_part hex base64 b p /\ is_shash hex c h.
  Proof.
    unfold of_mismatch. split.
    - intros H. destruct (of_struct ["error"]%string j) as [l|] eqn:Es; [|discriminate]. destruct l as [|y [|? ?]]; try discriminate. apply struct_iff in Es.
      unfold must at 1 in H. apply obind in H as (j'' & -> & H). fields_of H. take_field H number_ex. take_field H (part_ex (k := KEcho)). take_field H shash_ex.
      inversion H; subst. do 7 eexists. split; [reflexivity|]. eauto 10.
    - intros (v & p & h & j'' & a & b & c & -> & Hs & Hs' & H1 & H2 & H3). apply struct_iff in Hs. rewrite Hs. unfold must at 1. cbn [option_bind].
      apply struct_iff in Hs'. change mismatch_names with ["guilty_party"; "we_received"; "echoed_to_us"]%string. rewrite Hs'.
      unfold must. cbn [option_bind]. rewrite (proj2 (number_ex _ _) H1). cbn [option_bind]. rewrite (proj2 (part_ex _ _) H2). cbn [option_bind].
      rewrite (proj2 (shash_ex _ _) H3). reflexivity.
  Qed.

  Lemma body_ex : exactly (@of_enum hex base64) (is_body base64).
  Proof.
    intros j x. split.
    - unfold of_enum. destruct j as [| | | | |[|[k j] [|? ?]]]; try discriminate. cbv zeta.
      repeat match goal with |- context [bytes_eqb k ?t] => destruct (bytes_eqb k t) eqn:?E;
        [match goal with E : bytes_eqb k _ = true |- _ => apply bytes_eqb_spec in E; subst k end|] end; intros H; try discriminate.
      + apply obind in H as (e & He & H). inversion H; subst. exists j. split; [reflexivity|now apply proto_ex].
      + apply obind in H as (e & He & H). inversion H; subst. exists j. split; [reflexivity|now apply part_ex].
      + apply obind in H as (e & He & H). inversion H; subst. exists j. split; [reflexivity|now apply part_ex].
      + apply obind in H as (e & He & H). inversion H; subst. exists j. split; [reflexivity|now apply part_ex].
      + apply invalid_echo_ex in H as (p & v & a & b & c & -> & H). exists j, a, b, c. split; [reflexivity|exact H].
      + apply mismatch_ex in H as (v & p & h & j'' & a & b & c & -> & H). exists j, j'', a, b, c. split; [reflexivity|exact H].
    - destruct x as [e|p|p|p|p v|v p h]; cbn [is_body]; unfold is_kind.
      + intros (j' & -> & H). apply proto_ex in H. unfold of_enum. cbv zeta.
        change (bytes_eqb (text_bytes "Protocol") (text_bytes "Protocol")) with true. cbn match. now rewrite H.
      + intros (j' & -> & H). apply part_ex in H. unfold of_enum. cbv zeta.
        change (bytes_eqb (text_bytes "InvalidDirectMessage") (text_bytes "Protocol")) with false.
        change (bytes_eqb (text_bytes "InvalidDirectMessage") (text_bytes "InvalidDirectMessage")) with true. cbn match. now rewrite H.
      + intros (j' & -> & H). apply part_ex in H. unfold of_enum. cbv zeta.
        change (bytes_eqb (text_bytes "InvalidEchoBroadcast") (text_bytes "Protocol")) with false.
        change (bytes_eqb (text_bytes "InvalidEchoBroadcast") (text_bytes "InvalidDirectMessage")) with false.
        change (bytes_eqb (text_bytes "InvalidEchoBroadcast") (text_bytes "InvalidEchoBroadcast")) with true. cbn match. now rewrite H.
      + intros (j' & -> & H). apply part_ex in H. unfold of_enum. cbv zeta.
        change (bytes_eqb (text_bytes "InvalidNormalBroadcast") (text_bytes "Protocol")) with false.
        change (bytes_eqb (text_bytes "InvalidNormalBroadcast") (text_bytes "InvalidDirectMessage")) with false.
        change (bytes_eqb (text_bytes "InvalidNormalBroadcast") (text_bytes "InvalidEchoBroadcast")) with false.
        change (bytes_eqb (text_bytes "InvalidNormalBroadcast") (text_bytes "InvalidNormalBroadcast")) with true. cbn match. now rewrite H.
      + intros (j' & a & b & c & -> & H). unfold of_enum. cbv zeta.
        change (bytes_eqb (text_bytes "InvalidEcho") (text_bytes "Protocol")) with false.
        change (bytes_eqb (text_bytes "InvalidEcho") (text_bytes "InvalidDirectMessage")) with false.
        change (bytes_eqb (text_bytes "InvalidEcho") (text_bytes "InvalidEchoBroadcast")) with false.
        change (bytes_eqb (text_bytes "InvalidEcho") (text_bytes "InvalidNormalBroadcast")) with false.
        change (bytes_eqb (text_bytes "InvalidEcho") (text_bytes "InvalidEcho")) with true. cbn match.
        apply invalid_echo_ex. exists p, v, a, b, c. auto.
      + intros (j' & j'' & a & b & c & -> & H). unfold of_enum. cbv zeta.
        change (bytes_eqb (text_bytes "MismatchedBroadcasts") (text_bytes "Protocol")) with false.
        change (bytes_eqb (text_bytes "MismatchedBroadcasts") (text_bytes "InvalidDirectMessage")) with false.
        change (bytes_eqb (text_bytes "MismatchedBroadcasts") (text_bytes "InvalidEchoBroadcast")) with false.
        change (bytes_eqb (text_bytes "MismatchedBroadcasts") (text_bytes "InvalidNormalBroadcast")) with false.
        change (bytes_eqb (text_bytes "MismatchedBroadcasts") (text_bytes "InvalidEcho")) with false.
        change (bytes_eqb (text_bytes "MismatchedBroadcasts") (text_bytes "MismatchedBroadcasts")) with true. cbn match.
        apply mismatch_ex. exists v, p, h, j'', a, b, c. auto.
  Qed.

  Lemma evidence_ex utf8 : exactly (@of_evidence hex base64 utf8) (is_evidence base64 utf8).
  Proof.
    assert (S : exactly (of_string utf8) (fun j s => j = JStr s /\ utf8 s = true)).
    { intros j s. destruct j as [| | |s'| |]; cbn; try (split; [discriminate|intros [? _]; discriminate]).
      destruct (utf8 s') eqn:E; split; try discriminate.
      - intros H. inversion H; subst. auto.
      - intros [H _]. inversion H; subst. auto.
      - intros [H H']. inversion H; subst. congruence. }
    intros j [s ev]. unfold of_evidence, is_evidence. cbn [fst snd]. split.
    - intros H. fields_of H. take_field H number_ex. take_field H S. take_field H body_ex. destruct Hj0 as [-> Hu]. inversion H; subst.
      cbn [ev_guilty ev_body]. exists j0, j2. auto.
    - intros (a & c & Hs & H1 & H2 & H3). apply struct_iff in Hs. change evidence_names with ["guilty_party"; "description"; "evidence"]%string. rewrite Hs.
      unfold must. cbn [option_bind]. rewrite (proj2 (number_ex _ _) H1). cbn [option_bind of_string]. rewrite H2. cbn [option_bind].
      rewrite (proj2 (body_ex _ _) H3). cbn [option_bind]. now destruct ev.
  Qed.

  Lemma signature_ex : exactly of_signature is_signature.
  Proof.
    intros j g. unfold of_signature, is_signature. split.
    - intros H. fields_of H. take_field H number_ex. take_field H number_ex. inversion H; subst. eauto 10.
    - intros (a & b & Hs & H1 & H2). apply struct_iff in Hs. change signature_names with ["signed_by"; "randomness"]%string. rewrite Hs.
      unfold must. cbn [option_bind]. rewrite (proj2 (number_ex _ _) H1). cbn [option_bind]. rewrite (proj2 (number_ex _ _) H2).
      cbn [option_bind]. now destruct g.
  Qed.

  (** Structures are not numbers: anything may follow them. *)
  Lemma fields_ended names vals j r : has_fields names vals j -> ended j r.
  Proof. intros [(l & -> & _)|(l & -> & _)]; exact I. Qed.

  Lemma text_ex {A} (of : json -> option A) is : exactly of is -> (forall j x r, is j x -> ended j r) -> forall b x r,
    json_read of b = Some (x, r) <-> exists w t j, b = w ++ t ++ r /\ space w /\ json_text 127 j t /\ is j x.
  Proof.
    intros Hx He b x r. rewrite read_exact. split.
    - intros (w & t & j & H1 & H2 & H3 & H4 & H5). exists w, t, j. repeat (split; auto). now apply Hx.
    - intros (w & t & j & H1 & H2 & H3 & H4). exists w, t, j. repeat (split; auto); [eauto|]. now apply Hx.
  Qed.

  Lemma message_text b m r : json_read (@of_message hex base64) b = Some (m, r) <->
    exists w t j, b = w ++ t ++ r /\ space w /\ json_text 127 j t /\ is_message base64 j m.
  Proof. apply (text_ex message_ex). intros j x r' (? & ? & ? & ? & H & _). exact (fields_ended r' H). Qed.
  Lemma evidence_text utf8 b x r : json_read (@of_evidence hex base64 utf8) b = Some (x, r) <->
    exists w t j, b = w ++ t ++ r /\ space w /\ json_text 127 j t /\ is_evidence base64 utf8 j x.
  Proof. apply (text_ex (evidence_ex utf8)). intros j y r' (? & ? & H & _). exact (fields_ended r' H). Qed.

  Lemma deser_ex {A} (of : json -> option A) is : exactly of is -> (forall j x r, is j x -> ended j r) -> forall b x,
    json_deser of b = Some x <-> exists w t j r, b = w ++ t ++ r /\ space w /\ json_text 127 j t /\ is j x.
  Proof.
    intros Hx He b x. unfold json_deser, and_then. split.
    - destruct (json_read of b) as [[y r]|] eqn:E; [|discriminate]. intros H. inversion H; subst.
      apply (text_ex Hx He) in E as (w & t & j & G). exists w, t, j, r. exact G.
    - intros (w & t & j & r & G). rewrite (proj2 (text_ex Hx He b x r)); [reflexivity|]. exists w, t, j. exact G.
  Qed.
  Lemma part_texts :
    (forall b m, @deser_echo (jsonP hex) b = Some m <-> exists w t j r, b = w ++ t ++ r /\ space w /\ json_text 127 j t /\ is_echo hex j m) /\
    (forall b g, @deser_sig (jsonP hex) b = Some g <-> exists w t j r, b = w ++ t ++ r /\ space w /\ json_text 127 j t /\ is_signature j g).
  Proof.
    split.
    - apply (deser_ex echo_ex). intros j x r (? & H & _). exact (fields_ended r H).
    - apply (deser_ex signature_ex). intros j x r (? & ? & H & _). exact (fields_ended r H).
  Qed.
End Encodings.

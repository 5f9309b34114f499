(** The development parameters: what is written can be read back; what the hash and the signatures do not do. *)
From Coq Require Import List Arith NArith Bool Lia.
From Verif Require Import Base BMap Errors RoundId Message SerMap Simple SpecCrypto SpecEvidence SpecNet SignFacts TestParams.
Import ListNotations.
Set Implicit Arguments.

(** ** postcard *)
Lemma varint_go_ok fuel n b : (n < 2 ^ N.of_nat fuel)%N -> read_varint (varint_go fuel n ++ b) = Some (n, b).
Proof.
  revert n. induction fuel as [|fuel IH]; intros n H.
  - change (n < 1)%N in H. assert (n = 0%N) as -> by lia. reflexivity.
  - cbn [varint_go]. destruct (N.ltb_spec n 128) as [Hn|Hn].
    + cbn [app read_varint]. destruct (N.ltb_spec n 128); [reflexivity|lia].
    + cbn [app read_varint]. generalize (N.mod_lt n 128 ltac:(discriminate)). intros Hm. destruct (N.ltb_spec (n mod 128 + 128) 128) as [Hk|_]; [exfalso; clear - Hk; set (k := (n mod 128)%N) in *; clearbody k; lia|].
      rewrite IH.
      * f_equal. f_equal. pose proof (N.div_mod n 128 ltac:(discriminate)) as Hd. rewrite N.add_sub. rewrite N.add_comm. symmetry. exact Hd.
      * apply N.div_lt_upper_bound; [lia|]. rewrite Nat2N.inj_succ, N.pow_succ_r' in H. lia.
Qed.
Lemma varint_ok n b : read_varint (varint n ++ b) = Some (n, b).
Proof. apply varint_go_ok. rewrite N2Nat.id. apply N.size_gt. Qed.

Lemma bytes_ok x b : read_bytes (put_bytes x ++ b) = Some (x, b).
Proof.
  unfold read_bytes, put_bytes. rewrite <- app_assoc, varint_ok, app_length.
  destruct (N.ltb_spec (N.of_nat (length x + length b)) (N.of_nat (length x))); [lia|].
  rewrite Nat2N.id, firstn_app, Nat.sub_diag, firstn_all, skipn_app, Nat.sub_diag, skipn_all. simpl. now rewrite app_nil_r.
Qed.
Lemma bool_ok x b : read_bool (put_bool x ++ b) = Some (x, b).
Proof. destruct x; reflexivity. Qed.

Lemma rid_ok r b : read_rid (put_rid r ++ b) = Some (r, b).
Proof.
  destruct r as [n gs e]. unfold read_rid, put_rid. cbn [rid_round rid_groups rid_echo app]. cbn [read_byte and_then].
  rewrite <- app_assoc, bytes_ok. cbn [and_then]. rewrite bool_ok. reflexivity.
Qed.
Lemma meta_ok m b : read_meta (put_meta m ++ b) = Some (m, b).
Proof.
  destruct m as [sid r]. unfold read_meta, put_meta. cbn [m_session m_round]. rewrite <- app_assoc, bytes_ok. cbn [and_then].
  rewrite rid_ok. reflexivity.
Qed.
Lemma shash_ok h b : read_shash (put_shash h ++ b) = Some (h, b).
Proof.
  destruct h as [g m h]. unfold read_shash, put_shash. cbn [sh_sig sh_meta sh_hash]. rewrite <- !app_assoc, bytes_ok. cbn [and_then].
  rewrite meta_ok. cbn [and_then]. rewrite bytes_ok. reflexivity.
Qed.
Lemma entry_ok kv b : read_entry (put_entry kv ++ b) = Some (kv, b).
Proof.
  destruct kv as [v h]. unfold read_entry, put_entry. cbn [fst snd app read_byte and_then]. rewrite shash_ok. reflexivity.
Qed.
Lemma entries_ok l b : read_entries (length l) (flat_map put_entry l ++ b) = map Some l.
Proof.
  induction l as [|kv l IH]; [reflexivity|]. cbn [length flat_map map read_entries]. rewrite <- app_assoc, entry_ok, IH. reflexivity.
Qed.
Lemma echo_ok m b : read_echo (put_echo m ++ b) = Some m.
Proof.
  unfold read_echo, put_echo. rewrite <- app_assoc, varint_ok, Nat2N.id. cbn [sm_serialize fst snd]. rewrite entries_ok.
  apply sm_round_trip.
Qed.
Lemma signature_ok g b : read_signature (put_signature g ++ b) = Some g.
Proof. destruct g as [s x]. unfold read_signature, put_signature. cbn [app signed_by randomness read_byte and_then]. now rewrite varint_ok. Qed.

(** ** The assumptions of the theorems *)
Lemma test_wire : wire_total testP.
Proof.
  constructor.
  - intros m. eexists. reflexivity.
  - intros r s d. eexists. eexists. split; reflexivity.
  - intros m. eexists. split; [reflexivity|]. rewrite <- (app_nil_r (put_echo m)). apply echo_ok.
Qed.
Lemma test_echo_codec : echo_codec testP.
Proof. intros m b H. cbn in H. injection H as <-. rewrite <- (app_nil_r (put_echo m)). apply echo_ok. Qed.
Lemma test_prefix_free : prefix_free_meta testP.
Proof.
  intros m m' mb mb' r r' H H' E. cbn in H, H'. injection H as <-. injection H' as <-.
  pose proof (meta_ok m r) as K. rewrite E, meta_ok in K. congruence.
Qed.
Lemma test_signatures : signatures_correct testP.
Proof.
  intros r s d g gb H1 H2. cbn in H1, H2. injection H1 as <-. injection H2 as <-.
  exists (mkTestSignature s (r [] mod 2 ^ 64)). split; [|cbn; apply N.eqb_refl].
  cbn [deser_sig testP]. match goal with |- read_signature ?b = _ => rewrite <- (app_nil_r b) end. apply signature_ok.
Qed.
Lemma test_codecs : codec_ok (sw_message1 testW) /\ codec_ok (sw_echo1 testW) /\ codec_ok (sw_broadcast1 testW) /\ codec_ok (sw_message2 testW).
Proof. repeat split; intros x; eexists; (split; [reflexivity|]); destruct x; reflexivity. Qed.
Lemma test_meta m rest : exists b, ser_meta (Params := testP) m = Some b /\ read_meta (b ++ rest) = Some (m, rest).
Proof. eexists. split; [reflexivity|]. apply meta_ok. Qed.
(** Whatever follows is not looked at. *)
Lemma test_trailing rest : (forall (m : bmap N SHash), read_echo (put_echo m ++ rest) = Some m) /\ (forall g, read_signature (put_signature g ++ rest) = Some g).
Proof. split; [intros m; apply echo_ok|intros g; apply signature_ok]. Qed.

(** ** The hash *)
Lemma hasher_app h a b : hasher_update h (a ++ b) = hasher_update (hasher_update h a) b.
Proof. apply fold_left_app. Qed.

Lemma xor_at_length i x b : length (xor_at i x b) = length b.
Proof. revert i; induction b as [|y b IH]; intros [|i]; simpl; auto. Qed.
Lemma xor_at_comm i j x y b : xor_at i x (xor_at j y b) = xor_at j y (xor_at i x b).
Proof.
  revert i j. induction b as [|z b IH]; intros [|i] [|j]; simpl; auto.
  - f_equal. rewrite !N.lxor_assoc. f_equal. apply N.lxor_comm.
  - f_equal. apply IH.
Qed.
Lemma xor_at_twice i x y b : xor_at i x (xor_at i y b) = xor_at i (N.lxor y x) b.
Proof. revert i. induction b as [|z b IH]; intros [|i]; simpl; auto; f_equal; auto. apply N.lxor_assoc. Qed.
Lemma xor_at_0 i b : xor_at i 0 b = b.
Proof. revert i. induction b as [|z b IH]; intros [|i]; simpl; auto; f_equal; auto. apply N.lxor_0_r. Qed.

Definition flip (i : nat) (m : N) (h : TestHasher) : TestHasher := mkTestHasher (cursor h) (xor_at i m (buffer h)).
Lemma flip_update i m h b : hasher_update (flip i m h) b = flip i m (hasher_update h b).
Proof.
  revert h. induction b as [|x b IH]; intros h; [reflexivity|]. unfold hasher_update in *. cbn [fold_left]. rewrite <- IH. f_equal.
  unfold flip, hasher_byte. cbn [cursor buffer]. f_equal. apply xor_at_comm.
Qed.
Lemma flip_byte h x m : hasher_byte h (N.lxor x m) = flip (cursor h) m (hasher_byte h x).
Proof. unfold flip, hasher_byte. cbn [cursor buffer]. f_equal. symmetry. apply xor_at_twice. Qed.
Lemma cursor_update h b : cursor h < 32 -> cursor (hasher_update h b) = (cursor h + length b) mod 32.
Proof.
  revert h. induction b as [|x b IH]; intros h Hc.
  - cbn [hasher_update fold_left length]. rewrite Nat.add_0_r, Nat.mod_small; auto.
  - change (hasher_update h (x :: b)) with (hasher_update (hasher_byte h x) b). rewrite IH; cbn [hasher_byte cursor length].
    + rewrite Nat.add_mod_idemp_l by lia. f_equal. lia.
    + apply Nat.mod_upper_bound. lia.
Qed.
Lemma flip_flip i m h : flip i m (flip i m h) = h.
Proof. destruct h as [c bf]. unfold flip. cbn [cursor buffer]. rewrite xor_at_twice, N.lxor_nilpotent, xor_at_0. reflexivity. Qed.

Lemma two_flips pre x mid y post m : length mid = 31 ->
  test_hash (pre ++ N.lxor x m :: mid ++ N.lxor y m :: post) = test_hash (pre ++ x :: mid ++ y :: post).
Proof.
  intros Hl. unfold test_hash. f_equal. rewrite !hasher_app. set (h := hasher_update hasher_default pre).
  assert (Hc : cursor h < 32). { unfold h. rewrite cursor_update by (cbn; lia). apply Nat.mod_upper_bound. lia. }
  clearbody h. cbn [hasher_update fold_left]. change (fold_left hasher_byte) with (fun b h => hasher_update h b). cbn beta.
  change (fold_left hasher_byte ?b ?h) with (hasher_update h b).
  rewrite flip_byte, !hasher_app, flip_update. cbn [hasher_update fold_left].
  change (fold_left hasher_byte ?b ?h) with (hasher_update h b).
  set (h1 := hasher_update (hasher_byte h x) mid). rewrite flip_byte. cbn [flip cursor].
  assert (Hc1 : cursor h1 = cursor h).
  { unfold h1. rewrite cursor_update; [cbn [hasher_byte cursor]|apply Nat.mod_upper_bound; lia].
    rewrite Nat.add_mod_idemp_l by lia. rewrite Hl. replace (cursor h + 1 + 31) with (cursor h + 1 * 32) by lia.
    rewrite Nat.mod_add by lia. apply Nat.mod_small. exact Hc. }
  rewrite Hc1. f_equal.
  change (hasher_byte (flip (cursor h) m h1) y) with (hasher_update (flip (cursor h) m h1) [y]). rewrite flip_update, flip_flip. reflexivity.
Qed.

Lemma test_hash_extends x : @collide testP x (x ++ [0%N]).
Proof.
  split.
  - intros E. apply (f_equal (@length N)) in E. rewrite app_length in E. simpl in E. lia.
  - cbn [hash testP]. unfold test_hash. rewrite hasher_app. cbn [hasher_update fold_left]. unfold hasher_byte, hasher_finalize. cbn [buffer].
    rewrite xor_at_0. reflexivity.
Qed.

Lemma split33 (p : bytes) : 33 <= length p -> exists x mid y post, p = x :: mid ++ y :: post /\ length mid = 31.
Proof.
  intros H. destruct p as [|x p]; [simpl in H; lia|]. simpl in H. exists x, (firstn 31 p).
  destruct (skipn 31 p) as [|y post] eqn:E.
  - apply (f_equal (@length N)) in E. rewrite skipn_length in E. simpl in E. lia.
  - exists y, post. split; [|rewrite firstn_length; lia]. f_equal. rewrite <- E. symmetry. apply firstn_skipn.
Qed.

Lemma lxor1_ne x : N.lxor x 1 <> x.
Proof.
  intros E. assert (N.lxor x (N.lxor x 1) = N.lxor x x) as K by now rewrite E.
  rewrite <- N.lxor_assoc, N.lxor_nilpotent in K. discriminate K.
Qed.

Lemma test_second_preimage k (p : bytes) : 33 <= length p ->
  exists p', p' <> p /\ length p' = length p /\ @collide testP (content_bytes k (Some p)) (content_bytes k (Some p')).
Proof.
  intros H. destruct (split33 p H) as (x & mid & y & post & -> & Hl).
  exists (N.lxor x 1 :: mid ++ N.lxor y 1 :: post).
  assert (Hn : N.lxor x 1 :: mid ++ N.lxor y 1 :: post <> x :: mid ++ y :: post).
  { intros E. injection E as E _. exact (@lxor1_ne x E). }
  assert (Hlen : length (N.lxor x 1 :: mid ++ N.lxor y 1 :: post) = length (x :: mid ++ y :: post)).
  { simpl. rewrite !app_length. reflexivity. }
  split; [exact Hn|]. split; [exact Hlen|]. split.
  - unfold content_bytes. rewrite Hlen. intros E. apply app_inv_head in E. apply app_inv_head in E.
    apply (f_equal (skipn 9)) in E. apply Hn. symmetry. exact E.
  - unfold content_bytes. rewrite Hlen. cbn [hash testP].
    assert (Ha : forall (s : bytes) kb n q, (s ++ [kb] ++ 1%N :: be64 n ++ q)%list = ((s ++ kb :: 1%N :: be64 n) ++ q)%list).
    { intros s kb n q. rewrite <- app_assoc. reflexivity. }
    rewrite !Ha. symmetry. apply two_flips. exact Hl.
Qed.

(** ** The signatures *)
Lemma test_any_digest v d d' g : test_verify v d g = test_verify v d' g.
Proof. reflexivity. Qed.
Lemma test_forge (v : N) : exists gb g, @deser_sig testP gb = Some g /\ forall d, @verify_sig testP v d g = true.
Proof.
  exists (put_signature (mkTestSignature v 0)), (mkTestSignature v 0). split.
  - cbn [deser_sig testP]. match goal with |- read_signature ?b = _ => rewrite <- (app_nil_r b) end. apply signature_ok.
  - intros d. cbn. apply N.eqb_refl.
Qed.
Lemma test_ambiguous (v : N) gb g d : @deser_sig testP gb = Some g -> @verify_sig testP v d g = true -> @ambiguous testP v gb.
Proof. intros H1 H2. exists g, [0%N], [1%N]. split; [exact H1|]. split; [discriminate|]. split; exact H2. Qed.

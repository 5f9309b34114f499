(** The development parameters: concrete values, and simple.rs run with them. Used by PropTestParams.v only. *)
From Coq Require Import List Arith NArith Bool Lia.
From Verif Require Import Base BMap Errors RoundId Message Protocol Transcript Evidence Session Spec Typed Network RunSync SerMap Simple
  SpecCrypto SpecEvidence SpecNet SpecSync SignFacts MessageFacts TestParams TestParamsFacts ToySimple ToySync.
Import ListNotations.
Set Implicit Arguments.

Lemma test_trailing_bytes rest :
  (forall m b, @ser_echo testP m = Some b -> @deser_echo testP (b ++ rest) = Some m) /\
  (forall g b, @ser_sig testP g = Some b -> @deser_sig testP (b ++ rest) = Some g).
Proof.
  split.
  - intros m b H. cbn in H. injection H as <-. apply echo_ok.
  - intros g b H. cbn in H. injection H as <-. apply signature_ok.
Qed.

Lemma test_duplicates (kvs : list (N * SHash)) rest : ~ NoDup (map fst kvs) ->
  @deser_echo testP (varint (N.of_nat (length kvs)) ++ flat_map put_entry kvs ++ rest)%list = None.
Proof.
  intros H. cbn [deser_echo testP]. unfold read_echo. rewrite varint_ok, Nat2N.id, entries_ok.
  destruct (sm_deserialize (map Some kvs)) as [m|] eqn:E; auto. exfalso. apply H. apply sm_deserialize_exists. eauto.
Qed.

Lemma test_pieces (pieces : list bytes) :
  hasher_finalize (fold_left hasher_update pieces hasher_default) = @hash testP (concat pieces).
Proof.
  cbn [hash testP]. unfold test_hash. f_equal. generalize hasher_default. induction pieces as [|p l IH]; intros h; [reflexivity|].
  cbn [fold_left concat]. rewrite hasher_app. apply IH.
Qed.

Lemma test_hash_length x : length (@hash testP x) = 32.
Proof.
  cbn [hash testP]. unfold test_hash, hasher_finalize. change 32 with (length (buffer hasher_default)). generalize hasher_default.
  induction x as [|y x IH]; intros h; [reflexivity|]. cbn [hasher_update fold_left].
  change (fold_left hasher_byte ?b ?h) with (hasher_update h b). rewrite IH. cbn [hasher_byte buffer]. apply xor_at_length.
Qed.

Lemma test_undetected k p : 33 <= length p -> exists p', p' <> p /\ length p' = length p /\
  @collide testP (content_bytes k (Some p)) (content_bytes k (Some p')) /\
  forall gb gb' m m', is_hash_of (P := testP) (to_signed_hash (P := testP) (k := k) (mkSPart gb m (Some p))) (mkSPart (k := k) gb' m' (Some p')) = true.
Proof.
  intros H. destruct (@test_second_preimage k p H) as (p' & H1 & H2 & H3). exists p'. split; auto. split; auto. split; auto.
  intros gb gb' m m'. unfold is_hash_of, to_signed_hash. cbn [sp_body sh_hash]. apply bytes_eqb_spec. symmetry. exact (proj2 H3).
Qed.

Definition hash_one : SHash := mkSHash [5]%N (mkMeta [7]%N (mkRid 1 [] false)) [9]%N.
Definition echo_two : bmap N SHash := of_list [(1, hash_one); (2, hash_one)]%N.
Lemma test_case :
  @ser_meta testP (mkMeta [7; 8] (mkRid 2 [3] true))%N = Some [2; 7; 8; 2; 1; 3; 1]%N /\
  @ser_sig testP (mkTestSignature 5 300) = Some [5; 172; 2]%N /\
  (exists b, @ser_echo testP echo_two = Some b /\ length b = 21 /\ option_map to_list (@deser_echo testP b) = Some (to_list echo_two)) /\
  @deser_echo testP (2 :: put_entry (1, hash_one) ++ put_entry (1, hash_one))%N = None.
Proof.
  split; [reflexivity|]. split; [vm_compute; reflexivity|]. split; [|vm_compute; reflexivity].
  eexists. split; [reflexivity|]. split; [vm_compute; reflexivity|vm_compute; reflexivity].
Qed.

Lemma test_simple (ids : bset N) r sid picks : let n := length (elements ids) in 2 <= n <= 16 ->
  exists fuel0 reports results, (forall fuel, fuel0 <= fuel ->
      run_sync (P := testP) fuel r picks sid (map (fun v => (v, simple_entry (P := testP) testW ids)) (elements ids)) = Some (Ok reports)) /\
    exec_results reports = Some results /\ is_map (P := testP) results ids (fun _ => N.of_nat n * (N.of_nat n - 1))%N.
Proof.
  intros n Hn. apply (@simple_run_sync testP testW test_codecs r sid ids test_wire test_signatures (fun v => v)).
  - intros v _. reflexivity.
  - exact Hn.
Qed.

Definition test_rng : NetRng (P := testP) := @mkNetRng testP (fun _ _ => 5%N) (fun v _ d _ => (v + 300 * d)%N) (fun _ _ _ => 7%N).
Definition test_results picks : list N :=
  match run_sync (P := testP) 40 test_rng picks [1; 2]%N
    (map (fun v => (v, simple_entry (P := testP) testW (set_of_list [0; 1; 2]%N))) (elements (set_of_list [0; 1; 2]%N))) with
  | Some (Ok reports) => flat_map (fun kv => match rep_outcome (snd kv) with OResult x => [x] | _ => [] end) (to_list reports)
  | _ => []
  end.
Lemma test_simple_case : length (elements (set_of_list [0; 1; 2]%N)) = 3 /\ test_results (fun k => 3 * k + 1) = [6; 6; 6]%N.
Proof. split; vm_compute; reflexivity. Qed.

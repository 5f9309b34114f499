(** The readers of the binary format accept exactly the layouts (C132). *)
From Coq Require Import List Arith NArith Bool Lia.
From Verif Require Import Base BMap Errors RoundId Message Protocol Transcript SerMap SignFacts TestParams Codec CodecFacts SpecLayout.
Import ListNotations.
Set Implicit Arguments.
Local Open Scope list_scope.

Definition fits {A} (read : bytes -> option (A * bytes)) (l : A -> bytes -> Prop) : Prop :=
  forall b x r, read b = Some (x, r) <-> exists t, b = t ++ r /\ l x t.

Lemma fits_ext A (read : bytes -> option (A * bytes)) l l' : (forall x t, l x t <-> l' x t) -> fits read l -> fits read l'.
Proof. intros H F b x r. rewrite (F b x r). split; intros (t & E & K); exists t; (split; [auto|now apply H]). Qed.
Lemma read_ext A (read read' : bytes -> option (A * bytes)) l : (forall b, read b = read' b) -> fits read l -> fits read' l.
Proof. intros H F b x r. rewrite <- H. apply F. Qed.
Lemma then_fits A B (read : bytes -> option (A * bytes)) (f : A -> bytes -> option (B * bytes)) la lb :
  fits read la -> (forall a, fits (f a) (lb a)) ->
  fits (fun b => and_then (read b) f) (fun y t => exists a u v, la a u /\ lb a y v /\ t = u ++ v).
Proof.
  intros Fa Fb b y r. split.
  - destruct (read b) as [[a b1]|] eqn:E; [|discriminate]. cbn [and_then]. intros H. apply Fa in E as (u & -> & Ha). apply Fb in H as (v & -> & Hb).
    exists (u ++ v). split; [apply app_assoc|]. exists a, u, v. auto.
  - intros (t & -> & a & u & v & Ha & Hb & ->). rewrite <- app_assoc. rewrite (proj2 (Fa (u ++ v ++ r) a (v ++ r))) by eauto. cbn [and_then].
    apply Fb. eauto.
Qed.
Arguments then_fits {A B read f la lb} _ _.
Lemma ret_fits A (x : A) : fits (fun b => Some (x, b)) (fun y t => y = x /\ t = []).
Proof.
  intros b y r. split.
  - intros H. inversion H; subst. exists []. auto.
  - intros (t & -> & -> & ->). reflexivity.
Qed.
Lemma none_fits A : fits (fun _ => @None (A * bytes)) (fun _ _ => False).
Proof. intros b y r. split; [discriminate|intros (? & _ & [])]. Qed.

Lemma byte_fits : fits read_byte byte_layout.
Proof.
  intros [|x b] y r; unfold byte_layout; cbn [read_byte]; split; try discriminate.
  - intros (t & E & ->). discriminate.
  - intros H. inversion H; subst. exists [y]. auto.
  - intros (t & E & ->). inversion E; subst. reflexivity.
Qed.
Lemma cons_eq A (x y : A) l m : x :: l = y :: m -> x = y /\ l = m.
Proof. intros H. inversion H; auto. Qed.
Lemma int_fits : fits read_varint int_layout.
Proof.
  intros b. induction b as [|x b IH]; intros n r; cbn [read_varint].
  - split; [discriminate|]. intros (t & E & H). destruct H; discriminate.
  - destruct (N.ltb_spec x 128) as [Hx|Hx].
    + split.
      * intros H. inversion H; subst. exists [n]. split; auto. now constructor.
      * intros (t & E & H). destruct H as [n' Hn|y n' t' H]; cbn [app] in E; apply cons_eq in E as [E1 E2]; [now subst|lia].
    + split.
      * destruct (read_varint b) as [[m c]|]; [|discriminate]. intros H. inversion H; subst. destruct (proj1 (IH m r) eq_refl) as (t & -> & Ht).
        exists (x :: t). split; auto. replace x with (128 + (x - 128))%N at 2 by lia. now constructor.
      * intros (t & E & H). destruct H as [n' Hn|y n' t' H]; cbn [app] in E; apply cons_eq in E as [E1 E2]; [lia|subst b].
        rewrite (proj2 (IH n' r)) by eauto. f_equal. f_equal. lia.
Qed.
Lemma bool_fits : fits read_bool bool_layout.
Proof.
  intros [|x b] y r; unfold bool_layout; cbn [read_bool]; split; try discriminate.
  - intros (t & E & ->). discriminate.
  - destruct (N.eqb_spec x 0) as [->|]; [intros H; inversion H; subst; exists [0%N]; auto|].
    destruct (N.eqb_spec x 1) as [->|]; [intros H; inversion H; subst; exists [1%N]; auto|discriminate].
  - intros (t & E & ->). inversion E; subst. destruct y; reflexivity.
Qed.
Lemma bytes_fits : fits read_bytes bytes_layout.
Proof.
  intros b x r. unfold read_bytes, bytes_layout. split.
  - destruct (read_varint b) as [[n c]|] eqn:E; [|discriminate]. destruct (N.ltb_spec (N.of_nat (length c)) n); [discriminate|]. intros H'. inversion H'; subst.
    apply int_fits in E as (u & -> & Hu). exists (u ++ firstn (N.to_nat n) c). rewrite <- app_assoc, firstn_skipn. split; auto.
    exists u. split; auto. rewrite firstn_length. replace (N.of_nat (Nat.min (N.to_nat n) (length c))) with n by lia. exact Hu.
  - intros (t & -> & u & Hu & ->). rewrite <- app_assoc. rewrite (proj2 (int_fits (u ++ x ++ r) (N.of_nat (length x)) (x ++ r))) by eauto.
    rewrite app_length. destruct (N.ltb_spec (N.of_nat (length x + length r)) (N.of_nat (length x))); [lia|]. rewrite Nat2N.id.
    rewrite firstn_app, Nat.sub_diag, firstn_all, skipn_app, Nat.sub_diag, skipn_all. cbn [firstn skipn app]. now rewrite app_nil_r.
Qed.

Lemma option_fits A (read : bytes -> option (A * bytes)) l : fits read l -> fits (read_option read) (option_layout l).
Proof.
  intros F b x r. unfold read_option, option_layout. split.
  - destruct b as [|y b]; [discriminate|]. cbn [read_byte and_then]. destruct (N.eqb_spec y 0) as [->|].
    + intros H. inversion H; subst. exists [0%N]. auto.
    + destruct (N.eqb_spec y 1) as [->|]; [|discriminate]. destruct (read b) as [[z c]|] eqn:E; [|discriminate]. cbn [and_then].
      intros H. inversion H; subst. apply F in E as (t & -> & Ht). exists (1%N :: t). split; eauto.
  - intros (t & -> & H). destruct x as [y|].
    + destruct H as (u & H & ->). cbn [app read_byte and_then]. change (N.eqb 1 0) with false. change (N.eqb 1 1) with true. cbn match.
      rewrite (proj2 (F (u ++ r) y r)) by eauto. reflexivity.
    + subst t. reflexivity.
Qed.
Lemma pair_fits A B (ra : bytes -> option (A * bytes)) la (rb : bytes -> option (B * bytes)) lb : fits ra la -> fits rb lb ->
  fits (fun b => and_then (ra b) (fun k b => and_then (rb b) (fun v b => Some ((k, v), b)))) (pair_layout la lb).
Proof.
  intros Fa Fb. eapply fits_ext; [|apply (then_fits Fa (fun a => then_fits Fb (fun v => ret_fits (a, v))))].
  intros [x y] t. unfold pair_layout. cbn [fst snd]. split.
  - intros (a & u & v & Ha & (b & v1 & v2 & Hb & (E & ->) & ->) & ->). inversion E; subst. exists u, v1. rewrite app_nil_r. auto.
  - intros (u & v & Ha & Hb & ->). exists x, u, v. split; auto. split; auto. exists y, v, []. rewrite app_nil_r. auto.
Qed.
Lemma elements_fits A (read : bytes -> option (A * bytes)) l : fits read l -> forall xs n b r,
  read_elements read n b = (map Some xs, r) <-> n = length xs /\ exists ts, Forall2 l xs ts /\ b = concat ts ++ r.
Proof.
  intros F. induction xs as [|x xs IH]; intros n b r.
  - destruct n as [|n]; cbn [read_elements].
    + split.
      * intros H. inversion H; subst. split; auto. exists []. split; [constructor|auto].
      * intros (_ & ts & H & ->). inversion H; subst. reflexivity.
    + split; [|intros [? _]; discriminate]. destruct (read b) as [[y c]|]; [destruct (read_elements read n c)|]; discriminate.
  - destruct n as [|n]; cbn [read_elements].
    + split; [discriminate|intros [? _]; discriminate].
    + split.
      * destruct (read b) as [[y c]|] eqn:E; [|discriminate]. destruct (read_elements read n c) as [l' r0] eqn:El. intros H. inversion H; subst.
        apply IH in El as (-> & ts & Hts & ->). apply F in E as (t & -> & Ht). split; auto. exists (t :: ts). split; [now constructor|]. cbn. now rewrite app_assoc.
      * intros (E & ts & H & ->). inversion H; subst. cbn [concat]. rewrite <- app_assoc.
        rewrite (proj2 (F (y ++ concat l' ++ r) x (concat l' ++ r))) by eauto. inversion E; subst.
        rewrite (proj2 (IH (length xs) (concat l' ++ r) r)) by eauto. reflexivity.
Qed.
Lemma map_fits K V (OK : Ord K) (rk : bytes -> option (K * bytes)) lk (rv : bytes -> option (V * bytes)) lv : fits rk lk -> fits rv lv ->
  fits (read_map rk rv) (map_layout lk lv).
Proof.
  intros Fk Fv b m r. unfold read_map, map_layout. pose proof (pair_fits Fk Fv) as Fp. set (rp := fun b => and_then (rk b) _) in *. split.
  - destruct (read_varint b) as [[n c]|] eqn:E; [|discriminate]. cbn [and_then]. destruct (read_elements rp (N.to_nat n) c) as [l r0] eqn:El.
    destruct (sm_deserialize l) as [m'|] eqn:Ed; [|discriminate]. intros H. inversion H; subst.
    apply sm_deserialize_iff in Ed as (kvs & -> & H1 & H2). apply (elements_fits Fp) in El as (En & ts & Hts & ->). apply int_fits in E as (u & -> & Hu).
    exists (u ++ concat ts). split; [apply app_assoc|]. exists kvs, u, ts. replace (N.of_nat (length kvs)) with n by lia. auto.
  - intros (t & -> & kvs & u & ts & H1 & H2 & Hu & Hts & ->). rewrite <- app_assoc.
    rewrite (proj2 (int_fits (u ++ concat ts ++ r) (N.of_nat (length kvs)) (concat ts ++ r))) by eauto. cbn [and_then]. rewrite Nat2N.id.
    rewrite (proj2 (elements_fits Fp kvs (length kvs) (concat ts ++ r) r)) by eauto.
    rewrite (proj2 (sm_deserialize_iff (map Some kvs) m)); [reflexivity|]. exists kvs. auto.
Qed.

(** One field after the other. *)
Lemma rid_fits : fits read_rid rid_layout.
Proof.
  unfold read_rid. eapply fits_ext; [|apply (then_fits byte_fits (fun n => then_fits bytes_fits (fun gs => then_fits bool_fits (fun e => ret_fits (mkRid n gs e)))))].
  intros [n gs e] t. unfold rid_layout. cbn [rid_round rid_groups rid_echo]. split.
  - intros (a & u & v & Ha & (b & u1 & v1 & Hb & (c & u2 & v2 & Hc & (E & ->) & ->) & ->) & ->). inversion E; subst. rewrite app_nil_r. eauto 10.
  - intros (a & b & c & Ha & Hb & Hc & ->). exists n, a, (b ++ c). split; auto. split; auto. exists gs, b, c. split; auto. split; auto.
    exists e, c, []. rewrite app_nil_r. auto.
Qed.
Lemma meta_fits : fits read_meta meta_layout.
Proof.
  unfold read_meta. eapply fits_ext; [|apply (then_fits bytes_fits (fun s => then_fits rid_fits (fun r => ret_fits (mkMeta s r))))].
  intros [s r] t. unfold meta_layout. cbn [m_session m_round]. split.
  - intros (a & u & v & Ha & (b & u1 & v1 & Hb & (E & ->) & ->) & ->). inversion E; subst. rewrite app_nil_r. eauto 10.
  - intros (a & b & Ha & Hb & ->). exists s, a, b. split; auto. split; auto. exists r, b, []. rewrite app_nil_r. auto.
Qed.
Lemma shash_fits : fits read_shash shash_layout.
Proof.
  unfold read_shash. eapply fits_ext; [|apply (then_fits bytes_fits (fun g => then_fits meta_fits (fun m => then_fits bytes_fits (fun h => ret_fits (mkSHash g m h)))))].
  intros [g m h] t. unfold shash_layout. cbn [sh_sig sh_meta sh_hash]. split.
  - intros (a & u & v & Ha & (b & u1 & v1 & Hb & (c & u2 & v2 & Hc & (E & ->) & ->) & ->) & ->). inversion E; subst. rewrite app_nil_r. eauto 10.
  - intros (a & b & c & Ha & Hb & Hc & ->). exists g, a, (b ++ c). split; auto. split; auto. exists m, b, c. split; auto. split; auto.
    exists h, c, []. rewrite app_nil_r. auto.
Qed.
Lemma part_fits k : fits (@read_part k) part_layout.
Proof.
  unfold read_part. eapply fits_ext; [|apply (then_fits bytes_fits (fun g => then_fits meta_fits (fun m => then_fits (option_fits bytes_fits) (fun x => ret_fits (@mkSPart k g m x)))))].
  intros [g m x] t. unfold part_layout. cbn [sp_sig sp_meta sp_body]. split.
  - intros (a & u & v & Ha & (b & u1 & v1 & Hb & (c & u2 & v2 & Hc & (E & ->) & ->) & ->) & ->). inversion E; subst. rewrite app_nil_r. eauto 10.
  - intros (a & b & c & Ha & Hb & Hc & ->). exists g, a, (b ++ c). split; auto. split; auto. exists m, b, c. split; auto. split; auto.
    exists x, c, []. rewrite app_nil_r. auto.
Qed.
Lemma message_fits : fits read_message message_layout.
Proof.
  unfold read_message, read_verifier.
  eapply fits_ext; [|apply (then_fits byte_fits (fun v => then_fits (@part_fits KDirect) (fun d => then_fits (@part_fits KEcho) (fun e => then_fits (@part_fits KNormal) (fun n => ret_fits (@mkMessage testP v d e n))))))].
  intros [v d e n] t. unfold message_layout. cbn [msg_dest msg_direct msg_echo msg_normal]. split.
  - intros (a & u & v0 & Ha & (b & u1 & v1 & Hb & (c & u2 & v2 & Hc & (f & u3 & v3 & Hf & (E & ->) & ->) & ->) & ->) & ->). inversion E; subst. rewrite app_nil_r.
    exists u, u1, u2, u3. auto.
  - intros (a & b & c & f & Ha & Hb & Hc & Hf & ->). exists v, a, (b ++ c ++ f). split; auto. split; auto. exists d, b, (c ++ f). split; auto. split; auto.
    exists e, c, f. split; auto. split; auto. exists n, f, []. rewrite app_nil_r. auto.
Qed.

Lemma proto_fits : fits read_proto proto_layout.
Proof.
  pose proof (map_fits (OK := _) rid_fits (@part_fits KDirect)) as Md. pose proof (map_fits (OK := _) rid_fits (@part_fits KEcho)) as Me.
  pose proof (map_fits (OK := _) rid_fits (@part_fits KNormal)) as Mn.
  pose proof (map_fits (OK := _) rid_fits (map_fits (OK := OrdVerifier (Params := testP)) byte_fits (@part_fits KEcho))) as Mo.
  unfold read_proto.
  eapply fits_ext; [|apply (then_fits bytes_fits (fun err => then_fits (option_fits (@part_fits KDirect)) (fun d => then_fits (option_fits (@part_fits KEcho)) (fun e =>
    then_fits (option_fits (@part_fits KNormal)) (fun n => then_fits Md (fun ds => then_fits Me (fun es => then_fits Mn (fun ns => then_fits Mo (fun os => then_fits Mn (fun hs =>
      ret_fits (@mkProtoEv testP err d e n ds es ns os hs)))))))))))].
  intros x t. unfold proto_layout. split.
  - intros (x1 & u1 & v1 & H1 & (x2 & u2 & v2 & H2 & (x3 & u3 & v3 & H3 & (x4 & u4 & v4 & H4 & (x5 & u5 & v5 & H5 & (x6 & u6 & v6 & H6 & (x7 & u7 & v7 & H7 &
      (x8 & u8 & v8 & H8 & (x9 & u9 & v9 & H9 & (E & ->) & ->) & ->) & ->) & ->) & ->) & ->) & ->) & ->) & ->). subst x. rewrite app_nil_r.
    exists u1, u2, u3, u4, u5, u6, u7, u8, u9. cbn [pe_error pe_direct pe_echo pe_normal pe_directs pe_echos pe_normals pe_others pe_hashes]. auto 12.
  - destruct x as [err d e n ds es ns os hs]. cbn [pe_error pe_direct pe_echo pe_normal pe_directs pe_echos pe_normals pe_others pe_hashes].
    intros (u1 & u2 & u3 & u4 & u5 & u6 & u7 & u8 & u9 & H1 & H2 & H3 & H4 & H5 & H6 & H7 & H8 & H9 & ->).
    eexists _, _, _. split; [exact H1|]. split; [|reflexivity]. eexists _, _, _. split; [exact H2|]. split; [|reflexivity].
    eexists _, _, _. split; [exact H3|]. split; [|reflexivity]. eexists _, _, _. split; [exact H4|]. split; [|reflexivity].
    eexists _, _, _. split; [exact H5|]. split; [|reflexivity]. eexists _, _, _. split; [exact H6|]. split; [|reflexivity].
    eexists _, _, _. split; [exact H7|]. split; [|reflexivity]. eexists _, _, _. split; [exact H8|]. split; [|reflexivity].
    eexists _, _, _. split; [exact H9|]. split; [|symmetry; apply app_nil_r]. auto.
Qed.

(** The variants, by their number. *)
Definition variant_layout (t : N) (x : @EvEnum testP) (b : bytes) : Prop :=
  match x with
  | EvProtocol e => t = 0%N /\ proto_layout e b
  | EvDirect p => t = 1%N /\ part_layout p b
  | EvEcho p => t = 2%N /\ part_layout p b
  | EvNormal p => t = 3%N /\ part_layout p b
  | EvInvalidEcho p v => t = 4%N /\ exists c d, part_layout p c /\ byte_layout v d /\ b = c ++ d
  | EvMismatched v p h => t = 5%N /\ exists c d e, byte_layout v c /\ part_layout p d /\ shash_layout h e /\ b = c ++ d ++ e
  end.

Lemma one_fits A B (read : bytes -> option (A * bytes)) l (f : A -> B) : fits read l ->
  fits (fun b => and_then (read b) (fun x b => Some (f x, b))) (fun y t => exists x, y = f x /\ l x t).
Proof.
  intros F. eapply fits_ext; [|exact (then_fits F (fun x => ret_fits (f x)))]. intros y t. split.
  - intros (x & u & v & H & (-> & ->) & ->). rewrite app_nil_r. eauto.
  - intros (x & -> & H). exists x, t, []. rewrite app_nil_r. auto.
Qed.

Lemma variant_fits t : fits (fun b => match t with
    | 0 => and_then (read_proto b) (fun e b => Some (EvProtocol e, b))
    | 1 => and_then (read_part b) (fun p b => Some (EvDirect p, b))
    | 2 => and_then (read_part b) (fun p b => Some (EvEcho p, b))
    | 3 => and_then (read_part b) (fun p b => Some (EvNormal p, b))
    | 4 => and_then (read_part b) (fun p b => and_then (read_verifier b) (fun v b => Some (EvInvalidEcho p v, b)))
    | 5 => and_then (read_verifier b) (fun v b => and_then (read_part b) (fun p b => and_then (read_shash b) (fun h b => Some (EvMismatched v p h, b))))
    | _ => None
    end%N) (variant_layout t).
Proof.
  assert (None_ok : (5 < t)%N -> fits (fun _ => @None (@EvEnum testP * bytes)) (variant_layout t)).
  { intros Ht. eapply fits_ext; [|apply none_fits]. intros x b. split; [intros []|]. destruct x; cbn [variant_layout]; intros [E _]; lia. }
  assert (C : (t = 0 \/ t = 1 \/ t = 2 \/ t = 3 \/ t = 4 \/ t = 5 \/ 5 < t)%N) by lia.
  destruct C as [->|[->|[->|[->|[->|[->|Ht]]]]]].
  - eapply fits_ext; [|exact (one_fits (@EvProtocol testP) proto_fits)]. intros x b. split.
    + intros (e & -> & H). now split.
    + destruct x; cbn [variant_layout]; intros [E H]; try discriminate E. eauto.
  - eapply fits_ext; [|exact (one_fits (@EvDirect testP) (@part_fits KDirect))]. intros x b. split.
    + intros (e & -> & H). now split.
    + destruct x; cbn [variant_layout]; intros [E H]; try discriminate E. eauto.
  - eapply fits_ext; [|exact (one_fits (@EvEcho testP) (@part_fits KEcho))]. intros x b. split.
    + intros (e & -> & H). now split.
    + destruct x; cbn [variant_layout]; intros [E H]; try discriminate E. eauto.
  - eapply fits_ext; [|exact (one_fits (@EvNormal testP) (@part_fits KNormal))]. intros x b. split.
    + intros (e & -> & H). now split.
    + destruct x; cbn [variant_layout]; intros [E H]; try discriminate E. eauto.
  - eapply fits_ext; [|exact (then_fits (@part_fits KNormal) (fun p => one_fits (@EvInvalidEcho testP p) byte_fits))]. intros x b. split.
    + intros (p & u & v & Hp & (w & -> & Hw) & ->). split; [reflexivity|]. eauto.
    + destruct x; cbn [variant_layout]; intros [E H]; try discriminate E. destruct H as (c & d & H1 & H2 & ->). eauto 10.
  - eapply fits_ext; [|exact (then_fits byte_fits (fun v => then_fits (@part_fits KEcho) (fun p => one_fits (@EvMismatched testP v p) shash_fits)))]. intros x b. split.
    + intros (w & u & v & Hw & (p & u' & v' & Hp & (h & -> & Hh) & ->) & ->). split; [reflexivity|]. eauto 10.
    + destruct x as [| | | | |v p h]; cbn [variant_layout]; intros [E H]; try discriminate E. destruct H as (c & d & e & H1 & H2 & H3 & ->).
      exists v, c, (d ++ e). split; auto. split; auto. eauto 10.
  - apply (read_ext (read := fun _ => None)); [|exact (None_ok Ht)]. intros b.
    destruct t as [|[[[q|q|]|[q|q|]|]|[[q|q|]|[q|q|]|]|]]; try reflexivity; lia.
Qed.

Lemma enum_fits : fits read_enum enum_layout.
Proof.
  unfold read_enum. eapply fits_ext; [|exact (then_fits int_fits variant_fits)]. intros x t. unfold enum_layout. split.
  - intros (n & u & v & Hn & H & ->). exists u, v. split; auto. destruct x; cbn [variant_layout] in H; destruct H as [-> H]; auto.
  - intros (a & b & -> & H). destruct x; destruct H as [H1 H2]; eexists _, a, b; (split; [exact H1|]); (split; [|reflexivity]); (split; [reflexivity|exact H2]).
Qed.

Lemma string_fits utf8 : fits (read_string utf8) (fun s t => bytes_layout s t /\ utf8 s = true).
Proof.
  unfold read_string. intros b x r. split.
  - destruct (read_bytes b) as [[s c]|] eqn:E; [|discriminate]. cbn [and_then]. destruct (utf8 s) eqn:U; [|discriminate]. intros H. inversion H; subst.
    apply bytes_fits in E as (t & -> & Ht). eauto.
  - intros (t & -> & Ht & U). rewrite (proj2 (bytes_fits (t ++ r) x r)) by eauto. cbn [and_then]. now rewrite U.
Qed.

Lemma evidence_fits utf8 : fits (read_evidence utf8) (evidence_layout utf8).
Proof.
  unfold read_evidence. eapply fits_ext; [|exact (then_fits byte_fits (fun v => then_fits (string_fits utf8) (fun s => one_fits (fun x => (s, @mkEvidence testP v x)) enum_fits)))].
  intros [s ev] t. unfold evidence_layout. cbn [fst snd]. split.
  - intros (v & u & w & Hv & (s' & u' & w' & (Hs & Hu) & (x & E & Hx) & ->) & ->). inversion E; subst. cbn [ev_guilty ev_body]. eauto 10.
  - intros (a & b & c & Ha & Hb & U & Hc & ->). destruct ev as [v x]. exists v, a, (b ++ c). split; auto. split; auto. exists s, b, c. split; auto. split; auto. eauto.
Qed.

(** Where nothing is done with the rest. *)
Lemma signature_fits b g : read_signature b = Some g <-> exists t r, b = t ++ r /\ signature_layout g t.
Proof.
  unfold read_signature, signature_layout. destruct g as [s x]. cbn [signed_by randomness]. split.
  - destruct (read_byte b) as [[s' c]|] eqn:E; [|discriminate]. cbn [and_then]. destruct (read_varint c) as [[x' r]|] eqn:E'; [|discriminate]. cbn [and_then].
    intros H. inversion H; subst. apply byte_fits in E as (u & -> & Hu). apply int_fits in E' as (v & -> & Hv). exists (u ++ v), r. rewrite app_assoc. split; auto. eauto 10.
  - intros (t & r & -> & u & v & Hu & Hv & ->). rewrite <- app_assoc. rewrite (proj2 (byte_fits (u ++ v ++ r) s (v ++ r))) by eauto. cbn [and_then].
    rewrite (proj2 (int_fits (v ++ r) x r)) by eauto. reflexivity.
Qed.

Lemma read_entries_elements n b : read_entries n b = fst (read_elements read_entry n b).
Proof.
  revert b. induction n as [|n IH]; intros b; [reflexivity|]. cbn [read_entries read_elements]. destruct (read_entry b) as [[x c]|]; [|reflexivity].
  rewrite IH. now destruct (read_elements read_entry n c).
Qed.
Lemma echo_fits b m : read_echo b = Some m <-> exists t r, b = t ++ r /\ map_layout byte_layout shash_layout m t.
Proof.
  assert (R : forall b, read_echo b = and_then (read_map (OK := OrdN) read_byte read_shash b) (fun m _ => Some m)).
  { intros c. unfold read_echo, read_map. destruct (read_varint c) as [[n d]|]; [|reflexivity]. cbn [and_then]. rewrite read_entries_elements.
    change read_entry with (fun b => and_then (read_byte b) (fun k b => and_then (read_shash b) (fun v b => Some ((k, v), b)))).
    destruct (read_elements _ (N.to_nat n) d) as [l r]. cbn [fst]. destruct (sm_deserialize l); reflexivity. }
  rewrite R. pose proof (map_fits (OK := OrdN) byte_fits shash_fits) as F. split.
  - destruct (read_map read_byte read_shash b) as [[m' r]|] eqn:E; [|discriminate]. cbn [and_then]. intros H. inversion H; subst.
    apply F in E as (t & -> & Ht). eauto.
  - intros (t & r & -> & Ht). rewrite (proj2 (F (t ++ r) m r)) by eauto. reflexivity.
Qed.

(** Bytes have one meaning only. *)
Lemma fits_unique A (read : bytes -> option (A * bytes)) l x y t : fits read l -> l x t -> l y t -> x = y.
Proof.
  intros F Hx Hy. assert (Ex : read (t ++ []) = Some (x, [])) by (apply F; eauto). assert (Ey : read (t ++ []) = Some (y, [])) by (apply F; eauto). congruence.
Qed.
Lemma layouts_unambiguous : forall utf8,
  (forall (m m' : @Message testP) t, message_layout m t -> message_layout m' t -> m = m') /\
  (forall x y t, evidence_layout utf8 x t -> evidence_layout utf8 y t -> x = y) /\
  (forall m : @Message testP, message_layout m (put_message m)) /\
  (forall s (ev : @Evidence testP), utf8 s = true -> evidence_layout utf8 (s, ev) (put_evidence s ev)).
Proof.
  intros utf8. split; [|split; [|split]].
  - intros m m' t. exact (@fits_unique _ _ _ m m' t message_fits).
  - intros x y t. exact (@fits_unique _ _ _ x y t (evidence_fits utf8)).
  - intros m. destruct (proj1 (message_fits (put_message m ++ []) m []) (message_ok m [])) as (t & E & H). rewrite !app_nil_r in E. now subst t.
  - intros s ev U. destruct (proj1 (evidence_fits utf8 (put_evidence s ev ++ []) (s, ev) []) (evidence_ok utf8 s ev [] U)) as (t & E & H). rewrite !app_nil_r in E. now subst t.
Qed.

(** Networks driven by [par_run_session]: what holds for any number of parties, and how a party with too many
    destinations comes to a halt. *)
From Coq Require Import List NArith Bool Arith Lia Permutation.
From Verif Require Import Base BMap Errors RoundId Message Protocol Transcript Evidence Session Spec SpecCrypto
  MessageFacts SessionFacts RunFacts Network SpecNet NetFacts RunSync RunSyncFacts Driver SpecDriver DriverFacts DriverNetFacts
  Par SpecPar ParFacts ParDeadFacts ParNetFacts.
Import ListNotations.
Set Implicit Arguments.

(** ** A driver that waits for its creation tasks *)
Section Halt.
  Context {P : Params}.
  Context {Pr : Proto}.
  Variable r : NetRng.

  (** Everything needed is there, so that the driver does not look at the channels any more. *)
  Record halted (x : PState Pr) : Prop := {
    ht_yes : can_finalize (pp_a x) = Yes;
    ht_phase : pp_phase x = Loop \/ pp_phase x = JoinC true;
    ht_hand : pp_hand x = false;
    ht_p : forall t, In t (pp_p x) -> t = PEnd (Ok tt);
    ht_cap : length (pp_out x) <= capacity;
    ht_many : capacity < length (filter (fun t => match t with CEnd (Ok _) => false | _ => true end) (pp_c x)) + length (pp_out x);
    ht_made : forall t, In t (pp_c x) -> match t with CMake dest => exists y, mk r (pp_s x) dest = Ok y | CSend _ _ _ => True | CEnd o => o = Ok tt end
  }.
  Lemma halted_step x act ls p : halted x -> par_step r (PRun x) act = Some (ls, p) -> exists y, p = PRun y /\ halted y.
  Proof.
    intros [Hc J3 J0 J4 J6 J7 J8] Hs.
    assert (Hin : forall (t y : ctask Pr) l1 l2, In y (l1 ++ t :: l2) <-> t = y \/ In y (l1 ++ l2)).
    { intros t y l1 l2. rewrite !in_app_iff. simpl. tauto. }
    assert (St : forall (a b : list (dlabel Pr) * Par Pr), Some a = Some b -> a = b) by (intros a b E; now injection E).
    assert (Pq : forall (l l' : list (dlabel Pr)) (q q' : Par Pr), (l, q) = (l', q') -> q' = q) by (intros l l' q q' E; now injection E).
    destruct act as [i|i| |b| |from m| | |]; cbn [par_step] in Hs; try rewrite J0 in Hs.
    - destruct (nth_error (pp_c x) i) as [[dest|dest m pa|o]|] eqn:En; try discriminate.
      + destruct (set_nth_split i (pp_c x) (mk_task r (pp_s x) dest) En) as (l1 & l2 & E1 & E2). apply St, Pq in Hs. subst p. eexists. split; [reflexivity|].
        unfold mk_task, mk in E2. rewrite E2. fold (mk r (pp_s x) dest) in *. fold (mk_task r (pp_s x) dest).
        assert (Hd : exists y, mk r (pp_s x) dest = Ok y) by (apply (J8 (CMake dest)); rewrite E1; apply Hin; auto).
        destruct Hd as [[m pa] Hm]. unfold mk_task. rewrite Hm.
        constructor; cbn [set_c pp_s pp_a pp_c pp_p pp_out pp_hand pp_proc pp_phase]; auto.
        * rewrite E1 in J7. rewrite filter_mid in J7 |- *. lia.
        * intros t Ht. rewrite E1 in J8. apply Hin in Ht as [<-|Ht]; [exact I|apply J8; apply Hin; auto].
      + destruct (Nat.ltb _ _) eqn:El; try discriminate. apply Nat.ltb_lt in El. unfold in_channel in El. rewrite J0 in El.
        destruct (set_nth_split i (pp_c x) (CEnd (Ok tt)) En) as (l1 & l2 & E1 & E2). apply St, Pq in Hs. subst p. eexists. split; [reflexivity|]. rewrite E2.
        constructor; cbn [set_c set_out pp_s pp_a pp_c pp_p pp_out pp_hand pp_proc pp_phase]; auto.
        * rewrite app_length. simpl. lia.
        * rewrite E1 in J7. rewrite filter_mid in J7 |- *. rewrite app_length. simpl. lia.
        * intros t Ht. rewrite E1 in J8. apply Hin in Ht as [<-|Ht]; [reflexivity|apply J8; apply Hin; auto].
    - destruct (nth_error (pp_p x) i) as [t|] eqn:En; [|discriminate]. apply nth_error_In in En. rewrite (J4 t En) in Hs. discriminate.
    - unfold looks in Hs. rewrite Hc in Hs. destruct (pp_out x); [discriminate|]. destruct J3 as [J3|J3]; rewrite J3 in Hs; discriminate.
    - discriminate.
    - rewrite Hc in Hs. destruct J3 as [J3|J3]; rewrite J3 in Hs; discriminate.
    - rewrite Hc in Hs. destruct J3 as [J3|J3]; rewrite J3 in Hs; discriminate.
    - rewrite Hc in Hs. destruct J3 as [J3|J3]; rewrite J3 in Hs; discriminate.
    - rewrite Hc in Hs. destruct J3 as [J3|J3]; rewrite J3 in Hs; discriminate.
    - destruct J3 as [J3|J3]; rewrite J3 in Hs.
      + rewrite Hc in Hs. apply St, Pq in Hs. subst p. eexists. split; [reflexivity|].
        constructor; cbn [set_phase pp_s pp_a pp_c pp_p pp_out pp_hand pp_proc pp_phase]; auto.
      + destruct (pp_c x) as [|[dest|dest m pa|o] c] eqn:Ec; try discriminate; apply St, Pq in Hs; [simpl in J7; lia|].
        rewrite (J8 (CEnd o) (or_introl eq_refl)) in *. cbn [joined] in Hs. subst p. eexists. split; [reflexivity|].
        constructor; cbn [set_c pp_s pp_a pp_c pp_p pp_out pp_hand pp_proc pp_phase]; auto. intros t Ht. apply J8. now right.
  Qed.
  Lemma halted_run p ls q : par_run r p ls q -> forall x, p = PRun x -> halted x -> exists y, q = PRun y /\ halted y.
  Proof.
    induction 1 as [p|p ls p1 act lx p2 Hr IH Hs]; intros x E Hx; subst; [eauto|].
    destruct (IH x eq_refl Hx) as (y & -> & Hy). exact (halted_step act Hy Hs).
  Qed.

  (** A node of a network of parallel drivers is a run of its driver. *)
  Lemma pnode_run (pn0 : PNet Pr) xs pn : nschedule r pn0 xs pn ->
    forall v p0, get v (pn_nodes pn0) = Some p0 -> exists p ls, get v (pn_nodes pn) = Some p /\ par_run r p0 ls p.
  Proof.
    intros H. induction H as [pn0|pn0 xs pn1 x pn2 H IH Hx]; intros v p0 H0; [exists p0, []; split; [exact H0|constructor]|].
    destruct (IH v p0 H0) as (p & ls & Hp & Hr). destruct x as [w a|i]; cbn [nact] in Hx.
    - destruct (get w (pn_nodes pn1)) as [pw|] eqn:Ew; [|discriminate]. destruct (own a); [|discriminate].
      destruct (par_step r pw a) as [[l p']|] eqn:Es; [|discriminate]. apply some_inj in Hx. subst pn2. cbn [pn_nodes]. rewrite get_insert.
      destruct (eqb_spec v w) as [->|]; [|eauto]. rewrite Ew in Hp. apply some_inj in Hp. subst pw. exists p', (ls ++ l). split; [reflexivity|]. econstructor; eauto.
    - destruct (take_nth i (pn_flight pn1)) as [[[from m] rest]|]; [|discriminate]. destruct (get (msg_dest m) (pn_nodes pn1)) as [pw|] eqn:Ew; [|discriminate].
      destruct pw as [x|o]; [|apply some_inj in Hx; subst pn2; eauto].
      destruct (par_step r (PRun x) (AReceive from m)) as [[l p']|] eqn:Es; [|discriminate]. apply some_inj in Hx. subst pn2. cbn [pn_nodes]. rewrite get_insert.
      destruct (eqb_spec v (msg_dest m)) as [->|]; [|eauto]. rewrite Ew in Hp. apply some_inj in Hp. subst p. exists p', (ls ++ l). split; [reflexivity|]. econstructor; eauto.
  Qed.
  Lemma halted_forever (pn : PNet Pr) v x parties (h : Plan Pr) : get v (pn_nodes pn) = Some (PRun x) -> halted x -> mem v parties = true ->
    forall ys pn', nschedule r pn ys pn' -> ~ all_stopped parties h pn'.
  Proof.
    intros Hg Hx Hv ys pn' Hs Hall. destruct (pnode_run Hs _ Hg) as (p & ls & Hp & Hr).
    destruct (halted_run Hr eq_refl Hx) as (y & -> & _). destruct (Hall v Hv) as (rep & E & _). congruence.
  Qed.

  Lemma nsched_app (a : PNet Pr) xs b : nschedule r a xs b -> forall ys c, nschedule r b ys c -> nschedule r a (xs ++ ys) c.
  Proof.
    intros H ys c H2. induction H2 as [b|b ys c1 y c2 H2 IH Hy]; [now rewrite app_nil_r|]. rewrite app_assoc. econstructor; eauto.
  Qed.
  Lemma nsched_cons (a b c : PNet Pr) x xs : nact r a x = Some b -> nschedule r b xs c -> nschedule r a (x :: xs) c.
  Proof. intros H1 H2. change (x :: xs) with ([x] ++ xs). eapply nsched_app; [|exact H2]. change [x] with ([] ++ [x]). econstructor; [constructor|exact H1]. Qed.
End Halt.

Section Starting.
  Context {P : Params}.
  Context {Pr : Proto}.

  Lemma pnet_node r sid (ps : list (Signer * EntryPoint Pr)) pn : NoDup (map (fun p => signer_key (fst p)) ps) ->
    pnet_start r sid ps = Ok pn -> forall sk e, In (sk, e) ps ->
    exists s, session_new (nr_new r (signer_key sk)) sid sk e = Ok s /\ get (signer_key sk) (pn_nodes pn) = Some (PRun (par_enter s [])).
  Proof.
    intros Hnd E sk e Hin. unfold pnet_start in E.
    assert (K : forall l, map_res (fun p : Signer * EntryPoint Pr =>
        let* s := session_new (nr_new r (signer_key (fst p))) sid (fst p) (snd p) in Ok (signer_key (fst p), PRun (par_enter s []))) ps = Ok l ->
      map fst l = map (fun p => signer_key (fst p)) ps /\
      exists s, session_new (nr_new r (signer_key sk)) sid sk e = Ok s /\ In (signer_key sk, PRun (par_enter s [])) l).
    { clear E Hnd. revert Hin. induction ps as [|[k e'] ps IH]; intros Hin l E; [destruct Hin|].
      cbn [map_res fst snd] in E. destruct (session_new (nr_new r (signer_key k)) sid k e') as [s|er|] eqn:Es; try discriminate. cbn [bind] in E.
      destruct (map_res _ ps) as [l1|er|] eqn:El; try discriminate. cbn [bind] in E. apply (f_equal (fun x => match x with Ok y => y | _ => [] end)) in E. cbv beta iota in E. subst l.
      cbn [map fst].
      assert (Hm : map fst l1 = map (fun p : Signer * EntryPoint Pr => signer_key (fst p)) ps).
      { clear - El. revert l1 El. induction ps as [|[k1 e1] ps IH]; intros l1 El; cbn [map_res fst snd] in El.
        - apply (f_equal (fun x => match x with Ok y => y | _ => [] end)) in El. cbv beta iota in El. now subst l1.
        - destruct (session_new _ _ _ _) as [s|er|]; try discriminate. cbn [bind] in El. destruct (map_res _ ps) as [l2|er|]; try discriminate. cbn [bind] in El.
          apply (f_equal (fun x => match x with Ok y => y | _ => [] end)) in El. cbv beta iota in El. subst l1. cbn [map fst]. now rewrite (IH l2 eq_refl). }
      split; [now rewrite Hm|]. destruct Hin as [Hin|Hin].
      - apply (f_equal fst) in Hin as H1. apply (f_equal snd) in Hin as H2. cbn [fst snd] in *. subst k e'. exists s. split; [exact Es|now left].
      - destruct (IH Hin l1 eq_refl) as (_ & s' & H1 & H2). exists s'. split; [exact H1|now right]. }
    destruct (map_res _ ps) as [l|er|]; try discriminate. cbn [bind] in E. destruct (K l eq_refl) as (Hm & s & Hs & Hl).
    apply (f_equal (fun x => match x with Ok y => y | _ => pn end)) in E. cbv beta iota in E. subst pn. cbn [pn_nodes]. exists s. split; [exact Hs|].
    apply get_of_list_nodup; [now rewrite Hm|exact Hl].
  Qed.
  Lemma pnet_flight r sid (ps : list (Signer * EntryPoint Pr)) pn : pnet_start r sid ps = Ok pn -> pn_flight pn = [].
  Proof.
    unfold pnet_start. destruct (map_res _ ps) as [l|e|]; try discriminate. cbn [bind]. intros E.
    apply (f_equal (fun x => match x with Ok y => y | _ => pn end)) in E. cbv beta iota in E. now subst pn.
  Qed.
End Starting.

(** ** Honest networks of any size *)
Section Sizes.
  Context {P : Params}.
  Context {Pr : Proto}.
  Variable r : NetRng.
  Variable sid : bytes.
  Variable parties : bset Verifier.
  Variable ep : Verifier -> EntryPoint Pr.
  Variable h : Plan Pr.
  Variable sk : Verifier -> Signer.
  Hypothesis Hsk : signers parties sk.
  Hypothesis Hwire : wire_total P.
  Hypothesis Hsig : signatures_correct P.
  Hypothesis HR : honest_run r sid parties ep h.
  Notation party v := (mem v parties = true).
  Notation ph0 := (0, false).
  Notation sess := (good_sess sid h sk).
  Notation acc := (good_acc sid h).

  Lemma ph0_valid v : pvalid h v ph0.
  Proof. split; [simpl; lia|discriminate]. Qed.

  Lemma started_nodes pn0 : honest_pnet r sid parties sk ep = Ok pn0 -> pn_flight pn0 = [] /\
    forall v, party v -> exists s, get v (pn_nodes pn0) = Some (PRun (par_enter s [])) /\ sess v ph0 s.
  Proof.
    intros E. split; [exact (pnet_flight _ _ _ E)|]. intros v Hv. unfold honest_pnet in E.
    assert (Hm : map (fun p : Signer * EntryPoint Pr => signer_key (fst p)) (map (fun v => (sk v, ep v)) (elements parties)) = elements parties).
    { rewrite map_map. cbn [fst]. rewrite <- (map_id (elements parties)) at 2. apply map_ext_in. intros u Hu. apply Hsk. now apply in_elements. }
    assert (Hin : In (sk v, ep v) (map (fun v => (sk v, ep v)) (elements parties))) by (apply in_map_iff; exists v; split; [reflexivity|now apply in_elements]).
    destruct (@pnet_node _ _ r sid _ pn0 (eq_ind_r (fun l => NoDup l) (NoDup_elements parties) Hm) E _ _ Hin) as (s & Hs & Hg).
    rewrite (Hsk v Hv) in *. destruct (session_start sk Hsk Hwire Hsig HR v Hv) as (s' & Es & Gs). rewrite Hs in Es.
    exists s. split; [exact Hg|]. assert (s = s') by congruence. now subst.
  Qed.

  (** The messages for everybody can be made. *)
  Lemma makes v s dest : party v -> sess v ph0 s -> mem dest (pl_dest h 0 v) = true ->
    exists m, mk r s dest = Ok (m, (dest, exp_art h ph0 v dest)) /\ good_msg sid h ph0 v dest m.
  Proof.
    intros Hv G Hd. destruct (@make_ok _ _ r sid parties ep h sk Hsk Hwire Hsig HR v ph0 s dest (ph0_valid v) Hv G Hd) as (m & E & Gm).
    exists m. split; [|exact Gm]. unfold mk. rewrite (gs_verifier G), (@good_rid _ _ r sid parties ep h sk HR v ph0 s (ph0_valid v) Hv G). exact E.
  Qed.
  Lemma destinations v s : sess v ph0 s -> message_destinations s = pl_dest h 0 v.
  Proof. intros G. unfold message_destinations. now rewrite (gs_comm G). Qed.

  (** *** A party that listens, but does not speak *)
  Record listening (v : Verifier) (x : PState Pr) (done : list Verifier) : Prop := {
    li_s : sess v ph0 (pp_s x);
    li_c : pp_c x = map CMake (elements (message_destinations (pp_s x)));
    li_p : forall t, In t (pp_p x) -> t = PEnd (Ok tt);
    li_out : pp_out x = []; li_hand : pp_hand x = false; li_proc : pp_proc x = []; li_phase : pp_phase x = Loop;
    li_a : acc v ph0 (pp_a x) [];
    li_done : forall u, contains u (a_payloads (pp_a x)) = true <-> In u done
  }.
  Lemma listens v s : sess v ph0 s -> listening v (par_enter s []) [].
  Proof.
    intros G. constructor; cbn [par_enter pp_s pp_a pp_c pp_p pp_out pp_hand pp_proc pp_phase map]; auto.
    - intros t [].
    - apply (@good_start _ _ sid h sk v ph0 s [] G). intros m [].
    - intros u. cbn [make_accumulator a_payloads]. rewrite contains_empty. split; [discriminate|intros []].
  Qed.
  Lemma listened v x done : party v -> listening v x done -> capacity < length (elements (pl_dest h 0 v)) ->
    (forall u, mem u (pl_from h 0 v) = true -> In u done) -> halted r x.
  Proof.
    intros Hv L Hn Hall. constructor.
    - apply (complete_yes (li_a L)). intros u Hu. apply (li_done L). now apply Hall.
    - left. apply (li_phase L).
    - apply (li_hand L).
    - apply (li_p L).
    - rewrite (li_out L). simpl. unfold capacity. lia.
    - rewrite (li_out L), (li_c L), (destinations (li_s L)). assert (E : forall l : list Verifier, length (filter (fun t : ctask Pr => match t with CEnd (Ok _) => false | _ => true end) (map CMake l)) = length l).
      { induction l as [|w l IH]; simpl; auto. }
      rewrite E. lia.
    - intros t Ht. rewrite (li_c L) in Ht. apply in_map_iff in Ht as (u & <- & Hu). apply in_elements in Hu. rewrite (destinations (li_s L)) in Hu.
      destruct (@makes v (pp_s x) u Hv (li_s L) Hu) as (m & E & _). eauto.
  Qed.

  Lemma acc_received v a u m : party v -> acc v ph0 a [] -> good_msg sid h ph0 u v m -> mem u (pl_from h 0 v) = true ->
    acc v ph0 (set_processing a (sadd u (a_processing a))) [vm_of u m].
  Proof.
    intros Hv A Gm Hu. constructor; cbn [a_expect a_provable a_unprovable a_waiting a_payloads a_echo a_artifacts a_cached a_processing set_processing]; try apply A.
    - intros m' [<-|[]]. cbn [vm_of vm_from]. split; [now apply good_vm_of|exact Hu].
    - intros x. rewrite mem_add, cnt_todo_cons. cbn [vm_of vm_from]. rewrite (eqb_sym u x). destruct (eqb x u); simpl; [lia|]. apply (ga_proc A).
  Qed.
  Lemma acc_processed v a u m : acc v ph0 a [m] -> good_vm sid h ph0 u v m -> mem u (pl_from h 0 v) = true ->
    acc v ph0 (a_done a u (exp_payload h ph0 v u) m) [].
  Proof.
    intros A Gm Hex. pose proof Gm as (Eu & _).
    constructor; cbn [a_done a_expect a_provable a_unprovable a_waiting a_payloads a_echo a_artifacts a_cached a_processing]; try apply A.
    - intros x. rewrite mem_rem, contains_insert, (ga_waiting A). destruct (eqb x u); simpl; auto. now rewrite andb_false_r.
    - intros x p Hp. rewrite get_insert in Hp. destruct (eqb_spec x u) as [->|]; [|now apply (ga_payload A)]. apply some_inj in Hp. subst p. auto.
    - intros x Hx Hb Hne. rewrite contains_insert in Hx. unfold ins_part.
      destruct Gm as (_ & _ & B & _). unfold good_bcast in B. cbn [snd fst] in B, Hne. destruct B as [B _].
      destruct (eqb_spec x u) as [E|]; [rewrite E in *|].
      + rewrite B. destruct (pl_echo h 0 u); [|congruence]. cbn [is_none]. rewrite contains_insert, eqb_refl. reflexivity.
      + simpl in Hx. pose proof (ga_echo_in A x Hx Hb Hne) as Hce. destruct (is_none _); auto. rewrite contains_insert, Hce. apply orb_true_r.
    - intros x p Hp Hb. unfold ins_part in Hp. destruct Gm as (_ & V & B & _). unfold good_bcast in B. cbn [snd fst] in B. destruct B as [B _].
      destruct (is_none (sp_body (vm_echo m))) eqn:Eno; [now apply (ga_echo A)|]. rewrite get_insert in Hp. destruct (eqb_spec x u) as [->|]; [|now apply (ga_echo A)].
      apply some_inj in Hp. subst p. split; auto. destruct V as (_ & V1 & _ & _ & _ & V2 & _). unfold good_part. subst u. split; auto. split; auto. cbn [fst]. rewrite <- B. now intros En; rewrite En in Eno.
    - intros y [].
    - intros x Hx. pose proof (ga_proc A x Hx) as Hp. rewrite cnt_todo_cons in Hp. rewrite contains_insert, (eqb_sym x u), <- Eu.
      destruct (eqb (vm_from m) x); simpl in *; lia.
  Qed.

  Lemma not_yet v a todo u : acc v ph0 a todo -> mem u (pl_from h 0 v) = true -> contains u (a_payloads a) = false -> can_finalize a = NotYet.
  Proof.
    intros A Hu Hc. destruct (can_finalize a) eqn:E; auto.
    - pose proof (yes_complete A E u Hu). congruence.
    - destruct (never_never A E).
  Qed.
  Lemma nth_set {A} i (l : list A) x y : nth_error l i = Some x -> nth_error (set_nth i y l) i = Some y.
  Proof. revert l. induction i as [|i IH]; intros [|z l] E; try discriminate; simpl in *; auto. Qed.
  Lemma set_last {A} (l : list A) x y : set_nth (length l) y (l ++ [x]) = l ++ [y].
  Proof. induction l as [|z l IH]; simpl; auto. now rewrite IH. Qed.
  Lemma nth_last {A} (l : list A) x : nth_error (l ++ [x]) (length l) = Some x.
  Proof. induction l as [|z l IH]; simpl; auto. Qed.

  Lemma insert_twice {V} u (p p' : V) (nodes : bmap Verifier V) : insert u p' (insert u p nodes) = insert u p' nodes.
  Proof. apply bmap_ext. intros w. rewrite !get_insert. now destruct (eqb w u). Qed.
  Lemma insert_same {V} u (p : V) (nodes : bmap Verifier V) : get u nodes = Some p -> insert u p nodes = nodes.
  Proof. intros E. apply bmap_ext. intros w. rewrite !get_insert. destruct (eqb_spec w u); congruence. Qed.
  Lemma own_step u act (p p' : Par Pr) ls nodes fl : par_step r p act = Some (ls, p') -> own act = true ->
    nact r (mkPNet (insert u p nodes) fl) (NStep u act) = Some (mkPNet (insert u p' nodes) (fl ++ outs u ls)).
  Proof. intros E Ho. cbn [nact pn_nodes pn_flight]. rewrite get_insert, eqb_refl, Ho, E, insert_twice. reflexivity. Qed.

  (** [u] makes and sends its message to [v] before all others. *)
  Lemma speaks (pn : PNet Pr) u v s : party u -> party v -> get u (pn_nodes pn) = Some (PRun (par_enter s [])) -> sess u ph0 s ->
    mem v (pl_dest h 0 u) = true -> is_empty (pl_from h 0 u) = false -> pn_flight pn = [] ->
    exists xs p m, nschedule r pn xs (mkPNet (insert u p (pn_nodes pn)) [(u, m)]) /\ good_msg sid h ph0 u v m.
  Proof.
    intros Hu Hv Hg G Hd Hne Hfl. destruct (@makes u s v Hu G Hd) as (m & Em & Gm).
    assert (Hin : In v (elements (message_destinations s))) by (apply in_elements; now rewrite (destinations G)).
    apply In_nth_error in Hin as [i Hi]. assert (Hi' : nth_error (map (@CMake P Pr) (elements (message_destinations s))) i = Some (CMake v)) by now rewrite nth_error_map, Hi.
    assert (Hny : can_finalize (make_accumulator s) = NotYet).
    { apply not_empty_ex in Hne as (w & y & Hw). apply (@not_yet u (make_accumulator s) [] w).
      - apply (@good_start _ _ sid h sk u ph0 s [] G). intros m' [].
      - unfold mem, contains. now rewrite Hw.
      - apply contains_empty. }
    set (l := map (@CMake P Pr) (elements (message_destinations s))) in *.
    set (pa := (v, exp_art h ph0 u v)) in *.
    set (x1 := set_c (par_enter s []) (set_nth i (CSend v m pa) l)).
    set (x2 := set_out (set_c x1 (set_nth i (CEnd (Ok tt)) (pp_c x1))) [(v, m, pa)]).
    set (x3 := set_hand x2 true).
    exists [NStep u (ACreate i); NStep u (ACreate i); NStep u ATakeOut; NStep u (APut true)],
      (PRun (set_acc (set_hand (set_out x3 []) false) (fst (add_artifact (make_accumulator s) pa)))), m. split; [|exact Gm].
    assert (E0 : insert u (PRun (par_enter s [])) (pn_nodes pn) = pn_nodes pn) by now apply insert_same.
    assert (E1 : par_step r (PRun (par_enter s [])) (ACreate i) = Some ([], PRun x1)).
    { cbn [par_step par_enter pp_c pp_s]. fold l. rewrite Hi'. unfold mk in Em. rewrite Em. reflexivity. }
    assert (E2 : par_step r (PRun x1) (ACreate i) = Some ([], PRun x2)).
    { cbn [par_step]. change (pp_c x1) with (set_nth i (CSend v m pa) l). rewrite (nth_set _ _ _ Hi').
      change (Nat.ltb (in_channel x1) capacity) with true. reflexivity. }
    assert (E3 : par_step r (PRun x2) ATakeOut = Some ([], PRun x3)).
    { cbn [par_step]. change (pp_hand x2) with false. change (pp_out x2) with [(v, m, pa)]. unfold looks. change (pp_phase x2) with Loop.
      change (pp_a x2) with (make_accumulator s). rewrite Hny. reflexivity. }
    assert (E4 : par_step r (PRun x3) (APut true) = Some ([LOut v m], PRun (set_acc (set_hand (set_out x3 []) false) (fst (add_artifact (make_accumulator s) pa))))).
    { cbn [par_step]. change (pp_hand x3) with true. unfold put_out. change (pp_out x3) with [(v, m, pa)]. change (pp_a x3) with (make_accumulator s).
      unfold add_artifact. cbn [make_accumulator a_artifacts]. rewrite contains_empty. reflexivity. }
    apply nsched_cons with (b := mkPNet (insert u (PRun x1) (pn_nodes pn)) []).
    { pose proof (own_step u _ _ (pn_nodes pn) [] E1 eq_refl) as E. rewrite E0, <- Hfl in E. destruct pn as [nodes fl]. cbn [pn_nodes pn_flight] in *. subst fl. exact E. }
    apply nsched_cons with (b := mkPNet (insert u (PRun x2) (pn_nodes pn)) []); [exact (own_step u _ _ (pn_nodes pn) [] E2 eq_refl)|].
    apply nsched_cons with (b := mkPNet (insert u (PRun x3) (pn_nodes pn)) []); [exact (own_step u _ _ (pn_nodes pn) [] E3 eq_refl)|].
    eapply nsched_cons; [exact (own_step u _ _ (pn_nodes pn) [] E4 eq_refl)|constructor].
  Qed.

  (** [v] receives and processes it. *)
  Lemma hears (pn : PNet Pr) u v x m done : party v -> get v (pn_nodes pn) = Some (PRun x) -> listening v x done -> ~ In u done ->
    mem u (pl_from h 0 v) = true -> good_msg sid h ph0 u v m -> pn_flight pn = [(u, m)] ->
    exists xs y, nschedule r pn xs (mkPNet (insert v (PRun y) (pn_nodes pn)) []) /\ listening v y (u :: done).
  Proof.
    intros Hv Hg L Hnd Hu Gm Hfl. pose proof (li_s L) as G. pose proof (li_a L) as A.
    assert (Hc : contains u (a_payloads (pp_a x)) = false).
    { destruct (contains u (a_payloads (pp_a x))) eqn:E; auto. apply (li_done L) in E. contradiction. }
    pose proof (not_yet u A Hu Hc) as Hny.
    pose proof (@pre_this _ _ r sid parties ep h sk HR v ph0 (pp_s x) (pp_a x) [] u m (ph0_valid v) Hv G A Gm ltac:(rewrite Hc; reflexivity)) as Hpre.
    pose proof (@acc_received v (pp_a x) u m Hv A Gm Hu) as A1.
    set (vm := vm_of u m) in *. set (a1 := set_processing (pp_a x) (sadd u (a_processing (pp_a x)))) in *.
    pose proof (good_vm_of Gm) as Gvm. fold vm in Gvm.
    assert (Hc1 : contains u (a_payloads a1) = false) by exact Hc.
    pose proof (not_yet u A1 Hu Hc1) as Hny1.
    pose proof (@proc_ok _ _ r sid parties ep h sk HR v ph0 (pp_s x) a1 [vm] u vm (ph0_valid v) Hv G A1 Gvm Hu Hc1) as Hproc.
    pose proof (@receive_ok _ _ r sid parties ep h sk HR v ph0 (pp_s x) u vm (ph0_valid v) Hv G Gvm Hu) as Hrec.
    assert (Hnp : pm_res (process_message (pp_s x) vm) <> Panic).
    { unfold process_message. cbn [pm_res]. destruct Gvm as (-> & _). rewrite Hrec. discriminate. }
    set (pm := process_message (pp_s x) vm) in *. set (k := length (pp_p x)).
    set (x1 := set_p (set_acc x a1) (pp_p x ++ [PMake vm])).
    set (x2 := set_p x1 (pp_p x ++ [PSend pm])).
    set (x3 := set_proc (set_p x2 (pp_p x ++ [PEnd (Ok tt)])) [pm]).
    set (x4 := set_acc (set_proc x3 []) (a_done a1 u (exp_payload h ph0 v u) vm)).
    exists [NDeliver 0; NStep v (AHandle k); NStep v (AHandle k); NStep v ATakeProcessed], x4.
    assert (E1 : par_step r (PRun x) (AReceive u m) = Some ([LIn u m], PRun x1)).
    { cbn [par_step]. rewrite (li_hand L), (li_phase L), Hny, Hpre. reflexivity. }
    assert (E2 : par_step r (PRun x1) (AHandle k) = Some ([], PRun x2)).
    { cbn [par_step]. change (pp_p x1) with (pp_p x ++ [PMake vm]). unfold k. rewrite nth_last, set_last. change (pp_s x1) with (pp_s x). cbv zeta. fold pm.
      destruct (pm_res pm); try contradiction; reflexivity. }
    assert (E3 : par_step r (PRun x2) (AHandle k) = Some ([], PRun x3)).
    { cbn [par_step]. change (pp_p x2) with (pp_p x ++ [PSend pm]). unfold k. rewrite nth_last, set_last. change (pp_proc x2) with (pp_proc x). rewrite (li_proc L). reflexivity. }
    assert (E4 : exists ls, par_step r (PRun x3) ATakeProcessed = Some (ls, PRun x4) /\ outs v ls = []).
    { cbn [par_step]. change (pp_hand x3) with (pp_hand x). change (pp_phase x3) with (pp_phase x). change (pp_a x3) with a1. change (pp_s x3) with (pp_s x).
      change (pp_proc x3) with [pm]. rewrite (li_hand L), (li_phase L), Hny1, Hproc. eexists. split; reflexivity. }
    destruct E4 as (ls & E4 & Els).
    split.
    - destruct pn as [nodes fl]. cbn [pn_nodes pn_flight] in *. subst fl.
      apply nsched_cons with (b := mkPNet (insert v (PRun x1) nodes) []).
      { cbn [nact pn_flight pn_nodes take_nth]. rewrite (proj1 Gm), Hg, E1. reflexivity. }
      apply nsched_cons with (b := mkPNet (insert v (PRun x2) nodes) []); [exact (own_step v _ _ nodes [] E2 eq_refl)|].
      apply nsched_cons with (b := mkPNet (insert v (PRun x3) nodes) []); [exact (own_step v _ _ nodes [] E3 eq_refl)|].
      eapply nsched_cons; [rewrite (own_step v _ _ nodes [] E4 eq_refl), Els; reflexivity|constructor].
    - constructor; cbn [x4 x3 x2 x1 set_p set_acc set_proc pp_hand pp_phase pp_a pp_proc pp_s pp_c pp_p pp_out]; try apply L.
      + intros t Ht. apply in_app_iff in Ht as [Ht|[<-|[]]]; [now apply (li_p L)|reflexivity].
      + reflexivity.
      + now apply acc_processed.
      + intros w. cbn [a_done a_payloads]. rewrite contains_insert, orb_true_iff, eqb_eq. change (a_payloads a1) with (a_payloads (pp_a x)).
        rewrite (li_done L). simpl. intuition.
  Qed.

  Lemma all_heard v l : party v -> forall (pn : PNet Pr) x done, get v (pn_nodes pn) = Some (PRun x) -> listening v x done -> pn_flight pn = [] ->
    NoDup (l ++ done) -> (forall u, In u l -> mem u (pl_from h 0 v) = true /\ is_empty (pl_from h 0 u) = false /\
      exists s, get u (pn_nodes pn) = Some (PRun (par_enter s [])) /\ sess u ph0 s) ->
    exists xs pn' y, nschedule r pn xs pn' /\ get v (pn_nodes pn') = Some (PRun y) /\ listening v y (rev l ++ done).
  Proof.
    intros Hv. induction l as [|u l IH]; intros pn x done Hg L Hfl Hnd Hl; [exists [], pn, x; split; [constructor|auto]|].
    destruct (Hl u (or_introl eq_refl)) as (Hu & Hne & s & Hs & G).
    destruct (@exp_party _ _ r sid parties ep h HR ph0 v u ltac:(simpl; lia) Hv Hu) as [Hpu Huv].
    assert (Hd : mem v (pl_dest h 0 u) = true). { pose proof (@agree _ _ r sid parties ep h HR ph0 u v ltac:(simpl; lia) Hpu Hv) as E. unfold dst, exp in E. cbn [fst snd] in E. congruence. }
    destruct (@speaks pn u v s Hpu Hv Hs G Hd Hne Hfl) as (xs1 & p & m & S1 & Gm).
    inversion Hnd as [|? ? Hnin Hnd']. subst.
    destruct (@hears (mkPNet (insert u p (pn_nodes pn)) [(u, m)]) u v x m done Hv) as (xs2 & y & S2 & L2); auto.
    { cbn [pn_nodes]. rewrite get_insert. destruct (eqb_spec v u); [congruence|exact Hg]. }
    { intros Hin. apply Hnin. apply in_or_app. now right. }
    cbn [pn_nodes] in S2. set (pn2 := mkPNet (insert v (PRun y) (insert u p (pn_nodes pn))) []) in *.
    destruct (IH pn2 y (u :: done)) as (xs3 & pn' & z & S3 & Hz & L3); auto.
    - cbn [pn2 pn_nodes]. now rewrite get_insert, eqb_refl.
    - apply (Permutation_NoDup (Permutation_middle l done u)). now constructor.
    - intros w Hw. destruct (Hl w (or_intror Hw)) as (H1 & H2 & s' & H3 & H4). split; auto. split; auto. exists s'. split; auto.
      cbn [pn2 pn_nodes]. rewrite !get_insert. destruct (@exp_party _ _ r sid parties ep h HR ph0 v w ltac:(simpl; lia) Hv H1) as [_ Hwv].
      destruct (eqb_spec w v); [congruence|]. destruct (eqb_spec w u) as [->|]; [|exact H3]. exfalso. apply Hnin. apply in_or_app. now left.
    - exists (xs1 ++ xs2 ++ xs3), pn', z. split; [eapply nsched_app; [exact S1|]; eapply nsched_app; [exact S2|exact S3]|]. split; auto.
      simpl. now rewrite <- app_assoc.
  Qed.

  (** *** Too many destinations in the first round *)
  Lemma first_round_jams v pn0 : party v -> capacity < length (elements (pl_dest h 0 v)) ->
    (forall u, mem u (pl_from h 0 v) = true -> is_empty (pl_from h 0 u) = false) ->
    honest_pnet r sid parties sk ep = Ok pn0 ->
    exists xs pn, nschedule r pn0 xs pn /\ forall ys pn', nschedule r pn ys pn' -> ~ all_stopped parties h pn'.
  Proof.
    intros Hv Hn Hne E. destruct (started_nodes E) as [Hfl Hnodes]. destruct (Hnodes v Hv) as (s & Hg & G).
    destruct (@all_heard v (elements (pl_from h 0 v)) Hv pn0 (par_enter s []) [] Hg (listens G) Hfl) as (xs & pn & y & S & Hy & L).
    - rewrite app_nil_r. apply NoDup_elements.
    - intros u Hu. apply in_elements in Hu. split; auto. split; auto. apply Hnodes.
      now destruct (@exp_party _ _ r sid parties ep h HR ph0 v u ltac:(simpl; lia) Hv Hu).
    - exists xs, pn. split; [exact S|]. apply (@halted_forever _ _ _ pn v y parties h Hy); auto. apply (@listened v y _ Hv L Hn).
      intros u Hu. rewrite app_nil_r. apply -> in_rev. now apply in_elements.
  Qed.
  Lemma silent_never_ends v pn0 : party v -> capacity < length (elements (pl_dest h 0 v)) -> is_empty (pl_from h 0 v) = true ->
    honest_pnet r sid parties sk ep = Ok pn0 -> forall xs pn, nschedule r pn0 xs pn -> ~ all_stopped parties h pn.
  Proof.
    intros Hv Hn He E. destruct (started_nodes E) as [_ Hnodes]. destruct (Hnodes v Hv) as (s & Hg & G).
    apply (@halted_forever _ _ _ pn0 v (par_enter s []) parties h Hg); auto. apply (@listened v _ _ Hv (listens G) Hn). intros u Hu.
    rewrite is_empty_get in He. unfold mem, contains in Hu. rewrite He in Hu. discriminate.
  Qed.

  (** *** Exactly up to 101 parties *)
  Lemma rem_size v : party v -> length (elements (srem v parties)) = length (elements parties) - 1.
  Proof.
    intros Hv. assert (E : Permutation (v :: elements (srem v parties)) (elements parties)).
    { apply NoDup_Permutation.
      - constructor; [|apply NoDup_elements]. rewrite in_elements, mem_rem, eqb_refl. discriminate.
      - apply NoDup_elements.
      - intros u. simpl. rewrite !in_elements, mem_rem. destruct (eqb_spec u v) as [->|Hne]; simpl; intuition congruence. }
    apply Permutation_length in E. simpl in E. lia.
  Qed.
  Lemma exactly_101 pn0 : all_to_all parties h -> honest_pnet r sid parties sk ep = Ok pn0 ->
    (length (elements parties) <= 101 <->
     forall xs pn, nschedule r pn0 xs pn -> exists ys pn', nschedule r pn ys pn' /\ all_stopped parties h pn').
  Proof.
    intros Ha E. split.
    - intros Hn xs pn Hs. exact (honest_par_end Hsk Hwire Hsig HR (few_few HR Hn) E Hs).
    - intros H. destruct (Nat.le_gt_cases (length (elements parties)) 101) as [|Hgt]; auto. exfalso.
      destruct (elements parties) as [|v l] eqn:El; [simpl in Hgt; lia|].
      assert (Hv : party v) by (apply in_elements; rewrite El; now left). rewrite <- El in Hgt.
      destruct (Ha 0 v ltac:(lia) Hv) as [D _].
      destruct (@first_round_jams v pn0 Hv) as (xs & pn & S & K); auto.
      + rewrite D, (@rem_size v Hv). unfold capacity. lia.
      + intros u Hu. destruct (@exp_party _ _ r sid parties ep h HR ph0 v u ltac:(simpl; lia) Hv Hu) as [Hpu _].
        destruct (Ha 0 u ltac:(lia) Hpu) as [_ F]. rewrite F. pose proof (@rem_size u Hpu) as Hsz.
        destruct (is_empty (srem u parties)) eqn:Ee; auto. apply is_empty_spec in Ee. rewrite Ee in Hsz. simpl in Hsz. lia.
      + destruct (H xs pn S) as (ys & pn' & S2 & Hst). exact (K ys pn' S2 Hst).
  Qed.

  Lemma par_any_size : exists pn0, honest_pnet r sid parties sk ep = Ok pn0 /\
    (forall xs pn v o, nschedule r pn0 xs pn -> get v (pn_nodes pn) = Some (PStop o) ->
       exists rep, o = Ok rep /\ rep_outcome rep = OResult (pl_result h v) /\ no_errors (Ended rep)) /\
    (forall f : nat -> PNet Pr, f 0 = pn0 -> ~ forall i, exists x, nact r (f i) x = Some (f (S i))).
  Proof.
    destruct (honest_par_any Hsk Hwire Hsig HR) as (pn0 & E & H & Hf). exists pn0. split; auto. split; auto.
    intros xs pn v o Hs Hg. destruct (H xs pn Hs) as (K & _). exact (K v _ Hg).
  Qed.
  Lemma par_few_destinations : few_destinations parties h -> exists pn0, honest_pnet r sid parties sk ep = Ok pn0 /\
    (forall xs pn, nschedule r pn0 xs pn -> (forall x, nact r pn x = None) -> all_stopped parties h pn /\ pn_flight pn = []) /\
    (forall f : nat -> PNet Pr, f 0 = pn0 -> ~ forall i, exists x, nact r (f i) x = Some (f (S i))).
  Proof.
    intros Hfew. destruct (honest_par_few Hsk Hwire Hsig HR Hfew) as (pn0 & E & H & Hf). exists pn0. split; auto. split; auto.
    intros xs pn Hs. apply (H xs pn Hs).
  Qed.
End Sizes.

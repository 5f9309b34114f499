(** Two protocols whose rounds behave alike give sessions that behave alike. *)
From Coq Require Import List NArith Bool.
From Verif Require Import Base BMap Errors RoundId Message Protocol Transcript Evidence Session Typed Extend SpecExtend.
Import ListNotations.
Set Implicit Arguments.

Section Sim.
  Context {P : Params}.
  Context (A B : Proto).
  Context (fp : Payload A -> Payload B) (fa : Artifact A -> Artifact B) (fr : Rslt A -> Rslt B).
  Context (R : St A -> St B -> Prop).
  Notation orel := (orel A B fr R).
  Notation mrep := (mrep A B fr).

  (** Alike, except that nothing is said about received messages. *)
  Record alike_out (x : St A) (y : St B) : Prop := {
    ao_t : tinfo B y = tinfo A x;
    ao_c : cinfo B y = cinfo A x;
    ao_d : forall g v, mk_direct B y g v = rmap (with_artifact A B fa) (mk_direct A x g v);
    ao_e : forall g, mk_echo B y g = mk_echo A x g;
    ao_n : forall g, mk_normal B y g = mk_normal A x g;
    ao_f : forall g ps arts, orel (finalize A x g ps arts) (finalize B y g (map_values fp ps) (map_values fa arts))
  }.
  Hypothesis HR : forall x y, R x y -> alike_out x y.

  Definition mp (p : SPayload A) : SPayload B := match p with PEmpty => PEmpty | PVal p => PVal (fp p) end.
  Definition ma (p : SArtifact A) : SArtifact B := match p with ANone => ANone | AVal p => AVal (fa p) end.

  Inductive rrel : Round A -> Round B -> Prop :=
  | rr_main x y : R x y -> rrel (RMain x) (RMain y)
  | rr_echo v e i m m' ps arts : rrel m m' -> rrel (REcho v e i m ps arts) (REcho v e i m' (map_values mp ps) (map_values ma arts)).

  Definition srel (s : Session A) (s' : Session B) : Prop :=
    s_id s' = s_id s /\ s_signer s' = s_signer s /\ s_verifier s' = s_verifier s /\ rrel (s_round s) (s_round s') /\
    s_comm s' = s_comm s /\ s_echo_info s' = s_echo_info s /\ s_echo s' = s_echo s /\ s_normal s' = s_normal s /\
    s_tinfo s' = s_tinfo s /\ s_tr s' = s_tr s.

  Definition macc (a : Accum A) : Accum B :=
    mkAccum (a_waiting a) (a_expect a) (a_processing a) (map_values mp (a_payloads a)) (map_values ma (a_artifacts a))
      (a_cached a) (a_echo a) (a_normal a) (a_direct a) (a_provable a) (a_unprovable a).

  Lemma r_tinfo r r' : rrel r r' -> rd_tinfo r' = rd_tinfo r.
  Proof. induction 1 as [x y H|v e i m m' ps arts H IH]; cbn [rd_tinfo]; [now rewrite (ao_t (HR H))|now rewrite IH]. Qed.
  Lemma r_cinfo r r' : rrel r r' -> rd_cinfo r' = rd_cinfo r.
  Proof. intros [x y H|v e i m m' ps arts H]; cbn [rd_cinfo]; [now rewrite (ao_c (HR H))|reflexivity]. Qed.
  Lemma r_direct r r' g v : rrel r r' -> rd_mk_direct r' g v = rmap (fun x => (fst x, ma (snd x))) (rd_mk_direct r g v).
  Proof.
    intros [x y H|w e i m m' ps arts H]; cbn [rd_mk_direct]; [|reflexivity]. rewrite (ao_d (HR H)).
    destruct (mk_direct A x g v) as [[b a]| |]; reflexivity.
  Qed.
  Lemma r_echo r r' g : rrel r r' -> rd_mk_echo r' g = rd_mk_echo r g.
  Proof. intros [x y H|v e i m m' ps arts H]; cbn [rd_mk_echo]; [apply (ao_e (HR H))|reflexivity]. Qed.
  Lemma r_normal r r' g : rrel r r' -> rd_mk_normal r' g = rd_mk_normal r g.
  Proof. intros [x y H|v e i m m' ps arts H]; cbn [rd_mk_normal]; [apply (ao_n (HR H))|reflexivity]. Qed.
  Lemma r_receive_echo w e i m1 m2 ps arts v m : rd_receive (Pr := B) (REcho w e i m2 (map_values mp ps) (map_values ma arts)) v m =
    rmap mp (rd_receive (Pr := A) (REcho w e i m1 ps arts) v m).
  Proof.
    cbn [rd_receive].
    unfold echo_receive. destruct (negb (is_none (dm_echo m))); [reflexivity|]. destruct (negb (is_none (dm_direct m))); [reflexivity|].
    destruct (body_echo_msg (dm_normal m)) as [msg|]; [|reflexivity].
    destruct (negb (is_empty (diff _ (keyset msg)))); [reflexivity|]. destruct (negb (is_empty _)); [reflexivity|].
    destruct (iter_res (check_echo e) (to_list msg)); reflexivity.
  Qed.

  Lemma down_sim {X Y X' Y'} (f : X -> res LocalError Y) (f' : X' -> res LocalError Y') (h : X -> X') (k : Y -> Y') (m : bmap Verifier X) :
    (forall x, f' (h x) = rmap k (f x)) -> downcast f' (map_values h m) = rmap (map_values k) (downcast f m).
  Proof.
    intros Hf. unfold downcast.
    assert (E : map_res (fun kv => let* y := f' (snd kv) in Ok (fst kv, y)) (to_list (map_values h m)) =
      rmap (map (fun kv => (fst kv, k (snd kv)))) (map_res (fun kv => let* y := f (snd kv) in Ok (fst kv, y)) (to_list m))).
    { change (to_list (map_values h m)) with (map (fun kv => (fst kv, h (snd kv))) (to_list m)).
      induction (to_list m) as [|[v x] l IH]; [reflexivity|]. cbn [map map_res fst snd]. rewrite Hf, IH.
      destruct (f x); [|reflexivity|reflexivity]. cbn [bind rmap]. destruct (map_res _ l); reflexivity. }
    rewrite E. destruct (map_res _ (to_list m)) as [l| |] eqn:El; try reflexivity. cbn [bind rmap]. f_equal.
    assert (Hk : map fst l = map fst (to_list m)).
    { clear E. revert El. generalize (to_list m). intros t. revert l. induction t as [|[v x] t IH]; cbn [map_res snd fst]; intros l; [intros H; now inv H|].
      destruct (f x) as [y| |]; try discriminate. cbn [bind]. destruct (map_res _ t) as [l'| |]; try discriminate. intros H. inv H.
      cbn [map fst]. f_equal. now apply IH. }
    assert (Hn : NoDup (map fst l)) by (rewrite Hk; apply NoDup_keys).
    apply bmap_ext. intros v. rewrite get_map_values. destruct (get v (of_list l)) as [y|] eqn:G; cbn [option_map].
    - apply get_of_list_nodup; [now rewrite map_map|]. apply get_of_list_nodup in G; auto.
      apply in_map_iff. exists (v, y). auto.
    - apply get_of_list_none. rewrite map_map. cbn [fst]. now apply get_of_list_none.
  Qed.

  Lemma r_finalize r r' g ps arts : rrel r r' ->
    orel (rd_finalize r g ps arts) (rd_finalize r' g (map_values mp ps) (map_values ma arts)).
  Proof.
    intros H. revert ps arts. induction H as [x y H|v e i m m' qs as_ H IH]; cbn [rd_finalize]; intros ps arts; [|apply IH].
    rewrite (@down_sim _ _ _ _ (@down_payload P A) (@down_payload P B) mp fp ps) by (intros [|]; reflexivity).
    rewrite (@down_sim _ _ _ _ (@down_artifact P A) (@down_artifact P B) ma fa arts) by (intros [|]; reflexivity).
    destruct (downcast down_payload ps); cbn [bind rmap orel]; auto.
    destruct (downcast down_artifact arts); cbn [bind rmap orel]; auto. apply (ao_f (HR H)).
  Qed.

  (** Related results of operations giving sessions. *)
  Definition nrel (r : res LocalError (Session A)) (r' : res LocalError (Session B)) : Prop :=
    match r, r' with
    | Ok s, Ok s' => srel s s'
    | Err e, Err e' => e' = e
    | Panic, Panic => True
    | _, _ => False
    end.
  Lemma next_sim g sid signer r r' t : rrel r r' -> nrel (new_for_next_round g sid signer r t) (new_for_next_round g sid signer r' t).
  Proof.
    intros H. unfold new_for_next_round. rewrite (r_tinfo H), (r_cinfo H), (r_echo (rsub 0 g) H), (r_normal (rsub 2 g) H).
    destruct (rd_tinfo r) as [ti| |]; cbn [bind nrel]; auto.
    destruct (if is_empty (ci_dest (rd_cinfo r)) then _ else _) as [e| |]; cbn [bind nrel]; auto.
    destruct (sign_part KEcho _ _ _ _ _) as [se| |]; cbn [bind nrel]; auto.
    destruct (if is_empty (ci_dest (rd_cinfo r)) then _ else _) as [n| |]; cbn [bind nrel]; auto.
    destruct (sign_part KNormal _ _ _ _ _) as [sn| |]; cbn [bind nrel]; auto.
    unfold srel. cbn. repeat split; auto.
  Qed.

  Ltac sess := match goal with H : srel _ _ |- _ => destruct H as (Hid & Hsg & Hv & Hr & Hc & Hei & He & Hn & Ht & Htr) end.

  Lemma make_sim s s' g v : srel s s' -> make_message s' g v = rmap (fun x => (fst x, (fst (snd x), ma (snd (snd x))))) (make_message s g v).
  Proof.
    intros H. sess. unfold make_message, s_round_id. rewrite (r_direct (rsub 0 g) v Hr), Hsg, Hid, Ht, He, Hn.
    destruct (rd_mk_direct (s_round s) (rsub 0 g) v) as [[b a]| |]; cbn [bind rmap fst snd]; auto.
    destruct (message_new _ _ _ _ _ _ _ _); reflexivity.
  Qed.

  Lemma art_sim a x : add_artifact (macc a) (fst x, ma (snd x)) = (macc (fst (add_artifact a x)), snd (add_artifact a x)).
  Proof.
    unfold add_artifact, set_artifacts, macc. cbn. rewrite contains_map_values, map_values_insert. reflexivity.
  Qed.

  Definition pm (x : Accum A * res LocalError PreOutcome) := (macc (fst x), snd x).
  Lemma reject_sim a v e : reject (macc a) v e = pm (reject a v e).
  Proof. reflexivity. Qed.
  Lemma pre_sim s s' a v m : srel s s' -> preprocess_message s' (macc a) v m = pm (preprocess_message s a v m).
  Proof.
    intros H. sess. unfold preprocess_message, s_round_id. rewrite Hid, Ht, Hei, Htr.
    change (a_is_banned (macc a) v) with (a_is_banned a v).
    destruct (_ || _)%bool; [reflexivity|]. destruct (unify_metadata m) as [cm|]; [|reflexivity].
    destruct (negb (bytes_eqb _ _)); [reflexivity|].
    destruct (simultaneous_rounds _ _) as [acc| |]; try reflexivity.
    change (a_processing (macc a)) with (a_processing a). change (message_is_cached (macc a)) with (message_is_cached a).
    destruct (eqb (m_round (cm_meta cm)) (ti_id (s_tinfo s))).
    - destruct (mem v (a_processing a)); [reflexivity|]. destruct (verify_message v cm) as [vm|[| |]|]; reflexivity.
    - destruct (mem (m_round (cm_meta cm)) acc); [|reflexivity]. destruct (message_is_cached a v _); [reflexivity|].
      destruct (verify_message v cm) as [vm|[| |]|]; reflexivity.
  Qed.

  Definition received (r : Round A) (r' : Round B) (vm : VMessage) : Prop :=
    let m := mkDynMsg (sp_body (vm_echo vm)) (sp_body (vm_normal vm)) (sp_body (vm_direct vm)) in
    rd_receive r' (vm_from vm) m = rmap mp (rd_receive r (vm_from vm) m).
  Lemma add_sim s s' a vm : srel s s' -> received (s_round s) (s_round s') vm ->
    add_processed s' (macc a) (process_message s' vm) =
    (macc (fst (add_processed s a (process_message s vm))), snd (add_processed s a (process_message s vm))).
  Proof.
    intros H Hrec. sess. unfold add_processed, process_message. cbn [pm_msg pm_res].
    unfold received in Hrec. rewrite Hrec, Htr.
    change (a_payloads (macc a)) with (map_values mp (a_payloads a)). rewrite contains_map_values.
    destruct (contains (vm_from vm) (a_payloads a)); [reflexivity|].
    change (a_waiting (macc a)) with (a_waiting a). destruct (negb (mem (vm_from vm) (a_waiting a))); [reflexivity|].
    destruct (rd_receive (s_round s) (vm_from vm) _) as [p|[| | | | | |]|]; try reflexivity; cbn [rmap].
    - unfold macc. cbn. rewrite map_values_insert. reflexivity.
    - destruct (new_provable_error _ _ _ _ _ _); reflexivity.
  Qed.

  Lemma can_sim a : can_finalize (macc a) = can_finalize a.
  Proof.
    unfold can_finalize. cbn [a_expect a_payloads a_waiting macc].
    replace (forallb (fun k => contains k (map_values mp (a_payloads a))) (elements (a_expect a)))
      with (forallb (fun k => contains k (a_payloads a)) (elements (a_expect a))); [reflexivity|].
    induction (elements (a_expect a)) as [|v l IH]; [reflexivity|]. cbn [forallb]. now rewrite contains_map_values, IH.
  Qed.

  Lemma close_sim s s' a : srel s s' -> close_round s' (macc a) = close_round s a.
  Proof. intros H. sess. unfold close_round, s_round_id. now rewrite Htr, Ht, Hv, He. Qed.

  Lemma term_sim s s' a b : srel s s' -> terminate_inner s' (macc a) b = rmap mrep (terminate_inner s a b).
  Proof. intros H. unfold terminate_inner. rewrite (close_sim a H). destruct (close_round s a); try reflexivity. destruct b; reflexivity. Qed.

  Definition rorel (r : res LocalError (RoundOutcome A)) (r' : res LocalError (RoundOutcome B)) : Prop :=
    match r, r' with
    | Ok (ROAnother s c), Ok (ROAnother s' c') => srel s s' /\ c' = c
    | Ok (ROFinished x), Ok (ROFinished x') => x' = mrep x
    | Err e, Err e' => e' = e
    | Panic, Panic => True
    | _, _ => False
    end.
  Lemma fin_sim s s' g a : srel s s' -> rorel (finalize_round s g a) (finalize_round s' g (macc a)).
  Proof.
    intros H. unfold finalize_round. rewrite (close_sim a H). sess. destruct (close_round s a) as [t| |]; cbn [bind rorel]; auto.
    rewrite Hei. unfold s_round_id. rewrite Ht, Hv, Hid, Hsg.
    change (a_cached (macc a)) with (a_cached a). change (a_payloads (macc a)) with (map_values mp (a_payloads a)).
    change (a_artifacts (macc a)) with (map_values ma (a_artifacts a)).
    destruct (s_echo_info s) as [info|].
    - destruct (tr_echo_broadcasts t _) as [echos| |]; cbn [bind rorel]; auto.
      pose proof (rr_echo (s_verifier s) echos info (a_payloads a) (a_artifacts a) Hr) as Hr'.
      rewrite (r_tinfo Hr'). destruct (rd_tinfo (REcho _ _ _ (s_round s) _ _)) as [ti| |]; cbn [bind rorel]; auto.
      pose proof (next_sim (rsub 1 g) (s_id s) (s_signer s) t Hr') as N. unfold nrel in N.
      destruct (new_for_next_round _ _ _ _ t) as [x| |]; destruct (new_for_next_round _ _ _ _ t) as [y| |];
        try contradiction; cbn [bind rorel]; auto.
    - pose proof (r_finalize (rsub 0 g) (a_payloads a) (a_artifacts a) Hr) as F. unfold orel in F.
      destruct (rd_finalize (s_round s) _ _ _) as [[x|x]| |]; destruct (rd_finalize (s_round s') _ _ _) as [[y|y]| |];
        try contradiction; cbn [bind rorel]; auto; [|now subst y].
      rewrite (ao_t (HR F)). destruct (negb (mem _ _)); cbn [rorel]; auto.
      pose proof (next_sim (rsub 1 g) (s_id s) (s_signer s) t (rr_main F)) as N. unfold nrel in N.
      destruct (new_for_next_round _ _ _ (RMain x) t) as [x'| |]; destruct (new_for_next_round _ _ _ (RMain y) t) as [y'| |];
        try contradiction; cbn [bind rorel]; auto.
  Qed.

  Lemma macc_new s s' : srel s s' -> make_accumulator s' = macc (make_accumulator s).
  Proof. intros H. sess. unfold make_accumulator, macc. now rewrite Hc. Qed.

  Lemma start_sim g sid signer (ep : EntryPoint A) (ep' : EntryPoint B) :
    (match ep_make ep (rsub 0 g) sid (signer_key signer), ep_make ep' (rsub 0 g) sid (signer_key signer) with
     | Ok x, Ok y => R x y | Err e, Err e' => e' = e | Panic, Panic => True | _, _ => False end) ->
    nrel (session_new g sid signer ep) (session_new g sid signer ep').
  Proof.
    intros H. unfold session_new.
    destruct (ep_make ep _ _ _) as [x| |]; destruct (ep_make ep' _ _ _) as [y| |]; try contradiction; cbn [bind nrel]; auto.
    exact (next_sim (rsub 1 g) sid signer tr_new (rr_main H)).
  Qed.
End Sim.

Section Full.
  Context {P : Params}.
  Context (A B : Proto).
  Context (fp : Payload A -> Payload B) (fa : Artifact A -> Artifact B) (fr : Rslt A -> Rslt B).
  Context (R : St A -> St B -> Prop).
  Notation orel := (orel A B fr R).
  Notation alike := (alike A B fp fa fr R).
  Notation mrep := (mrep A B fr).
  Notation manswer := (manswer A B fr).
  Notation macc := (@macc P A B fp fa).
  Notation srel := (@srel P A B fp fa R).

  Hypothesis HR : forall x y, R x y -> alike x y.
  Lemma out : forall x y, R x y -> @alike_out P A B fp fa fr R x y.
  Proof. intros x y H. pose proof (HR H) as K. constructor; apply K. Qed.

  Lemma r_receive (r : Round A) (r' : Round B) vm : @rrel P A B fp fa R r r' -> @received P A B fp r r' vm.
  Proof.
    intros [x y H|w e i m1 m2 ps arts H]; unfold received; [|apply r_receive_echo]. cbn [rd_receive].
    rewrite (al_r (HR H)). destruct (receive A x _ _); reflexivity.
  Qed.

  Lemma serve_sim cs s s' a : srel s s' -> serve s' (macc a) cs = map manswer (serve s a cs).
  Proof.
    revert s s' a. induction cs as [|c cs IH]; intros s s' a H; [reflexivity|].
    destruct c as [|g v|v m|vm| |g| |]; cbn [serve].
    - cbn [map]. rewrite <- (IH s s' a H). f_equal. destruct H as (_ & _ & _ & _ & Hc & Hei & _ & _ & Ht & _). cbn [manswer]. unfold s_round_id, message_destinations. now rewrite Ht, Hc.
    - rewrite (make_sim out g v H). destruct (make_message s g v) as [[m x]|e|]; cbn [rmap fst snd]; [|cbn [map]; now rewrite <- (IH s s' a H)|reflexivity].
      rewrite (@art_sim P A B fp fa a x). destruct (add_artifact a x) as [a' r]. cbn [fst snd map]. now rewrite <- (IH s s' a' H).
    - rewrite (@pre_sim P A B fp fa R s s' a v m H). destruct (preprocess_message s a v m) as [a' r]. unfold pm. cbn [fst snd map]. now rewrite <- (IH s s' a' H).
    - rewrite (add_sim a H (r_receive vm (proj1 (proj2 (proj2 (proj2 H)))))). destruct (add_processed s a _) as [a' r]. cbn [fst snd map]. now rewrite <- (IH s s' a' H).
    - rewrite (@can_sim P A B fp fa a). cbn [map]. now rewrite <- (IH s s' a H).
    - pose proof (fin_sim out g a H) as F. unfold rorel in F.
      destruct (finalize_round s g a) as [[x|x c]| |]; destruct (finalize_round s' g (macc a)) as [[y|y c']| |]; try contradiction.
      + now subst y.
      + destruct F as [F ->]. cbn [map]. rewrite (macc_new F). now rewrite (IH x y _ F).
      + now subst.
      + reflexivity.
    - unfold terminate. now rewrite (term_sim fr a false H).
    - unfold terminate_due_to_errors. now rewrite (term_sim fr a false H).
  Qed.

  Lemma session_sim g sid signer (ep : EntryPoint A) (ep' : EntryPoint B) cs :
    (match ep_make ep (rsub 0 g) sid (signer_key signer), ep_make ep' (rsub 0 g) sid (signer_key signer) with
     | Ok x, Ok y => R x y | Err e, Err e' => e' = e | Panic, Panic => True | _, _ => False end) ->
    session g sid signer ep' cs = rmap (map manswer) (session g sid signer ep cs).
  Proof.
    intros H. unfold session, session_new.
    destruct (ep_make ep _ _ _) as [x| |]; destruct (ep_make ep' _ _ _) as [y| |]; try contradiction; cbn [bind rmap]; [|now subst|reflexivity].
    pose proof (next_sim out (rsub 1 g) sid signer tr_new (@rr_main P A B fp fa R x y H)) as N. unfold nrel in N.
    destruct (new_for_next_round _ _ _ (RMain x) _) as [s| |]; destruct (new_for_next_round _ _ _ (RMain y) _) as [s'| |]; try contradiction;
      cbn [rmap]; [|now subst|reflexivity].
    f_equal. rewrite (macc_new N). now apply serve_sim.
  Qed.
End Full.

(** [par_run_session] with the concrete parameters of Toy.v. Used only by [Example]s and witnesses. *)
From Coq Require Import List NArith Bool Arith Lia.
From Verif Require Import Base BMap Errors RoundId Message Protocol Transcript Evidence Session Spec SpecCrypto
  IntakeFacts Network SpecNet RunSync Driver SpecDriver Par SpecPar Toy ToyCrypto ToyNet ToyDriver.
Import ListNotations.
Set Implicit Arguments.

Section Play.
  Context {P : Params}.
  Context {Pr : Proto}.
  Variable r : NetRng.

  Fixpoint pplay (p : Par Pr) (l : list paction) : option (list (dlabel Pr) * Par Pr) :=
    match l with
    | [] => Some ([], p)
    | x :: l =>
        match par_step r p x with
        | None => None
        | Some (ls, p1) => match pplay p1 l with None => None | Some (ls', p') => Some (ls ++ ls', p') end
        end
    end.

  Lemma par_run_cons (p p1 p2 : Par Pr) x ls ls' : par_step r p x = Some (ls, p1) -> par_run r p1 ls' p2 -> par_run r p (ls ++ ls') p2.
  Proof.
    intros H R. induction R as [p1|p1 la pa j lb pb Ra IH Hs].
    - rewrite app_nil_r. change ls with ([] ++ ls). eapply prun_snoc; [constructor|exact H].
    - rewrite app_assoc. eapply prun_snoc; [apply IH, H|exact Hs].
  Qed.
  Lemma pplay_run l : forall (p p' : Par Pr) ls, pplay p l = Some (ls, p') -> par_run r p ls p'.
  Proof.
    induction l as [|x l IH]; intros p p' ls E; cbn [pplay] in E.
    - assert (ls = [] /\ p' = p) as [-> ->] by (split; congruence). constructor.
    - destruct (par_step r p x) as [[l1 p1]|] eqn:Es; [|discriminate]. destruct (pplay p1 l) as [[l2 p2]|] eqn:Ed; [|discriminate].
      assert (ls = l1 ++ l2 /\ p' = p2) as [-> ->] by (split; congruence). eapply par_run_cons; eauto.
  Qed.

  (** The only task left is a creation task that cannot put its message into the full channel. *)
  Definition jammed_c (p : Par Pr) : bool :=
    match p with
    | PRun x => match pp_phase x, pp_c x, pp_p x with
                | JoinC _, [CSend _ _ _], [] => (negb (pp_hand x) && negb (Nat.ltb (in_channel x) capacity))%bool
                | _, _, _ => false
                end
    | _ => false
    end.
  (** The same for a processing task. *)
  Definition jammed_p (p : Par Pr) : bool :=
    match p with
    | PRun x => match pp_phase x, pp_c x, pp_p x with
                | JoinP _, [], [PSend _] => (negb (pp_hand x) && negb (Nat.ltb (length (pp_proc x)) capacity))%bool
                | _, _, _ => false
                end
    | _ => false
    end.
  Lemma jammed_dead p : (jammed_c p || jammed_p p)%bool = true -> deadlocked r p.
  Proof.
    intros H. apply orb_true_iff in H as [H|H]; destruct p as [x|o]; try discriminate H; (split; [eauto|]); cbn [jammed_c jammed_p] in H;
      destruct (pp_phase x) as [|b|b|b] eqn:Hp; try discriminate H; destruct (pp_c x) as [|t c] eqn:Hc; try discriminate H.
    - destruct t as [|dest m pa|]; try discriminate H. destruct c; try discriminate H. destruct (pp_p x) eqn:Hq; try discriminate H.
      apply andb_true_iff in H as [Eh H]. apply negb_true_iff in Eh, H. intros [i|i| |sent| |from m0| | |]; cbn [par_step]; unfold looks; rewrite ?Eh, ?Hp, ?Hc, ?Hq; auto; [..|now destruct (pp_out x)].
      + destruct i as [|i]; cbn [nth_error]; [now rewrite H|destruct i; auto].
      + now destruct i.
    - destruct (pp_p x) as [|u q] eqn:Hq; try discriminate H. destruct u as [|pm|]; try discriminate H. destruct q; try discriminate H.
      apply andb_true_iff in H as [Eh H]. apply negb_true_iff in Eh, H. intros [i|i| |sent| |from m0| | |]; cbn [par_step]; unfold looks; rewrite ?Eh, ?Hp, ?Hc, ?Hq; auto; [..|now destruct (pp_out x)].
      + now destruct i.
      + destruct i as [|i]; cbn [nth_error]; [now rewrite H|destruct i; auto].
  Qed.
End Play.

(** Let everybody go on as long as somebody can, then deliver the oldest message. *)
Definition nnext {P : Params} {Pr : Proto} (r : NetRng) (k : nat) (net : PNet Pr) : option (PNet Pr) :=
  let acts := [AGo; ATakeOut; APut true; ATakeProcessed] ++ map ACreate (seq 0 k) ++ map AHandle (seq 0 k) in
  let tries := flat_map (fun kv => map (NStep (fst kv)) acts) (to_list (pn_nodes net)) ++ [NDeliver 0] in
  fold_left (fun o x => match o with Some _ => o | None => nact r net x end) tries None.
Fixpoint nauto {P : Params} {Pr : Proto} (r : NetRng) (k n : nat) (net : PNet Pr) : PNet Pr :=
  match n with O => net | S n => match nnext r k net with Some net' => nauto r k n net' | None => net end end.

(** [par_run_session] of a party of Toy.v. *)
Definition tpar (c : Cfg) (me : N) (l : list (paction (P := toyP))) : option (list (dlabel (toyPr c)) * Par (toyPr c)) :=
  pplay rN (PRun (par_enter (tsession c me) [])) l.
Definition plabels (c : Cfg) (me : N) l : list (dlabel (toyPr c)) := LEnter (tsession c me) :: match tpar c me l with Some (ls, _) => ls | None => [] end.
Definition tparty (c : Cfg) (me : N) l : Par (toyPr c) := match tpar c me l with Some (_, p) => p | None => PStop Panic end.
Lemma tpar_run c me l : is_some (tpar c me l) = true -> par_session rN (tsession c me) (plabels c me l) (tparty c me l).
Proof.
  unfold plabels, tparty. destruct (tpar c me l) as [[ls p]|] eqn:E; [|discriminate]. intros _. exists ls. split; auto. exact (pplay_run _ _ _ E).
Qed.

(** Every task of the list is made to finish; then the driver joins them. *)
Definition twice {A} (f : nat -> A) (n : nat) : list A := flat_map (fun i => [f i; f i]) (seq 0 n).
Definition go (n : nat) : list (paction (P := toyP)) := repeat (@AGo toyP) n.

(** Party 0 sends to the parties 1, ..., n in the only round; nobody is expected to send anything. *)
Definition crowd_set (n : nat) : bset (@Verifier toyP) := set_of_list (map N.of_nat (seq 1 n) : list (@Verifier toyP)).
Definition announce (n : nat) : Cfg := mkCfg 1 (fun _ => false) (fun _ _ => @mkComm toyP (crowd_set n) sempty (@EPDefault toyP)).
Definition announcing : list (paction (P := toyP)) := twice (@ACreate toyP) 100 ++ [@ACreate toyP 100] ++ go 101.

(** Party 0 sends to party 1 and waits for the parties 1, ..., n. *)
Definition collect (n : nat) : Cfg :=
  mkCfg 1 (fun _ => false) (fun _ me => if N.eqb me 0 then @mkComm toyP (crowd_set 1) (crowd_set n) (@EPDefault toyP)
                                        else @mkComm toyP (set_of_list ([0%N] : list (@Verifier toyP))) sempty (@EPDefault toyP)).
Definition prx (c : Cfg) (from me : N) : paction (P := toyP) := @AReceive toyP from (tmsg (tsession c from) me).
(** All but the last message arrive and are processed, nothing is taken from the channel, and the driver is cancelled. *)
Definition collecting : list (paction (P := toyP)) :=
  [@ACreate toyP 0; @ACreate toyP 0] ++ map (fun i => prx (collect 102) (N.of_nat i) 0) (seq 1 101) ++
  twice (@AHandle toyP) 100 ++ [@AHandle toyP 100; @ACancel toyP] ++ go 102.

Lemma announcing_jams : (is_some (tpar (announce 101) 0 announcing) && jammed_c (tparty (announce 101) 0 announcing))%bool = true.
Proof. toy. Qed.
Lemma collecting_jams : (is_some (tpar (collect 102) 0 collecting) && jammed_p (tparty (collect 102) 0 collecting))%bool = true.
Proof. toy. Qed.

Lemma jam_witness : exists (P : Params) (Pr : Proto) r (s0 : Session Pr) ls p,
  initial s0 /\ par_session r s0 ls p /\ ~ In LCancel ls /\ deadlocked r p.
Proof.
  pose proof announcing_jams as C. apply andb_prop in C as [C1 C2]. pose proof (tpar_run _ _ _ C1) as R.
  assert (C3 : existsb (fun l => match l with LCancel => true | _ => false end) (plabels (announce 101) 0 announcing) = false) by toy.
  revert R C2 C3. generalize (plabels (announce 101) 0 announcing) (tparty (announce 101) 0 announcing). intros ls p R C2 C3.
  exists toyP, (toyPr (announce 101)), rN, (tsession (announce 101) 0), ls, p.
  split; [apply toy_initial|]. split; [exact R|]. split; [|apply jammed_dead; now rewrite C2].
  intros Hin. rewrite <- not_true_iff_false in C3. apply C3. apply existsb_exists. exists LCancel. auto.
Qed.

Lemma one_destination : (Nat.eqb (length (elements (message_destinations (tsession (collect 102) 0)))) 1)%bool = true.
Proof. toy. Qed.
Lemma cancel_jam_witness : exists (P : Params) (Pr : Proto) r (s0 : Session Pr) ls p,
  initial s0 /\ length (elements (message_destinations s0)) = 1 /\ par_session r s0 ls p /\ deadlocked r p.
Proof.
  pose proof collecting_jams as C. apply andb_prop in C as [C1 C2]. pose proof (tpar_run _ _ _ C1) as R.
  pose proof one_destination as C3. apply Nat.eqb_eq in C3.
  revert R C2. generalize (plabels (collect 102) 0 collecting) (tparty (collect 102) 0 collecting). intros ls p R C2.
  exists toyP, (toyPr (collect 102)), rN, (tsession (collect 102) 0), ls, p.
  split; [apply toy_initial|]. split; [exact C3|]. split; [exact R|]. apply jammed_dead. rewrite C2. apply orb_true_r.
Qed.

(** ** Evidence that is found and not reported *)
(** Party 1 sends a message that proves its own misbehaviour; the message is processed; before the driver takes the
    result from its channel, it is cancelled. *)
Definition proof1 : Message (P := toyP) := tforge 1 sid0 (rid_new 1) (Some [99%N]) None None.
Definition found : list (paction (P := toyP)) :=
  twice (@ACreate toyP) 2 ++ [@AReceive toyP 1%N proof1; @AHandle toyP 0; @AHandle toyP 0].
Definition forgotten : list (paction (P := toyP)) :=
  [@ACancel toyP] ++ go 5 ++ [@ATakeOut toyP; @APut toyP true; @ATakeOut toyP; @APut toyP true] ++ go 1.

Definition guilty {c} (p : Par (toyPr c)) : bool :=
  match p with
  | PRun x => match pp_proc x with
              | [pm] => (N.eqb (vm_from (pm_msg pm) : N) 1 && match pm_res pm with Err (RProtocol _) => true | _ => false end)%bool
              | _ => false
              end
  | _ => false
  end.
Definition clean {c} (p : Par (toyPr c)) : bool :=
  match p with PStop (Ok rep) => (is_empty (rep_provable rep) && is_empty (rep_unprovable rep))%bool | _ => false end.
Lemma forgotten_check : (is_some (tpar cfg3n 0 found) && guilty (tparty cfg3n 0 found) &&
  match pplay rN (tparty cfg3n 0 found) forgotten with Some (_, p) => clean p | None => false end)%bool = true.
Proof. toy. Qed.

Lemma forgotten_witness : exists (P : Params) (Pr : Proto) r (s0 : Session Pr) l1 x pm e l2 rep,
  initial s0 /\ par_session r s0 l1 (PRun x) /\ In pm (pp_proc x) /\ pm_res pm = Err (RProtocol e) /\
  par_run r (PRun x) l2 (PStop (Ok rep)) /\ get (vm_from (pm_msg pm)) (rep_provable rep) = None /\ get (vm_from (pm_msg pm)) (rep_unprovable rep) = None.
Proof.
  pose proof forgotten_check as C. apply andb_prop in C as [C C3]. apply andb_prop in C as [C1 C2]. pose proof (tpar_run _ _ _ C1) as R.
  revert R C2 C3. generalize (plabels cfg3n 0 found) (tparty cfg3n 0 found). intros ls p R C2 C3.
  destruct (pplay rN p forgotten) as [[l2 p2]|] eqn:E; [|discriminate]. apply pplay_run in E. revert E C3. generalize forgotten. intros _ E C3.
  destruct p as [x|o]; [|discriminate C2]. cbn [guilty] in C2.
  destruct (pp_proc x) as [|pm [|]] eqn:Ep; try discriminate C2. apply andb_prop in C2 as [C2 C4]. apply N.eqb_eq in C2.
  destruct p2 as [|[rep| |]]; try discriminate C3. cbn [clean] in C3. apply andb_prop in C3 as [C3 C5].
  destruct (pm_res pm) as [|[| | | |e| |]|] eqn:Er; try discriminate C4.
  exists toyP, (toyPr cfg3n), rN, (tsession cfg3n 0), ls, x, pm, e, l2, rep.
  split; [apply toy_initial|]. split; [exact R|]. split; [rewrite Ep; now left|]. split; [exact Er|]. split; [exact E|].
  split; now apply is_empty_get.
Qed.

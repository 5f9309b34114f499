(** [run_async] with [offload_processing = true], with the concrete parameters of Toy.v. Used only by [Example]s and witnesses. *)
From Coq Require Import List NArith Bool Arith Lia.
From Verif Require Import Base BMap Errors RoundId Message Protocol Transcript Evidence Session Spec SpecCrypto Typed SpecTyped Simple
  IntakeFacts Network SpecNet RunSync Driver SpecDriver Misbehave Par SpecPar Async SpecAsync Offload SpecOffload
  Extend OffloadFacts Toy ToyCrypto ToySimple HonestFacts ToyNet ToyMisbehave ToyAsync.
Import ListNotations.
Set Implicit Arguments.

(** The actions of a list, one after the other; those that are not possible are left out. *)
Fixpoint oend {Pr : Proto (P := toyP)} (cap : nat) (xs : list (oaction (P := toyP))) (a : ONet Pr) : ONet Pr :=
  match xs with
  | [] => a
  | x :: xs => match oact rN cap a x with Some (_, a') => oend cap xs a' | None => oend cap xs a end
  end.
Lemma oend_sched {Pr : Proto (P := toyP)} cap xs : forall (a0 : ONet Pr) tr a, oschedule rN cap a0 tr a -> exists tr', oschedule rN cap a0 tr' (oend cap xs a).
Proof.
  induction xs as [|x xs IH]; intros a0 tr a H; cbn [oend]; [eauto|].
  destruct (oact rN cap a x) as [[ls a']|] eqn:E; [|now apply (IH a0 tr)]. eapply IH. econstructor; eauto.
Qed.
Definition ostarted {Pr : Proto (P := toyP)} (x : res LocalError (ONet Pr)) : ONet Pr :=
  match x with Ok a => a | _ => mkONet empty [] (DispEnd Panic) empty end.
Definition oresults {Pr : Proto (P := toyP)} (a : ONet Pr) : list (@Verifier toyP * option (Rslt Pr)) := aresults (seen a).

(** ** A deadlock, with the protocol of ToyAsync.v *)
Definition own_acts (v : @Verifier toyP) (xs : list (paction (P := toyP))) : list (oaction (P := toyP)) := map (OSelf v) xs.
(** All the creation tasks of a round *)
Definition create (n : nat) (v : @Verifier toyP) := own_acts v (flat_map (fun i => [ACreate i; ACreate i]) (seq 0 n)).
Definition forward : list (oaction (P := toyP)) := repeat (@ODisp toyP 0) 6.
Definition send_one (v : @Verifier toyP) := own_acts v [@ATakeOut toyP] ++ [OSend v].
(** Everything that is in the channel is received and processed; on to the next round. *)
Definition receive_all (n : nat) (v : @Verifier toyP) :=
  repeat (ORecv v) n ++ own_acts v (flat_map (fun i => [AHandle i; AHandle i]) (seq 0 n) ++ repeat (@ATakeProcessed toyP) n ++ repeat (@AGo toyP) (2 * n + 4)).
Definition ojam (n cap : nat) : list (oaction (P := toyP)) :=
  let later := tl (persons n) in
  (* everybody makes and sends the messages of the first round; party 0 has only begun to send its last message *)
  flat_map (create n) (persons n) ++
  flat_map (fun v => flat_map (fun _ => send_one v ++ forward) (seq 0 (n - 1))) later ++
  flat_map (fun _ => send_one 0%N ++ forward) (seq 0 (n - 2)) ++
  (* everybody except for party 0 processes what is there; those that can go on to the second round and make their messages *)
  flat_map (receive_all n) later ++ flat_map (create n) (firstn (n - 2) later) ++
  (* and begin with a message to party 0 *)
  flat_map (fun v => send_one v ++ forward) (firstn (cap - (n - 1)) later) ++
  flat_map send_one (firstn 1 (skipn (cap - (n - 1)) later)) ++ repeat (@ODisp toyP 0) 3 ++
  (* the next one does not fit; the others fill the channel of the dispatcher *)
  flat_map (fun v => flat_map (fun _ => send_one v) (seq 0 (n - 2))) (firstn (cap / (n - 2)) later) ++
  (* everybody who has something to send begins to do so *)
  flat_map (fun v => own_acts v [@ATakeOut toyP]) (persons n).

Definition c_over {Pr : Proto (P := toyP)} (t : ctask Pr) : bool := match t with CEnd _ => true | _ => false end.
Definition p_over {Pr : Proto (P := toyP)} (t : ptask Pr) : bool := match t with PEnd _ => true | _ => false end.
Definition node_idle {Pr : Proto (P := toyP)} (cap : nat) (a : ONet Pr) (v : @Verifier toyP) (p : Par Pr) : bool :=
  match p with
  | PStop _ => true
  | PRun x =>
      forallb c_over (pp_c x) && forallb p_over (pp_p x) &&
      (if pp_hand x then negb (Nat.ltb (length (on_out a)) cap)
       else match pp_out x, pp_proc x, pp_phase x, can_finalize (pp_a x), get v (on_in a) with
            | [], [], Loop, NotYet, Some [] => true
            | _, _, _, _, _ => false
            end)
  end%bool.
Definition nothing_left {Pr : Proto (P := toyP)} (cap : nat) (a : ONet Pr) : bool :=
  (forallb (fun kv => node_idle cap a (fst kv) (snd kv)) (to_list (on_nodes a)) &&
   match on_disp a with DispSend _ _ => negb (is_some (disp_step cap (seen a) 0)) | _ => false end)%bool.

Lemma nothing_left_stuck {Pr : Proto (P := toyP)} cap (a : ONet Pr) : nothing_left cap a = true -> offload_stuck rN cap a.
Proof.
  unfold nothing_left. intros H. apply andb_prop in H as [H1 H2]. rewrite forallb_forall in H1.
  assert (Hd : disp_done (on_disp a) = false) by (destruct (on_disp a); auto; discriminate).
  assert (Hn : forall x v act p, node_action cap a x = Some (v, act) -> get v (on_nodes a) = Some p -> par_step rN p act = None).
  { intros x v act p Ha Hp. apply in_to_list in Hp. specialize (H1 _ Hp). cbn [fst snd] in H1. destruct p as [st|o]; [|reflexivity]. cbn [node_idle] in H1.
    apply andb_prop in H1 as [H1 H3]. apply andb_prop in H1 as [Hc Hpp]. rewrite forallb_forall in Hc, Hpp.
    assert (Kc : forall i, par_step rN (PRun st) (ACreate i) = None).
    { intros i. cbn [par_step]. destruct (nth_error (pp_c st) i) as [t|] eqn:E; [|reflexivity]. apply nth_error_In in E. specialize (Hc _ E). destruct t; try discriminate. reflexivity. }
    assert (Kp : forall i, par_step rN (PRun st) (AHandle i) = None).
    { intros i. cbn [par_step]. destruct (nth_error (pp_p st) i) as [t|] eqn:E; [|reflexivity]. apply nth_error_In in E. specialize (Hpp _ E). destruct t; try discriminate. reflexivity. }
    destruct x as [w y|w|w|i]; cbn [node_action] in Ha.
    - destruct (by_itself y) eqn:Eb; [|discriminate]. assert (y = act) as -> by congruence. destruct act; try discriminate Eb; auto; cbn [par_step];
        (destruct (pp_hand st); [reflexivity|]); destruct (pp_out st); try discriminate; auto; destruct (pp_proc st); try discriminate;
        destruct (pp_phase st); try discriminate; destruct (can_finalize (pp_a st)); try discriminate; reflexivity.
    - rewrite Hd in Ha. destruct (Nat.ltb (length (on_out a)) cap); [|discriminate]. assert (act = APut true) as -> by congruence. cbn [par_step].
      destruct (pp_hand st); [discriminate|reflexivity].
    - assert (w = v) as -> by (destruct (get w (on_in a)) as [[|[f m] q]|]; rewrite ?Hd in Ha; congruence). rewrite Hd in Ha.
      destruct (get v (on_in a)) as [[|[f m] q]|]; try discriminate. assert (act = AReceive f m) as -> by congruence. cbn [par_step].
      destruct (pp_hand st); [reflexivity|]. destruct (pp_out st); try discriminate; destruct (pp_proc st); try discriminate;
        destruct (pp_phase st); try discriminate; destruct (can_finalize (pp_a st)); try discriminate.
    - discriminate. }
  intros x. destruct x as [w y|w|w|i].
  4: { cbn [oact]. unfold disp_step in *. cbn [seen an_disp an_in an_nodes an_out] in *. destruct (on_disp a) as [| | |ms o| |]; try discriminate.
    destruct (get (mo_to o) (on_in a)) as [q|]; [|discriminate].
    destruct (get (mo_to o) (map_values _ (on_nodes a))) as [[| | |]|]; try discriminate; (destruct (Nat.ltb (length q) cap); [discriminate|reflexivity]). }
  all: unfold oact; destruct (node_action cap a _) as [[v act]|] eqn:Ea; [|reflexivity]; destruct (get v (on_nodes a)) as [p|] eqn:Ep; [|reflexivity];
    now rewrite (Hn _ _ _ _ Ea Ep).
Qed.

(** A complete run: as long as something can happen, the first thing of a list that can. *)
Fixpoint oauto {Pr : Proto (P := toyP)} (cap fuel : nat) (xs : list (oaction (P := toyP))) (tr : list (@Verifier toyP * dlabel Pr)) (a : ONet Pr)
    : list (@Verifier toyP * dlabel Pr) * ONet Pr :=
  match fuel with
  | O => (tr, a)
  | S fuel =>
      match find (fun x => is_some (oact rN cap a x)) xs with
      | None => (tr, a)
      | Some x => match oact rN cap a x with Some (ls, a') => oauto cap fuel xs (tr ++ ls) a' | None => (tr, a) end
      end
  end.
Lemma oauto_sched {Pr : Proto (P := toyP)} cap fuel xs : forall (a0 : ONet Pr) tr a, oschedule rN cap a0 tr a ->
  oschedule rN cap a0 (fst (oauto cap fuel xs tr a)) (snd (oauto cap fuel xs tr a)).
Proof.
  induction fuel as [|fuel IH]; intros a0 tr a H; cbn [oauto]; [exact H|].
  destruct (find _ xs) as [x|]; [|exact H]. destruct (oact rN cap a x) as [[ls a']|] eqn:E; [|exact H]. apply IH. econstructor; eauto.
Qed.
(** What the [n] parties can do, those of the later tasks first. *)
Definition all_acts (n : nat) : list (oaction (P := toyP)) :=
  @ODisp toyP 0 :: flat_map (fun v => own_acts v (flat_map (fun i => [ACreate i; AHandle i]) [1; 0; 2]) ++
    [OSelf v (@ATakeProcessed toyP); OSelf v (@AGo toyP); ORecv v; OSelf v (@ATakeOut toyP); OSend v]) (rev (persons n)).

(** ** One party sends wrong messages (as in ToyAsync.v): everybody sends and processes the messages of round 1; 0 and 1 return;
    2 goes on to the echo round and sends a message. *)
Definition bad_onet := @onet_start toyP (extended simT) rN sid0 (bad_parties 3).
Definition bad_orun : list (oaction (P := toyP)) :=
  flat_map (fun v => create 3 v ++ send_one v ++ forward ++ send_one v ++ forward) [0; 1; 2]%N ++
  flat_map (receive_all 3) [0; 1; 2]%N ++ create 3 2%N ++ send_one 2%N ++ forward ++ [ORecv (2%N : @Verifier toyP)].
Definition bad_oresult : bool :=
  match bad_onet with
  | Ok a0 =>
      let a := oend 100 bad_orun a0 in
      match offload_returns a with Some (Err _) => true | _ => false end &&
      forallb (fun v => match get (v : @Verifier toyP) (on_nodes a) with
                        | Some (PStop (Ok rep)) => match get (2%N : @Verifier toyP) (rep_provable rep) with
                                                   | Some ev => match verify_evidence (extended simT) ev tt with Ok tt => true | _ => false end
                                                   | None => false
                                                   end
                        | _ => false
                        end) [0; 1]%N
  | _ => false
  end.
Lemma bad_ochecked : bad_oresult = true.
Proof. vm_compute. reflexivity. Qed.

Lemma offload_loses_reports : exists (P : Params) (T : TProto) r sid (eps : list (Signer * EntryPoint (wrap T))) (k : TK T) (x : Ext T k) sd bad modified a0 tr a e,
  NoDup (map (fun p => signer_key (fst p)) eps) /\
  extend_one eps (fun xp => with_extension xp x) = Ok (bad, modified) /\
  onet_start (Pr := extended T) r sid (map (fun p => (fst p, extendable_entry (snd p))) modified) = Ok a0 /\
  oschedule r 100 a0 tr a /\ offload_returns a = Some (Err e) /\
  forall v, v <> bad -> In v (map (fun p => signer_key (fst p)) eps) ->
    exists rep ev, get v (on_nodes a) = Some (PStop (Ok rep)) /\ get bad (rep_provable rep) = Some ev /\ verify_evidence (extended T) ev sd = Ok tt.
Proof.
  destruct bad_extend as (l & Hl & Hps). pose proof bad_ochecked as H. unfold bad_oresult, bad_onet in H. rewrite Hps in H.
  destruct (onet_start rN sid0 _) as [a0|e|] eqn:E0; try discriminate. cbv zeta in H. apply andb_prop in H as [H1 H2].
  destruct (@oend_sched _ 100 bad_orun a0 [] a0 (osched_nil _ _ _)) as [tr Htr].
  set (a := oend 100 bad_orun a0) in *. destruct (offload_returns a) as [[|e|]|] eqn:Er; try discriminate.
  exists toyP, simT, rN, sid0, (make_entry_points 3), SR1, invalid1, tt, (2%N : @Verifier toyP), l, a0, tr, a, e.
  split; [|split; [exact Hl|split; [exact E0|split; [exact Htr|split; [exact Er|]]]]].
  - vm_compute. repeat constructor; simpl; intuition discriminate.
  - intros v Hv Hin. rewrite forallb_forall in H2.
    assert (Hv' : In v [0; 1]%N) by (vm_compute in Hin; destruct Hin as [<-|[<-|[<-|[]]]]; simpl; auto; contradiction).
    specialize (H2 v Hv'). cbv beta in H2. destruct (get v (on_nodes a)) as [[|[rep|?|]]|]; try discriminate.
    exists rep. destruct (get _ (rep_provable rep)) as [ev|]; [|discriminate]. exists ev. repeat split.
    destruct (verify_evidence (extended simT) ev tt) as [[]| |]; try discriminate. reflexivity.
Qed.

(** The texts are readable: round ids have different texts; the tests of simple.rs with the texts they expect. *)
From Coq Require Import List NArith Bool String Ascii Decimal DecimalString DecimalFacts DecimalPos DecimalN Lia.
From Verif Require Import Base BMap Errors RoundId Message Protocol Transcript Evidence Session Spec SpecCrypto Typed Simple Extend SpecExtend
  Network SpecNet NetFacts RunSync RunSyncFacts Misbehave SpecCaught CaughtFacts SimpleTest CaughtSimple TestParams TestParamsFacts Text.
Import ListNotations.
Set Implicit Arguments.
Local Open Scope string_scope.

(** ** Numbers *)
Definition digit (c : ascii) : bool := (Nat.leb 48 (nat_of_ascii c) && Nat.leb (nat_of_ascii c) 57)%bool.
Fixpoint digits (s : string) : bool := match s with "" => true | String c s => (digit c && digits s)%bool end.
Definition no_digit (s : string) : Prop := match s with "" => True | String c _ => digit c = false end.

Lemma digits_empty d : digits (NilEmpty.string_of_uint d) = true.
Proof. induction d; cbn [NilEmpty.string_of_uint digits]; auto. Qed.
Lemma show_digits n : digits (show_N n) = true.
Proof. unfold show_N. destruct (N.to_uint n) eqn:E; cbn [NilZero.string_of_uint]; try reflexivity; apply (digits_empty (_ _)). Qed.
Lemma show_inj n m : show_N n = show_N m -> n = m.
Proof.
  unfold show_N. intros E. apply DecimalN.Unsigned.to_uint_inj.
  assert (K : Some (N.to_uint n) = Some (N.to_uint m)); [|congruence].
  assert (Hn : forall k, N.to_uint k <> Nil) by (intros [|p]; [discriminate|apply DecimalPos.Unsigned.to_uint_nonnil]).
  rewrite <- (NilZero.usu _ (Hn n)), <- (NilZero.usu _ (Hn m)), E. reflexivity.
Qed.
Lemma digits_split a b x y : digits a = true -> digits b = true -> no_digit x -> no_digit y -> a ++ x = b ++ y -> a = b /\ x = y.
Proof.
  revert b. induction a as [|c a IH]; intros [|d b] Ha Hb Hx Hy E; cbn [append] in E.
  - auto.
  - subst x. cbn [no_digit] in Hx. cbn [digits] in Hb. rewrite Hx in Hb. discriminate.
  - subst y. cbn [no_digit] in Hy. cbn [digits] in Ha. rewrite Hy in Ha. discriminate.
  - cbn [digits] in Ha, Hb. apply andb_prop in Ha as [_ Ha]. apply andb_prop in Hb as [_ Hb]. injection E as -> E.
    destruct (IH b Ha Hb Hx Hy E) as [-> ->]. auto.
Qed.

Lemma show_groups l l' r r' (e e' : bool) :
  fold_right (fun g s => show_N g ++ "-" ++ s) (show_N r ++ (if e then " (echo)" else "")) l =
  fold_right (fun g s => show_N g ++ "-" ++ s) (show_N r' ++ (if e' then " (echo)" else "")) l' -> l = l' /\ r = r' /\ e = e'.
Proof.
  assert (Ke : forall e : bool, no_digit (if e then " (echo)" else "")) by (intros []; exact eq_refl || exact I).
  revert l'. induction l as [|g l IH]; intros [|g' l']; cbn [fold_right]; intros E;
    apply digits_split in E as [E1 E2]; auto using show_digits; try reflexivity.
  - apply show_inj in E1. destruct e, e'; auto; discriminate.
  - destruct e; discriminate.
  - destruct e'; discriminate.
  - apply show_inj in E1. injection E2 as E2. destruct (IH _ E2) as (-> & -> & ->). subst g'. auto.
Qed.
Lemma show_rid_inj a b : show_rid a = show_rid b -> a = b.
Proof.
  destruct a as [r g e], b as [r' g' e']. unfold show_rid. cbn [rid_round rid_groups rid_echo append]. intros E. injection E as E.
  destruct (show_groups _ _ _ _ _ _ E) as (Eg & -> & ->). apply (f_equal (@List.rev _)) in Eg. rewrite !rev_involutive in Eg. now subst.
Qed.

(** ** Searching *)
Lemma prefix_app s x : String.prefix s (s ++ x) = true.
Proof. induction s as [|c s IH]; [destruct x; reflexivity|]. cbn [append String.prefix]. destruct (ascii_dec c c) as [_|n]; [exact IH|now destruct n]. Qed.
Lemma contains_app a s x : contains_text (a ++ s ++ x) s = true.
Proof.
  induction a as [|c a IH]; cbn [append].
  - destruct (s ++ x) eqn:E; cbn [contains_text]; rewrite <- E, prefix_app; reflexivity.
  - cbn [contains_text]. rewrite IH. apply orb_true_r.
Qed.
Lemma contains_end a s : contains_text (a ++ s) s = true.
Proof. assert (E : s ++ "" = s) by (induction s as [|c s IH]; cbn [append]; congruence). rewrite <- E at 1. apply contains_app. Qed.

(** ** The tests of simple.rs *)
Lemma described_accepts {P : Params} {R} (tx : Texts R) (n : N) (error : Codec unit) :
  (forall b, c_ser error tt = Some b -> tx_error tx b = "Invalid position") ->
  accepts (described_as tx ("(Round " ++ show_N n ++ "): Invalid position")) n error.
Proof.
  intros Htx ev e p E1 E2 E3 E4. unfold described_as, describe. rewrite E1. unfold trigger_meta. rewrite E3, E4. cbn [rid_round rid_new].
  rewrite (Htx _ E2). exact (contains_end "Protocol error " ("(Round " ++ show_N n ++ "): Invalid position")).
Qed.

(** ** Reports *)
Section Reports.
  Context {P : Params}.
  Context {Pr : Proto}.
  Variable tx : Texts (Rslt Pr).

  Lemma honest_brief (rep : Report (Rslt Pr)) x : rep_outcome rep = OResult x -> rep_provable rep = empty -> rep_unprovable rep = empty -> rep_missing rep = empty ->
    report_result rep = Some x /\ brief tx rep = "Result: Success (" ++ tx_result tx x ++ ")".
  Proof.
    intros E1 E2 E3 E4. unfold report_result, brief. rewrite E1, E2, E3, E4. split; [reflexivity|]. cbn [outcome_brief to_list]. unfold section. cbn.
    do 17 f_equal. induction (tx_result tx x) as [|c s IH]; cbn [append]; congruence.
  Qed.
  Lemma convicted_brief (rep : Report (Rslt Pr)) t ev : rep_outcome rep = OTerminated -> rep_provable rep = insert t ev empty -> rep_unprovable rep = empty ->
    rep_missing rep = empty ->
    report_result rep = None /\
    brief tx rep = "Result: Terminated by the user" ++ newline ++ "Provable errors:" ++ newline ++ "  " ++ tx_id tx t ++ ": " ++ describe tx ev.
  Proof.
    intros E1 E2 E3 E4. unfold report_result, brief. rewrite E1, E2, E3, E4. split; [reflexivity|]. cbn [outcome_brief].
    assert (El : to_list (insert t ev empty) = [(t, ev)]) by reflexivity. rewrite El. unfold section. cbn [map to_list String.concat fst snd].
    assert (En : forall s, s ++ "" = s) by (induction s as [|c s IH]; cbn [append]; congruence).
    cbn [to_list]. rewrite !En. reflexivity.
  Qed.

  Lemma app_assoc3 (a b c : string) : (a ++ b) ++ c = a ++ (b ++ c).
  Proof. induction a as [|x a IH]; cbn [append]; [reflexivity|]. rewrite IH. reflexivity. Qed.
  Lemma concat_parts sep (l : list string) x : In x l -> exists a b, String.concat sep l = a ++ x ++ b.
  Proof.
    induction l as [|y l IH]; [contradiction|]. intros [->|H].
    - destruct l as [|z l]; [exists "", ""; cbn; clear; induction x as [|c s IH]; cbn [append]; congruence|].
      exists "", (sep ++ String.concat sep (z :: l)). reflexivity.
    - destruct (IH H) as (a & b & E). destruct l as [|z l]; [contradiction|]. exists (y ++ sep ++ a), b.
      change (String.concat sep (y :: z :: l)) with (y ++ sep ++ String.concat sep (z :: l)). rewrite E, !app_assoc3. reflexivity.
  Qed.
  Lemma section_parts title (l : list string) x : In x l -> exists a b, section title l = a ++ x ++ b.
  Proof.
    intros H. destruct (concat_parts newline _ _ H) as (a & b & E). destruct l as [|y l]; [contradiction|].
    exists (newline ++ title ++ newline ++ a), b. unfold section. rewrite E, !app_assoc3. reflexivity.
  Qed.
  Lemma contains_mid a t b : contains_text (a ++ t ++ b) t = true.
  Proof. apply contains_app. Qed.

  Lemma brief_complete (rep : Report (Rslt Pr)) :
    (forall v ev, get v (rep_provable rep) = Some ev -> contains_text (brief tx rep) ("  " ++ tx_id tx v ++ ": " ++ describe tx ev) = true) /\
    (forall v e, get v (rep_unprovable rep) = Some e -> contains_text (brief tx rep) ("  " ++ tx_id tx v ++ ": Remote error: " ++ tx_remote tx e) = true) /\
    (forall rid vs, get rid (rep_missing rep) = Some vs -> contains_text (brief tx rep) ("  " ++ show_rid rid ++ ": " ++ tx_ids tx vs) = true) /\
    String.prefix ("Result: " ++ outcome_brief tx (rep_outcome rep)) (brief tx rep) = true.
  Proof.
    unfold brief. repeat split.
    - intros v ev H. apply in_to_list in H. apply (in_map (fun kv => "  " ++ tx_id tx (fst kv) ++ ": " ++ describe tx (snd kv))) in H.
      destruct (section_parts "Provable errors:" _ _ H) as (a & b & E). rewrite E. cbn [fst snd].
      match goal with |- contains_text (?r ++ ?o ++ (a ++ ?x ++ b) ++ ?c ++ ?d) ?y = true =>
        replace (r ++ o ++ (a ++ x ++ b) ++ c ++ d) with ((r ++ o ++ a) ++ y ++ (b ++ c ++ d)); [apply contains_mid|rewrite !app_assoc3; reflexivity] end.
    - intros v ev H. apply in_to_list in H. apply (in_map (fun kv => "  " ++ tx_id tx (fst kv) ++ ": Remote error: " ++ tx_remote tx (snd kv))) in H.
      destruct (section_parts "Unprovable errors:" _ _ H) as (a & b & E). rewrite E. cbn [fst snd].
      match goal with |- contains_text (?r ++ ?o ++ ?c ++ (a ++ ?x ++ b) ++ ?d) ?y = true =>
        replace (r ++ o ++ c ++ (a ++ x ++ b) ++ d) with ((r ++ o ++ c ++ a) ++ y ++ (b ++ d)); [apply contains_mid|rewrite !app_assoc3; reflexivity] end.
    - intros rid vs H. apply in_to_list in H. apply (in_map (fun kv => "  " ++ show_rid (fst kv) ++ ": " ++ tx_ids tx (snd kv))) in H.
      destruct (section_parts "Missing messages:" _ _ H) as (a & b & E). rewrite E. cbn [fst snd].
      match goal with |- contains_text (?r ++ ?o ++ ?c ++ ?d ++ (a ++ ?x ++ b)) ?y = true =>
        replace (r ++ o ++ c ++ d ++ (a ++ x ++ b)) with ((r ++ o ++ c ++ d ++ a) ++ y ++ b); [apply contains_mid|rewrite !app_assoc3; reflexivity] end.
    - rewrite <- !app_assoc3. rewrite !(app_assoc3 ("Result: " ++ _)). apply prefix_app.
  Qed.

  Lemma honest_briefs r sid parties (ep : Verifier -> EntryPoint Pr) (h : Plan Pr) sk :
    signers parties sk -> wire_total P -> signatures_correct P -> honest_run r sid parties ep h ->
    forall picks,
    (exists n v u, n <= pl_last h /\ mem v parties = true /\
       (mem u (pl_dest h n v) = true \/ (echoes h n v = true /\ mem u (partners h n v) = true))) ->
    exists fuel0 reports, (forall fuel, fuel0 <= fuel ->
        run_sync fuel r picks sid (map (fun v => (sk v, ep v)) (elements parties)) = Some (Ok reports)) /\
      forall v, mem v parties = true -> exists rep, get v reports = Some rep /\
        report_result rep = Some (pl_result h v) /\ brief tx rep = "Result: Success (" ++ tx_result tx (pl_result h v) ++ ")".
  Proof.
    intros Hs Hw Hg Hh picks Ht. destruct (@run_sync_completes P Pr r sid parties ep h sk Hs Hw Hg Hh picks Ht) as (f & reports & results & E & _ & H & _).
    exists f, reports. split; [exact E|]. intros v Hv. destruct (H v Hv) as (rep & Er & E1 & E2 & E3 & E4). exists rep. split; [exact Er|].
    exact (@honest_brief rep _ E1 E2 E3 E4).
  Qed.
  Lemma convicted_briefs f r sid parties (ep : Verifier -> EntryPoint Pr) (h : Plan (with_receive Pr f)) sk :
    signers parties sk -> wire_total P -> signatures_correct P -> plain_ids Pr ->
    honest_run r sid parties (fun v => ep_with f (ep v)) h ->
    forall t k sd, one_fault sid parties h t k sd -> (exists v, mem v parties = true /\ v <> t) ->
    forall picks, exists fuel0 reports,
      (forall fuel, fuel0 <= fuel -> run_sync fuel r picks sid (map (fun v => (sk v, ep v)) (elements parties)) = Some (Ok reports)) /\
      forall v, mem v parties = true -> v <> t -> exists rep ev, get v reports = Some rep /\ proof_against sid h t k sd v ev /\ report_result rep = None /\
        brief tx rep = "Result: Terminated by the user" ++ newline ++ "Provable errors:" ++ newline ++ "  " ++ tx_id tx t ++ ": " ++ describe tx ev.
  Proof.
    intros Hs Hw Hg Hp Hh t k sd Hf Ho picks. destruct (@run_sync_convicts P Pr f r sid parties ep h sk Hs Hw Hg Hp Hh t k sd Hf Ho picks) as (f0 & reports & E & _ & _ & H).
    exists f0, reports. split; [exact E|]. intros v Hv Hn. destruct (H v Hv Hn) as (rep & ev & Er & E1 & E2 & E3 & E4 & Hpr). exists rep, ev.
    split; [exact Er|]. split; [exact Hpr|]. exact (@convicted_brief rep _ _ E1 E2 E3 E4).
  Qed.
End Reports.

(** Facts about the message queue of dev/run_sync.rs. *)
From Coq Require Import List NArith Bool Arith Lia Permutation.
From Verif Require Import Base BMap Errors RoundId Message Protocol Transcript Evidence Session Spec Network RunSync SpecSync.
Import ListNotations.
Set Implicit Arguments.

Lemma take_nth_spec {A} i : forall (l : list A), match take_nth i l with
  | Some (x, rest) => i < length l /\ nth_error l i = Some x /\ rest = firstn i l ++ skipn (S i) l
  | None => length l <= i
  end.
Proof.
  induction i as [|i IH]; intros [|y l]; simpl; try lia.
  - repeat split; auto; lia.
  - specialize (IH l). destruct (take_nth i l) as [[x rest]|]; [|lia]. destruct IH as (H1 & H2 & H3). split; [lia|]. split; auto. simpl. now rewrite H3.
Qed.
Lemma take_nth_perm {A} i (l : list A) x rest : take_nth i l = Some (x, rest) -> Permutation l (x :: rest).
Proof.
  revert l x rest. induction i as [|i IH]; intros [|y l] x rest H; try discriminate H; cbn [take_nth] in H.
  - inv H. auto.
  - destruct (take_nth i l) as [[z rest']|] eqn:E; [|discriminate]. inv H. rewrite (IH _ _ _ E). constructor.
Qed.
Lemma take_last {A} (l : list A) x : take_nth (length l) (l ++ [x]) = Some (x, l).
Proof. induction l as [|y l IH]; auto. cbn [length take_nth app]. now rewrite IH. Qed.

Lemma nil_or_snoc {A} (l : list A) : l = [] \/ exists f y, l = f ++ [y].
Proof. destruct l as [|x l]; auto. right. destruct (@exists_last _ (x :: l)) as (f & y & E); [discriminate|]. eauto. Qed.

Lemma swap_remove_perm {A} i (l : list A) x l' : swap_remove i l = Some (x, l') -> Permutation l (x :: l').
Proof.
  unfold swap_remove. intros H. destruct (take_nth i l) as [[z rest]|] eqn:Ei; [|discriminate].
  destruct (@nil_or_snoc _ l) as [->|(f & y & ->)]; [destruct i; discriminate|].
  rewrite app_length in H. simpl in H. rewrite Nat.add_sub, take_last in H. inv H.
  pose proof (take_nth_spec i (f ++ [y])) as S. rewrite Ei in S. destruct S as (Hlt & Hn & _). rewrite app_length in Hlt. simpl in Hlt.
  destruct (Nat.eqb_spec i (length f)) as [->|Hne].
  - rewrite nth_error_app2, Nat.sub_diag in Hn by lia. simpl in Hn. inv Hn. symmetry. apply Permutation_cons_append.
  - rewrite nth_error_app1 in Hn by lia. pose proof (take_nth_spec i f) as S. destruct (take_nth i f) as [[w rest']|] eqn:Ef; [|lia].
    destruct S as (_ & Hn' & ->). assert (w = x) by congruence. subst w.
    eapply Permutation_trans; [apply Permutation_app_tail, (take_nth_perm _ _ Ef)|]. simpl. apply perm_skip.
    rewrite <- app_assoc. apply Permutation_app_head. symmetry. apply Permutation_cons_append.
Qed.

Lemma swap_remove_total {A} i (l : list A) : i < length l -> exists x l', swap_remove i l = Some (x, l').
Proof.
  intros H. unfold swap_remove. pose proof (take_nth_spec i l) as S. destruct (take_nth i l) as [[x rest]|]; [|lia].
  pose proof (take_nth_spec (length l - 1) l) as S2. destruct (take_nth (length l - 1) l) as [[y rest2]|]; [|lia]. eauto.
Qed.

Section Maps.
  Context {K} `{OK : Ord K} {V : Type}.

  Lemma NoDup_to_list (m : bmap K V) : NoDup (to_list m).
  Proof. apply NoDup_map_inv with (f := fst). apply (NoDup_keys m). Qed.
  Lemma perm_remove k l (m : bmap K V) : get k m = Some l -> Permutation (to_list m) ((k, l) :: to_list (remove k m)).
  Proof.
    intros H. apply NoDup_Permutation; [apply NoDup_to_list| |].
    - constructor; [|apply NoDup_to_list]. rewrite in_to_list, get_remove_eq. discriminate.
    - intros [k' l']. cbn [In]. rewrite !in_to_list, get_remove. destruct (eqb_spec k' k) as [->|Hne].
      + rewrite H. split; [intros E; inv E; auto|intros [E|E]; [inv E; auto|discriminate]].
      + split; auto. intros [E|E]; auto. inv E. congruence.
  Qed.
  Lemma perm_insert k l (m : bmap K V) : Permutation (to_list (insert k l m)) ((k, l) :: to_list (remove k m)).
  Proof. rewrite <- (@remove_insert _ _ _ k l m). apply perm_remove. apply get_insert_eq. Qed.
End Maps.

Section WithParams.
  Context {P : Params}.

  Definition contents (q : Messages) : list RMsg :=
    match q with Ordered m => concat (map snd (to_list m)) | Unordered v => v end.
  Definition queued (v : Verifier) (q : Messages) : list RMsg :=
    match q with Ordered m => match get v m with Some l => l | None => [] end | Unordered l => sent_by v l end.
  Definition qok (q : Messages) : Prop :=
    match q with
    | Ordered m => forall v l, get v m = Some l -> l <> [] /\ forall x, In x l -> rm_from x = v
    | Unordered _ => True
    end.

  Lemma contents_perm (m m' : bmap Verifier (list RMsg)) l : Permutation (to_list m) (l :: to_list m') ->
    Permutation (contents (Ordered m)) (snd l ++ contents (Ordered m')).
  Proof.
    intros H. cbn [contents]. rewrite <- !flat_map_concat_map. rewrite (Permutation_flat_map snd H). reflexivity.
  Qed.

  Lemma q_new_ok b : qok (q_new b) /\ contents (q_new b) = [].
  Proof. destruct b; split; simpl; auto. intros v l H. rewrite get_empty in H. discriminate. Qed.

  Lemma q_push_ok q x : qok q -> qok (q_push q x) /\ Permutation (contents (q_push q x)) (contents q ++ [x]).
  Proof.
    destruct q as [m|l]; simpl; [|auto]. intros Hq. split.
    - intros v l. rewrite get_insert. destruct (eqb_spec v (rm_from x)) as [->|Hne]; [|apply Hq].
      intros E. inv E. destruct (get (rm_from x) m) as [l|] eqn:E.
      + split; [destruct l; discriminate|]. intros y Hy. apply in_app_iff in Hy as [Hy|[Hy|[]]]; [apply (Hq _ _ E); auto|now subst].
      + split; [discriminate|]. intros y [Hy|[]]. now subst.
    - set (l := match get (rm_from x) m with Some l => l ++ [x] | None => [x] end).
      pose proof (contents_perm _ _ (perm_insert (rm_from x) l m)) as H1.
      cbn [contents] in H1. rewrite H1. unfold l. cbn [snd]. destruct (get (rm_from x) m) as [l0|] eqn:E.
      + pose proof (contents_perm _ _ (perm_remove _ _ E)) as H2. cbn [contents snd] in H2. rewrite H2, <- app_assoc, <- app_assoc. 
        apply Permutation_app_head. apply Permutation_app_comm.
      + rewrite (remove_none _ _ E). apply (Permutation_app_comm [x]).
  Qed.

  Lemma q_extend_ok l : forall q, qok q -> qok (q_extend q l) /\ Permutation (contents (q_extend q l)) (contents q ++ l).
  Proof.
    unfold q_extend. induction l as [|x l IH]; simpl; intros q Hq; [rewrite app_nil_r; auto|].
    destruct (@q_push_ok _ x Hq) as [H1 H2]. destruct (IH _ H1) as [H3 H4]. split; auto. rewrite H4, H2, <- app_assoc. reflexivity.
  Qed.

  Lemma q_len_zero q : qok q -> (q_len q = 0 <-> contents q = []).
  Proof.
    destruct q as [m|l]; [|destruct l; simpl; split; congruence]. cbn [q_len contents qok]. intros Hq.
    change (keys m) with (map fst (to_list m)). destruct (to_list m) as [|[k l] t] eqn:E; simpl; [tauto|].
    assert (Hk : get k m = Some l) by (apply in_to_list; rewrite E; now left). destruct (Hq _ _ Hk) as [Hne _].
    split; [discriminate|]. destruct l; [congruence|discriminate].
  Qed.
  Lemma q_empty_iff q : qok q -> (q_is_empty q = true <-> contents q = []).
  Proof.
    intros Hq. rewrite <- (q_len_zero _ Hq). destruct q as [m|[|x l]]; [|simpl; tauto|simpl; split; discriminate].
    cbn [q_len q_is_empty]. rewrite is_empty_spec. split; [intros ->; reflexivity|]. change (keys m) with (map fst (to_list m)). destruct (to_list m) eqn:E; [|discriminate].
    intros _. apply bmap_eq. exact E.
  Qed.

  Lemma q_pop_ok i q x q' : qok q -> q_pop i q = Some (x, q') -> qok q' /\ Permutation (contents q) (x :: contents q').
  Proof.
    unfold q_pop. intros Hq. destruct (Nat.eqb (q_len q) 0); [discriminate|]. cbv zeta. generalize (i mod q_len q) as idx. intros idx.
    destruct q as [m|l].
    - destruct (nth_error (keys m) idx) as [v|]; [|discriminate]. destruct (get v m) as [[|y rest]|] eqn:E; try discriminate. intros H. inv H.
      destruct (Hq _ _ E) as [_ Hfrom]. pose proof (contents_perm _ _ (perm_remove _ _ E)) as H2. cbn [snd] in H2. destruct rest as [|z rest]; simpl is_nil; cbv iota.
      + split; [|exact H2]. intros w l. rewrite get_remove. destruct (eqb_spec w v); [discriminate|apply Hq].
      + split.
        * intros w l. rewrite get_insert. destruct (eqb_spec w v) as [->|]; [|apply Hq]. intros Hl. inv Hl. split; [discriminate|]. intros y Hy. apply Hfrom. now right.
        * pose proof (contents_perm _ _ (perm_insert v (z :: rest) m)) as H1. cbn [snd] in H1. rewrite H2, H1. reflexivity.
    - destruct (swap_remove idx l) as [[y l']|] eqn:E; [|discriminate]. intros H. inv H. split; [exact I|]. exact (swap_remove_perm _ _ E).
  Qed.

  Lemma q_pop_total i q : qok q -> contents q <> [] -> exists x q', q_pop i q = Some (x, q').
  Proof.
    intros Hq Hne. unfold q_pop. destruct (Nat.eqb_spec (q_len q) 0) as [E|E]; [apply (q_len_zero _ Hq) in E; contradiction|].
    cbv zeta. pose proof (Nat.mod_upper_bound i (q_len q) E) as Hlt. destruct q as [m|l].
    - simpl in Hlt. assert (Hs : nth_error (keys m) (i mod length (keys m)) <> None) by now apply nth_error_Some.
      cbn [q_len]. destruct (nth_error (keys m) (i mod length (keys m))) as [v|] eqn:Ev; [|congruence].
      apply nth_error_In, in_keys, contains_get in Ev as [l Hl]. rewrite Hl. destruct (Hq _ _ Hl) as [Hl' _]. destruct l; [congruence|]. eauto.
    - simpl in *. destruct (swap_remove_total _ Hlt) as (x & l' & ->). eauto.
  Qed.
  Lemma q_pop_empty i q : qok q -> contents q = [] -> q_pop i q = None.
  Proof. intros Hq H. apply (q_len_zero _ Hq) in H. unfold q_pop. rewrite H. reflexivity. Qed.

  (** Histories *)
  Lemma history_ok b pushed popped q : history b pushed popped q -> qok q /\ Permutation pushed (popped ++ contents q).
  Proof.
    induction 1 as [|pushed popped q x _ [Hq IH]|pushed popped q i x q' _ [Hq IH] Hp].
    - destruct (q_new_ok b) as [H1 ->]. auto.
    - destruct (@q_push_ok _ x Hq) as [H1 H2]. split; auto. rewrite H2, IH, app_assoc. reflexivity.
    - destruct (q_pop_ok _ _ Hq Hp) as [H1 H2]. split; auto. rewrite IH, H2, <- app_assoc. reflexivity.
  Qed.

  Lemma sent_by_app v l l' : sent_by v (l ++ l') = sent_by v l ++ sent_by v l'.
  Proof. apply filter_app. Qed.
  Lemma sent_by_all v l : (forall x, In x l -> rm_from x = v) -> sent_by v l = l.
  Proof. induction l as [|x l IH]; simpl; intros H; auto. rewrite (H x) by auto. rewrite eqb_refl, IH; auto. Qed.
  Lemma sent_by_none v l : (forall x, In x l -> rm_from x <> v) -> sent_by v l = [].
  Proof. induction l as [|x l IH]; simpl; intros H; auto. destruct (eqb_spec (rm_from x) v) as [E|]; [destruct (H x); auto|auto]. Qed.

  Lemma queued_contents v q : qok q -> sent_by v (contents q) = queued v q.
  Proof.
    destruct q as [m|l]; simpl; auto. intros Hq.
    assert (K : forall t, (forall k l, In (k, l) t -> forall x, In x l -> rm_from x = k) -> NoDup (map fst t) ->
      (forall l, In (v, l) t -> sent_by v (concat (map snd t)) = l) /\ (~ In v (map fst t) -> sent_by v (concat (map snd t)) = [])).
    { induction t as [|[k l] t IH]; simpl; intros Hf Hnd; [split; [contradiction|auto]|]. apply NoDup_cons_iff in Hnd as [Hk Hnd].
      destruct (IH ltac:(eauto) Hnd) as [H1 H2]. rewrite sent_by_app. split.
      - intros l0 [E|Hin].
        + inv E. rewrite H2 by auto. rewrite app_nil_r. apply sent_by_all. eauto.
        + rewrite (H1 _ Hin), sent_by_none; auto. intros x Hx E. apply Hk. rewrite <- (Hf k l (or_introl eq_refl) x Hx), E.
          apply in_map_iff. exists (v, l0). auto.
      - intros Hn. rewrite H2 by tauto. rewrite app_nil_r. apply sent_by_none. intros x Hx E. apply Hn. left. rewrite <- E. symmetry. eauto. }
    destruct (K (to_list m)) as [H1 H2].
    - intros k l Hin. apply in_to_list in Hin. apply (Hq _ _ Hin).
    - apply (NoDup_keys m).
    - destruct (get v m) as [l|] eqn:E.
      + apply H1. now apply in_to_list.
      + apply H2. intros Hin. apply (proj1 (@in_keys _ _ _ v m)) in Hin. apply contains_get in Hin as [l Hl]. congruence.
  Qed.

  Lemma history_order pushed popped q v : history true pushed popped q -> exists m, q = Ordered m /\ sent_by v pushed = sent_by v popped ++ queued v q.
  Proof.
    intros H. pose proof (history_ok H) as [Hok _]. revert Hok. induction H as [|pushed popped q x Hh IH|pushed popped q i x q' Hh IH Hp]; intros Hok.
    - exists empty. split; [reflexivity|]. reflexivity.
    - destruct (IH (proj1 (history_ok Hh))) as (m & -> & E). eexists. split; [reflexivity|]. rewrite sent_by_app, E. simpl. rewrite get_insert.
      destruct (eqb_spec (rm_from x) v) as [<-|Hne].
      + rewrite eqb_refl. destruct (get (rm_from x) m); simpl; rewrite ?app_nil_r, <- ?app_assoc; reflexivity.
      + destruct (eqb_spec v (rm_from x)); [congruence|]. now rewrite app_nil_r.
    - pose proof (proj1 (history_ok Hh)) as Hq. destruct (IH Hq) as (m & -> & E). rewrite sent_by_app, E, <- app_assoc. revert Hp. unfold q_pop.
      destruct (Nat.eqb _ 0); [discriminate|]. cbv zeta. destruct (nth_error (keys m) _) as [u|]; [|discriminate].
      destruct (get u m) as [[|y rest]|] eqn:Eu; try discriminate. intros Hp. inv Hp. eexists. split; [reflexivity|]. f_equal.
      destruct (Hq _ _ Eu) as [_ Hf]. simpl. rewrite (Hf x (or_introl eq_refl)). destruct rest as [|z rest]; cbn [is_nil].
      + rewrite get_remove. destruct (eqb_spec v u) as [->|Hne].
        * rewrite eqb_refl, Eu. reflexivity.
        * destruct (eqb_spec u v); [congruence|]. reflexivity.
      + rewrite get_insert. destruct (eqb_spec v u) as [->|Hne].
        * rewrite eqb_refl, Eu. reflexivity.
        * destruct (eqb_spec u v); [congruence|]. reflexivity.
  Qed.

  (** Everything that was pushed and not popped is still there; nothing else is. *)
  Lemma queue_exact b pushed popped q : history b pushed popped q ->
    exists rest, Permutation pushed (popped ++ rest) /\
      (q_is_empty q = true <-> rest = []) /\
      (forall i, q_pop i q = None <-> rest = []) /\
      (forall i x q', q_pop i q = Some (x, q') -> In x rest).
  Proof.
    intros H. destruct (history_ok H) as [Hq Hp]. exists (contents q). split; auto. split; [now apply q_empty_iff|]. split.
    - intros i. split; [|now apply q_pop_empty]. intros E. destruct (contents q) eqn:Ec; auto. destruct (@q_pop_total i q Hq) as (x & q' & Ex); [congruence|]. congruence.
    - intros i x q' Hx. destruct (q_pop_ok _ _ Hq Hx) as [_ Hc]. rewrite Hc. now left.
  Qed.

  Lemma queue_ordered pushed popped q : history true pushed popped q -> forall v, exists rest, sent_by v pushed = sent_by v popped ++ rest.
  Proof. intros H v. destruct (history_order v H) as (m & _ & E). eauto. Qed.

  Lemma queue_drained b pushed popped q : history b pushed popped q -> q_is_empty q = true ->
    Permutation pushed popped /\ (b = true -> forall v, sent_by v pushed = sent_by v popped).
  Proof.
    intros H He. destruct (history_ok H) as [Hq Hp]. apply (q_empty_iff _ Hq) in He. rewrite He, app_nil_r in Hp. split; auto. intros -> v.
    destruct (history_order v H) as (m & -> & E). rewrite <- queued_contents, He in E by auto. now rewrite app_nil_r in E.
  Qed.

  (** Every sender's first message, in unordered mode every message, can be the next one. *)
  Lemma nth_keys (m : bmap Verifier (list RMsg)) v : contains v m = true -> exists i, i < length (keys m) /\ nth_error (keys m) i = Some v.
  Proof. intros H. apply in_keys, In_nth_error in H as [i Hi]. exists i. split; auto. apply nth_error_Some. congruence. Qed.
  Lemma queue_any_sender pushed popped q v x rest : history true pushed popped q ->
    sent_by v pushed = sent_by v popped ++ x :: rest -> exists i q', q_pop i q = Some (x, q').
  Proof.
    intros H E. destruct (history_order v H) as (m & -> & E'). rewrite E in E'. apply app_inv_head in E'. cbn [queued] in E'.
    destruct (get v m) as [l|] eqn:El; [|discriminate]. subst l. destruct (nth_keys m v) as (i & Hi & Hn); [apply contains_get; eauto|].
    exists i. unfold q_pop. cbn [q_len]. destruct (Nat.eqb_spec (length (keys m)) 0); [lia|]. rewrite Nat.mod_small by auto. rewrite Hn, El. eauto.
  Qed.
  Lemma queue_any_message pushed popped q x rest : history false pushed popped q -> Permutation pushed (popped ++ x :: rest) ->
    exists i q', q_pop i q = Some (x, q').
  Proof.
    intros H Hp. destruct (history_ok H) as [_ Hc]. assert (Hu : exists l, q = Unordered l).
    { clear -H. induction H as [|pushed popped q y _ [l ->]|pushed popped q i y q' _ [l ->] Hp]; simpl; eauto.
      unfold q_pop in Hp. destruct (Nat.eqb _ 0); [discriminate|]. cbv zeta in Hp. destruct (swap_remove _ _) as [[z l']|]; [inv Hp; eauto|discriminate]. }
    destruct Hu as [l ->]. cbn [contents] in Hc. rewrite Hp in Hc. apply Permutation_app_inv_l in Hc.
    assert (Hin : In x l) by (rewrite <- Hc; now left). apply In_nth_error in Hin as [i Hi].
    assert (Hlt : i < length l) by (apply nth_error_Some; congruence).
    exists i. unfold q_pop. cbn [q_len]. destruct (Nat.eqb_spec (length l) 0); [lia|]. rewrite Nat.mod_small by auto.
    destruct (swap_remove_total l Hlt) as (y & l' & E). rewrite E. assert (y = x); [|subst; eauto].
    revert E. unfold swap_remove. pose proof (take_nth_spec i l) as S. destruct (take_nth i l) as [[z rest']|]; [|lia].
    destruct S as (_ & Hz & _). destruct (take_nth _ l) as [[w f]|]; [|discriminate]. intros E. inv E. congruence.
  Qed.
End WithParams.

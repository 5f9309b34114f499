(** [BTreeMap] and [BTreeSet] (alloc::collections) as key-sorted association lists.
    Iteration is in increasing key order, as in Rust. *)
From Coq Require Import List Bool Lia Eqdep_dec.
From Verif Require Import Base.
Import ListNotations.
Set Implicit Arguments.

(** Rust's [Ord] with its contract. *)
Class Ord (A : Type) := {
  cmp : A -> A -> comparison;
  cmp_eq : forall x y, cmp x y = Eq <-> x = y;
  cmp_anti : forall x y, cmp y x = CompOpp (cmp x y);
  cmp_trans : forall x y z, cmp x y = Lt -> cmp y z = Lt -> cmp x z = Lt
}.

Definition eqb {A} `{Ord A} (x y : A) : bool := match cmp x y with Eq => true | _ => false end.

Section OrdFacts.
  Context {A : Type} {OA : Ord A}.
  Lemma cmp_refl (x : A) : cmp x x = Eq.
  Proof. now apply cmp_eq. Qed.
  Lemma cmp_gt (x y : A) : cmp x y = Gt <-> cmp y x = Lt.
  Proof. rewrite (cmp_anti x y). destruct (cmp x y); simpl; split; congruence. Qed.
  Lemma eqb_spec (x y : A) : reflect (x = y) (eqb x y).
  Proof.
    unfold eqb. destruct (cmp x y) eqn:E; constructor.
    - now apply cmp_eq.
    - intros ->. rewrite cmp_refl in E. discriminate.
    - intros ->. rewrite cmp_refl in E. discriminate.
  Qed.
  Lemma eqb_refl (x : A) : eqb x x = true.
  Proof. unfold eqb. now rewrite cmp_refl. Qed.
  Lemma eqb_eq (x y : A) : eqb x y = true <-> x = y.
  Proof. destruct (eqb_spec x y); split; congruence. Qed.
  Lemma eqb_neq (x y : A) : eqb x y = false <-> x <> y.
  Proof. destruct (eqb_spec x y); split; congruence. Qed.
  Lemma eqb_sym (x y : A) : eqb x y = eqb y x.
  Proof. destruct (eqb_spec x y), (eqb_spec y x); congruence. Qed.
  Lemma ord_dec (x y : A) : {x = y} + {x <> y}.
  Proof. destruct (eqb_spec x y); auto. Qed.
End OrdFacts.

Section Raw.
  Context {K V : Type} {OK : Ord K}.

  Definition lbound (k : K) (l : list (K * V)) : bool :=
    match l with
    | [] => true
    | (k', _) :: _ => match cmp k k' with Lt => true | _ => false end
    end.

  Fixpoint sortedb (l : list (K * V)) : bool :=
    match l with
    | [] => true
    | (k, _) :: l => (lbound k l && sortedb l)%bool
    end.

  Fixpoint rget (k : K) (l : list (K * V)) : option V :=
    match l with
    | [] => None
    | (k', v) :: l => match cmp k k' with Eq => Some v | Lt => None | Gt => rget k l end
    end.

  Fixpoint rins (k : K) (v : V) (l : list (K * V)) : list (K * V) :=
    match l with
    | [] => [(k, v)]
    | (k', v') :: l' =>
        match cmp k k' with
        | Eq => (k, v) :: l'
        | Lt => (k, v) :: l
        | Gt => (k', v') :: rins k v l'
        end
    end.

  Fixpoint rdel (k : K) (l : list (K * V)) : list (K * V) :=
    match l with
    | [] => []
    | (k', v') :: l' =>
        match cmp k k' with
        | Eq => l'
        | Lt => l
        | Gt => (k', v') :: rdel k l'
        end
    end.

  Lemma lbound_trans k k' l : cmp k k' = Lt -> lbound k' l = true -> lbound k l = true.
  Proof.
    destruct l as [|[k2 v2] l]; simpl; auto. intros H1 H2.
    destruct (cmp k' k2) eqn:E; try discriminate. now rewrite (cmp_trans _ _ _ H1 E).
  Qed.

  Lemma rget_lbound k l : sortedb l = true -> lbound k l = true -> rget k l = None.
  Proof.
    destruct l as [|[k' v] l]; simpl; auto. intros _. destruct (cmp k k'); congruence.
  Qed.

  Lemma lbound_rins k k' v l : cmp k k' = Lt -> lbound k l = true -> lbound k (rins k' v l) = true.
  Proof.
    destruct l as [|[k2 v2] l]; simpl; intros H1 H2; [now rewrite H1|].
    destruct (cmp k' k2) eqn:E; simpl; try now rewrite H1. exact H2.
  Qed.

  Lemma sorted_rins k v l : sortedb l = true -> sortedb (rins k v l) = true.
  Proof.
    induction l as [|[k' v'] l IH]; simpl; auto. intros H. apply andb_true_iff in H as [H1 H2].
    destruct (cmp k k') eqn:E; simpl; rewrite ?andb_true_iff.
    - apply cmp_eq in E; subst; auto.
    - rewrite E; auto.
    - split; auto. apply lbound_rins; auto. now apply cmp_gt.
  Qed.

  Lemma lbound_rdel k k' l : sortedb l = true -> lbound k l = true -> lbound k (rdel k' l) = true.
  Proof.
    destruct l as [|[k2 v2] l]; simpl; auto. intros H1 H2. apply andb_true_iff in H1 as [H1 H3].
    destruct (cmp k' k2) eqn:E; simpl; auto.
    destruct (cmp k k2) eqn:E2; try discriminate. eapply lbound_trans; eauto.
  Qed.

  Lemma sorted_rdel k l : sortedb l = true -> sortedb (rdel k l) = true.
  Proof.
    induction l as [|[k' v'] l IH]; simpl; auto. intros H. apply andb_true_iff in H as [H1 H2].
    destruct (cmp k k') eqn:E; simpl; rewrite ?andb_true_iff; auto.
    split; auto. now apply lbound_rdel.
  Qed.

  Lemma rget_rins k k' v l : sortedb l = true ->
    rget k (rins k' v l) = if eqb k k' then Some v else rget k l.
  Proof.
    unfold eqb. induction l as [|[k2 v2] l IH]; simpl; intros H.
    - destruct (cmp k k'); auto.
    - apply andb_true_iff in H as [H1 H2].
      destruct (cmp k' k2) eqn:E; simpl.
      + apply cmp_eq in E; subst. destruct (cmp k k2); auto.
      + destruct (cmp k k') eqn:E2; auto.
        now rewrite (cmp_trans _ _ _ E2 E).
      + destruct (cmp k k2) eqn:E3.
        * apply cmp_eq in E3; subst. apply cmp_gt in E. now rewrite E.
        * apply cmp_gt in E. now rewrite (cmp_trans _ _ _ E3 E).
        * auto.
  Qed.

  Lemma rget_rdel k k' l : sortedb l = true ->
    rget k (rdel k' l) = if eqb k k' then None else rget k l.
  Proof.
    unfold eqb. induction l as [|[k2 v2] l IH]; simpl; intros H.
    - destruct (cmp k k'); auto.
    - apply andb_true_iff in H as [H1 H2].
      destruct (cmp k' k2) eqn:E; simpl.
      + apply cmp_eq in E; subst. destruct (cmp k k2) eqn:E; auto.
        * apply cmp_eq in E; subst. now apply rget_lbound.
        * apply rget_lbound; auto. eapply lbound_trans; eauto.
      + destruct (cmp k k') eqn:E2; auto.
        apply cmp_eq in E2; subst. now rewrite E.
      + destruct (cmp k k2) eqn:E3.
        * apply cmp_eq in E3; subst. apply cmp_gt in E. now rewrite E.
        * apply cmp_gt in E. now rewrite (cmp_trans _ _ _ E3 E).
        * auto.
  Qed.

  Lemma raw_ext l1 l2 : sortedb l1 = true -> sortedb l2 = true ->
    (forall k, rget k l1 = rget k l2) -> l1 = l2.
  Proof.
    revert l2; induction l1 as [|[k1 v1] l1 IH]; destruct l2 as [|[k2 v2] l2]; simpl; intros H1 H2 H; auto.
    - specialize (H k2). simpl in H. rewrite cmp_refl in H. discriminate.
    - specialize (H k1). simpl in H. rewrite cmp_refl in H. discriminate.
    - apply andb_true_iff in H1 as [B1 S1]. apply andb_true_iff in H2 as [B2 S2].
      assert (E : cmp k1 k2 = Eq).
      { destruct (cmp k1 k2) eqn:E; auto.
        - specialize (H k1). rewrite cmp_refl, E in H. discriminate.
        - specialize (H k2). apply cmp_gt in E. rewrite cmp_refl, E in H. discriminate. }
      apply cmp_eq in E; subst k2.
      pose proof (H k1) as Hk. rewrite cmp_refl in Hk. inv Hk. f_equal.
      apply IH; auto. intros k. specialize (H k).
      destruct (cmp k k1) eqn:E; auto.
      + apply cmp_eq in E; subst. now rewrite !rget_lbound.
      + rewrite !rget_lbound; auto; eapply lbound_trans; eauto.
  Qed.

  Lemma rget_in k v l : sortedb l = true -> (rget k l = Some v <-> In (k, v) l).
  Proof.
    induction l as [|[k' v'] l IH]; simpl; intros H; [split; [discriminate|tauto]|].
    apply andb_true_iff in H as [B S]. specialize (IH S).
    destruct (cmp k k') eqn:E.
    - apply cmp_eq in E; subst. split.
      + intros [= ->]; auto.
      + intros [[= ->]|Hin]; auto. apply IH in Hin. rewrite rget_lbound in Hin; auto. discriminate.
    - split; [discriminate|]. intros [[= -> ->]|Hin].
      + rewrite cmp_refl in E; discriminate.
      + apply IH in Hin. rewrite rget_lbound in Hin; [discriminate|auto|]. eapply lbound_trans; eauto.
    - rewrite IH. split; auto. intros [[= -> ->]|]; auto. rewrite cmp_refl in E; discriminate.
  Qed.
End Raw.

(** ** Maps *)
Record bmap (K V : Type) {OK : Ord K} := BMap { bm_list : list (K * V); bm_wf : sortedb bm_list = true }.
Arguments bmap K V {OK}.
Arguments BMap {K V OK} _ _.
Arguments bm_list {K V OK} _.
Arguments bm_wf {K V OK} _.

(** The canonical proof of a boolean equation: reduces to [eq_refl], so that maps computed by [vm_compute] have small
    normal forms. *)
Definition canon (b : bool) : b = true -> b = true :=
  match b as b' return (b' = true -> b' = true) with true => fun _ => eq_refl | false => fun H => H end.

Section Map.
  Context {K : Type} {OK : Ord K}.

  Definition empty {V} : bmap K V := BMap [] eq_refl.
  Definition get {V} (k : K) (m : bmap K V) : option V := rget k (bm_list m).
  Definition insert {V} (k : K) (v : V) (m : bmap K V) : bmap K V :=
    BMap (rins k v (bm_list m)) (canon (sorted_rins k v _ (bm_wf m))).
  Definition remove {V} (k : K) (m : bmap K V) : bmap K V :=
    BMap (rdel k (bm_list m)) (canon (sorted_rdel k _ (bm_wf m))).
  Definition contains {V} (k : K) (m : bmap K V) : bool :=
    match get k m with Some _ => true | None => false end.
  Definition to_list {V} (m : bmap K V) : list (K * V) := bm_list m.
  Definition keys {V} (m : bmap K V) : list K := map fst (bm_list m).
  Definition is_empty {V} (m : bmap K V) : bool := match bm_list m with [] => true | _ => false end.
  (** [collect()]: later entries overwrite. *)
  Definition of_list {V} (l : list (K * V)) : bmap K V :=
    fold_left (fun m kv => insert (fst kv) (snd kv) m) l empty.

  Lemma bmap_eq {V} (m1 m2 : bmap K V) : bm_list m1 = bm_list m2 -> m1 = m2.
  Proof.
    destruct m1 as [l1 w1], m2 as [l2 w2]; simpl; intros ->. f_equal.
    apply UIP_dec. apply bool_dec.
  Qed.

  Lemma bmap_ext {V} (m1 m2 : bmap K V) : (forall k, get k m1 = get k m2) -> m1 = m2.
  Proof. intros H. apply bmap_eq, raw_ext; auto using bm_wf. Qed.

  Lemma get_empty {V} k : get k (@empty V) = None.
  Proof. reflexivity. Qed.
  Lemma get_insert {V} k k' (v : V) m : get k (insert k' v m) = if eqb k k' then Some v else get k m.
  Proof. apply rget_rins, bm_wf. Qed.
  Lemma get_insert_eq {V} k (v : V) m : get k (insert k v m) = Some v.
  Proof. now rewrite get_insert, eqb_refl. Qed.
  Lemma get_insert_ne {V} k k' (v : V) m : k <> k' -> get k (insert k' v m) = get k m.
  Proof. intros H. rewrite get_insert. apply eqb_neq in H. now rewrite H. Qed.
  Lemma get_remove {V} k k' (m : bmap K V) : get k (remove k' m) = if eqb k k' then None else get k m.
  Proof. apply rget_rdel, bm_wf. Qed.
  Lemma get_remove_eq {V} k (m : bmap K V) : get k (remove k m) = None.
  Proof. now rewrite get_remove, eqb_refl. Qed.
  Lemma get_remove_ne {V} k k' (m : bmap K V) : k <> k' -> get k (remove k' m) = get k m.
  Proof. intros H. rewrite get_remove. apply eqb_neq in H. now rewrite H. Qed.

  Lemma in_to_list {V} k v (m : bmap K V) : In (k, v) (to_list m) <-> get k m = Some v.
  Proof. symmetry. apply rget_in, bm_wf. Qed.

  Lemma contains_get {V} k (m : bmap K V) : contains k m = true <-> exists v, get k m = Some v.
  Proof. unfold contains. destruct (get k m); split; eauto; try discriminate. intros [? ?]; discriminate. Qed.
  Lemma contains_false {V} k (m : bmap K V) : contains k m = false <-> get k m = None.
  Proof. unfold contains. destruct (get k m); split; eauto; discriminate. Qed.
  Lemma contains_empty {V} k : contains k (@empty V) = false.
  Proof. reflexivity. Qed.
  Lemma contains_insert {V} k k' (v : V) m : contains k (insert k' v m) = (eqb k k' || contains k m)%bool.
  Proof. unfold contains. rewrite get_insert. destruct (eqb k k'); auto. Qed.
  Lemma contains_remove {V} k k' (m : bmap K V) :
    contains k (remove k' m) = (negb (eqb k k') && contains k m)%bool.
  Proof. unfold contains. rewrite get_remove. destruct (eqb k k'); auto. Qed.

  Lemma in_keys {V} k (m : bmap K V) : In k (keys m) <-> contains k m = true.
  Proof.
    unfold keys. rewrite in_map_iff, contains_get. split.
    - intros ([k' v] & <- & H). exists v. now apply in_to_list.
    - intros [v H]. exists (k, v). split; auto. now apply in_to_list.
  Qed.

  Lemma is_empty_spec {V} (m : bmap K V) : is_empty m = true <-> m = empty.
  Proof.
    unfold is_empty. destruct m as [[|x l] w]; simpl; split; intros H; auto; try discriminate.
    now apply bmap_eq.
  Qed.
  Lemma is_empty_get {V} (m : bmap K V) : is_empty m = true <-> forall k, get k m = None.
  Proof.
    rewrite is_empty_spec. split; [intros ->; auto|]. intros H. now apply bmap_ext.
  Qed.
  Lemma not_empty_ex {V} (m : bmap K V) : is_empty m = false -> exists k v, get k m = Some v.
  Proof.
    unfold is_empty. destruct m as [[|[k v] l] w]; simpl; intros H; try discriminate.
    exists k, v. unfold get; simpl. now rewrite cmp_refl.
  Qed.

  Lemma insert_comm {V} k k' (v v' : V) m : k <> k' -> insert k v (insert k' v' m) = insert k' v' (insert k v m).
  Proof.
    intros H. apply bmap_ext; intros x. rewrite !get_insert.
    destruct (eqb_spec x k), (eqb_spec x k'); congruence.
  Qed.
  Lemma insert_insert {V} k (v v' : V) m : insert k v (insert k v' m) = insert k v m.
  Proof. apply bmap_ext; intros x. rewrite !get_insert. destruct (eqb x k); auto. Qed.
  Lemma insert_same {V} k (v : V) m : get k m = Some v -> insert k v m = m.
  Proof. intros H. apply bmap_ext; intros x. rewrite !get_insert. destruct (eqb_spec x k); congruence. Qed.
  Lemma insert_remove_comm {V} k k' (v : V) m : k <> k' -> insert k v (remove k' m) = remove k' (insert k v m).
  Proof.
    intros H. apply bmap_ext; intros x. rewrite ?get_insert, ?get_remove, ?get_insert.
    destruct (eqb_spec x k), (eqb_spec x k'); congruence.
  Qed.
  Lemma remove_comm {V} k k' (m : bmap K V) : remove k (remove k' m) = remove k' (remove k m).
  Proof. apply bmap_ext; intros x. rewrite !get_remove. destruct (eqb x k), (eqb x k'); auto. Qed.
  Lemma remove_insert {V} k (v : V) m : remove k (insert k v m) = remove k m.
  Proof. apply bmap_ext; intros x. rewrite !get_remove, get_insert. destruct (eqb x k); auto. Qed.
  Lemma remove_none {V} k (m : bmap K V) : get k m = None -> remove k m = m.
  Proof. intros H. apply bmap_ext; intros x. rewrite get_remove. destruct (eqb_spec x k); congruence. Qed.

  (** Value map, preserving keys ([MapValues], utils/traits.rs:33-74). *)
  Definition rmapv {V W} (f : V -> W) (l : list (K * V)) := map (fun kv => (fst kv, f (snd kv))) l.
  Lemma rmapv_sorted {V W} (f : V -> W) l : sortedb (rmapv f l) = sortedb l.
  Proof.
    induction l as [|[k v] l IH]; simpl; auto. rewrite IH. f_equal.
    destruct l as [|[k2 v2] l]; auto.
  Qed.
  Lemma rget_rmapv {V W} (f : V -> W) k l : rget k (rmapv f l) = option_map f (rget k l).
  Proof. induction l as [|[k' v] l IH]; simpl; auto. destruct (cmp k k'); auto. Qed.
  Definition map_values {V W} (f : V -> W) (m : bmap K V) : bmap K W :=
    BMap (rmapv f (bm_list m)) (canon (eq_trans (rmapv_sorted f _) (bm_wf m))).
  Lemma get_map_values {V W} (f : V -> W) k m : get k (map_values f m) = option_map f (get k m).
  Proof. apply rget_rmapv. Qed.
  Lemma contains_map_values {V W} (f : V -> W) k m : contains k (map_values f m) = contains k m.
  Proof. unfold contains. rewrite get_map_values. destruct (get k m); auto. Qed.
  Lemma map_values_insert {V W} (f : V -> W) k v m : map_values f (insert k v m) = insert k (f v) (map_values f m).
  Proof.
    apply bmap_ext; intros x. rewrite get_map_values, !get_insert, get_map_values. destruct (eqb x k); auto.
  Qed.
  Lemma map_values_id {V} (f : V -> V) m : (forall v, f v = v) -> map_values f m = m.
  Proof.
    intros H. apply bmap_ext; intros x. rewrite get_map_values. destruct (get x m); simpl; congruence.
  Qed.
  Lemma map_values_map_values {V W X} (f : V -> W) (g : W -> X) m :
    map_values g (map_values f m) = map_values (fun v => g (f v)) m.
  Proof. apply bmap_ext; intros x. rewrite !get_map_values. destruct (get x m); auto. Qed.

  Lemma NoDup_keys {V} (m : bmap K V) : NoDup (keys m).
  Proof.
    destruct m as [l w]. unfold keys; simpl. induction l as [|[k v] l IH]; simpl in *; constructor.
    - apply andb_true_iff in w as [B S]. intros Hin. apply in_map_iff in Hin as ([k' v'] & E & Hin). simpl in E; subst.
      apply (rget_in k v' l S) in Hin. rewrite rget_lbound in Hin; auto. discriminate.
    - apply andb_true_iff in w as [B S]. auto.
  Qed.

  Lemma get_of_list_gen {V} (l : list (K * V)) m k :
    get k (fold_left (fun m kv => insert (fst kv) (snd kv) m) l m) =
    match find (fun kv => eqb k (fst kv)) (rev l) with Some kv => Some (snd kv) | None => get k m end.
  Proof.
    revert m; induction l as [|[k' v'] l IH]; simpl; intros m; auto.
    rewrite IH. clear IH. rewrite get_insert.
    assert (Hf : forall l1 (x : K * V), find (fun kv => eqb k (fst kv)) (l1 ++ [x]) =
       match find (fun kv => eqb k (fst kv)) l1 with Some y => Some y | None => if eqb k (fst x) then Some x else None end).
    { induction l1 as [|y l1 IH]; simpl; intros x; auto. destruct (eqb k (fst y)); auto. }
    rewrite Hf. simpl. destruct (find _ (rev l)); auto. destruct (eqb k k'); auto.
  Qed.

  Lemma get_of_list {V} (l : list (K * V)) k :
    get k (of_list l) = match find (fun kv => eqb k (fst kv)) (rev l) with Some kv => Some (snd kv) | None => None end.
  Proof. apply (get_of_list_gen l empty k). Qed.

  Lemma get_of_list_nodup {V} (l : list (K * V)) k v : NoDup (map fst l) ->
    (get k (of_list l) = Some v <-> In (k, v) l).
  Proof.
    intros ND. rewrite get_of_list. split.
    - destruct (find _ _) as [[k' v']|] eqn:E; [|discriminate]. intros [= <-].
      apply find_some in E as [E1 E2]. apply eqb_eq in E2. simpl in *; subst. now apply in_rev.
    - intros H. destruct (find _ _) as [[k' v']|] eqn:E.
      + apply find_some in E as [E1 E2]. apply eqb_eq in E2. simpl in *; subst. apply in_rev in E1.
        assert (v' = v); [|now subst].
        clear -ND H E1. induction l as [|[a b] l IH]; simpl in *; [tauto|]. inv ND.
        destruct H as [[= -> ->]|H], E1 as [[= -> ]|E1]; auto.
        * exfalso. apply H2. apply in_map_iff. exists (k', v'); auto.
        * subst. exfalso. apply H2. apply in_map_iff. exists (k', v); auto.
      + exfalso. eapply find_none in E; [|apply in_rev in H; exact H]. simpl in E. rewrite eqb_refl in E. discriminate.
  Qed.

  Lemma of_list_to_list {V} (m : bmap K V) : of_list (to_list m) = m.
  Proof.
    apply bmap_ext; intros k. destruct (get k m) as [v|] eqn:E.
    - apply get_of_list_nodup; [apply NoDup_keys|]. now apply in_to_list.
    - destruct (get k (of_list (to_list m))) as [v|] eqn:E2; auto.
      apply get_of_list_nodup in E2; [|apply NoDup_keys]. apply in_to_list in E2. congruence.
  Qed.

  Lemma get_of_list_none {V} (l : list (K * V)) k : get k (of_list l) = None <-> ~ In k (map fst l).
  Proof.
    rewrite get_of_list. destruct (find _ _) as [[k' v']|] eqn:E.
    - apply find_some in E as [E1 E2]. apply eqb_eq in E2. simpl in *; subst. split; [discriminate|].
      intros H. exfalso. apply H. apply in_map_iff. exists (k', v'); split; auto. now apply in_rev.
    - split; auto. intros _ Hin. apply in_map_iff in Hin as ([k' v'] & <- & Hin).
      eapply find_none in E; [|apply in_rev in Hin; exact Hin]. simpl in E. rewrite eqb_refl in E. discriminate.
  Qed.

  (** Filtering entries ([into_iter().filter().collect()]). *)
  Definition filter_map {V} (p : K -> V -> bool) (m : bmap K V) : bmap K V :=
    of_list (filter (fun kv => p (fst kv) (snd kv)) (to_list m)).
  Lemma NoDup_map_filter {A B} (f : A -> B) p l : NoDup (map f l) -> NoDup (map f (filter p l)).
  Proof.
    induction l as [|x l IH]; simpl; intros H; auto. inv H. destruct (p x); simpl; auto. constructor; auto.
    intros Hin. apply H2. apply in_map_iff in Hin as (y & <- & Hy). apply filter_In in Hy as [Hy _].
    now apply in_map.
  Qed.
  Lemma get_filter_map {V} (p : K -> V -> bool) m k :
    get k (filter_map p m) = match get k m with Some v => if p k v then Some v else None | None => None end.
  Proof.
    unfold filter_map.
    assert (ND : NoDup (map fst (filter (fun kv => p (fst kv) (snd kv)) (to_list m)))) by (apply NoDup_map_filter, NoDup_keys).
    destruct (get k (of_list _)) as [v|] eqn:E.
    - apply get_of_list_nodup in E; auto. apply filter_In in E as [E1 E2]. simpl in E2.
      apply in_to_list in E1. now rewrite E1, E2.
    - destruct (get k m) as [v|] eqn:E1; auto. destruct (p k v) eqn:E2; auto.
      exfalso. apply get_of_list_none in E. apply E. apply in_map_iff. exists (k, v). split; auto.
      apply filter_In. split; auto. now apply in_to_list.
  Qed.
End Map.

(** ** Sets *)
Definition bset (K : Type) {OK : Ord K} := bmap K unit.
Arguments bset K {OK}.

Section Set_.
  Context {K : Type} {OK : Ord K}.
  Definition sempty : bset K := empty.
  Definition mem (k : K) (s : bset K) : bool := contains k s.
  Definition sadd (k : K) (s : bset K) : bset K := insert k tt s.
  Definition srem (k : K) (s : bset K) : bset K := remove k s.
  Definition elements (s : bset K) : list K := keys s.
  Definition set_of_list (l : list K) : bset K := of_list (map (fun k => (k, tt)) l).
  Definition union (s t : bset K) : bset K := fold_left (fun s k => sadd k s) (elements t) s.
  Definition diff (s t : bset K) : bset K := filter_map (fun k _ => negb (mem k t)) s.
  Definition keyset {V} (m : bmap K V) : bset K := map_values (fun _ => tt) m.
  Definition subset (s t : bset K) : bool := forallb (fun k => mem k t) (elements s).

  Lemma set_ext (s t : bset K) : (forall k, mem k s = mem k t) -> s = t.
  Proof.
    intros H. apply bmap_ext; intros k. specialize (H k). unfold mem, contains in H.
    destruct (get k s) as [[]|], (get k t) as [[]|]; auto; discriminate.
  Qed.
  Lemma mem_empty k : mem k sempty = false.
  Proof. reflexivity. Qed.
  Lemma mem_add k k' s : mem k (sadd k' s) = (eqb k k' || mem k s)%bool.
  Proof. apply contains_insert. Qed.
  Lemma mem_rem k k' s : mem k (srem k' s) = (negb (eqb k k') && mem k s)%bool.
  Proof. apply contains_remove. Qed.
  Lemma in_elements k s : In k (elements s) <-> mem k s = true.
  Proof. apply in_keys. Qed.
  Lemma NoDup_elements s : NoDup (elements s).
  Proof. apply NoDup_keys. Qed.
  Lemma mem_union k s t : mem k (union s t) = (mem k s || mem k t)%bool.
  Proof.
    unfold union. assert (H : mem k t = existsb (eqb k) (elements t)).
    { destruct (mem k t) eqn:E.
      - symmetry. apply existsb_exists. exists k. split; [now apply in_elements|apply eqb_refl].
      - destruct (existsb _ _) eqn:E2; auto. apply existsb_exists in E2 as (x & H & E2).
        apply eqb_eq in E2; subst. apply in_elements in H. congruence. }
    rewrite H. clear H. generalize (elements t) as l. intros l; revert s.
    induction l as [|x l IH]; simpl; intros s; [now rewrite orb_false_r|].
    rewrite IH, mem_add. destruct (eqb k x), (mem k s); auto.
  Qed.
  Lemma mem_diff k s t : mem k (diff s t) = (mem k s && negb (mem k t))%bool.
  Proof.
    unfold diff, mem at 1, contains. rewrite get_filter_map. unfold mem, contains.
    destruct (get k s); auto. destruct (get k t); auto.
  Qed.
  Lemma mem_set_of_list k l : mem k (set_of_list l) = true <-> In k l.
  Proof.
    unfold mem. rewrite <- not_false_iff_true, contains_false. unfold set_of_list.
    rewrite get_of_list_none, map_map; simpl. rewrite map_id.
    destruct (in_dec ord_dec k l); tauto.
  Qed.
  Lemma mem_keyset {V} k (m : bmap K V) : mem k (keyset m) = contains k m.
  Proof. apply contains_map_values. Qed.
  Lemma subset_spec s t : subset s t = true <-> forall k, mem k s = true -> mem k t = true.
  Proof.
    unfold subset. rewrite forallb_forall. split; intros H k Hk; apply H.
    - now apply in_elements.
    - now apply in_elements.
  Qed.
  Lemma elements_keyset {V} (m : bmap K V) : elements (keyset m) = keys m.
  Proof. unfold elements, keys, keyset; simpl. unfold rmapv. rewrite map_map. reflexivity. Qed.
End Set_.

(** Ord instances. *)
From Coq Require Import NArith.
#[global] Instance OrdN : Ord N.
Proof.
  refine {| cmp := N.compare |}.
  - apply N.compare_eq_iff.
  - intros. apply N.compare_antisym.
  - intros x y z H1 H2. apply N.compare_lt_iff in H1, H2. apply N.compare_lt_iff. eapply N.lt_trans; eauto.
Defined.

#[global] Instance OrdBool : Ord bool.
Proof.
  refine {| cmp := fun x y => match x, y with false, true => Lt | true, false => Gt | _, _ => Eq end |}.
  - destruct x, y; split; congruence.
  - destruct x, y; reflexivity.
  - destruct x, y, z; congruence.
Defined.

Definition lex (a b : comparison) : comparison := match a with Eq => b | c => c end.

Fixpoint list_cmp {A} (c : A -> A -> comparison) (l1 l2 : list A) : comparison :=
  match l1, l2 with
  | [], [] => Eq
  | [], _ => Lt
  | _, [] => Gt
  | x :: l1, y :: l2 => lex (c x y) (list_cmp c l1 l2)
  end.

#[global] Instance OrdList {A} {OA : Ord A} : Ord (list A).
Proof.
  refine {| cmp := list_cmp cmp |}.
  - induction x as [|a x IH]; destruct y as [|b y]; simpl; split; intros H; try congruence.
    + destruct (cmp a b) eqn:E; simpl in H; try discriminate. apply cmp_eq in E. apply IH in H. congruence.
    + inv H. rewrite cmp_refl. simpl. now apply IH.
  - induction x as [|a x IH]; destruct y as [|b y]; simpl; auto.
    rewrite (cmp_anti a b). destruct (cmp a b); simpl; auto.
  - induction x as [|a x IH]; destruct y as [|b y]; destruct z as [|c z]; simpl; try congruence.
    destruct (cmp a b) eqn:E1, (cmp b c) eqn:E2; simpl; intros H1 H2; try discriminate.
    + apply cmp_eq in E1, E2; subst. rewrite cmp_refl. simpl. eauto.
    + apply cmp_eq in E1; subst. now rewrite E2.
    + apply cmp_eq in E2; subst. now rewrite E1.
    + now rewrite (cmp_trans _ _ _ E1 E2).
Defined.

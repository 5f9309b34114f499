(** Results with panics, byte strings, randomness oracles, small tactics. *)
From Coq Require Import List NArith Bool Lia.
Import ListNotations.
Set Implicit Arguments.

(** A Rust [Result<A, E>] together with the possibility of a panic
    (any function of /repo/manul/src may return [Result] and/or contain [expect], [panic!], index or arithmetic panics). *)
Inductive res (E A : Type) : Type :=
| Ok (a : A)
| Err (e : E)
| Panic.
Arguments Ok {E A} _.
Arguments Err {E A} _.
Arguments Panic {E A}.

(** The [?] operator. *)
Definition bind {E A B} (x : res E A) (f : A -> res E B) : res E B :=
  match x with Ok a => f a | Err e => Err e | Panic => Panic end.

(** [Result::map_err]. *)
Definition map_err {E E' A} (f : E -> E') (x : res E A) : res E' A :=
  match x with Ok a => Ok a | Err e => Err (f e) | Panic => Panic end.

(** [Option::ok_or]. *)
Definition ok_or {E A} (x : option A) (e : E) : res E A :=
  match x with Some a => Ok a | None => Err e end.

(** [Option::expect]. *)
Definition expect {E A} (x : option A) : res E A :=
  match x with Some a => Ok a | None => Panic end.

Notation "'let*' x ':=' e 'in' k" := (bind e (fun x => k))
  (at level 200, x pattern, e at level 100, k at level 200, right associativity).

Definition is_ok {E A} (x : res E A) : bool := match x with Ok _ => true | _ => false end.
Definition is_err {E A} (x : res E A) : bool := match x with Err _ => true | _ => false end.
Definition is_panic {E A} (x : res E A) : bool := match x with Panic => true | _ => false end.

(** Iteration with early exit: [iter().map(f).collect::<Result<Vec<_>, _>>()] (first error wins). *)
Fixpoint map_res {E A B} (f : A -> res E B) (l : list A) : res E (list B) :=
  match l with
  | [] => Ok []
  | x :: l => let* y := f x in let* ys := map_res f l in Ok (y :: ys)
  end.

(** A [for] loop whose body may use [?]. *)
Fixpoint iter_res {E A} (f : A -> res E unit) (l : list A) : res E unit :=
  match l with
  | [] => Ok tt
  | x :: l => let* _ := f x in iter_res f l
  end.

(** A [for] loop threading an accumulator. *)
Fixpoint fold_res {E A S} (f : S -> A -> res E S) (s : S) (l : list A) : res E S :=
  match l with
  | [] => Ok s
  | x :: l => let* s' := f s x in fold_res f s' l
  end.

(** Byte strings ([Box<[u8]>], [&[u8]]). Elements are not bounded by 256: nothing below depends on it except
    [be64], which is exact. *)
Definition bytes := list N.

Fixpoint bytes_eqb (a b : bytes) : bool :=
  match a, b with
  | [], [] => true
  | x :: a, y :: b => (N.eqb x y && bytes_eqb a b)%bool
  | _, _ => false
  end.

(** [u64::to_be_bytes]: 8 bytes, most significant first (value taken modulo 2^64, as [as u64] does). *)
Definition be64 (n : N) : bytes :=
  map (fun i => N.modulo (N.div n (N.pow 256 i)) 256) [7; 6; 5; 4; 3; 2; 1; 0]%N.

(** A random oracle standing for [&mut impl CryptoRngCore]: draws are indexed by paths. *)
Definition rng := list nat -> N.
Definition rsub (i : nat) (r : rng) : rng := fun p => r (i :: p).

Lemma bytes_eqb_spec a b : bytes_eqb a b = true <-> a = b.
Proof.
  revert b; induction a as [|x a IH]; destruct b as [|y b]; simpl; split; try discriminate; auto.
  - rewrite andb_true_iff, N.eqb_eq, IH. intros [-> ->]; auto.
  - intros [= -> ->]. rewrite andb_true_iff, N.eqb_eq, IH; auto.
Qed.

Lemma bytes_eqb_refl a : bytes_eqb a a = true.
Proof. now apply bytes_eqb_spec. Qed.

Lemma be64_length n : length (be64 n) = 8.
Proof. reflexivity. Qed.

(** Tactics. *)
Ltac inv H := inversion H; subst; clear H.

Ltac break_match_in H :=
  match type of H with
  | context [match ?x with _ => _ end] =>
      lazymatch x with
      | context [match _ with _ => _ end] => fail
      | _ => let E := fresh "E" in destruct x eqn:E
      end
  end.
Ltac break_match_goal :=
  match goal with
  | |- context [match ?x with _ => _ end] =>
      lazymatch x with
      | context [match _ with _ => _ end] => fail
      | _ => let E := fresh "E" in destruct x eqn:E
      end
  end.

Lemma bind_ok {E A B} (x : res E A) (f : A -> res E B) b :
  bind x f = Ok b -> exists a, x = Ok a /\ f a = Ok b.
Proof. destruct x; simpl; intros; try discriminate; eauto. Qed.

Lemma bind_err {E A B} (x : res E A) (f : A -> res E B) e :
  bind x f = Err e -> x = Err e \/ exists a, x = Ok a /\ f a = Err e.
Proof. destruct x; simpl; intros H; try discriminate; [eauto|left; congruence]. Qed.

Lemma bind_panic {E A B} (x : res E A) (f : A -> res E B) :
  bind x f = Panic -> x = Panic \/ exists a, x = Ok a /\ f a = Panic.
Proof. destruct x; simpl; intros; try discriminate; eauto. Qed.

Lemma map_err_ok {E E' A} (f : E -> E') (x : res E A) a : map_err f x = Ok a <-> x = Ok a.
Proof. destruct x; simpl; split; intros; try discriminate; congruence. Qed.

Lemma iter_res_ok {E A} (f : A -> res E unit) l :
  iter_res f l = Ok tt <-> (forall x, In x l -> f x = Ok tt).
Proof.
  induction l as [|x l IH]; simpl; split; intros H; auto; try tauto.
  - apply bind_ok in H as ([] & H1 & H2). intros y [->|Hy]; auto. now apply IH.
  - rewrite (H x); auto. simpl. apply IH; auto.
Qed.

(** First failing element of a loop. *)
Lemma iter_res_first {E A} (f : A -> res E unit) l r :
  iter_res f l = r -> r <> Ok tt ->
  exists l1 x l2, l = l1 ++ x :: l2 /\ (forall y, In y l1 -> f y = Ok tt) /\ f x = r.
Proof.
  revert r; induction l as [|x l IH]; simpl; intros r H Hne; [congruence|].
  destruct (f x) as [[]|e|] eqn:Hf; simpl in H.
  - destruct (IH _ H Hne) as (l1 & y & l2 & -> & H1 & H2).
    exists (x :: l1), y, l2. split; auto. split; auto. intros z [<-|Hz]; auto.
  - exists [], x, l. subst; simpl; intuition.
  - exists [], x, l. subst; simpl; intuition.
Qed.

Lemma map_res_ok {E A B} (f : A -> res E B) l ys :
  map_res f l = Ok ys <-> Forall2 (fun x y => f x = Ok y) l ys.
Proof.
  revert ys; induction l as [|x l IH]; simpl; intros ys; split; intros H.
  - inv H; constructor.
  - inv H; auto.
  - apply bind_ok in H as (y & H1 & H). apply bind_ok in H as (ys' & H2 & H). inv H.
    constructor; auto. now apply IH.
  - inv H. rewrite H2; simpl. apply IH in H4. rewrite H4; auto.
Qed.

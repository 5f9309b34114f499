(** manul/src/protocol/round_id.rs *)
From Coq Require Import List NArith Bool.
From Verif Require Import Base BMap Errors.
Import ListNotations.
Set Implicit Arguments.

(** [RoundId] (round_id.rs:15-20). [round] and the groups are [u8] in Rust, [N] here; [groups] is in vector order:
    the outermost (most recently pushed) group is the last element. *)
Record RoundId := mkRid { rid_round : N; rid_groups : list N; rid_echo : bool }.

(** The derived lexicographic [Ord] (round_id.rs:15). *)
Definition rid_cmp (a b : RoundId) : comparison :=
  lex (cmp (rid_round a) (rid_round b)) (lex (cmp (rid_groups a) (rid_groups b)) (cmp (rid_echo a) (rid_echo b))).

#[global] Instance OrdRid : Ord RoundId.
Proof.
  refine {| cmp := rid_cmp |}; unfold rid_cmp.
  - intros [r g e] [r' g' e']; cbn [rid_round rid_groups rid_echo]. split.
    + destruct (cmp r r') eqn:E1; cbn [lex]; try discriminate.
      destruct (cmp g g') eqn:E2; cbn [lex]; try discriminate. intros E3.
      apply cmp_eq in E1, E2, E3. congruence.
    + intros H. inv H. now rewrite !cmp_refl.
  - intros [r g e] [r' g' e']; cbn [rid_round rid_groups rid_echo].
    rewrite (cmp_anti r r'), (cmp_anti g g'), (cmp_anti e e').
    destruct (cmp r r'), (cmp g g'), (cmp e e'); reflexivity.
  - intros [r g e] [r' g' e'] [r'' g'' e'']; cbn [rid_round rid_groups rid_echo].
    destruct (cmp r r') eqn:E1; cbn [lex]; try discriminate.
    + apply cmp_eq in E1; subst. destruct (cmp r' r'') eqn:E1'; cbn [lex]; try discriminate; auto.
      destruct (cmp g g') eqn:E2; cbn [lex]; try discriminate.
      * apply cmp_eq in E2; subst. destruct (cmp g' g'') eqn:E2'; cbn [lex]; try discriminate; auto.
        apply cmp_trans.
      * intros _. destruct (cmp g' g'') eqn:E2'; cbn [lex]; try discriminate.
        -- apply cmp_eq in E2'; subst. now rewrite E2.
        -- now rewrite (cmp_trans _ _ _ E2 E2').
    + intros _. destruct (cmp r' r'') eqn:E1'; cbn [lex]; try discriminate.
      * apply cmp_eq in E1'; subst. now rewrite E1.
      * now rewrite (cmp_trans _ _ _ E1 E1').
Defined.

(** round_id.rs:38-44 *)
Definition rid_new (n : N) : RoundId := mkRid n [] false.

(** round_id.rs:55-63 *)
Definition group_under (r : RoundId) (g : N) : RoundId :=
  mkRid (rid_round r) (rid_groups r ++ [g]) (rid_echo r).

(** [Vec::pop] on a list in vector order. *)
Definition pop_last (l : list N) : option (N * list N) :=
  match rev l with [] => None | g :: l' => Some (g, rev l') end.

(** round_id.rs:69-82 *)
Definition split_group (r : RoundId) : res LocalError (N * RoundId) :=
  match rid_groups r with
  | [] => Err LE_NotInGroup
  | _ => match pop_last (rid_groups r) with
         | Some (g, gs) => Ok (g, mkRid (rid_round r) gs (rid_echo r))
         | None => Panic (* the [expect] of line 74 *)
         end
  end.

(** round_id.rs:92-102 *)
Definition echo (r : RoundId) : res LocalError RoundId :=
  if rid_echo r then Err LE_AlreadyEcho else Ok (mkRid (rid_round r) (rid_groups r) true).

(** round_id.rs:107-117 *)
Definition non_echo (r : RoundId) : res LocalError RoundId :=
  if negb (rid_echo r) then Err LE_AlreadyNonEcho else Ok (mkRid (rid_round r) (rid_groups r) false).

(** [TransitionInfo] (round_id.rs:140-164). *)
Record TransitionInfo := mkTI {
  ti_id : RoundId;
  ti_parents : bset RoundId;
  ti_siblings : bset RoundId;
  ti_children : bset RoundId;
  ti_result : bool   (* may_produce_result *)
}.

(** [into_iter().map(|r| r.group_under(group)).collect()] *)
Definition group_set (g : N) (s : bset RoundId) : bset RoundId :=
  set_of_list (map (fun r => group_under r g) (elements s)).

(** round_id.rs:168-176 *)
Definition ti_group_under (t : TransitionInfo) (g : N) : TransitionInfo :=
  mkTI (group_under (ti_id t) g) (group_set g (ti_parents t)) (group_set g (ti_siblings t))
       (group_set g (ti_children t)) (ti_result t).

(** round_id.rs:184-193 *)
Definition simultaneous_rounds (t : TransitionInfo) (followed_by_echo_round : bool) : res LocalError (bset RoundId) :=
  let* base := if followed_by_echo_round
               then let* e := echo (ti_id t) in Ok (set_of_list [e])
               else Ok (ti_parents t) in
  Ok (union (union base (ti_siblings t)) (ti_children t)).

(** round_id.rs:200-208 *)
Definition ti_echo (t : TransitionInfo) : res LocalError TransitionInfo :=
  let* e := echo (ti_id t) in
  Ok (mkTI e (set_of_list [ti_id t]) sempty (ti_children t) (ti_result t)).

(** Largest [u8]. *)
Definition u8_max : N := 255.

(** round_id.rs:215-227. [round_num + 1] on [u8] panics on overflow in debug builds (and wraps in release builds);
    the model has the debug behaviour. *)
Definition new_linear (n : N) : res LocalError TransitionInfo :=
  let parents := if N.ltb 1 n then set_of_list [rid_new (n - 1)] else sempty in
  if N.leb u8_max n then Panic
  else Ok (mkTI (rid_new n) parents sempty (set_of_list [rid_new (n + 1)]) false).

(** round_id.rs:234-246 *)
Definition new_linear_terminating (n : N) : TransitionInfo :=
  mkTI (rid_new n) (if N.ltb 1 n then set_of_list [rid_new (n - 1)] else sempty) sempty sempty true.

(** round_id.rs:249-259 *)
Definition with_children (t : TransitionInfo) (nums : bset N) : TransitionInfo :=
  mkTI (ti_id t) (ti_parents t) (ti_siblings t)
       (fold_left (fun s n => sadd (rid_new n) s) (elements nums) (ti_children t)) (ti_result t).

(** round_id.rs:262-272 *)
Definition with_siblings (t : TransitionInfo) (nums : bset N) : TransitionInfo :=
  mkTI (ti_id t) (ti_parents t)
       (fold_left (fun s n => sadd (rid_new n) s) (elements nums) (ti_siblings t))
       (ti_children t) (ti_result t).

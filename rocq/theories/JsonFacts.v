(** What is written as JSON is read back. *)
From Coq Require Import List Arith NArith Bool String Lia.
From Verif Require Import Base BMap Errors RoundId Message Protocol Transcript SerMap Simple Text SignFacts SpecCrypto SpecEvidence SpecNet TestParams Json.
Import ListNotations.
Set Implicit Arguments.
Local Open Scope list_scope.

(** ** Strings *)
Lemma control_escape c : (c < 32)%N -> unicode 48 48 (hex_digit (c / 16)) (hex_digit (c mod 16)) = Some c.
Proof.
  intros H. assert (K : forallb (fun c => match unicode 48 48 (hex_digit (c / 16)) (hex_digit (c mod 16)) with Some x => N.eqb x c | None => false end) (map N.of_nat (seq 0 32)) = true)
    by (vm_compute; reflexivity).
  rewrite forallb_forall in K. specialize (K c). destruct (unicode _ _ _ _) as [x|].
  - f_equal. apply N.eqb_eq. apply K. apply in_map_iff. exists (N.to_nat c). split; [apply N2Nat.id|]. apply in_seq. lia.
  - discriminate K. apply in_map_iff. exists (N.to_nat c). split; [apply N2Nat.id|]. apply in_seq. lia.
Qed.

Lemma char_ok c b s r : read_text b = Some (s, r) -> read_text (put_char c ++ b) = Some (c :: s, r).
Proof.
  intros H. unfold put_char.
  destruct (N.eqb_spec c 34) as [->|N1]; [cbn; now rewrite H|].
  destruct (N.eqb_spec c 92) as [->|N2]; [cbn; now rewrite H|].
  destruct (N.ltb_spec c 32) as [L|L].
  - destruct (N.eqb_spec c 8) as [->|]; [cbn; now rewrite H|].
    destruct (N.eqb_spec c 9) as [->|]; [cbn; now rewrite H|].
    destruct (N.eqb_spec c 10) as [->|]; [cbn; now rewrite H|].
    destruct (N.eqb_spec c 12) as [->|]; [cbn; now rewrite H|].
    destruct (N.eqb_spec c 13) as [->|]; [cbn; now rewrite H|].
    cbn [app read_text]. change (N.eqb 92 34) with false. change (N.eqb 92 92) with true. change (N.eqb 117 117) with true. cbn iota.
    rewrite (control_escape L), H. reflexivity.
  - cbn [app read_text]. apply N.eqb_neq in N1, N2. rewrite N1, N2. destruct (N.ltb_spec c 32); [lia|]. now rewrite H.
Qed.
Lemma text_ok s r : read_text (flat_map put_char s ++ 34%N :: r) = Some (s, r).
Proof. induction s as [|c s IH]; [reflexivity|]. cbn [flat_map]. rewrite <- app_assoc. now apply char_ok. Qed.

(** ** Numbers *)
Definition after (r : bytes) : bool :=
  match r with c :: _ => negb (is_digit c || N.eqb c 46 || N.eqb c 69 || N.eqb c 101)%N | [] => true end.
Lemma digit_char n : (n < 10)%N -> is_digit (48 + n) = true.
Proof. intros H. unfold is_digit. apply andb_true_iff. split; [apply N.leb_le|apply N.ltb_lt]; lia. Qed.
Lemma digits_app l r : forallb is_digit l = true -> (match r with c :: _ => is_digit c = false | [] => True end) -> digits (l ++ r) = (l, r).
Proof.
  intros H K. induction l as [|c l IH]; cbn [app].
  - destruct r as [|c r]; [reflexivity|]. cbn [digits]. now rewrite K.
  - cbn [forallb] in H. apply andb_prop in H as [H1 H2]. cbn [digits]. now rewrite H1, IH.
Qed.
Lemma digits_go_ok fuel n : (n < 2 ^ N.of_nat fuel)%N -> 
  forallb is_digit (digits_go (S fuel) n) = true /\ number_of (digits_go (S fuel) n) = n /\
  exists c l, digits_go (S fuel) n = c :: l /\ (c = 48%N -> l = []).
Proof.
  revert n. induction fuel as [|fuel IH]; intros n H.
  - change (n < 1)%N in H. assert (n = 0%N) as -> by lia. split; [reflexivity|]. split; [reflexivity|]. exists 48%N, []. split; auto.
  - remember (S fuel) as f eqn:Ef. cbn [digits_go]. destruct (N.ltb_spec n 10) as [L|L].
    + split; [cbn [forallb]; now rewrite digit_char|]. split; [unfold number_of; cbn [fold_left]; lia|]. exists (48 + n)%N, []. split; auto.
    + subst f. assert (Hq : (n / 10 < 2 ^ N.of_nat fuel)%N).
      { apply N.div_lt_upper_bound; [lia|]. rewrite Nat2N.inj_succ, N.pow_succ_r' in H. lia. }
      destruct (IH _ Hq) as (A & B & c & l & E & Z). pose proof (N.mod_lt n 10 ltac:(discriminate)) as Hm. split; [|split].
      * rewrite forallb_app, A. cbn [forallb]. now rewrite digit_char.
      * unfold number_of in *. rewrite fold_left_app, B. cbn [fold_left]. pose proof (N.div_mod n 10 ltac:(discriminate)). set (q := (n / 10)%N) in *. set (m := (n mod 10)%N) in *. clearbody q m. lia.
      * rewrite E. exists c, (l ++ [48 + n mod 10])%N. split; [reflexivity|]. intros ->. exfalso. specialize (Z eq_refl). subst l.
        rewrite E in B. unfold number_of in B. cbn [fold_left] in B. assert (E0 : (n / 10 = 0)%N) by (rewrite <- B; reflexivity).
        apply N.div_small_iff in E0; lia.
Qed.
Lemma put_number_ok n : forallb is_digit (put_number n) = true /\ number_of (put_number n) = n /\ exists c l, put_number n = c :: l /\ (c = 48%N -> l = []).
Proof. apply digits_go_ok. rewrite N2Nat.id. apply N.size_gt. Qed.
Lemma number_ok n r : after r = true -> read_number (put_number n ++ r) = Some (n, r).
Proof.
  intros H. destruct (put_number_ok n) as (A & B & c & l & E & Z). unfold read_number. rewrite digits_app; auto.
  - rewrite <- B at 2. rewrite E. destruct (N.eqb_spec c 48) as [Ec|Ec]; [rewrite (Z Ec)|]; cbn [andb negb].
    + destruct r as [|d r]; [reflexivity|]. cbn [after] in H. apply negb_true_iff in H. rewrite !orb_false_iff in H. destruct H as [[[_ H1] H2] H3]. now rewrite H1, H2, H3.
    + destruct r as [|d r]; [reflexivity|]. cbn [after] in H. apply negb_true_iff in H. rewrite !orb_false_iff in H. destruct H as [[[_ H1] H2] H3]. now rewrite H1, H2, H3.
  - destruct r as [|d r]; auto. cbn [after] in H. apply negb_true_iff in H. rewrite !orb_false_iff in H. tauto.
Qed.

(** ** Values *)
Definition starts (b : bytes) : Prop := exists c l, b = c :: l /\ is_space c = false /\ c <> 93%N.
Lemma json_starts j : starts (put_json j).
Proof.
  destruct j as [|[]|n|s|l|l]; cbn [put_json]; try (eexists; eexists; split; [reflexivity|split; [reflexivity|discriminate]]).
  destruct (put_number_ok n) as (A & _ & c & l & E & _). rewrite E in *. exists c, l. split; [reflexivity|].
  cbn [forallb] in A. apply andb_prop in A as [A _]. unfold is_digit in A. apply andb_prop in A as [A1 A2]. apply N.leb_le in A1. apply N.ltb_lt in A2. split; [|lia].
  unfold is_space. rewrite !orb_false_iff, !N.eqb_neq. lia.
Qed.
Lemma skip_starts b r : starts b -> skip (b ++ r) = b ++ r.
Proof. intros (c & l & -> & H & _). cbn [app skip]. now rewrite H. Qed.
Lemma next_starts c l r : is_space c = false -> next ((c :: l) ++ r) = Some (c, l ++ r).
Proof. intros H. unfold next. cbn [app skip]. now rewrite H. Qed.

Fixpoint jdepth (j : json) : nat :=
  match j with
  | JArr l => S (fold_right (fun j d => Nat.max (jdepth j) d) 0 l)
  | JObj l => S (fold_right (fun kv d => Nat.max (jdepth (snd kv)) d) 0 l)
  | _ => 0
  end.
Lemma depth_arr l d : (forall j, In j l -> jdepth j <= d) -> jdepth (JArr l) <= S d.
Proof. intros H. cbn [jdepth]. apply le_n_S. induction l as [|j l IH]; cbn [fold_right]; [lia|]. apply Nat.max_lub; [apply H; now left|]. apply IH. intros x Hx. apply H. now right. Qed.
Lemma depth_arr_in l d : jdepth (JArr l) <= S d -> forall j, In j l -> jdepth j <= d.
Proof.
  cbn [jdepth]. intros H. apply le_S_n in H. induction l as [|x l IH]; intros j Hj; [contradiction|]. cbn [fold_right] in H. destruct Hj as [->|Hj].
  - eapply Nat.le_trans; [apply Nat.le_max_l|exact H].
  - apply IH; auto. eapply Nat.le_trans; [apply Nat.le_max_r|exact H].
Qed.
Lemma depth_obj l d : (forall kv, In kv l -> jdepth (snd kv) <= d) -> jdepth (JObj l) <= S d.
Proof. intros H. cbn [jdepth]. apply le_n_S. induction l as [|j l IH]; cbn [fold_right]; [lia|]. apply Nat.max_lub; [apply H; now left|]. apply IH. intros x Hx. apply H. now right. Qed.
Lemma depth_obj_in l d : jdepth (JObj l) <= S d -> forall kv, In kv l -> jdepth (snd kv) <= d.
Proof.
  cbn [jdepth]. intros H. apply le_S_n in H. induction l as [|x l IH]; intros j Hj; [contradiction|]. cbn [fold_right] in H. destruct Hj as [->|Hj].
  - eapply Nat.le_trans; [apply Nat.le_max_l|exact H].
  - apply IH; auto. eapply Nat.le_trans; [apply Nat.le_max_r|exact H].
Qed.

(** What follows an element of an array or object. *)
Definition follows (close : N) (r : bytes) : Prop := exists r', r = 44%N :: r' \/ r = close :: r'.
Section Many.
  Context {A : Type}.
  Variables (put : A -> bytes) (read : bytes -> option (A * bytes)) (close : N).
  Hypothesis close_ok : is_space close = false /\ close <> 44%N.

  Lemma many_ok l : l <> [] -> (forall x r, In x l -> follows close r -> read (put x ++ r) = Some (x, r)) ->
    forall fuel r, List.length l <= fuel -> many read close fuel (commas (map put l) ++ close :: r) = Some (l, r).
  Proof.
    destruct close_ok as [C1 C2]. induction l as [|x l IH]; intros Hn H fuel r Hf; [now destruct Hn|].
    destruct fuel as [|fuel]; [cbn in Hf; lia|]. cbn [List.length] in Hf. apply le_S_n in Hf.
    destruct l as [|y l].
    - cbn [map commas many]. rewrite H; [|now left|exists r; now right]. cbn [and_then]. unfold next. cbn [skip]. rewrite C1. cbn [read_byte and_then]. now rewrite N.eqb_refl.
    - change (commas (map put (x :: y :: l))) with (put x ++ 44%N :: commas (map put (y :: l))). rewrite <- app_assoc. cbn [many app].
      rewrite H; [|now left|eexists; now left]. cbn [and_then]. unfold next. cbn [skip]. change (is_space 44) with false. cbn iota. cbn [read_byte and_then].
      destruct (N.eqb_spec 44 close) as [E|_]; [congruence|]. change (N.eqb 44 44) with true. cbn iota.
      rewrite IH; [reflexivity|discriminate| |exact Hf]. intros z r' Hz. apply H. now right.
  Qed.
  Lemma commas_length l : List.length l <= S (List.length (commas (map put l))).
  Proof.
    induction l as [|x l IH]; [cbn; lia|]. destruct l as [|y l]; [cbn; lia|]. change (commas (map put (x :: y :: l))) with (put x ++ 44%N :: commas (map put (y :: l))).
    rewrite app_length. cbn [List.length] in *. lia.
  Qed.
  Lemma sequence_ok l r : (forall x, In x l -> exists c b, put x = c :: b /\ is_space c = false /\ c <> close) ->
    (forall x r, In x l -> follows close r -> read (put x ++ r) = Some (x, r)) ->
    sequence read close (commas (map put l) ++ close :: r) = Some (l, r).
  Proof.
    intros Hs H. destruct close_ok as [C1 C2]. unfold sequence. destruct l as [|x l].
    - cbn [map commas app]. unfold next. cbn [skip]. rewrite C1. cbn [read_byte]. now rewrite N.eqb_refl.
    - destruct (Hs x (or_introl eq_refl)) as (c & b & E & H1 & H2).
      assert (F : exists b', commas (map put (x :: l)) ++ close :: r = c :: b').
      { destruct l as [|y l]; cbn [map commas]; rewrite E; eexists; reflexivity. }
      destruct F as [b' F]. rewrite F at 1. unfold next. cbn [skip]. rewrite H1. cbn [read_byte]. destruct (N.eqb_spec c close) as [|_]; [contradiction|].
      apply many_ok; auto; [discriminate|]. rewrite app_length. cbn [List.length]. pose proof (commas_length (x :: l)). cbn [List.length] in *. lia.
  Qed.
End Many.

Definition stop (j : json) (r : bytes) : Prop := match j with JNum _ => after r = true | _ => True end.
Lemma follows_stop close r j : close = 93%N \/ close = 125%N -> follows close r -> stop j r.
Proof. intros Hc (r' & [->| ->]); destruct j; cbn; auto. destruct Hc as [-> | ->]; reflexivity. Qed.

Lemma read_json_app d c b r : is_space c = false -> c <> 91%N -> c <> 123%N -> read_json d ((c :: b) ++ r) = read_scalar ((c :: b) ++ r).
Proof.
  intros H1 H2 H3. destruct d as [|d]; [reflexivity|]. cbn [read_json]. rewrite (@next_starts c b r H1). apply N.eqb_neq in H2, H3. now rewrite H2, H3.
Qed.

Lemma json_ok d : forall j r, jdepth j <= d -> stop j r -> read_json d (put_json j ++ r) = Some (j, r).
Proof.
  induction d as [|d IH]; intros j r Hd Hs.
  - assert (S0 : starts (put_json j)) by apply json_starts. cbn [read_json]. 
    destruct j as [|[]|n|s|l|l]; try (cbn in Hd; lia); try reflexivity.
    + cbn [stop] in Hs. unfold read_scalar. rewrite (skip_starts _ S0). unfold scalar_at. cbn [put_json]. pose proof (number_ok n _ Hs) as E.
      destruct (put_number_ok n) as (A & _ & c & l & El & _). rewrite El in *. cbn [app forallb] in *. apply andb_prop in A as [A _].
      destruct (N.eqb_spec c 34) as [->|_]; [discriminate A|]. rewrite A, E. reflexivity.
    + cbn [put_json put_text app]. unfold read_scalar. cbn [skip]. change (is_space 34) with false. cbn iota. unfold scalar_at. change (N.eqb 34 34) with true. cbn iota.
      rewrite <- app_assoc. cbn [app]. rewrite text_ok. reflexivity.
  - assert (Sc : forall j, jdepth j = 0 -> stop j r -> read_json (S d) (put_json j ++ r) = Some (j, r)).
    { intros x Hx Hsx. rewrite <- (IH x r ltac:(lia) Hsx). destruct (json_starts x) as (c & b & E & H1 & H2). 
      assert (K : c <> 91%N /\ c <> 123%N).
      { destruct x as [|[]|n|s|l|l]; try (cbn in Hx; lia); cbn [put_json put_text] in E; try (injection E as <- _; split; discriminate).
        destruct (put_number_ok n) as (A & _ & c' & l & El & _). rewrite El in *. injection E as -> ->. cbn [forallb] in A. apply andb_prop in A as [A _].
        split; intros ->; discriminate A. }
      destruct K as [K1 K2]. rewrite E, !read_json_app; auto. }
    destruct j as [|x|n|s|l|l]; try (apply Sc; auto; reflexivity).
    + cbn [put_json app]. cbn [read_json]. unfold next at 1. cbn [skip]. change (is_space 91) with false. cbn iota. cbn [read_byte]. change (N.eqb 91 91) with true. cbn iota.
      rewrite <- app_assoc. cbn [app]. rewrite sequence_ok; [reflexivity|split; [reflexivity|discriminate]| |].
      * intros x _. exact (json_starts x).
      * intros x r' Hx Hr. apply IH; [exact (depth_arr_in Hd _ Hx)|]. eapply follows_stop; [|exact Hr]; auto.
    + cbn [put_json app]. cbn [read_json]. unfold next at 1. cbn [skip]. change (is_space 123) with false. cbn iota. cbn [read_byte]. change (N.eqb 123 91) with false. change (N.eqb 123 123) with true. cbn iota.
      rewrite <- app_assoc. cbn [app]. rewrite sequence_ok; [reflexivity|split; [reflexivity|discriminate]| |].
      * intros [k x] _. cbn [fst snd put_text app]. eexists. eexists. split; [reflexivity|]. split; [reflexivity|discriminate].
      * intros [k x] r' Hx Hr. cbn [fst snd]. unfold member, put_text. cbn [app]. unfold next at 1. cbn [skip]. change (is_space 34) with false. cbn iota. cbn [read_byte and_then].
        change (N.eqb 34 34) with true. cbn iota. rewrite <- !app_assoc. cbn [app]. rewrite text_ok. cbn [and_then]. unfold next. cbn [skip]. change (is_space 58) with false. cbn iota. cbn [read_byte and_then].
        change (N.eqb 58 58) with true. cbn iota. rewrite IH; [reflexivity|exact (depth_obj_in Hd _ Hx)|]. eapply follows_stop; [|exact Hr]; auto.
Qed.

(** ** Types *)
Lemma with_key_none k (l : list (bytes * json)) : ~ In k (map fst l) -> with_key k l = [].
Proof.
  induction l as [|[k' j] l IH]; intros H; [reflexivity|]. unfold with_key in *. cbn [flat_map fst snd map] in *. destruct (bytes_eqb k' k) eqn:E.
  - apply bytes_eqb_spec in E. subst. destruct H. now left.
  - cbn [app]. apply IH. intros K. apply H. now right.
Qed.
Lemma lookup_ok names : forall vals, NoDup (map text_bytes names) -> List.length vals = List.length names ->
  forall pre, (forall n, In n names -> ~ In (text_bytes n) (map fst pre)) ->
  lookup_fields names (pre ++ combine (map text_bytes names) vals) = Some (map Some vals).
Proof.
  induction names as [|n names IH]; intros [|v vals] Hn Hl pre Hp; try discriminate Hl; [reflexivity|].
  cbn [map] in Hn. inversion Hn as [|x l N1 N2]; subst. injection Hl as Hl. cbn [lookup_fields map combine].
  assert (Ef : field n (pre ++ (text_bytes n, v) :: combine (map text_bytes names) vals) = Some (Some v)).
  { unfold field, with_key. rewrite flat_map_app. fold (with_key (text_bytes n) pre). rewrite with_key_none by (apply Hp; now left).
    cbn [flat_map fst snd app]. assert (E : bytes_eqb (text_bytes n) (text_bytes n) = true) by (apply bytes_eqb_spec; reflexivity). rewrite E.
    fold (with_key (text_bytes n) (combine (map text_bytes names) vals)). rewrite with_key_none; [reflexivity|].
    intros K. apply N1. apply in_map_iff in K as ([k x] & <- & K). apply in_combine_l in K. exact K. }
  rewrite Ef. cbn [option_bind].
  change (pre ++ (text_bytes n, v) :: combine (map text_bytes names) vals) with (pre ++ [(text_bytes n, v)] ++ combine (map text_bytes names) vals).
  rewrite app_assoc, IH; auto. intros m Hm K. rewrite map_app, in_app_iff in K. destruct K as [K|[K|[]]].
  - exact (Hp m (or_intror Hm) K).
  - apply N1. cbn [fst] in K. rewrite K. now apply in_map.
Qed.
Fixpoint distinct (l : list bytes) : bool :=
  match l with [] => true | x :: l => (negb (existsb (bytes_eqb x) l) && distinct l)%bool end.
Lemma distinct_ok l : distinct l = true -> NoDup l.
Proof.
  induction l as [|x l IH]; intros H; constructor; cbn [distinct] in H; apply andb_prop in H as [H1 H2]; auto.
  intros K. apply negb_true_iff in H1. rewrite <- not_true_iff_false in H1. apply H1. apply existsb_exists. exists x. split; auto. now apply bytes_eqb_spec.
Qed.
Lemma struct_ok names vals : distinct (map text_bytes names) = true -> List.length vals = List.length names ->
  of_struct names (to_struct names vals) = Some (map Some vals).
Proof. intros H Hl. unfold of_struct, to_struct. apply (lookup_ok names vals (distinct_ok _ H) Hl []). intros n _ []. Qed.
Lemma struct_depth names vals d : (forall j, In j vals -> jdepth j <= d) -> jdepth (to_struct names vals) <= S d.
Proof. intros H. apply depth_obj. intros [k j] Hin. apply in_combine_r in Hin. exact (H j Hin). Qed.

(** A type that is written and read, nested at most [d] deep. *)
Record typed {A} (to : A -> json) (of : json -> option A) (d : nat) : Prop := {
  ty_ok : forall x, of (to x) = Some x;
  ty_depth : forall x, jdepth (to x) <= d
}.
Definition not_null {A} (to : A -> json) : Prop := forall x, to x <> JNull.

Lemma number_ty : typed JNum of_number 0.
Proof. split; intros x; [reflexivity|cbn; lia]. Qed.
Lemma all_ok A (to : A -> json) of l : (forall x, of (to x) = Some x) -> all_of of (map to l) = Some l.
Proof. intros H. induction l as [|x l IH]; [reflexivity|]. cbn [map all_of]. rewrite H, IH. reflexivity. Qed.
Lemma array_ty A (to : A -> json) of d : typed to of d -> typed (fun l => JArr (map to l)) (of_array of) (S d).
Proof.
  intros [H1 H2]. split; intros l; [exact (all_ok _ _ l H1)|]. apply depth_arr. intros j Hj. apply in_map_iff in Hj as (x & <- & _). apply H2.
Qed.
Lemma option_ty A (to : A -> json) of d : typed to of d -> not_null to -> typed (to_option to) (of_option of) d.
Proof.
  intros [H1 H2] H3. split; intros [x|]; cbn [to_option]; try reflexivity; try apply H2; try (cbn; lia).
  unfold of_option. specialize (H3 x). rewrite H1. destruct (to x); try reflexivity. now destruct H3.
Qed.
Lemma map_ty K V (OK : Ord K) (tok : K -> json) ofk (tov : V -> json) ofv d : typed tok ofk d -> typed tov ofv d ->
  typed (@to_map K V OK tok tov) (of_map ofk ofv) (S (S d)).
Proof.
  intros [K1 K2] [V1 V2]. split; intros m.
  - unfold of_map, to_map. rewrite map_map. rewrite (map_ext _ Some); [apply sm_round_trip|]. intros [k v]. cbn [of_pair fst snd]. now rewrite K1, V1.
  - apply depth_arr. intros j Hj. apply in_map_iff in Hj as ([k v] & <- & _). apply depth_arr. intros j [<-|[<-|[]]]; cbn [fst snd]; auto.
Qed.

Ltac fields := cbn [map option_bind must may].
Ltac depth := repeat match goal with H : In _ [] |- _ => destruct H | H : In _ (_ :: _) |- _ => destruct H as [<-|H]; [try solve [cbn; lia]|] | H : False |- _ => destruct H end.

Lemma bytes_ty t : enc_ok t -> typed (to_bytes t) (of_bytes t) 0.
Proof. intros H. split; intros b; [exact (H b)|cbn; lia]. Qed.

Lemma typed_le A (to : A -> json) of d d' : typed to of d -> d <= d' -> typed to of d'.
Proof. intros [H1 H2] L. split; auto. intros x. specialize (H2 x). lia. Qed.

Lemma rid_ty : typed to_rid of_rid 2.
Proof.
  split; intros [n gs e]; unfold to_rid; cbn [rid_round rid_groups rid_echo].
  - unfold of_rid. rewrite struct_ok; [|reflexivity|reflexivity]. fields. unfold of_array. rewrite (all_ok JNum of_number gs); reflexivity.
  - apply struct_depth. intros j Hj. depth. exact (ty_depth (array_ty number_ty) gs).
Qed.

Section Encodings.
  Variables hex base64 : TextEnc.
  Hypothesis hex_ok : enc_ok hex.
  Hypothesis base64_ok : enc_ok base64.

  Lemma hex_ty : typed (to_bytes hex) (of_bytes hex) 0.
  Proof. exact (bytes_ty hex_ok). Qed.
  Lemma meta_ty : typed (to_meta hex) (of_meta hex) 3.
  Proof.
    split; intros [s r]; unfold to_meta; cbn [m_session m_round].
    - unfold of_meta. rewrite struct_ok; [|reflexivity|reflexivity]. fields. now rewrite (ty_ok hex_ty), (ty_ok rid_ty).
    - apply struct_depth. intros j Hj. depth. exact (ty_depth rid_ty r).
  Qed.
  Lemma shash_ty : typed (to_shash hex) (of_shash hex) 4.
  Proof.
    split; intros [g m h]; unfold to_shash; cbn [sh_sig sh_meta sh_hash].
    - unfold of_shash. rewrite struct_ok; [|reflexivity|reflexivity]. fields. now rewrite (ty_ok hex_ty), (ty_ok meta_ty), (ty_ok hex_ty).
    - apply struct_depth. intros j Hj. depth. exact (ty_depth meta_ty m).
  Qed.
  Lemma echo_ty : typed (to_echo hex) (of_echo hex) 7.
  Proof.
    pose proof (map_ty OrdN (typed_le number_ty (Nat.le_0_l 4)) shash_ty) as T. split; intros m; unfold to_echo.
    - unfold of_echo. rewrite struct_ok; [|reflexivity|reflexivity]. fields. apply (ty_ok T).
    - apply struct_depth. intros j Hj. depth. exact (ty_depth T m).
  Qed.
  Lemma signature_ty : typed to_signature of_signature 1.
  Proof.
    split; intros [s x]; unfold to_signature; cbn [signed_by randomness].
    - unfold of_signature. rewrite struct_ok; [|reflexivity|reflexivity]. reflexivity.
    - apply struct_depth. intros j Hj. depth.
  Qed.
  Lemma body_ty : typed (to_body base64) (of_body base64) 0.
  Proof. apply option_ty; [exact (bytes_ty base64_ok)|discriminate]. Qed.
  Lemma part_ty k : typed (@to_part hex base64 k) (@of_part hex base64 k) 5.
  Proof.
    split; intros [g m x]; unfold to_part; cbn [sp_sig sp_meta sp_body].
    - unfold of_part. rewrite struct_ok; [|reflexivity|reflexivity]. fields. rewrite (ty_ok hex_ty). cbn [option_bind].
      unfold of_with_meta. rewrite struct_ok; [|reflexivity|reflexivity]. fields. now rewrite (ty_ok meta_ty), (ty_ok body_ty).
    - apply struct_depth. intros j Hj. depth. apply struct_depth. intros j' Hj'. depth; [exact (ty_depth meta_ty m)|].
      eapply Nat.le_trans; [exact (ty_depth body_ty x)|lia].
  Qed.
  Lemma part_not_null k : not_null (@to_part hex base64 k).
  Proof. intros x. discriminate. Qed.
  Lemma message_ty : typed (@to_message hex base64) (@of_message hex base64) 6.
  Proof.
    split; intros [v x y z]; unfold to_message; cbn [msg_dest msg_direct msg_echo msg_normal].
    - unfold of_message. rewrite struct_ok; [|reflexivity|reflexivity]. fields. cbn [of_number option_bind].
      rewrite (ty_ok (part_ty KDirect)). cbn [option_bind]. rewrite (ty_ok (part_ty KEcho)). cbn [option_bind]. rewrite (ty_ok (part_ty KNormal)). reflexivity.
    - apply struct_depth. intros j Hj. depth; apply (ty_depth (@part_ty _)).
  Qed.
  Definition parts_ty k := map_ty OrdRid (typed_le rid_ty (Nat.le_add_r 2 3)) (@part_ty k).
  Definition others_ty := map_ty OrdRid (typed_le rid_ty (Nat.le_add_r 2 5)) (map_ty (@OrdVerifier (jsonP hex)) (typed_le number_ty (Nat.le_0_l 5)) (@part_ty KEcho)).
  Lemma proto_ty : typed (@to_proto hex base64) (@of_proto hex base64) 10.
  Proof.
    split; intros [err x y z xs ys zs os hs]; unfold to_proto; cbn [pe_error pe_direct pe_echo pe_normal pe_directs pe_echos pe_normals pe_others pe_hashes].
    - unfold of_proto. rewrite struct_ok; [|reflexivity|reflexivity]. fields. rewrite (ty_ok (bytes_ty base64_ok)). cbn [option_bind].
      rewrite (ty_ok (option_ty (part_ty KDirect) (@part_not_null _))). cbn [option_bind].
      rewrite (ty_ok (option_ty (part_ty KEcho) (@part_not_null _))). cbn [option_bind].
      rewrite (ty_ok (option_ty (part_ty KNormal) (@part_not_null _))). cbn [option_bind].
      rewrite (ty_ok (parts_ty KDirect)). cbn [option_bind]. rewrite (ty_ok (parts_ty KEcho)). cbn [option_bind]. rewrite (ty_ok (parts_ty KNormal)). cbn [option_bind].
      rewrite (ty_ok others_ty). cbn [option_bind]. rewrite (ty_ok (parts_ty KNormal)). reflexivity.
    - assert (L : forall k d (m : bmap RoundId (SPart k)), 7 <= d -> jdepth (to_map to_rid (to_part hex base64 (k := k)) m) <= d).
      { intros k d m L. eapply Nat.le_trans; [exact (ty_depth (@parts_ty k) m)|exact L]. }
      assert (O : forall k (p : option (SPart k)), jdepth (to_option (to_part hex base64 (k := k)) p) <= 9).
      { intros k p. eapply Nat.le_trans; [exact (ty_depth (option_ty (part_ty k) (@part_not_null _)) p)|lia]. }
      apply struct_depth. intros j Hj. depth; try apply O; try (apply L; lia). exact (ty_depth others_ty os).
  Qed.
End Encodings.

(** ** Everything together *)
Definition is_object (j : json) : Prop := match j with JNum _ => False | _ => True end.
Lemma object_stop j r : is_object j -> stop j r.
Proof. now destruct j. Qed.
Lemma written A (to : A -> json) of d x r : typed to of d -> d <= json_depth -> is_object (to x) -> json_read of (put_json (to x) ++ r) = Some (x, r).
Proof.
  intros [H1 H2] L O. unfold json_read. rewrite json_ok; [cbn [and_then]; now rewrite H1| |now apply object_stop]. specialize (H2 x). lia.
Qed.
Lemma read_back A (to : A -> json) of d x r : typed to of d -> d <= json_depth -> is_object (to x) -> json_deser of (put_json (to x) ++ r) = Some x.
Proof. intros H L O. unfold json_deser. now rewrite (written _ r H L O). Qed.
Lemma codec A (to : A -> json) of d : typed to of d -> d <= json_depth -> (forall x, is_object (to x)) -> codec_ok (json_codec to of).
Proof. intros H L O x. exists (put_json (to x)). split; [reflexivity|]. cbn [json_codec c_deser]. rewrite <- (app_nil_r (put_json (to x))). exact (read_back x [] H L (O x)). Qed.

Lemma some_inj A (x y : A) : Some x = Some y -> x = y.
Proof. congruence. Qed.
Ltac small := unfold json_depth; lia.
Section Parameters.
  Variables hex base64 : TextEnc.
  Hypothesis hex_ok : enc_ok hex.
  Hypothesis base64_ok : enc_ok base64.
  Let J : Params := jsonP hex.

  Lemma json_meta m r : json_read (of_meta hex) (put_json (to_meta hex m) ++ r) = Some (m, r).
  Proof. apply (written _ _ (meta_ty hex_ok)); [small|exact I]. Qed.
  Lemma json_echo m r : json_deser (of_echo hex) (put_json (to_echo hex m) ++ r) = Some m.
  Proof. apply (read_back _ _ (echo_ty hex_ok)); [small|exact I]. Qed.
  Lemma json_sig g r : json_deser of_signature (put_json (to_signature g) ++ r) = Some g.
  Proof. apply (read_back _ _ signature_ty); [small|exact I]. Qed.
  Lemma json_message m r : json_read (@of_message hex base64) (put_json (to_message base64 m) ++ r) = Some (m, r).
  Proof. apply (written _ _ (message_ty hex_ok base64_ok)); [small|exact I]. Qed.

  Lemma json_wire : wire_total J.
  Proof.
    constructor.
    - intros m. eexists. reflexivity.
    - intros g s d. eexists. eexists. split; reflexivity.
    - intros m. eexists. split; [reflexivity|]. change (json_deser (of_echo hex) (put_json (to_echo hex m)) = Some m).
      rewrite <- (app_nil_r (put_json (to_echo hex m))). apply json_echo.
  Qed.
  Lemma json_echo_codec : echo_codec J.
  Proof. intros m b H. change (Some (put_json (to_echo hex m)) = Some b) in H. apply some_inj in H. subst b. change (json_deser (of_echo hex) (put_json (to_echo hex m)) = Some m).
    rewrite <- (app_nil_r (put_json (to_echo hex m))). apply json_echo. Qed.
  Lemma json_prefix_free : prefix_free_meta J.
  Proof.
    intros m m' mb mb' r r' H H' E. change (Some (put_json (to_meta hex m)) = Some mb) in H. change (Some (put_json (to_meta hex m')) = Some mb') in H'.
    apply some_inj in H, H'. subst mb mb'. pose proof (json_meta m r) as K. rewrite E, json_meta in K. apply some_inj in K. now injection K.
  Qed.
  Lemma json_signatures : signatures_correct J.
  Proof.
    intros r s d g gb H1 H2. change (Some (mkTestSignature s (r [] mod 2 ^ 64)) = Some g) in H1. change (Some (put_json (to_signature g)) = Some gb) in H2.
    apply some_inj in H1, H2. subst g gb. exists (mkTestSignature s (r [] mod 2 ^ 64)). split; [|cbn; apply N.eqb_refl].
    match goal with |- deser_sig ?b = ?x => change (json_deser of_signature b = x); rewrite <- (app_nil_r b) end. apply json_sig.
  Qed.

  (** Evidence *)
  Variable utf8 : bytes -> bool.
  Lemma invalid_echo_ok p v : of_invalid_echo hex base64 (to_invalid_echo hex base64 p v) = Some (@EvInvalidEcho J p v).
  Proof.
    unfold of_invalid_echo, to_invalid_echo. rewrite struct_ok; [|reflexivity|reflexivity]. fields. rewrite (ty_ok (part_ty hex_ok base64_ok KNormal)). cbn [option_bind].
    rewrite struct_ok; [|reflexivity|reflexivity]. reflexivity.
  Qed.
  Lemma mismatch_ok v p h : of_mismatch hex base64 (to_mismatch hex base64 v p h) = Some (@EvMismatched J v p h).
  Proof.
    unfold of_mismatch, to_mismatch. rewrite struct_ok; [|reflexivity|reflexivity]. fields. rewrite struct_ok; [|reflexivity|reflexivity]. fields. cbn [of_number option_bind].
    now rewrite (ty_ok (part_ty hex_ok base64_ok KEcho)), (ty_ok (shash_ty hex_ok)).
  Qed.
  Lemma enum_ty : typed (@to_enum hex base64) (@of_enum hex base64) 11.
  Proof.
    split; intros [e|p|p|p|p v|v p h].
    - change (option_bind (of_proto hex base64 (to_proto base64 e)) (fun e => Some (@EvProtocol J e)) = Some (@EvProtocol J e)). now rewrite (ty_ok (proto_ty hex_ok base64_ok)).
    - change (option_bind (of_part hex base64 (to_part hex base64 p)) (fun p => Some (@EvDirect J p)) = Some (@EvDirect J p)). now rewrite (ty_ok (part_ty hex_ok base64_ok KDirect)).
    - change (option_bind (of_part hex base64 (to_part hex base64 p)) (fun p => Some (@EvEcho J p)) = Some (@EvEcho J p)). now rewrite (ty_ok (part_ty hex_ok base64_ok KEcho)).
    - change (option_bind (of_part hex base64 (to_part hex base64 p)) (fun p => Some (@EvNormal J p)) = Some (@EvNormal J p)). now rewrite (ty_ok (part_ty hex_ok base64_ok KNormal)).
    - exact (invalid_echo_ok p v).
    - exact (mismatch_ok v p h).
    - apply depth_obj. intros kv [<-|[]]. apply (ty_depth (proto_ty hex_ok base64_ok)).
    - apply depth_obj. intros kv [<-|[]]. eapply Nat.le_trans; [apply (ty_depth (part_ty hex_ok base64_ok KDirect))|lia].
    - apply depth_obj. intros kv [<-|[]]. eapply Nat.le_trans; [apply (ty_depth (part_ty hex_ok base64_ok KEcho))|lia].
    - apply depth_obj. intros kv [<-|[]]. eapply Nat.le_trans; [apply (ty_depth (part_ty hex_ok base64_ok KNormal))|lia].
    - apply depth_obj. intros kv [<-|[]]. cbn [snd]. apply struct_depth. intros j Hj. depth.
      eapply Nat.le_trans; [apply (ty_depth (part_ty hex_ok base64_ok KNormal))|lia].
    - apply depth_obj. intros kv [<-|[]]. cbn [snd]. apply struct_depth. intros j Hj. depth. apply struct_depth. intros j' Hj'. depth.
      + eapply Nat.le_trans; [apply (ty_depth (part_ty hex_ok base64_ok KEcho))|lia].
      + eapply Nat.le_trans; [apply (ty_depth (shash_ty hex_ok))|lia].
  Qed.
  Lemma json_evidence s ev r : utf8 s = true -> json_read (@of_evidence hex base64 utf8) (put_json (to_evidence base64 (s, ev)) ++ r) = Some ((s, ev), r).
  Proof.
    intros U. unfold json_read. rewrite json_ok; [cbn [and_then]| |exact I].
    - destruct ev as [v x]. unfold of_evidence, to_evidence. cbn [fst snd ev_guilty ev_body]. rewrite struct_ok; [|reflexivity|reflexivity]. fields. cbn [of_number option_bind of_string].
      rewrite U. cbn [option_bind]. now rewrite (ty_ok enum_ty).
    - destruct ev as [v x]. unfold to_evidence. cbn [fst snd ev_guilty ev_body]. eapply Nat.le_trans; [apply (@struct_depth _ _ 11)|small].
      intros j Hj. depth. apply (ty_depth enum_ty).
  Qed.
End Parameters.

Lemma two_ty A (names : list string) (f : N -> N -> A) (a b : A -> N) : distinct (map text_bytes names) = true -> List.length names = 2 -> (forall x, f (a x) (b x) = x) ->
  typed (fun x => to_struct names [JNum (a x); JNum (b x)]) (two_numbers names f) 1.
Proof.
  intros H1 H2 H3. split; intros x.
  - unfold two_numbers. rewrite struct_ok; [|exact H1|now rewrite H2]. fields. cbn [of_number option_bind]. now rewrite H3.
  - apply struct_depth. intros j Hj. depth.
Qed.
Lemma json_codecs : codec_ok (sw_message1 jsonW) /\ codec_ok (sw_echo1 jsonW) /\ codec_ok (sw_broadcast1 jsonW) /\ codec_ok (sw_message2 jsonW).
Proof.
  assert (P : codec_ok json_position).
  { apply (@codec _ _ _ 1); [|small|intros x; exact I]. apply (two_ty position_names mkPosition my_position your_position); [reflexivity|reflexivity|intros []; reflexivity]. }
  split; [exact P|]. split; [|split; [|exact P]].
  - apply (@codec _ _ _ 1); [|small|intros x; exact I]. split; intros x.
    + rewrite struct_ok; [|reflexivity|reflexivity]. reflexivity.
    + apply struct_depth. intros j Hj. depth.
  - apply (@codec _ _ _ 1); [|small|intros x; exact I]. apply (two_ty broadcast1_names mkR1Broadcast rb_x rb_position); [reflexivity|reflexivity|intros []; reflexivity].
Qed.

Lemma hex_digit_ok d : from_digit (hex_digit d) = Some d.
Proof.
  unfold from_digit, hex_digit. destruct (N.ltb_spec d 10).
  - destruct (N.ltb_spec (48 + d) 48); [lia|]. destruct (N.ltb_spec (48 + d) 58); [f_equal; lia|lia].
  - destruct (N.ltb_spec (87 + d) 48); [lia|]. destruct (N.ltb_spec (87 + d) 58); [lia|]. destruct (N.leb_spec 65 (87 + d)), (N.ltb_spec (87 + d) 71); cbn [andb]; try lia.
    destruct (N.ltb_spec (87 + d) 97); [lia|]. f_equal. lia.
Qed.
Lemma hex_enc_ok : enc_ok hex_enc.
Proof.
  intros b. cbn [enc dec hex_enc]. change (N.eqb 48 48 && N.eqb 120 120)%bool with true. cbn iota. induction b as [|n b IH]; [reflexivity|].
  cbn [flat_map app from_hex]. rewrite !hex_digit_ok. cbn [option_bind]. rewrite IH. cbn [option_bind]. f_equal. f_equal. symmetry. apply N.div_mod. discriminate.
Qed.

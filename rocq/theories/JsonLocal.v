(** What is read as JSON depends only on the bytes taken. *)
From Coq Require Import List Arith NArith Bool String Lia.
From Verif Require Import Base Message Text TestParams Json JsonFacts.
Import ListNotations.
Set Implicit Arguments.
Local Open Scope list_scope.

(** [read] takes some bytes and does not look at what follows, as long as this is [fit] for the value. *)
Definition local {A} (fit : A -> bytes -> Prop) (read : bytes -> option (A * bytes)) : Prop :=
  forall b x r, read b = Some (x, r) -> fit x r /\ exists t, b = t ++ r /\ t <> [] /\ forall r', fit x r' -> read (t ++ r') = Some (x, r').
Definition anything {A} (_ : A) (_ : bytes) : Prop := True.

Lemma then_some A B (x : option (A * bytes)) (f : A -> bytes -> option B) y : and_then x f = Some y -> exists a b, x = Some (a, b) /\ f a b = Some y.
Proof. destruct x as [[a b]|]; [eauto|discriminate]. Qed.

Lemma next_local : local anything next.
Proof.
  intros b c r H. split; [exact I|]. unfold next in *. induction b as [|x b IH]; [discriminate H|]. cbn [skip] in H. destruct (is_space x) eqn:E.
  - destruct (IH H) as (t & -> & Ht & K). exists (x :: t). split; [reflexivity|]. split; [discriminate|]. intros r' _. cbn [app skip]. rewrite E. now apply K.
  - cbn [read_byte] in H. injection H as -> ->. exists [c]. split; [reflexivity|]. split; [discriminate|]. intros r' _. cbn [app skip]. now rewrite E.
Qed.
Lemma text_local_any n : forall b s r, List.length b <= n -> read_text b = Some (s, r) -> exists t, b = t ++ r /\ t <> [] /\ forall r', read_text (t ++ r') = Some (s, r').
Proof.
  induction n as [|n IH]; intros b s r Hl H; destruct b as [|c b]; try discriminate H; [cbn in Hl; lia|]. cbn [List.length] in Hl. cbn [read_text] in H.
  destruct (N.eqb c 34) eqn:E1; [injection H as <- <-; exists [c]; split; [reflexivity|split; [discriminate|]]; intros r'; cbn [app read_text]; now rewrite E1|].
  destruct (N.eqb c 92) eqn:E2.
  - destruct b as [|e b]; [discriminate H|]. destruct (N.eqb e 117) eqn:E3.
    + destruct b as [|h1 [|h2 [|h3 [|h4 b]]]]; try discriminate H. destruct (unicode h1 h2 h3 h4) as [x|] eqn:E4; [|discriminate H].
      apply then_some in H as (s' & b' & H & K). injection K as <- <-. apply IH in H as (t & -> & _ & K); [|cbn [List.length] in Hl; lia].
      exists (c :: e :: h1 :: h2 :: h3 :: h4 :: t). split; [reflexivity|]. split; [discriminate|]. intros r'. cbn [app read_text]. rewrite E1, E2, E3, E4, K. reflexivity.
    + destruct (unescape e) as [x|] eqn:E4; [|discriminate H]. apply then_some in H as (s' & b' & H & K). injection K as <- <-. apply IH in H as (t & -> & _ & K); [|cbn [List.length] in Hl; lia].
      exists (c :: e :: t). split; [reflexivity|]. split; [discriminate|]. intros r'. cbn [app read_text]. rewrite E1, E2, E3, E4, K. reflexivity.
  - destruct (N.ltb c 32) eqn:E3; [discriminate H|]. apply then_some in H as (s' & b' & H & K). injection K as <- <-. apply IH in H as (t & -> & _ & K); [|lia].
    exists (c :: t). split; [reflexivity|]. split; [discriminate|]. intros r'. cbn [app read_text]. rewrite E1, E2, E3, K. reflexivity.
Qed.
Lemma text_local : local anything read_text.
Proof. intros b s r H. split; [exact I|]. destruct (text_local_any b (Nat.le_refl _) H) as (t & E & Hn & K). exists t. split; auto. Qed.

Lemma digits_spec b l r : digits b = (l, r) -> b = l ++ r /\ forallb is_digit l = true /\ match r with c :: _ => is_digit c = false | [] => True end.
Proof.
  revert l r. induction b as [|c b IH]; intros l r H; cbn [digits] in H; [injection H as <- <-; auto|]. destruct (is_digit c) eqn:E.
  - destruct (digits b) as [l' r']. injection H as <- <-. destruct (IH _ _ eq_refl) as (-> & K1 & K2). split; [reflexivity|]. split; auto. cbn [forallb]. now rewrite E.
  - injection H as <- <-. auto.
Qed.
Lemma number_local : local (fun _ r => after r = true) read_number.
Proof.
  intros b n r H. unfold read_number in H. destruct (digits b) as [l r0] eqn:Ed. destruct (digits_spec _ Ed) as (-> & D1 & D2). destruct l as [|c l']; [discriminate H|].
  destruct (N.eqb c 48 && negb _)%bool eqn:E; [discriminate H|].
  assert (K : r = r0 /\ n = number_of (c :: l') /\ after r0 = true).
  { destruct r0 as [|d r0]; [injection H as <- <-; auto|]. destruct (N.eqb d 46 || N.eqb d 69 || N.eqb d 101)%bool eqn:E'; [discriminate H|]. injection H as <- <-. split; auto. split; auto.
    cbn [after]. rewrite D2. cbn [orb]. now rewrite E'. }
  destruct K as (-> & -> & A). split; [exact A|]. exists (c :: l'). split; [reflexivity|]. split; [discriminate|]. intros r' A'. unfold read_number.
  rewrite digits_app; auto.
  - rewrite E. destruct r' as [|d r']; [reflexivity|]. cbn [after] in A'. apply negb_true_iff in A'. rewrite !orb_false_iff in A'. destruct A' as [[[_ H1] H2] H3]. now rewrite H1, H2, H3.
  - destruct r' as [|d r']; auto. cbn [after] in A'. apply negb_true_iff in A'. rewrite !orb_false_iff in A'. tauto.
Qed.
Lemma expect_local s b r : expect s b = Some r -> b = s ++ r.
Proof.
  revert b. induction s as [|x s IH]; intros b H; [now injection H|]. destruct b as [|y b]; [discriminate H|]. cbn [expect] in H. destruct (N.eqb_spec x y) as [->|]; [|discriminate H].
  cbn [app]. f_equal. auto.
Qed.
Lemma expect_app s r : expect s (s ++ r) = Some r.
Proof. induction s as [|x s IH]; [reflexivity|]. cbn [app expect]. now rewrite N.eqb_refl. Qed.

Lemma skip_split b : exists w, b = w ++ skip b /\ forall c r, is_space c = false -> skip (w ++ c :: r) = c :: r.
Proof.
  induction b as [|x b (w & E & K)].
  - exists []. split; [reflexivity|]. intros c r H. cbn [app skip]. now rewrite H.
  - cbn [skip]. destruct (is_space x) eqn:Ex; [|exists []; split; [reflexivity|]; intros c r H; cbn [app skip]; now rewrite H].
    exists (x :: w). split; [cbn [app]; now f_equal|]. intros c r H. cbn [app skip]. rewrite Ex. now apply K.
Qed.
Lemma skip_head b c r : skip b = c :: r -> is_space c = false.
Proof. induction b as [|x b IH]; [discriminate|]. cbn [skip]. destruct (is_space x) eqn:E; auto. intros H. now injection H as -> ->. Qed.
Lemma scalar_at_local : local stop scalar_at.
Proof.
  intros b x r H. destruct b as [|c b]; [discriminate H|]. cbn [scalar_at] in H. destruct (N.eqb c 34) eqn:E1.
  { apply then_some in H as (s & b2 & H & K). injection K as <- <-. destruct (text_local _ H) as (_ & t & -> & _ & K). split; [exact I|]. exists (c :: t). split; [reflexivity|].
    split; [discriminate|]. intros r' _. cbn [app scalar_at]. rewrite E1, K; [reflexivity|exact I]. }
  destruct (is_digit c) eqn:E2.
  { apply then_some in H as (n & b2 & H & K). injection K as <- <-. destruct (number_local _ H) as (A & t & E & Ht & K). split; [exact A|]. destruct t as [|c' t]; [now destruct Ht|].
    injection E as <- ->. exists (c :: t). split; [reflexivity|]. split; [discriminate|]. intros r' S'. cbn [app scalar_at]. rewrite E1, E2. cbn [app] in K. rewrite K; [reflexivity|exact S']. }
  assert (L : forall s rest, expect (text_bytes s) (c :: b) = Some rest -> s <> ""%string -> exists t', text_bytes s = c :: t' /\ b = t' ++ rest).
  { intros s rest He Hn. apply expect_local in He. destruct (text_bytes s) as [|c' t'] eqn:Et; [destruct s; [congruence|discriminate Et]|]. injection He as <- ->. eauto. }
  destruct (expect (text_bytes "null") (c :: b)) as [b2|] eqn:E3.
  { injection H as <- <-. destruct (L _ _ E3 ltac:(discriminate)) as (t & Et & ->). split; [exact I|]. exists (c :: t). split; [reflexivity|]. split; [discriminate|]. intros r' _. injection Et as <- <-. reflexivity. }
  destruct (expect (text_bytes "true") (c :: b)) as [b2|] eqn:E4.
  { injection H as <- <-. destruct (L _ _ E4 ltac:(discriminate)) as (t & Et & ->). split; [exact I|]. exists (c :: t). split; [reflexivity|]. split; [discriminate|]. intros r' _. injection Et as <- <-. reflexivity. }
  destruct (expect (text_bytes "false") (c :: b)) as [b2|] eqn:E5; [|discriminate H].
  injection H as <- <-. destruct (L _ _ E5 ltac:(discriminate)) as (t & Et & ->). split; [exact I|]. exists (c :: t). split; [reflexivity|]. split; [discriminate|]. intros r' _. injection Et as <- <-. reflexivity.
Qed.
Lemma scalar_local : local stop read_scalar.
Proof.
  intros b x r H. unfold read_scalar in H. destruct (skip_split b) as (w & Eb & W). destruct (skip b) as [|c b'] eqn:Es; [discriminate H|]. pose proof (skip_head _ Es) as Hc.
  destruct (scalar_at_local _ H) as (S & t & E & Ht & K). split; [exact S|]. destruct t as [|c' t]; [now destruct Ht|]. injection E as <- ->.
  exists (w ++ c :: t). split; [rewrite <- app_assoc; exact Eb|]. split; [intros F; apply (f_equal (@List.length N)) in F; rewrite app_length in F; cbn in F; lia|].
  intros r' S'. unfold read_scalar. rewrite <- app_assoc. cbn [app]. rewrite (W _ _ Hc). exact (K _ S').
Qed.

Definition solid (t : bytes) : bool := existsb (fun c => negb (is_space c)) t.
Lemma next_solid b c r : next b = Some (c, r) -> exists t, b = t ++ r /\ solid t = true.
Proof.
  unfold next. induction b as [|x b IH]; intros H; [discriminate H|]. cbn [skip] in H. destruct (is_space x) eqn:E.
  - destruct (IH H) as (t & -> & Ht). exists (x :: t). split; [reflexivity|]. unfold solid in *. cbn [existsb]. rewrite Ht. apply orb_true_r.
  - cbn [read_byte] in H. injection H as -> ->. exists [c]. split; [reflexivity|]. unfold solid. cbn [existsb]. now rewrite E.
Qed.
Lemma solid_app t t' : solid (t ++ t') = (solid t || solid t')%bool.
Proof. apply existsb_app. Qed.
Lemma solid_next t r r' c b : solid t = true -> next (t ++ r) = Some (c, b) -> exists b', next (t ++ r') = Some (c, b').
Proof.
  unfold next, solid. induction t as [|x t IH]; intros S H; [discriminate S|]. cbn [existsb app skip] in *. destruct (is_space x) eqn:E; cbn [negb orb] in *; auto.
  cbn [read_byte] in *. injection H as -> _. eauto.
Qed.

(** Nothing that follows a number but a digit, a dot or an exponent goes unnoticed. *)
Lemma after_app t r r' : t <> [] -> after (t ++ r) = after (t ++ r').
Proof. destruct t; [congruence|reflexivity]. Qed.
Section Many.
  Context {A : Type}.
  Variables (fit : A -> bytes -> Prop) (read : bytes -> option (A * bytes)) (close : N).
  Hypothesis Hr : local fit read.
  Hypothesis fit_app : forall x t r r', t <> [] -> fit x (t ++ r) -> fit x (t ++ r').

  Lemma many_local fuel : forall b l r, many read close fuel b = Some (l, r) ->
    exists t, b = t ++ r /\ List.length l <= List.length t /\ solid t = true /\ forall r' fuel', List.length l <= fuel' -> many read close fuel' (t ++ r') = Some (l, r').
  Proof.
    induction fuel as [|fuel IH]; intros b l r H; [discriminate H|]. cbn [many] in H. apply then_some in H as (x & b1 & H1 & H). apply then_some in H as (c & b2 & H2 & H).
    destruct (Hr H1) as (F & t1 & -> & N1 & K1). destruct (next_local _ H2) as (_ & t2 & -> & N2 & K2).
    destruct (next_solid _ H2) as (t2' & E2 & S2). apply app_inv_tail in E2. subst t2'.
    assert (L1 : 1 <= List.length t1) by (destruct t1; [congruence|cbn; lia]). 
    destruct (N.eqb c close) eqn:E1.
    - injection H as <- <-. exists (t1 ++ t2). split; [now rewrite app_assoc|]. split; [rewrite app_length; cbn; lia|]. split; [rewrite solid_app, S2; apply orb_true_r|].
      intros r' fuel' L. destruct fuel' as [|fuel']; [cbn in L; lia|]. cbn [many]. rewrite <- app_assoc, K1; [|eapply fit_app; eauto]. cbn [and_then]. rewrite K2; [|exact I]. cbn [and_then]. now rewrite E1.
    - destruct (N.eqb c 44) eqn:E2; [|discriminate H]. apply then_some in H as (l' & b3 & H3 & H). injection H as <- <-. apply IH in H3 as (t3 & -> & L3 & N3 & K3).
      exists (t1 ++ t2 ++ t3). split; [now rewrite <- !app_assoc|]. split; [rewrite !app_length; cbn; lia|]. split; [rewrite !solid_app, S2; apply orb_true_r|].
      intros r' fuel' L. destruct fuel' as [|fuel']; [cbn in L; lia|]. cbn [many]. rewrite <- !app_assoc, K1; [|eapply fit_app; eauto]. cbn [and_then]. rewrite K2; [|exact I]. cbn [and_then]. rewrite E1, E2, K3; [reflexivity|cbn in L; lia].
  Qed.
  Lemma sequence_local : local anything (sequence read close).
  Proof.
    intros b l r H. split; [exact I|]. unfold sequence in H. destruct (next b) as [[c b1]|] eqn:E; [|discriminate H]. destruct (next_local _ E) as (_ & t & -> & Nt & K). destruct (N.eqb c close) eqn:Ec.
    - injection H as <- <-. exists t. split; auto. split; auto. intros r' _. unfold sequence. rewrite K; [|exact I]. now rewrite Ec.
    - apply many_local in H as (t2 & Et & L & N2 & K2). exists t2. split; auto. split; [now destruct t2|]. intros r' _. unfold sequence.
      rewrite Et in E. destruct (solid_next _ _ r' N2 E) as [b' ->]. rewrite Ec. apply K2. rewrite app_length. lia.
  Qed.
End Many.

Lemma stop_app j t r r' : t <> [] -> stop j (t ++ r) -> stop j (t ++ r').
Proof. intros H. destruct j; cbn [stop]; auto. now rewrite (after_app r r' H). Qed.
Lemma member_local A (fit : A -> bytes -> Prop) read : local fit read -> local (fun kv => fit (snd kv)) (member read).
Proof.
  intros Hr b [k x] r H. unfold member in H. apply then_some in H as (c & b1 & H1 & H). destruct (N.eqb c 34) eqn:E1; [|discriminate H]. apply then_some in H as (k' & b2 & H2 & H).
  apply then_some in H as (c' & b3 & H3 & H). destruct (N.eqb c' 58) eqn:E2; [|discriminate H]. apply then_some in H as (x' & b4 & H4 & H). injection H as -> -> ->.
  destruct (next_local _ H1) as (_ & t1 & -> & N1 & K1). destruct (text_local _ H2) as (_ & t2 & -> & _ & K2). destruct (next_local _ H3) as (_ & t3 & -> & _ & K3). destruct (Hr _ _ _ H4) as (F & t4 & -> & _ & K4).
  split; [exact F|]. exists (t1 ++ t2 ++ t3 ++ t4). split; [now rewrite <- !app_assoc|]. split; [destruct t1; [congruence|discriminate]|]. intros r' F'. unfold member.
  rewrite <- !app_assoc, K1; [|exact I]. cbn [and_then]. rewrite E1, K2; [|exact I]. cbn [and_then]. rewrite K3; [|exact I]. cbn [and_then]. rewrite E2, (K4 _ F'). reflexivity.
Qed.
Lemma json_local d : local stop (read_json d).
Proof.
  induction d as [|d IH]; [exact scalar_local|]. intros b x r H. cbn [read_json] in H. destruct (next b) as [[c b1]|] eqn:E; [|discriminate H].
  destruct (next_local _ E) as (_ & t & Eb & Nt & K). destruct (N.eqb c 91) eqn:E1; [|destruct (N.eqb c 123) eqn:E2].
  - apply then_some in H as (l & b2 & H & Q). injection Q as <- <-. destruct (sequence_local _ IH stop_app _ H) as (_ & t2 & -> & _ & K2).
    split; [exact I|]. exists (t ++ t2). split; [now rewrite <- app_assoc|]. split; [destruct t; [congruence|discriminate]|]. intros r' _. cbn [read_json]. rewrite <- app_assoc, K; [|exact I]. rewrite E1, K2; [reflexivity|exact I].
  - apply then_some in H as (l & b2 & H & Q). injection Q as <- <-. destruct (sequence_local _ (member_local IH) (fun kv => @stop_app (snd kv)) _ H) as (_ & t2 & -> & _ & K2).
    split; [exact I|]. exists (t ++ t2). split; [now rewrite <- app_assoc|]. split; [destruct t; [congruence|discriminate]|]. intros r' _. cbn [read_json]. rewrite <- app_assoc, K; [|exact I]. rewrite E1, E2, K2; [reflexivity|exact I].
  - destruct (scalar_local _ H) as (S & t' & E' & N' & K'). split; [exact S|]. exists t'. split; auto. split; auto. intros r' S'. cbn [read_json].
    pose proof (K' r' S') as Q. unfold read_scalar in Q. assert (exists b', next (t' ++ r') = Some (c, b')) as [b' ->]; [|rewrite E1, E2; exact (K' r' S')].
    subst b. rewrite E' in E. unfold read_scalar in H. clear K K'.
    destruct (solid t') eqn:Es; [exact (solid_next _ _ r' Es E)|]. exfalso.
    assert (G : forall w z, solid w = false -> skip (w ++ z) = skip z).
    { clear. induction w as [|y w IH]; intros z H; [reflexivity|]. unfold solid in *. cbn [existsb app skip] in *. destruct (is_space y); [now apply IH|discriminate H]. }
    rewrite E', G in H by exact Es. destruct (skip_split r) as (w & Er & _). apply (f_equal (@List.length N)) in Er. rewrite app_length in Er.
    destruct (scalar_at_local _ H) as (_ & t2 & E2' & N2' & _). apply (f_equal (@List.length N)) in E2'. rewrite app_length in E2'. destruct t2; [congruence|]. cbn [List.length] in E2'. lia.
Qed.

(** ** Types that are never written as a number *)
Definition structured {A} (of : json -> option A) : Prop := forall n, of (JNum n) = None.
Lemma read_local A (of : json -> option A) b x r : structured of -> json_read of b = Some (x, r) ->
  exists t, b = t ++ r /\ forall r', json_read of (t ++ r') = Some (x, r').
Proof.
  intros Hs. unfold json_read. generalize json_depth. intros d H. apply then_some in H as (j & b1 & H1 & H). destruct (of j) as [x'|] eqn:E; [|discriminate H]. cbn [option_bind] in H. injection H as -> ->.
  destruct (json_local _ _ H1) as (_ & t & -> & _ & K). exists t. split; auto. intros r'. rewrite K; [cbn [and_then]; now rewrite E|]. destruct j; cbn [stop]; auto. rewrite Hs in E. discriminate E.
Qed.
Lemma read_cut A (of : json -> option A) x p q : structured of -> json_read of (p ++ q) = Some (x, []) -> q <> [] -> json_read of p = None.
Proof.
  intros Hs H Hq. destruct (json_read of p) as [[y r]|] eqn:E; auto. exfalso. destruct (read_local _ Hs E) as (t & -> & K). rewrite <- app_assoc, K in H.
  injection H as _ H. apply app_eq_nil in H as [_ H]. contradiction.
Qed.

(** ** Fields *)
Lemma field_twice names n l : In n names -> 2 <= List.length (with_key (text_bytes n) l) -> of_struct names (JObj l) = None.
Proof.
  intros Hin H. cbn [of_struct]. induction names as [|m names IH]; [contradiction|]. cbn [lookup_fields]. destruct Hin as [->|Hin].
  - unfold field. destruct (with_key (text_bytes n) l) as [|x [|y l']]; [cbn in H; lia|cbn in H; lia|reflexivity].
  - rewrite (IH Hin). destruct (field m l); reflexivity.
Qed.

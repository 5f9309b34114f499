(** The reader of JSON accepts exactly the JSON texts. *)
From Coq Require Import List Arith NArith Bool String Lia.
From Verif Require Import Base BMap Errors RoundId Message Protocol Transcript Evidence Text TestParams Json JsonFacts JsonLocal SpecJson.
Import ListNotations.
Set Implicit Arguments.
Local Open Scope list_scope.

(** ** Characters *)
Lemma space_char c : is_space c = true <-> (c = 32 \/ c = 9 \/ c = 10 \/ c = 13)%N.
Proof. unfold is_space. rewrite !orb_true_iff, !N.eqb_eq. tauto. Qed.
Lemma digit_iff c : is_digit c = true <-> digit c.
Proof. unfold is_digit, digit. rewrite andb_true_iff, N.leb_le, N.ltb_lt. lia. Qed.
Lemma skip_spec b : exists w, b = w ++ skip b /\ space w.
Proof.
  induction b as [|x b (w & E & K)]; [exists []; split; [reflexivity|constructor]|]. cbn [skip]. destruct (is_space x) eqn:Ex.
  - exists (x :: w). split; [cbn [app]; now f_equal|]. constructor; auto. now apply space_char.
  - exists []. split; [reflexivity|constructor].
Qed.
Lemma skip_space w c r : space w -> is_space c = false -> skip (w ++ c :: r) = c :: r.
Proof.
  intros Hw Hc. induction Hw as [|x w Hx Hw IH]; cbn [app skip]; [now rewrite Hc|]. apply space_char in Hx. now rewrite Hx.
Qed.
Lemma next_spec b c r : next b = Some (c, r) <-> exists w, b = w ++ c :: r /\ space w /\ is_space c = false.
Proof.
  unfold next. split.
  - intros H. destruct (skip_spec b) as (w & E & Hw). destruct (skip b) as [|x s] eqn:Es; [discriminate H|]. cbn in H. injection H as -> ->. exists w. split; auto. split; auto. exact (skip_head _ Es).
  - intros (w & -> & Hw & Hc). rewrite skip_space; auto.
Qed.

Lemma hex_iff h x : hex_value h = Some x <-> hex_char h x.
Proof.
  unfold hex_value, hex_char.
  destruct (N.leb_spec 48 h), (N.ltb_spec h 58); cbn [andb]; try (split; [intros E; apply some_inj in E; lia|intros H1; f_equal; lia]);
  destruct (N.leb_spec 97 h), (N.ltb_spec h 103); cbn [andb]; try (split; [intros E; apply some_inj in E; lia|intros H3; f_equal; lia]);
  destruct (N.leb_spec 65 h), (N.ltb_spec h 71); cbn [andb]; try (split; [intros E; apply some_inj in E; lia|intros H5; f_equal; lia]);
  (split; [discriminate|intros; lia]).
Qed.
Lemma escape_iff e c : unescape e = Some c <-> escape e c.
Proof.
  unfold escape, unescape. split.
  - intros H. repeat match type of H with (if N.eqb ?a ?b then _ else _) = _ => destruct (N.eqb_spec a b) as [->|_]; [apply some_inj in H; subst c; cbn; tauto|] end. discriminate.
  - cbn [In]. intros H. repeat (destruct H as [H|H]; [inversion H; subst; reflexivity|]). contradiction.
Qed.
Lemma unicode_iff h1 h2 h3 h4 c : unicode h1 h2 h3 h4 = Some c <->
  h1 = 48%N /\ h2 = 48%N /\ exists x y, (x < 8)%N /\ hex_char h3 x /\ hex_char h4 y /\ c = (16 * x + y)%N.
Proof.
  assert (Z : forall h, hex_value h = Some 0%N <-> h = 48%N) by (intros h; rewrite hex_iff; unfold hex_char; lia).
  unfold unicode. split.
  - destruct (hex_value h1) as [[|]|] eqn:E1; try discriminate. destruct (hex_value h2) as [[|]|] eqn:E2; try discriminate.
    apply Z in E1, E2. destruct (hex_value h3) as [x|] eqn:E3; [|discriminate]. destruct (hex_value h4) as [y|] eqn:E4; [|discriminate].
    destruct (N.ltb_spec x 8) as [L|]; [|discriminate]. intros H. apply some_inj in H. split; auto. split; auto. exists x, y. split; auto. split; [now apply hex_iff|]. split; [now apply hex_iff|]. now symmetry.
  - intros (-> & -> & x & y & L & H3 & H4 & ->). apply hex_iff in H3, H4. change (hex_value 48) with (Some 0%N). rewrite H3, H4. destruct (N.ltb_spec x 8); [reflexivity|lia].
Qed.

(** ** Strings *)
Lemma char_read c t b : char_text c t -> read_text (t ++ b) = and_then (read_text b) (fun s r => Some (c :: s, r)).
Proof.
  intros H. destruct H as [c H1 H2 H3|e c H|h1 h2 x y L H1 H2].
  - cbn [app read_text]. apply N.eqb_neq in H2, H3. rewrite H2, H3. destruct (N.ltb_spec c 32); [lia|reflexivity].
  - cbn [app read_text]. change (N.eqb 92 34) with false. change (N.eqb 92 92) with true. cbn iota.
    destruct (N.eqb_spec e 117) as [->|_]; [apply escape_iff in H; discriminate H|]. apply escape_iff in H. now rewrite H.
  - cbn [app read_text]. change (N.eqb 92 34) with false. change (N.eqb 92 92) with true. change (N.eqb 117 117) with true. cbn iota.
    rewrite (proj2 (unicode_iff 48 48 h1 h2 (16 * x + y))); [reflexivity|]. split; auto. split; auto. exists x, y. auto.
Qed.
Lemma string_read s t r : string_text s t -> read_text (t ++ r) = Some (s, r).
Proof. intros H. induction H as [|c t s u H1 H2 IH]; [reflexivity|]. rewrite <- app_assoc, (char_read _ H1), IH. reflexivity. Qed.
Lemma string_sound n : forall b s r, List.length b <= n -> read_text b = Some (s, r) -> exists t, string_text s t /\ b = t ++ r.
Proof.
  induction n as [|n IH]; intros b s r Hl H; destruct b as [|c b]; try discriminate H; [cbn in Hl; lia|]. cbn [List.length] in Hl. cbn [read_text] in H.
  destruct (N.eqb_spec c 34) as [->|N1]; [injection H as <- <-; exists [34%N]; split; [constructor|reflexivity]|].
  destruct (N.eqb_spec c 92) as [->|N2].
  - destruct b as [|e b]; [discriminate H|]. destruct (N.eqb_spec e 117) as [->|N3].
    + destruct b as [|h1 [|h2 [|h3 [|h4 b]]]]; try discriminate H. destruct (unicode h1 h2 h3 h4) as [x|] eqn:E4; [|discriminate H].
      apply then_some in H as (s' & b' & H & K). injection K as <- <-. apply IH in H as (t & Ht & ->); [|cbn [List.length] in Hl; lia].
      apply unicode_iff in E4 as (-> & -> & x' & y & L & H3 & H4 & ->). exists ([92; 117; 48; 48; h3; h4]%N ++ t). split; [|reflexivity]. constructor; auto. now constructor.
    + destruct (unescape e) as [x|] eqn:E4; [|discriminate H]. apply then_some in H as (s' & b' & H & K). injection K as <- <-. apply IH in H as (t & Ht & ->); [|cbn [List.length] in Hl; lia].
      exists ([92%N; e] ++ t). split; [|reflexivity]. constructor; auto. constructor. now apply escape_iff.
  - destruct (N.ltb_spec c 32) as [|L]; [discriminate H|]. apply then_some in H as (s' & b' & H & K). injection K as <- <-. apply IH in H as (t & Ht & ->); [|lia].
    exists ([c] ++ t). split; [|reflexivity]. constructor; auto. now constructor.
Qed.
Lemma string_iff b s r : read_text b = Some (s, r) <-> exists t, string_text s t /\ b = t ++ r.
Proof. split; [intros H; eapply string_sound; eauto|]. intros (t & H & ->). now apply string_read. Qed.

(** ** Numbers *)
Lemma after_iff r : after r = true <-> forall c r', r = c :: r' -> ~ digit c /\ c <> 46%N /\ c <> 69%N /\ c <> 101%N.
Proof.
  destruct r as [|c r]; cbn [after]; [split; [intros _ c r' E; discriminate E|reflexivity]|]. rewrite negb_true_iff, !orb_false_iff, !N.eqb_neq, <- not_true_iff_false, digit_iff. split.
  - intros H c' r' E. injection E as <- <-. tauto.
  - intros H. specialize (H c r eq_refl). tauto.
Qed.
Lemma all_digits l : forallb is_digit l = true <-> Forall digit l.
Proof. rewrite forallb_forall, Forall_forall. split; intros H x Hx; apply digit_iff; auto. Qed.
Lemma number_iff b n r : read_number b = Some (n, r) <-> exists t, number_text n t /\ after r = true /\ b = t ++ r.
Proof.
  unfold number_text. split.
  - intros H. destruct (number_local _ H) as (A & _). unfold read_number in H. destruct (digits b) as [l r0] eqn:Ed. destruct (digits_spec _ Ed) as (-> & D1 & D2). destruct l as [|c l']; [discriminate H|].
    destruct (N.eqb c 48 && negb _)%bool eqn:E; [discriminate H|].
    assert (K : r = r0 /\ n = number_of (c :: l')).
    { destruct r0 as [|d r0]; [injection H as <- <-; auto|]. destruct (N.eqb d 46 || N.eqb d 69 || N.eqb d 101)%bool; [discriminate H|]. injection H as <- <-. auto. }
    destruct K as [-> ->]. exists (c :: l'). split; [|auto]. split; [discriminate|]. split; [now apply all_digits|]. split; [|reflexivity].
    intros u Eu. injection Eu as -> ->. destruct u; [reflexivity|discriminate E].
  - intros (t & (Hn & Hd & Hz & ->) & A & ->). unfold read_number. rewrite digits_app; [|now apply all_digits|].
    + destruct t as [|c l]; [congruence|]. assert (Z : (N.eqb c 48 && negb (match l with [] => true | _ => false end))%bool = false).
      { destruct (N.eqb_spec c 48) as [->|_]; [|reflexivity]. now rewrite (Hz l eq_refl). }
      rewrite Z. destruct r as [|d r]; [reflexivity|]. cbn [after] in A. apply negb_true_iff in A. rewrite !orb_false_iff in A. destruct A as [[[_ H1] H2] H3]. now rewrite H1, H2, H3.
    + destruct r as [|d r]; auto. cbn [after] in A. apply negb_true_iff in A. rewrite !orb_false_iff in A. tauto.
Qed.

(** ** Lists *)
(** [read] accepts exactly what [text] describes, after white space. *)
Definition exact {A} (text : A -> bytes -> Prop) (fit : A -> bytes -> Prop) (read : bytes -> option (A * bytes)) : Prop :=
  forall b x r, read b = Some (x, r) <-> exists w t, b = w ++ t ++ r /\ space w /\ text x t /\ fit x r.
(** Texts begin with something other than white space and closing brackets. *)
Definition opens {A} (text : A -> bytes -> Prop) : Prop := forall x t, text x t -> exists c u, t = c :: u /\ is_space c = false /\ c <> 93%N /\ c <> 125%N.

Section Many.
  Context {A : Type}.
  Variables (text : A -> bytes -> Prop) (fit : A -> bytes -> Prop) (read : bytes -> option (A * bytes)) (close : N).
  Hypothesis Hr : exact text fit read.
  Hypothesis Ho : opens text.
  Hypothesis Hc : close = 93%N \/ close = 125%N.
  Hypothesis Hf : forall x w c r, space w -> c = 44%N \/ c = 93%N \/ c = 125%N -> fit x (w ++ c :: r).

  Lemma close_char : is_space close = false /\ close <> 44%N.
  Proof. destruct Hc as [-> | ->]; split; reflexivity || discriminate. Qed.
  Lemma many_sound fuel : forall b l r, many read close fuel b = Some (l, r) -> l <> [] /\ exists u, b = u ++ close :: r /\ listed text l u.
  Proof.
    induction fuel as [|fuel IH]; intros b l r H; [discriminate H|]. cbn [many] in H. apply then_some in H as (x & b1 & H1 & H). apply then_some in H as (c & b2 & H2 & H).
    apply Hr in H1 as (w & t & -> & Hw & Ht & _). apply next_spec in H2 as (w' & -> & Hw' & _). destruct (N.eqb_spec c close) as [->|].
    - injection H as <- <-. split; [discriminate|]. exists (w ++ t ++ w'). split; [now rewrite <- !app_assoc|]. now constructor.
    - destruct (N.eqb_spec c 44) as [->|]; [|discriminate H]. apply then_some in H as (l' & b3 & H3 & H). injection H as <- <-. apply IH in H3 as (Hl & u & -> & Hu).
      split; [discriminate|]. exists (w ++ t ++ w' ++ 44%N :: u). split; [now rewrite <- !app_assoc|]. now constructor.
  Qed.
  Lemma many_complete l u : listed text l u -> l <> [] -> forall fuel r, List.length l <= fuel -> many read close fuel (u ++ close :: r) = Some (l, r).
  Proof.
    destruct close_char as [C1 C2]. intros H. induction H as [w Hw|w x t w' Hw Ht Hw'|w x t w' l u Hw Ht Hw' Hl Hu IH]; intros Hn fuel r L; [now destruct Hn| |].
    - destruct fuel as [|fuel]; [cbn in L; lia|]. cbn [many]. rewrite (proj2 (Hr _ x (w' ++ close :: r))); [|exists w, t; split; [now rewrite <- !app_assoc|]; split; auto; split; auto; apply Hf; tauto].
      cbn [and_then]. rewrite (proj2 (next_spec _ close r)); [|exists w'; auto]. cbn [and_then]. now rewrite N.eqb_refl.
    - destruct fuel as [|fuel]; [cbn in L; lia|]. cbn [many]. rewrite (proj2 (Hr _ x (w' ++ 44%N :: u ++ close :: r))); [|exists w, t; split; [now rewrite <- !app_assoc|]; split; auto].
      cbn [and_then]. rewrite (proj2 (next_spec _ 44 (u ++ close :: r))); [|exists w'; auto]. cbn [and_then]. destruct (N.eqb_spec 44 close) as [E|_]; [congruence|]. change (N.eqb 44 44) with true. cbn iota.
      rewrite IH; auto. cbn in L; lia.
  Qed.
  Lemma listed_length l u : listed text l u -> List.length l <= S (List.length u).
  Proof. intros H. induction H; cbn [List.length] in *; rewrite ?app_length; cbn [List.length]; rewrite ?app_length; cbn [List.length]; lia. Qed.
  Lemma listed_opens l u r : listed text l u -> l <> [] -> exists c b, next (u ++ r) = Some (c, b) /\ c <> close.
  Proof.
    intros H Hl. assert (K : exists w t u', u = w ++ t ++ u' /\ space w /\ exists x, text x t) by (destruct H; [congruence|exists w, t, w'; eauto|eexists w, t, _; eauto]).
    destruct K as (w & t & u' & -> & Hw & x & Ht). destruct (Ho Ht) as (c & t' & -> & K1 & K2 & K3). exists c, (t' ++ u' ++ r). split; [|destruct Hc as [-> | ->]; auto].
    apply next_spec. exists w. split; [rewrite <- !app_assoc; reflexivity|]. auto.
  Qed.
  Lemma sequence_iff b l r : sequence read close b = Some (l, r) <-> exists u, b = u ++ close :: r /\ listed text l u.
  Proof.
    unfold sequence. split.
    - intros H. destruct (next b) as [[c b']|] eqn:E; [|discriminate H]. apply next_spec in E as (w & -> & Hw & Hs). destruct (N.eqb_spec c close) as [->|].
      + injection H as <- <-. exists w. split; auto. now constructor.
      + apply many_sound in H as [_ H]. exact H.
    - intros (u & -> & Hu). destruct l as [|x l].
      + inversion Hu; subst. rewrite (proj2 (next_spec _ close r)); [|exists u; split; auto; split; auto; apply close_char]. now rewrite N.eqb_refl.
      + destruct (@listed_opens _ _ (close :: r) Hu) as (c & b & E & Nc); [discriminate|]. rewrite E. apply N.eqb_neq in Nc. rewrite Nc. apply many_complete; auto; [discriminate|].
        apply listed_length in Hu. rewrite app_length. cbn [List.length] in *. lia.
  Qed.
End Many.

(** ** Values *)
Lemma json_opens d : opens (json_text d).
Proof.
  intros j t H. destruct j as [|[]|n|s|l|l]; destruct d; cbn [json_text] in H; try contradiction;
    try (subst t; eexists; eexists; split; [reflexivity|repeat split; discriminate || reflexivity]);
    try (destruct H as (u & _ & ->); eexists; eexists; split; [reflexivity|repeat split; discriminate || reflexivity]).
  all: destruct H as (Hn & Hd & _); destruct t as [|c u]; [congruence|]; exists c, u; split; [reflexivity|]; inversion Hd as [|? ? H1 ? E1]; subst; unfold digit in H1;
    (split; [apply not_true_iff_false; rewrite space_char; lia|split; lia]).
Qed.
Lemma member_opens d : opens (member_text (json_text d)).
Proof. intros kv t (k & w & w' & u & _ & _ & _ & _ & ->). eexists. eexists. split; [reflexivity|]. repeat split; discriminate. Qed.
Lemma ended_after j w c r : space w -> c = 44%N \/ c = 93%N \/ c = 125%N -> ended j (w ++ c :: r).
Proof.
  intros Hw Hc. destruct j; cbn [ended]; auto. intros x r' E. unfold digit. destruct w as [|y w]; cbn [app] in E; injection E as <- <-.
  - destruct Hc as [-> |[-> | ->]]; repeat split; lia.
  - inversion Hw as [|? ? H1 ? E1]; subst. lia.
Qed.
Lemma member_exact (text : json -> bytes -> Prop) fit read : exact text fit read -> exact (member_text text) (fun kv => fit (snd kv)) (member read).
Proof.
  intros Hr b [k x] r. unfold member. split.
  - intros H. apply then_some in H as (c & b1 & H1 & H). apply next_spec in H1 as (w1 & -> & Hw1 & _). destruct (N.eqb_spec c 34) as [->|]; [|discriminate H].
    apply then_some in H as (k' & b2 & H2 & H). apply string_iff in H2 as (kt & Hk & ->). apply then_some in H as (c' & b3 & H3 & H). apply next_spec in H3 as (w2 & -> & Hw2 & _).
    destruct (N.eqb_spec c' 58) as [->|]; [|discriminate H]. apply then_some in H as (x' & b4 & H4 & H). injection H as -> -> ->. apply Hr in H4 as (w3 & t & -> & Hw3 & Ht & F).
    exists w1, (34%N :: kt ++ w2 ++ 58%N :: w3 ++ t). split; [cbn [app]; rewrite <- ?app_assoc; cbn [app]; now rewrite <- ?app_assoc|]. split; auto. split; auto.
    exists kt, w2, w3, t. auto.
  - intros (w1 & t & -> & Hw1 & (kt & w2 & w3 & u & Hk & Hw2 & Hw3 & Hu & ->) & F). cbn [fst snd] in *.
    rewrite (proj2 (next_spec _ 34 ((kt ++ w2 ++ 58%N :: w3 ++ u) ++ r))); [|exists w1; auto]. cbn [and_then]. change (N.eqb 34 34) with true. cbn iota.
    rewrite (proj2 (string_iff _ k ((w2 ++ 58%N :: w3 ++ u) ++ r))); [|exists kt; split; auto; now rewrite <- app_assoc]. cbn [and_then].
    rewrite (proj2 (next_spec _ 58 ((w3 ++ u) ++ r))); [|exists w2; split; [now rewrite <- app_assoc|auto]]. cbn [and_then]. change (N.eqb 58 58) with true. cbn iota.
    rewrite (proj2 (Hr _ x r)); [reflexivity|]. exists w3, u. split; [now rewrite <- app_assoc|]. auto.
Qed.

Lemma stop_ended j r : stop j r <-> ended j r.
Proof. destruct j; cbn [stop ended]; try tauto. apply after_iff. Qed.
Lemma scalar_at_iff b j r : scalar_at b = Some (j, r) <-> exists t, b = t ++ r /\ json_text 0 j t /\ ended j r.
Proof.
  split.
  - intros H. destruct b as [|c b]; [discriminate H|]. unfold scalar_at in H. destruct (N.eqb_spec c 34) as [->|N1].
    { apply then_some in H as (s & b2 & H & K). injection K as <- <-. apply string_iff in H as (t & Ht & ->). exists (34%N :: t). split; [reflexivity|]. split; [|exact I]. cbn [json_text]. eauto. }
    destruct (is_digit c) eqn:E2.
    { apply then_some in H as (n & b2 & H & K). injection K as <- <-. apply number_iff in H as (t & Ht & A & E). exists t. split; [exact E|]. split; [exact Ht|]. exact (proj1 (after_iff _) A). }
    destruct (expect (text_bytes "null") (c :: b)) as [b2|] eqn:E3.
    { injection H as <- <-. apply expect_local in E3. rewrite E3. eexists. split; [reflexivity|]. split; [reflexivity|exact I]. }
    destruct (expect (text_bytes "true") (c :: b)) as [b2|] eqn:E4.
    { injection H as <- <-. apply expect_local in E4. rewrite E4. eexists. split; [reflexivity|]. split; [reflexivity|exact I]. }
    destruct (expect (text_bytes "false") (c :: b)) as [b2|] eqn:E5; [|discriminate H].
    injection H as <- <-. apply expect_local in E5. rewrite E5. eexists. split; [reflexivity|]. split; [reflexivity|exact I].
  - intros (t & -> & H & E). destruct j as [|[]|n|s|l|l]; cbn [json_text] in H; try contradiction; try (subst t; reflexivity).
    + destruct H as (Hn & Hd & Hrest). destruct t as [|c t]; [congruence|]. assert (Hc : digit c) by (inversion Hd; auto). cbn [app]. unfold scalar_at.
      destruct (N.eqb_spec c 34) as [->|_]; [unfold digit in Hc; lia|]. rewrite (proj2 (digit_iff c) Hc).
      rewrite (proj2 (number_iff (c :: t ++ r) n r)); [reflexivity|]. exists (c :: t). split; [split; auto|]. split; [exact (proj2 (after_iff _) E)|reflexivity].
    + destruct H as (u & Hu & ->). cbn [app]. unfold scalar_at. change (N.eqb 34 34) with true. cbn iota. rewrite (proj2 (string_iff (u ++ r) s r)); [reflexivity|]. eauto.
Qed.
Lemma scalar_exact : exact (json_text 0) ended read_scalar.
Proof.
  intros b j r. unfold read_scalar. rewrite scalar_at_iff. split.
  - intros (t & E & Ht & F). destruct (skip_spec b) as (w & Eb & Hw). exists w, t. rewrite Eb at 1. rewrite E. auto.
  - intros (w & t & -> & Hw & Ht & F). exists t. split; [|auto]. destruct (json_opens 0 _ _ Ht) as (c & u & -> & Hc & _). cbn [app]. now apply skip_space.
Qed.
Lemma json_text_scalar d j t : (forall l, j <> JArr l) -> (forall l, j <> JObj l) -> json_text d j t <-> json_text 0 j t.
Proof. intros H1 H2. destruct j as [|[]|n|s|l|l]; destruct d; cbn [json_text]; try tauto; [now destruct (H1 l)|now destruct (H2 l)]. Qed.

Lemma json_exact d : exact (json_text d) ended (read_json d).
Proof.
  induction d as [|d IH]; [exact scalar_exact|]. intros b j r. cbn [read_json].
  assert (HA : forall b l r, sequence (read_json d) 93 b = Some (l, r) <-> exists u, b = u ++ 93%N :: r /\ listed (json_text d) l u)
    by (intros; apply (@sequence_iff _ _ _ _ 93%N IH (json_opens d) (or_introl eq_refl) ended_after)).
  assert (HO : forall b l r, sequence (member (read_json d)) 125 b = Some (l, r) <-> exists u, b = u ++ 125%N :: r /\ listed (member_text (json_text d)) l u)
    by (intros; apply (@sequence_iff _ _ _ _ 125%N (member_exact IH) (@member_opens d) (or_intror eq_refl) (fun kv => ended_after (snd kv)))).
  split.
  - intros H. destruct (next b) as [[c b1]|] eqn:E; [|discriminate H]. apply next_spec in E as (w & -> & Hw & Hs). destruct (N.eqb_spec c 91) as [->|N1]; [|destruct (N.eqb_spec c 123) as [->|N2]].
    + apply then_some in H as (l & b2 & H & K). injection K as <- <-. apply HA in H as (u & -> & Hu). exists w, (91%N :: u ++ [93%N]). split; [cbn [app]; now rewrite <- app_assoc|]. split; auto. split; [|exact I].
      cbn [json_text]. eauto.
    + apply then_some in H as (l & b2 & H & K). injection K as <- <-. apply HO in H as (u & -> & Hu). exists w, (123%N :: u ++ [125%N]). split; [cbn [app]; now rewrite <- app_assoc|]. split; auto. split; [|exact I].
      cbn [json_text]. eauto.
    + apply scalar_exact in H as (w' & t & E & Hw' & Ht & F). exists w', t. split; auto. split; auto. split; auto.
      destruct j as [|[]|n|s|l|l]; cbn [json_text] in Ht |- *; auto; contradiction.
  - intros (w & t & -> & Hw & Ht & F). destruct (json_opens _ _ _ Ht) as (c & u & Et & Hc & _). rewrite (proj2 (next_spec _ c (u ++ r))); [|exists w; rewrite Et; auto].
    assert (Sc : json_text 0 j t -> read_scalar (w ++ t ++ r) = Some (j, r)) by (intros H0; apply scalar_exact; exists w, t; auto).
    destruct j as [|x|n|s|l|l]; try (rewrite Sc by exact Ht).
    + cbn [json_text] in Ht. subst t. injection Et as <- <-. reflexivity.
    + cbn [json_text] in Ht. subst t. destruct x; injection Et as <- <-; reflexivity.
    + destruct Ht as (_ & Hd & _). rewrite Et in Hd. assert (D : digit c) by (inversion Hd; auto). unfold digit in D. destruct (N.eqb_spec c 91); [lia|]. destruct (N.eqb_spec c 123); [lia|]. reflexivity.
    + destruct Ht as (u' & _ & ->). injection Et as <- <-. reflexivity.
    + destruct Ht as (u' & Hu & ->). injection Et as <- <-. change (N.eqb 91 91) with true. cbn iota. rewrite (proj2 (HA _ l r)); [reflexivity|]. exists u'. split; [now rewrite <- app_assoc|exact Hu].
    + destruct Ht as (u' & Hu & ->). injection Et as <- <-. change (N.eqb 123 91) with false. change (N.eqb 123 123) with true. cbn iota. rewrite (proj2 (HO _ l r)); [reflexivity|]. exists u'. split; [now rewrite <- app_assoc|exact Hu].
Qed.

Lemma read_exact A (of : json -> option A) b x r : json_read of b = Some (x, r) <->
  exists w t j, b = w ++ t ++ r /\ space w /\ json_text 127 j t /\ ended j r /\ of j = Some x.
Proof.
  unfold json_read. change json_depth with 127. generalize 127. intros d. split.
  - intros H. apply then_some in H as (j & b1 & H1 & H). destruct (of j) as [x'|] eqn:E; [|discriminate H]. cbn [option_bind] in H. injection H as -> ->.
    apply json_exact in H1 as (w & t & -> & Hw & Ht & F). exists w, t, j. auto.
  - intros (w & t & j & -> & Hw & Ht & F & E). rewrite (proj2 (json_exact d _ j r)); [cbn [and_then]; now rewrite E|]. exists w, t. auto.
Qed.
Lemma written_text d j : jdepth j <= d -> json_text d j (put_json j).
Proof.
  intros H. assert (E : read_json d (put_json j ++ []) = Some (j, [])) by (apply json_ok; [exact H|destruct j; cbn; auto]).
  apply json_exact in E as (w & t & E & Hw & Ht & _). rewrite !app_nil_r in E. destruct (json_starts j) as (c & l & Ej & Hc & _). destruct w as [|y w]; [cbn [app] in E; congruence|].
  rewrite Ej in E. injection E as <- _. inversion Hw as [|? ? H1 ? E1]; subst. apply space_char in H1. congruence.
Qed.
Lemma text_depth d : forall j t, json_text d j t -> jdepth j <= d.
Proof.
  assert (L : forall A (text : A -> bytes -> Prop) l u x, listed text l u -> In x l -> exists t, text x t).
  { intros A text l u x H. induction H as [w Hw|w y t w' Hw Ht Hw'|w y t w' l u Hw Ht Hw' Hl Hu IH]; intros Hx; [contradiction|destruct Hx as [<-|[]]; eauto|].
    destruct Hx as [<-|Hx]; eauto. }
  induction d as [|d IH]; intros j t H; destruct j as [|x|n|s|l|l]; cbn [json_text] in H; try contradiction; try apply Nat.le_0_l.
  - destruct H as (u & Hu & _). apply depth_arr. intros x Hx. destruct (L _ _ _ _ _ Hu Hx) as [t' Ht]. eapply IH; eauto.
  - destruct H as (u & Hu & _). apply depth_obj. intros x Hx. destruct (L _ _ _ _ _ Hu Hx) as [t' (k & w & w' & v & _ & _ & _ & Hv & _)]. eapply IH; eauto.
Qed.
Lemma written_is_text d j t : json_text d j t -> json_text d j (put_json j).
Proof. intros H. apply written_text. eapply text_depth; eauto. Qed.
Lemma one_value d j j' t : json_text d j t -> json_text d j' t -> j = j'.
Proof.
  assert (K : forall j, json_text d j t -> read_json d t = Some (j, [])).
  { intros x H. apply json_exact. exists [], t. split; [now rewrite app_nil_r|]. split; [constructor|]. split; auto. destruct x; cbn [ended]; auto. discriminate. }
  intros H1 H2. apply K in H1, H2. congruence.
Qed.
Lemma written_values hex base64 : enc_ok hex -> enc_ok base64 ->
  (forall m : @Message (jsonP hex), json_text 127 (to_message base64 m) (put_json (to_message base64 m))) /\
  (forall s (ev : @Evidence (jsonP hex)), json_text 127 (to_evidence base64 (s, ev)) (put_json (to_evidence base64 (s, ev)))).
Proof.
  intros H1 H2. split.
  - intros m. apply written_text. eapply Nat.le_trans; [apply (ty_depth (message_ty H1 H2))|]. apply Nat.leb_le. reflexivity.
  - intros s ev. apply written_text. destruct ev as [v x]. unfold to_evidence. cbn [fst snd ev_guilty ev_body]. eapply Nat.le_trans; [apply (@struct_depth _ _ 11)|apply Nat.leb_le; reflexivity].
    intros j Hj. repeat (destruct Hj as [<-|Hj]; [try apply Nat.le_0_l|]); try contradiction. apply (ty_depth (enum_ty H1 H2)).
Qed.

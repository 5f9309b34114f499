(** JSON texts (RFC 8259), as far as the types of the library need them. Vocabulary of C129; no proofs here.
    Left out: numbers other than natural numbers, escapes [\uXXXX] of other than ASCII characters. *)
From Coq Require Import List NArith String.
From Verif Require Import Base Message Text Json.
Import ListNotations.
Set Implicit Arguments.
Local Open Scope list_scope.

Definition space (w : bytes) : Prop := Forall (fun c => c = 32 \/ c = 9 \/ c = 10 \/ c = 13)%N w.
Definition digit (c : N) : Prop := (48 <= c <= 57)%N.
Definition hex_char (h x : N) : Prop := ((x < 10 /\ h = 48 + x) \/ (10 <= x < 16 /\ (h = 97 + (x - 10) \/ h = 65 + (x - 10))))%N.

(** [\e] stands for the character [c]. *)
Definition escape (e c : N) : Prop := In (e, c) [(34, 34); (92, 92); (47, 47); (98, 8); (102, 12); (110, 10); (114, 13); (116, 9)]%N.
(** The ways to write a character in a string. *)
Inductive char_text : N -> bytes -> Prop :=
| ch_plain c : (32 <= c)%N -> c <> 34%N -> c <> 92%N -> char_text c [c]
| ch_escape e c : escape e c -> char_text c [92%N; e]
| ch_unicode h1 h2 x y : (x < 8)%N -> hex_char h1 x -> hex_char h2 y -> char_text (16 * x + y) [92; 117; 48; 48; h1; h2]%N.
(** A string after the opening quote. *)
Inductive string_text : bytes -> bytes -> Prop :=
| st_end : string_text [] [34%N]
| st_char c t s u : char_text c t -> string_text s u -> string_text (c :: s) (t ++ u).
(** Decimal digits, the most significant first, without superfluous zeros. *)
Definition number_text (n : N) (t : bytes) : Prop :=
  t <> [] /\ Forall digit t /\ (forall u, t = 48%N :: u -> u = []) /\ n = fold_left (fun n c => 10 * n + (c - 48))%N t 0%N.

(** Things separated by commas, with white space around them. *)
Inductive listed {A} (text : A -> bytes -> Prop) : list A -> bytes -> Prop :=
| l_none w : space w -> listed text [] w
| l_one w x t w' : space w -> text x t -> space w' -> listed text [x] (w ++ t ++ w')
| l_more w x t w' l u : space w -> text x t -> space w' -> l <> [] -> listed text l u -> listed text (x :: l) (w ++ t ++ w' ++ 44%N :: u).
(** A member of an object: name, colon, value. *)
Definition member_text (text : json -> bytes -> Prop) (kv : bytes * json) (t : bytes) : Prop :=
  exists k w w' u, string_text (fst kv) k /\ space w /\ space w' /\ text (snd kv) u /\ t = 34%N :: k ++ w ++ 58%N :: w' ++ u.

(** [t] is a text of the value [j], with arrays and objects nested [d] deep at most. *)
Fixpoint json_text (d : nat) (j : json) (t : bytes) : Prop :=
  match j with
  | JNull => t = text_bytes "null"
  | JBool x => t = text_bytes (if x then "true" else "false")
  | JNum n => number_text n t
  | JStr s => exists u, string_text s u /\ t = 34%N :: u
  | JArr l => match d with O => False | S d => exists u, listed (json_text d) l u /\ t = 91%N :: u ++ [93%N] end
  | JObj l => match d with O => False | S d => exists u, listed (member_text (json_text d)) l u /\ t = 123%N :: u ++ [125%N] end
  end.

(** What follows a number does not continue it. *)
Definition ended (j : json) (r : bytes) : Prop :=
  match j with
  | JNum _ => forall c r', r = c :: r' -> ~ digit c /\ c <> 46%N /\ c <> 69%N /\ c <> 101%N
  | _ => True
  end.

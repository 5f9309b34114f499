(** [HumanReadableFormat] (manul/src/dev/wire_format.rs:40-69): JSON as written by [serde_json::to_vec] and read by a
    [serde_json::Deserializer], and the types of the library in it, for the session parameters of dev/session_parameters.rs.
    The sources of serde and serde_json are not part of the repository; what they do is modelled as documented. The deserializer does not look
    at what follows the value it reads (wire_format.rs:65-68 never calls [end]).
    A text is first read as a [json] value, and the type is read from this; serde does both at once.
    Simplifications: of numbers, only those of natural numbers are read, and they are not limited ([u8] and [u64] elsewhere in the
    model are not, either); escapes [\uXXXX] are read only for ASCII characters; whether a string is
    well-formed UTF-8 is a parameter, and asked only of the description of evidence; the encodings Hex and Base64 of
    serde-encoded-bytes are parameters. *)
From Coq Require Import List NArith Bool String.
From Verif Require Import Base BMap Errors RoundId Message Protocol Transcript SerMap Simple Text TestParams.
Import ListNotations.
Set Implicit Arguments.
Local Open Scope list_scope.

Inductive json :=
| JNull
| JBool (x : bool)
| JNum (n : N)
| JStr (s : bytes)
| JArr (l : list json)
| JObj (l : list (bytes * json)).

(** ** Writing: no white space *)
Definition hex_digit (d : N) : N := (if N.ltb d 10 then 48 + d else 87 + d)%N.
Definition put_char (c : N) : bytes :=
  (if N.eqb c 34 then [92; 34]
   else if N.eqb c 92 then [92; 92]
   else if N.ltb c 32 then
     if N.eqb c 8 then [92; 98]
     else if N.eqb c 9 then [92; 116]
     else if N.eqb c 10 then [92; 110]
     else if N.eqb c 12 then [92; 102]
     else if N.eqb c 13 then [92; 114]
     else [92; 117; 48; 48; hex_digit (c / 16); hex_digit (c mod 16)]
   else [c])%N.
Definition put_text (s : bytes) : bytes := (34%N :: flat_map put_char s ++ [34%N]).
Fixpoint digits_go (fuel : nat) (n : N) : bytes :=
  match fuel with
  | O => []
  | S fuel => (if N.ltb n 10 then [48 + n] else digits_go fuel (n / 10) ++ [48 + n mod 10])%N
  end.
Definition put_number (n : N) : bytes := digits_go (S (N.to_nat (N.size n))) n.
Fixpoint commas (l : list bytes) : bytes :=
  match l with
  | [] => []
  | [x] => x
  | x :: l => x ++ 44%N :: commas l
  end.
Fixpoint put_json (j : json) : bytes :=
  match j with
  | JNull => text_bytes "null"
  | JBool x => text_bytes (if x then "true" else "false")
  | JNum n => put_number n
  | JStr s => put_text s
  | JArr l => 91%N :: commas (map put_json l) ++ [93%N]
  | JObj l => 123%N :: commas (map (fun kv => put_text (fst kv) ++ 58%N :: put_json (snd kv)) l) ++ [125%N]
  end.

(** ** Reading *)
Definition is_space (c : N) : bool := (N.eqb c 32 || N.eqb c 9 || N.eqb c 10 || N.eqb c 13)%N.
Fixpoint skip (b : bytes) : bytes :=
  match b with
  | c :: b' => if is_space c then skip b' else b
  | [] => []
  end.
(** The next character that is no white space, and what follows it. *)
Definition next (b : bytes) : option (N * bytes) := read_byte (skip b).
Fixpoint expect (s b : bytes) : option bytes :=
  match s, b with
  | [], _ => Some b
  | x :: s, y :: b => if N.eqb x y then expect s b else None
  | _, [] => None
  end.
Definition is_digit (c : N) : bool := (N.leb 48 c && N.ltb c 58)%N.
(** The digits at the beginning. *)
Fixpoint digits (b : bytes) : bytes * bytes :=
  match b with
  | c :: b' => if is_digit c then let (l, r) := digits b' in (c :: l, r) else ([], b)
  | [] => ([], [])
  end.
Definition number_of (l : bytes) : N := fold_left (fun n c => 10 * n + (c - 48))%N l 0%N.
(** No superfluous zero in front, no fraction, no exponent. *)
Definition read_number (b : bytes) : option (N * bytes) :=
  let (l, r) := digits b in
  match l with
  | [] => None
  | c :: l' =>
      if (N.eqb c 48 && negb (match l' with [] => true | _ => false end))%N then None
      else match r with
           | d :: _ => if (N.eqb d 46 || N.eqb d 69 || N.eqb d 101)%N then None else Some (number_of l, r)
           | [] => Some (number_of l, r)
           end
  end.
Definition hex_value (c : N) : option N :=
  (if (N.leb 48 c && N.ltb c 58)%bool then Some (c - 48)
   else if (N.leb 97 c && N.ltb c 103)%bool then Some (c - 87)
   else if (N.leb 65 c && N.ltb c 71)%bool then Some (c - 55)
   else None)%N.
Definition unescape (e : N) : option N :=
  (if N.eqb e 34 then Some 34
   else if N.eqb e 92 then Some 92
   else if N.eqb e 47 then Some 47
   else if N.eqb e 98 then Some 8
   else if N.eqb e 102 then Some 12
   else if N.eqb e 110 then Some 10
   else if N.eqb e 114 then Some 13
   else if N.eqb e 116 then Some 9
   else None)%N.
Definition unicode (a b c d : N) : option N :=
  match hex_value a, hex_value b, hex_value c, hex_value d with
  | Some 0%N, Some 0%N, Some x, Some y => if N.ltb x 8 then Some (16 * x + y)%N else None
  | _, _, _, _ => None
  end.
(** The rest of a string, after the opening quote. *)
Fixpoint read_text (b : bytes) : option (bytes * bytes) :=
  match b with
  | [] => None
  | c :: b =>
      if N.eqb c 34 then Some ([], b)
      else if N.eqb c 92 then
        match b with
        | e :: b =>
            if N.eqb e 117 then
              match b with
              | h1 :: h2 :: h3 :: h4 :: b =>
                  match unicode h1 h2 h3 h4 with
                  | Some x => and_then (read_text b) (fun s b => Some (x :: s, b))
                  | None => None
                  end
              | _ => None
              end
            else match unescape e with
                 | Some x => and_then (read_text b) (fun s b => Some (x :: s, b))
                 | None => None
                 end
        | [] => None
        end
      else if N.ltb c 32 then None
      else and_then (read_text b) (fun s b => Some (c :: s, b))
  end.

(** Things separated by commas, up to the closing bracket. *)
Fixpoint many {A} (read : bytes -> option (A * bytes)) (close : N) (fuel : nat) (b : bytes) : option (list A * bytes) :=
  match fuel with
  | O => None
  | S fuel =>
      and_then (read b) (fun x b => and_then (next b) (fun c b =>
        if N.eqb c close then Some ([x], b)
        else if N.eqb c 44 then and_then (many read close fuel b) (fun l b => Some (x :: l, b))
        else None))
  end.
Definition sequence {A} (read : bytes -> option (A * bytes)) (close : N) (b : bytes) : option (list A * bytes) :=
  match next b with
  | Some (c, b') => if N.eqb c close then Some ([], b') else many read close (S (List.length b)) b
  | None => None
  end.
Definition member {A} (read : bytes -> option (A * bytes)) (b : bytes) : option ((bytes * A) * bytes) :=
  and_then (next b) (fun c b => if N.eqb c 34 then
    and_then (read_text b) (fun k b => and_then (next b) (fun c b => if N.eqb c 58 then
      and_then (read b) (fun x b => Some ((k, x), b)) else None)) else None).
Definition scalar_at (b : bytes) : option (json * bytes) :=
  match b with
  | c :: b' =>
      if N.eqb c 34 then and_then (read_text b') (fun s b => Some (JStr s, b))
      else if is_digit c then and_then (read_number b) (fun n b => Some (JNum n, b))
      else match expect (text_bytes "null") b with
           | Some b => Some (JNull, b)
           | None => match expect (text_bytes "true") b with
                     | Some b => Some (JBool true, b)
                     | None => match expect (text_bytes "false") b with
                               | Some b => Some (JBool false, b)
                               | None => None
                               end
                     end
           end
  | [] => None
  end.
Definition read_scalar (b : bytes) : option (json * bytes) := scalar_at (skip b).
(** Arrays and objects are nested [depth] deep at most. *)
Fixpoint read_json (depth : nat) (b : bytes) : option (json * bytes) :=
  match depth with
  | O => read_scalar b
  | S depth =>
      match next b with
      | Some (c, b') =>
          if N.eqb c 91 then and_then (sequence (read_json depth) 93 b') (fun l b => Some (JArr l, b))
          else if N.eqb c 123 then and_then (sequence (member (read_json depth)) 125 b') (fun l b => Some (JObj l, b))
          else read_scalar b
      | None => None
      end
  end.
(** The limit of serde_json is 128, exclusive. *)
Definition json_depth : nat := 127.

(** ** Types *)
Definition option_bind {A B} (x : option A) (f : A -> option B) : option B := match x with Some a => f a | None => None end.
Definition of_number (j : json) : option N := match j with JNum n => Some n | _ => None end.
Definition of_bool (j : json) : option bool := match j with JBool x => Some x | _ => None end.
(** Unit structs and [PhantomData]. *)
Definition of_unit (j : json) : option unit := match j with JNull => Some tt | _ => None end.
Fixpoint all_of {A} (of : json -> option A) (l : list json) : option (list A) :=
  match l with
  | [] => Some []
  | j :: l => option_bind (of j) (fun x => option_bind (all_of of l) (fun xs => Some (x :: xs)))
  end.
Definition of_array {A} (of : json -> option A) (j : json) : option (list A) := match j with JArr l => all_of of l | _ => None end.
(** Tuples of two *)
Definition of_pair {A B} (ofa : json -> option A) (ofb : json -> option B) (j : json) : option (A * B) :=
  match j with JArr [a; b] => option_bind (ofa a) (fun x => option_bind (ofb b) (fun y => Some (x, y))) | _ => None end.
Definition to_option {A} (to : A -> json) (x : option A) : json := match x with Some x => to x | None => JNull end.
Definition of_option {A} (of : json -> option A) (j : json) : option (option A) :=
  match j with JNull => Some None | _ => option_bind (of j) (fun x => Some (Some x)) end.

(** A struct is written as an object with its fields in order. It is read from an object with these fields in any order; other fields
    are ignored, and none of these may occur twice. It is also read from an array of the fields. *)
Definition to_struct (names : list string) (vals : list json) : json := JObj (combine (map text_bytes names) vals).
Definition with_key (k : bytes) (l : list (bytes * json)) : list json := flat_map (fun kv => if bytes_eqb (fst kv) k then [snd kv] else []) l.
(** [None] if there is no such field; the whole fails if there is more than one. *)
Definition field (name : string) (l : list (bytes * json)) : option (option json) :=
  match with_key (text_bytes name) l with
  | [] => Some None
  | [j] => Some (Some j)
  | _ => None
  end.
Fixpoint lookup_fields (names : list string) (l : list (bytes * json)) : option (list (option json)) :=
  match names with
  | [] => Some []
  | n :: names => option_bind (field n l) (fun x => option_bind (lookup_fields names l) (fun xs => Some (x :: xs)))
  end.
Definition of_struct (names : list string) (j : json) : option (list (option json)) :=
  match j with
  | JObj l => lookup_fields names l
  | JArr l => if Nat.eqb (List.length l) (List.length names) then Some (map Some l) else None
  | _ => None
  end.
(** A field that must be there; an [Option] may be missing. *)
Definition must {A} (of : json -> option A) (x : option json) : option A := option_bind x of.
Definition may {A} (of : json -> option A) (x : option json) : option (option A) := match x with None => Some None | Some j => of_option of j end.

Record TextEnc := mkTextEnc { enc : bytes -> bytes; dec : bytes -> option bytes }.
(** What is encoded can be decoded. *)
Definition enc_ok (t : TextEnc) : Prop := forall b, dec t (enc t b) = Some b.
Definition to_bytes (t : TextEnc) (b : bytes) : json := JStr (enc t b).
Definition of_bytes (t : TextEnc) (j : json) : option bytes := match j with JStr s => dec t s | _ => None end.

(** [SerializableMap] (utils/serializable_map.rs:58-118, see SerMap.v) is an array of pairs. *)
Definition to_map {K V} {OK : Ord K} (tok : K -> json) (tov : V -> json) (m : bmap K V) : json :=
  JArr (map (fun kv => JArr [tok (fst kv); tov (snd kv)]) (snd (sm_serialize m))).
Definition of_map {K V} {OK : Ord K} (ofk : json -> option K) (ofv : json -> option V) (j : json) : option (bmap K V) :=
  match j with JArr l => sm_deserialize (map (of_pair ofk ofv) l) | _ => None end.

(** ** The types of the library *)
Section Encodings.
  Variables hex base64 : TextEnc.

  (** protocol/round_id.rs:15-20 *)
  Definition rid_names : list string := ["round"; "groups"; "is_echo"]%string.
  Definition to_rid (r : RoundId) : json := to_struct rid_names [JNum (rid_round r); JArr (map JNum (rid_groups r)); JBool (rid_echo r)].
  Definition of_rid (j : json) : option RoundId :=
    match of_struct rid_names j with
    | Some [a; b; c] => option_bind (must of_number a) (fun n => option_bind (must (of_array of_number) b) (fun gs => option_bind (must of_bool c) (fun e => Some (mkRid n gs e))))
    | _ => None
    end.
  (** session/message.rs:81-85, session/session.rs:53-54 *)
  Definition meta_names : list string := ["session_id"; "round_id"]%string.
  Definition to_meta (m : Meta) : json := to_struct meta_names [to_bytes hex (m_session m); to_rid (m_round m)].
  Definition of_meta (j : json) : option Meta :=
    match of_struct meta_names j with
    | Some [a; b] => option_bind (must (of_bytes hex) a) (fun s => option_bind (must of_rid b) (fun r => Some (mkMeta s r)))
    | _ => None
    end.
  (** session/message.rs:372-378 *)
  Definition shash_names : list string := ["signature"; "metadata"; "message_part_hash"]%string.
  Definition to_shash (h : SHash) : json := to_struct shash_names [to_bytes hex (sh_sig h); to_meta (sh_meta h); to_bytes hex (sh_hash h)].
  Definition of_shash (j : json) : option SHash :=
    match of_struct shash_names j with
    | Some [a; b; c] => option_bind (must (of_bytes hex) a) (fun g => option_bind (must of_meta b) (fun m => option_bind (must (of_bytes hex) c) (fun h => Some (mkSHash g m h))))
    | _ => None
    end.
  (** session/echo.rs:125-130 *)
  Definition echo_names : list string := ["message_hashes"]%string.
  Definition to_echo (m : bmap N SHash) : json := to_struct echo_names [to_map JNum to_shash m].
  Definition of_echo (j : json) : option (bmap N SHash) :=
    match of_struct echo_names j with Some [a] => must (of_map of_number of_shash) a | _ => None end.
  (** dev/session_parameters.rs:26-31 *)
  Definition signature_names : list string := ["signed_by"; "randomness"]%string.
  Definition to_signature (g : TestSignature) : json := to_struct signature_names [JNum (signed_by g); JNum (randomness g)].
  Definition of_signature (j : json) : option TestSignature :=
    match of_struct signature_names j with
    | Some [a; b] => option_bind (must of_number a) (fun s => option_bind (must of_number b) (fun x => Some (mkTestSignature s x)))
    | _ => None
    end.

  (** dev/wire_format.rs:56-61 and 63-68 *)
  Definition json_ser {A} (to : A -> json) (x : A) : option bytes := Some (put_json (to x)).
  Definition json_read {A} (of : json -> option A) (b : bytes) : option (A * bytes) :=
    and_then (read_json json_depth b) (fun j b => option_bind (of j) (fun x => Some (x, b))).
  Definition json_deser {A} (of : json -> option A) (b : bytes) : option A := and_then (json_read of b) (fun x _ => Some x).

  (** [TestSessionParams<HumanReadableFormat>] (dev/session_parameters.rs:100-110) *)
  Definition jsonP : Params := {|
    Verifier := N; OrdVerifier := OrdN; Signer := N; signer_key := fun s => s; Sig := TestSignature;
    sign := test_sign; verify_sig := test_verify; hash := test_hash;
    ser_sig := json_ser to_signature; deser_sig := json_deser of_signature;
    ser_meta := json_ser to_meta;
    ser_echo := json_ser to_echo; deser_echo := json_deser of_echo
  |}.

  (** *** Messages *)
  (** protocol/message.rs:13-14, 162-214 *)
  Definition to_body (x : body) : json := to_option (to_bytes base64) x.
  Definition of_body (j : json) : option body := of_option (of_bytes base64) j.
  (** session/message.rs:75-79, 104-108 *)
  Definition with_meta_names : list string := ["metadata"; "message"]%string.
  Definition part_names : list string := ["signature"; "message_with_metadata"]%string.
  Definition to_part {k} (p : SPart k) : json :=
    to_struct part_names [to_bytes hex (sp_sig p); to_struct with_meta_names [to_meta (sp_meta p); to_body (sp_body p)]].
  Definition of_with_meta (j : json) : option (Meta * body) :=
    match of_struct with_meta_names j with
    | Some [a; b] => option_bind (must of_meta a) (fun m => option_bind (must of_body b) (fun x => Some (m, x)))
    | _ => None
    end.
  Definition of_part {k} (j : json) : option (SPart k) :=
    match of_struct part_names j with
    | Some [a; b] => option_bind (must (of_bytes hex) a) (fun g => option_bind (must of_with_meta b) (fun mx => Some (mkSPart g (fst mx) (snd mx))))
    | _ => None
    end.
  (** session/message.rs:224-230; [TestVerifier] (dev/session_parameters.rs:16-17) is a number. *)
  Definition message_names : list string := ["destination"; "direct_message"; "echo_broadcast"; "normal_broadcast"]%string.
  Definition to_message (m : @Message jsonP) : json :=
    to_struct message_names [JNum (msg_dest m); to_part (msg_direct m); to_part (msg_echo m); to_part (msg_normal m)].
  Definition of_message (j : json) : option (@Message jsonP) :=
    match of_struct message_names j with
    | Some [a; b; c; d] =>
        option_bind (must of_number a) (fun v => option_bind (must of_part b) (fun x => option_bind (must of_part c) (fun y => option_bind (must of_part d) (fun z =>
          Some (@mkMessage jsonP v x y z)))))
    | _ => None
    end.

  (** *** Evidence *)
  (** session/evidence.rs:343-356; the error is base64 (protocol/dyn_evidence.rs:66). *)
  Definition proto_names : list string :=
    ["error"; "direct_message"; "echo_broadcast"; "normal_broadcast"; "direct_messages"; "echo_broadcasts"; "normal_broadcasts"; "other_echo_broadcasts"; "echo_hashes"; "phantom"]%string.
  Definition to_proto (e : @ProtoEv jsonP) : json :=
    to_struct proto_names [to_bytes base64 (pe_error e);
      to_option to_part (pe_direct e); to_option to_part (pe_echo e); to_option to_part (pe_normal e);
      to_map to_rid to_part (pe_directs e); to_map to_rid to_part (pe_echos e); to_map to_rid to_part (pe_normals e);
      to_map to_rid (to_map JNum to_part) (pe_others e);
      to_map to_rid to_part (pe_hashes e); JNull].
  Definition of_proto (j : json) : option (@ProtoEv jsonP) :=
    match of_struct proto_names j with
    | Some [a; b; c; d; e; f; g; h; i; p] =>
        option_bind (must (of_bytes base64) a) (fun err =>
        option_bind (may of_part b) (fun x => option_bind (may of_part c) (fun y => option_bind (may of_part d) (fun z =>
        option_bind (must (of_map of_rid of_part) e) (fun xs => option_bind (must (of_map of_rid of_part) f) (fun ys => option_bind (must (of_map of_rid of_part) g) (fun zs =>
        option_bind (must (of_map of_rid (of_map (OK := @OrdVerifier jsonP) of_number of_part)) h) (fun os =>
        option_bind (must (of_map of_rid of_part) i) (fun hs =>
        option_bind (must of_unit p) (fun _ =>
          Some (@mkProtoEv jsonP err x y z xs ys zs os hs)))))))))))
    | _ => None
    end.
  (** session/evidence.rs:224-228, 250-254; session/echo.rs:45-48, 87-92 *)
  Definition invalid_echo_names : list string := ["normal_broadcast"; "error"]%string.
  Definition echo_error_names : list string := ["invalid_echo_sender"]%string.
  Definition mismatch_names : list string := ["guilty_party"; "we_received"; "echoed_to_us"]%string.
  Definition to_invalid_echo (p : SPart KNormal) (v : N) : json := to_struct invalid_echo_names [to_part p; to_struct echo_error_names [JNum v]].
  Definition of_invalid_echo (j : json) : option (@EvEnum jsonP) :=
    match of_struct invalid_echo_names j with
    | Some [a; b] => option_bind (must of_part a) (fun p => option_bind (must (fun j => match of_struct echo_error_names j with Some [c] => must of_number c | _ => None end) b)
                       (fun v => Some (@EvInvalidEcho jsonP p v)))
    | _ => None
    end.
  Definition to_mismatch (v : N) (p : SPart KEcho) (h : SHash) : json :=
    to_struct ["error"]%string [to_struct mismatch_names [JNum v; to_part p; to_shash h]].
  Definition of_mismatch (j : json) : option (@EvEnum jsonP) :=
    match of_struct ["error"]%string j with
    | Some [x] => must (fun j =>
        match of_struct mismatch_names j with
        | Some [a; b; c] => option_bind (must of_number a) (fun v => option_bind (must of_part b) (fun p => option_bind (must of_shash c) (fun h => Some (@EvMismatched jsonP v p h))))
        | _ => None
        end) x
    | _ => None
    end.
  (** session/evidence.rs:213-222; a variant is an object with its name. *)
  Definition to_variant (name : string) (j : json) : json := JObj [(text_bytes name, j)].
  Definition to_enum (x : @EvEnum jsonP) : json :=
    match x with
    | EvProtocol e => to_variant "Protocol" (to_proto e)
    | EvDirect p => to_variant "InvalidDirectMessage" (to_part p)
    | EvEcho p => to_variant "InvalidEchoBroadcast" (to_part p)
    | EvNormal p => to_variant "InvalidNormalBroadcast" (to_part p)
    | EvInvalidEcho p v => to_variant "InvalidEcho" (to_invalid_echo p v)
    | EvMismatched v p h => to_variant "MismatchedBroadcasts" (to_mismatch v p h)
    end.
  Definition of_enum (j : json) : option (@EvEnum jsonP) :=
    match j with
    | JObj [(k, j)] =>
        let is name := bytes_eqb k (text_bytes name) in
        if is "Protocol"%string then option_bind (of_proto j) (fun e => Some (EvProtocol e))
        else if is "InvalidDirectMessage"%string then option_bind (of_part j) (fun p => Some (EvDirect p))
        else if is "InvalidEchoBroadcast"%string then option_bind (of_part j) (fun p => Some (EvEcho p))
        else if is "InvalidNormalBroadcast"%string then option_bind (of_part j) (fun p => Some (EvNormal p))
        else if is "InvalidEcho"%string then of_invalid_echo j
        else if is "MismatchedBroadcasts"%string then of_mismatch j
        else None
    | _ => None
    end.
  (** session/evidence.rs:28-34; the description, which the model of evidence leaves out, is a string. *)
  Variable utf8 : bytes -> bool.
  Definition evidence_names : list string := ["guilty_party"; "description"; "evidence"]%string.
  Definition to_evidence (x : bytes * @Evidence jsonP) : json :=
    to_struct evidence_names [JNum (ev_guilty (snd x)); JStr (fst x); to_enum (ev_body (snd x))].
  Definition of_string (j : json) : option bytes := match j with JStr s => if utf8 s then Some s else None | _ => None end.
  Definition of_evidence (j : json) : option (bytes * @Evidence jsonP) :=
    match of_struct evidence_names j with
    | Some [a; b; c] => option_bind (must of_number a) (fun v => option_bind (must of_string b) (fun s => option_bind (must of_enum c) (fun x =>
        Some (s, @mkEvidence jsonP v x))))
    | _ => None
    end.
End Encodings.

(** ** The messages and errors of examples/src/simple.rs (simple.rs:29-30, 60-61, 114-129, 268-272) *)
Definition json_codec {A} (to : A -> json) (of : json -> option A) : Codec A := mkCodec (json_ser to) (json_deser of).
Definition two_numbers {A} (names : list string) (f : N -> N -> A) (j : json) : option A :=
  match of_struct names j with
  | Some [a; b] => option_bind (must of_number a) (fun x => option_bind (must of_number b) (fun y => Some (f x y)))
  | _ => None
  end.
Definition position_names : list string := ["my_position"; "your_position"]%string.
Definition json_position : Codec Position :=
  json_codec (fun m => to_struct position_names [JNum (my_position m); JNum (your_position m)]) (two_numbers position_names mkPosition).
Definition echo1_names : list string := ["my_position"]%string.
Definition broadcast1_names : list string := ["x"; "my_position"]%string.
Definition json_unit : Codec unit := json_codec (fun _ => JNull) of_unit.
Definition jsonW : SimpleWire := {|
  sw_message1 := json_position;
  sw_echo1 := json_codec (fun x => to_struct echo1_names [JNum x]) (fun j => match of_struct echo1_names j with Some [a] => must of_number a | _ => None end);
  sw_broadcast1 := json_codec (fun m => to_struct broadcast1_names [JNum (rb_x m); JNum (rb_position m)]) (two_numbers broadcast1_names mkR1Broadcast);
  sw_message2 := json_position;
  sw_error1 := json_unit;
  sw_error2 := json_unit
|}.

(** Hex of serde-encoded-bytes, as documented: two digits for each byte, after "0x". (Numbers beyond 255, which are no bytes, are written
    with the letters after f.) *)
Definition from_digit (c : N) : option N :=
  (if N.ltb c 48 then None
   else if N.ltb c 58 then Some (c - 48)
   else if (N.leb 65 c && N.ltb c 71)%bool then Some (c - 55)
   else if N.ltb c 97 then None
   else Some (c - 87))%N.
Fixpoint from_hex (b : bytes) : option bytes :=
  match b with
  | [] => Some []
  | a :: c :: b =>
      option_bind (from_digit a) (fun x => option_bind (from_digit c) (fun y => option_bind (from_hex b) (fun l => Some (16 * x + y :: l)%N)))
  | _ => None
  end.
Definition hex_enc : TextEnc := mkTextEnc
  (fun b => (48 :: 120 :: flat_map (fun n => [hex_digit (n / 16); hex_digit (n mod 16)]) b)%N)
  (fun b => match b with x :: y :: b => if (N.eqb x 48 && N.eqb y 120)%N then from_hex b else None | _ => None end).

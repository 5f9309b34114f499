(** manul/src/utils/serializable_map.rs, at the level of the serde data model: a sequence of key/value elements. *)
From Coq Require Import List NArith Bool.
From Verif Require Import Base BMap.
Import ListNotations.
Set Implicit Arguments.

Section Map.
  Context {K V : Type} {OK : Ord K}.

  (** What a serializer is told to write: the announced length and the elements (serializable_map.rs:58-74). *)
  Definition sm_serialize (m : bmap K V) : nat * list (K * V) := (length (to_list m), to_list m).

  (** serializable_map.rs:89-107. The elements are what [access.next_element()] returns one after the other until [None];
      an element that cannot be deserialized as a pair is represented by [None] here. The result [None] is an error. *)
  Fixpoint sm_visit (m : bmap K V) (l : list (option (K * V))) : option (bmap K V) :=
    match l with
    | [] => Some m
    | None :: _ => None
    | Some (k, v) :: l => if contains k m then None else sm_visit (insert k v m) l
    end.

  (** serializable_map.rs:110-118 *)
  Definition sm_deserialize (l : list (option (K * V))) : option (bmap K V) := sm_visit empty l.
End Map.

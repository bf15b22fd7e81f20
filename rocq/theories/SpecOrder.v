(** Specification for the order of answers. *)
From Verif Require Import Base ModelEntry ModelIter ModelQuery SpecQuery.

(** [a] is [l] with some members left out, the others in the same order. *)
Inductive in_order {A : Type} : list A -> list A -> Prop :=
| ord_nil : forall l, in_order [] l
| ord_take : forall x a l, in_order a l -> in_order (x :: a) (x :: l)
| ord_skip : forall x a l, in_order a l -> in_order a (x :: l).

(** The entries that calls returned. *)
Fixpoint got (l : list qres) : list entry :=
  match l with
  | [] => []
  | QEntry e :: l' => e :: got l'
  | _ :: l' => got l'
  end.

(** What the entry with this key and value decodes to. *)
Definition decodes_to (p : kv) (e : entry) : Prop := entry_decode (fst p) (snd p) = Ok e.
(** The same with some other value. *)
Definition has_key_of (p : kv) (e : entry) : Prop := exists v, entry_decode (fst p) v = Ok e.

(** The query is answered by one lookup, or by one for each of some index entries. *)
Definition one_lookup (qi : qiter) : Prop := match qi_kind qi with Direct _ => True | Indirect _ _ _ => False end.
Definition through_index (qi : qiter) : Prop := match qi_kind qi with Direct _ => False | Indirect _ _ _ => True end.

(** Keys made of bytes. *)
Definition keys_of_bytes (t : table) : Prop := forall k v, In (k, v) t -> bytes_ok k.

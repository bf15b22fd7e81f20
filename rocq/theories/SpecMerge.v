(** Small vocabulary for stating merge properties. *)
From Coq Require Import Permutation.
From Verif Require Import Base.

Definition is_min (m : N) (l : list N) : Prop := In m l /\ forall x, In x l -> m <= x.
Definition is_max (m : N) (l : list N) : Prop := In m l /\ forall x, In x l -> x <= m.
Definition nsum (l : list N) : N := fold_right N.add 0 l.

(** Base-128 little-endian numbers as documented for dnstable values
    (dnstable-encoding(5), "variable-width integer"). *)
Inductive leb128 : N -> bytes -> Prop :=
| leb_last : forall v, v < 128 -> leb128 v [v]
| leb_more : forall v l, 128 <= v -> leb128 (v / 128) l -> leb128 v ((v mod 128 + 128) :: l).

(** An observation (first seen, last seen, count) and its documented value. *)
Record obs := { o_first : N; o_last : N; o_count : N }.
Definition obs_ok (o : obs) : Prop := o_first o < u64 /\ o_last o < u64 /\ o_count o < u64.
Definition obs_value (o : obs) (v : bytes) : Prop :=
  exists a b c, leb128 (o_first o) a /\ leb128 (o_last o) b /\ leb128 (o_count o) c /\ v = a ++ b ++ c.

(** A time range and its documented value. *)
Definition pair_value (p : N * N) (v : bytes) : Prop :=
  exists a b, leb128 (fst p) a /\ leb128 (snd p) b /\ v = a ++ b.

(** Specification for calls that come to an end. *)
From Verif Require Import Base ModelIter ModelQuery SpecQuery SpecDecode.

(** How many of the calls returned an entry. *)
Definition returned (l : list qres) : nat := length (filter (fun r => match r with QEntry _ => true | _ => false end) l).

(** However many calls are made, from whatever state of clock and counters and if timeout and
    deadline are changed in between, none of them goes on for ever: a number of rounds of
    each loop suffices for all of them.  At most [most] of them return an entry. *)
Definition always_ends (qi : qiter) (most : nat) : Prop :=
  exists rounds, forall fuel ts w, (rounds <= fuel)%nat ->
    ~ In QHang (timed_calls fuel ts qi w) /\ (returned (timed_calls fuel ts qi w) <= most)%nat.

(** Keys made of bytes, none of them one on which decoding an entry never ends. *)
Definition readable_keys (t : table) : Prop := forall k v, In (k, v) t -> bytes_ok k /\ ~ unending k.

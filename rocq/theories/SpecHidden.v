(** Specification for files that hold junk among well-formed entries. *)
From Verif Require Import Base ModelQuery SpecQuery.

(** A sequence of calls that comes to the end with call [n], counting from 0, all calls
    before having returned an entry or timed out. *)
Definition ends_with (l : list qres) (n : nat) : Prop :=
  nth_error l n = Some QEnd /\ Forall (fun x => match x with QEntry _ | QTimeout => True | _ => False end) (firstn n l).

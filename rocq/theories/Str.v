(** String literals as byte strings.  Definitions only. *)
From Coq Require Export String.
From Coq Require Import Ascii.
From Coq Require Export List.
From Verif Require Export Base.
Export ListNotations.
Open Scope list_scope.
Open Scope N_scope.

Fixpoint str (s : string) : bytes :=
  match s with
  | EmptyString => []
  | String.String c r => N_of_ascii c :: str r
  end.
Arguments str s%string.

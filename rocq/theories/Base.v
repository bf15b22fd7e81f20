(** Common vocabulary: C outcomes, bytes, byte-string order.  Definitions only. *)
From Coq Require Export List NArith ZArith Bool Lia.
From Coq Require Export ZifyBool ZifyNat ZifyN.
Export ListNotations.
Open Scope N_scope.

(** Outcome of running a piece of C code.
    [Ok x]  : normal return with result [x];
    [Fail]  : the function's documented error return;
    [Abort] : a failed [assert];
    [UB]    : undefined behaviour (out-of-bounds access, bad shift, ...);
    [Hang]  : the fuel given to a loop was exhausted (non-termination). *)
Inductive res (A : Type) : Type :=
| Ok (a : A) | Fail | Abort | UB | Hang.
Arguments Ok {A} a.
Arguments Fail {A}.
Arguments Abort {A}.
Arguments UB {A}.
Arguments Hang {A}.

Definition bind {A B} (r : res A) (f : A -> res B) : res B :=
  match r with
  | Ok a => f a | Fail => Fail | Abort => Abort | UB => UB | Hang => Hang
  end.
Notation "'let*' x ':=' e 'in' k" := (bind e (fun x => k))
  (at level 200, x pattern, e at level 100, k at level 200).

(** A byte string.  Bytes are [N]; [bytes_ok] says they are below 256. *)
Definition bytes := list N.
Definition byte_ok (b : N) : Prop := b < 256.
Definition bytes_ok (l : bytes) : Prop := Forall byte_ok l.

Definition blen (l : bytes) : N := N.of_nat (length l).

(** Reading one byte through a pointer: out of bounds is [UB]. *)
Definition rd (l : bytes) (i : nat) : res N :=
  match nth_error l i with Some b => Ok b | None => UB end.

(** dnstable/dnstable-private.h:94-110 bytes_compare: memcmp of the common
    length, then the shorter string first. *)
Fixpoint bytes_compare (a b : bytes) : comparison :=
  match a, b with
  | [], [] => Eq
  | [], _ :: _ => Lt
  | _ :: _, [] => Gt
  | x :: a', y :: b' =>
      match x ?= y with
      | Eq => bytes_compare a' b'
      | c => c
      end
  end.

Definition blt (a b : bytes) : bool :=
  match bytes_compare a b with Lt => true | _ => false end.
Definition ble (a b : bytes) : bool :=
  match bytes_compare a b with Gt => false | _ => true end.
Definition beq (a b : bytes) : bool :=
  match bytes_compare a b with Eq => true | _ => false end.

(** [is_prefix p l]: [l] begins with [p]. *)
Fixpoint is_prefix (p l : bytes) : bool :=
  match p, l with
  | [], _ => true
  | x :: p', y :: l' => (x =? y) && is_prefix p' l'
  | _, _ => false
  end.

(** Entry type bytes, dnstable/dnstable-private.h:59-66. *)
Definition ENTRY_TYPE_RRSET : N := 0.
Definition ENTRY_TYPE_RRSET_NAME_FWD : N := 1.
Definition ENTRY_TYPE_RDATA : N := 2.
Definition ENTRY_TYPE_RDATA_NAME_REV : N := 3.
Definition ENTRY_TYPE_SOURCE_INFO : N := 253.
Definition ENTRY_TYPE_TIME_RANGE : N := 254.
Definition ENTRY_TYPE_VERSION : N := 255.

Definition u16 : N := 65536.
Definition u32 : N := 4294967296.
Definition u64 : N := 18446744073709551616.

Ltac Zify.zify_post_hook ::= Z.div_mod_to_equations.

(** Documented meaning of RRtype-union values: dnstable-encoding(5) "RRtype
    union" and RFC 4034 section 4.1.2. *)
From Coq Require Import Sorting.Sorted.
From Verif Require Import Base.

(** A window block: window number and bitmap. *)
Definition window := (N * bytes)%type.

Definition window_ok (wb : window) : Prop :=
  fst wb < 256 /\ (1 <= length (snd wb) <= 32)%nat /\ bytes_ok (snd wb) /\
  last (snd wb) 0 <> 0.  (* trailing zero octets must be omitted *)

Definition windows_ok (ws : list window) : Prop :=
  Forall window_ok ws /\ StronglySorted N.lt (map fst ws).

Definition encode_windows (ws : list window) : bytes :=
  flat_map (fun wb : window => fst wb :: blen (snd wb) :: snd wb) ws.

(** Type [t] is bit [t mod 8] (0 = most significant) of byte [(t mod 256) / 8]
    in the bitmap of window [t / 256]. *)
Definition windows_mem (ws : list window) (t : N) : Prop :=
  exists bm, In (t / 256, bm) ws /\
    N.testbit (nth (N.to_nat (t mod 256 / 8)) bm 0) (7 - t mod 8) = true.

(** Non-empty union values in the documented encoding. *)
Inductive union_valid : bytes -> Prop :=
| uv_one : forall b, b < 256 -> union_valid [b]
| uv_two : forall lo hi, lo < 256 -> hi < 256 -> 256 <= lo + 256 * hi -> union_valid [lo; hi]
| uv_map : forall ws, ws <> [] -> windows_ok ws -> union_valid (encode_windows ws).

(** The set of types denoted by a value. *)
Definition union_mem (m : bytes) (t : N) : Prop :=
  match m with
  | [] => True
  | [b] => t = b
  | [lo; hi] => t = lo + 256 * hi
  | _ => exists ws, windows_ok ws /\ m = encode_windows ws /\ windows_mem ws t
  end.

(** The RFC 4034 bitmap form. *)
Definition rfc4034 (m : bytes) : Prop := exists ws, ws <> [] /\ windows_ok ws /\ m = encode_windows ws.

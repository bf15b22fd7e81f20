(** What the type test of an index value makes of arbitrary bytes.  Definitions only. *)
From Verif Require Import Base SpecUnion.

Inductive verdict :=
| Yes | No
| OutsideMap.    (* a byte behind the value is read *)

(** The octet of type [t] within its window, and its bit there. *)
Definition octet_of (t : N) : nat := N.to_nat (t mod 256 / 8).
Definition bit_says (b t : N) : verdict := if N.testbit b (7 - t mod 8) then Yes else No.

(** Blocks of other windows than the one of [t], of any length and in any order. *)
Definition others (t : N) (ws : list window) : Prop := Forall (fun wb : window => fst wb <> t / 256) ws.

(** What remains is no whole block. *)
Definition cut_block (m : bytes) : Prop :=
  (exists w, m = [w]) \/ (exists w n rest, m = w :: n :: rest /\ blen rest < n).

(** The first block of the window of [t] decides. *)
Inductive scanned (t : N) : bytes -> verdict -> Prop :=
| s_absent : forall ws, others t ws -> scanned t (encode_windows ws) No
| s_cut : forall ws junk, others t ws -> cut_block junk -> scanned t (encode_windows ws ++ junk) Yes
| s_bit : forall ws bm rest, others t ws -> (octet_of t < length bm)%nat ->
    scanned t (encode_windows ws ++ encode_windows [(t / 256, bm)] ++ rest) (bit_says (nth (octet_of t) bm 0) t)
| s_next : forall ws bm b rest, others t ws -> octet_of t = length bm ->
    scanned t (encode_windows ws ++ encode_windows [(t / 256, bm)] ++ b :: rest) (bit_says b t)
| s_past : forall ws bm, others t ws -> octet_of t = length bm ->
    scanned t (encode_windows ws ++ encode_windows [(t / 256, bm)]) OutsideMap
| s_short : forall ws bm rest, others t ws -> (length bm < octet_of t)%nat ->
    scanned t (encode_windows ws ++ encode_windows [(t / 256, bm)] ++ rest) No.

Inductive tested (t : N) : bytes -> verdict -> Prop :=
| t_one : forall b, tested t [b] (if t =? b then Yes else No)
| t_two : forall lo hi, tested t [lo; hi] (if t =? lo + 256 * hi then Yes else No)
| t_map : forall m o, (3 <= length m)%nat -> scanned t m o -> tested t m o.

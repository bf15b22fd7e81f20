(** Results of a set of files with and without aggregation.  Definitions only. *)
From Verif Require Import Base SpecMerge ModelQuery SpecQuery.

(** The observation all the observations [os] amount to: first seen at the earliest, last
    seen at the latest time, and counted together. *)
Definition total (os : list obs) (o : obs) : Prop :=
  is_min (o_first o) (map o_first os) /\ is_max (o_last o) (map o_last os) /\ o_count o = nsum (map o_count os) mod u64.

(** Records that differ in nothing but the observation collapse into one with their
    total. *)
Inductive collapses : list record -> record -> Prop :=
| collapses_rrset : forall ow ty bw rs os o, total os o -> collapses (map (RRset ow ty bw rs) os) (RRset ow ty bw rs o)
| collapses_rdata : forall ow ty head tail os o, total os o -> collapses (map (RData ow ty head tail) os) (RData ow ty head tail o).

(** Records that differ in more than that. *)
Definition unlike (a b : record) : Prop :=
  match a, b with
  | RRset ow ty bw rs _, RRset ow' ty' bw' rs' _ => (ow, ty, bw, rs) <> (ow', ty', bw', rs')
  | RData ow ty hd tl _, RData ow' ty' hd' tl' _ => (ow, ty, hd, tl) <> (ow', ty', hd', tl')
  | _, _ => True
  end.

(** Replacing files of a set by one file merged from them.  Definitions only. *)
From Coq Require Import Permutation.
From Verif Require Import Base SpecMerge ModelIter SpecIter ModelFileset SpecFileset.

(** Either all these files have a time range entry, or none of them has. *)
Definition ranges_alike (part : list table) : Prop :=
  (forall f, In f part -> exists mn mx, time_range f (Some (mn, mx))) \/ (forall f, In f part -> time_range f None).

(** [files'] is [files] after [part] of them has been replaced by the file [c] that
    dnstable_merge makes of them; the order of the files does not matter. *)
Inductive compacted (files : list table) (part : list table) (c : table) (files' : list table) : Prop :=
| compacted_intro : forall rest, Permutation files (part ++ rest) -> merged_from part c -> Permutation files' (c :: rest) ->
    compacted files part c files'.

(** A file whose time range entry, if there is one, can be read; whether it is accurate
    or not. *)
Definition has_range (f : table) : Prop := strict f /\ exists r, time_range f r.

(** Reading results page by page.  Definitions only. *)
From Coq Require Import Permutation.
From Verif Require Import Base SpecMerge ModelEntry ModelIter SpecIter ModelQuery SpecQuery ModelReader ModelFileset SpecFileset.

(** The entries among the answers of an iterator. *)
Definition entries (rs : list qres) : list entry := flat_map (fun r => match r with QEntry e => [e] | _ => [] end) rs.

(** A page: the offset of the query is set to [off], an iterator is made and called [m]
    times. *)
Definition page (fuel : nat) (lib : libmtbl) (rd : reader) (q : query) (w : world) (m : nat) (off : N) : list entry :=
  let q' := with_offset_of off q in
  match dnstable_reader_query lib rd q' with
  | Ok qi => entries (calls fuel m qi (load_offset q' w))
  | _ => []
  end.

(** The first [n] pages of [m] entries, one after the other. *)
Definition pages (fuel : nat) (lib : libmtbl) (rd : reader) (q : query) (w : world) (m n : nat) : list entry :=
  concat (map (fun i => page fuel lib rd q w m (N.of_nat (i * m))) (seq 0 n)).

(** The queries C21-C28, C30 and C31 are about: of one file, or of a set of files, with
    results of the same key merged or not. *)
Inductive proper (lib : libmtbl) (q : query) : reader -> Prop :=
| proper_file : forall t recs M, database recs t -> asks q recs M -> proper lib q (dnstable_reader_init t)
| proper_file_grouped : forall t recs I B M, database recs t -> strict t -> asks_grouped q recs I B M -> proper lib q (dnstable_reader_init t)
| proper_set : forall files recss M, Forall file_ok files -> Forall2 database recss files ->
    (q_aggregated q = true -> merges lib files) -> (q_aggregated q = false -> lists_duplicates lib files) ->
    asks q (concat recss) M -> proper lib q (dnstable_reader_init_setfile files)
| proper_set_grouped : forall files recss I B M, Forall file_ok files -> Forall2 database recss files ->
    merges lib files -> (q_aggregated q = false -> lists_duplicates lib files) ->
    Forall indexed recss -> parts_index_safe lib q files ->
    asks_grouped q (concat recss) I B M -> proper lib q (dnstable_reader_init_setfile files).

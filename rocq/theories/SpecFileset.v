(** What a set of files stands for, independently of how a query goes about it.
    Definitions only. *)
From Coq Require Import Permutation.
From Verif Require Import Base SpecMerge SpecUnion ModelMerge ModelEntry ModelIter SpecIter ModelQuery SpecQuery ModelFileset.

(** ** The contract with libmtbl *)

(** The values stored under [k] in these files. *)
Definition values_of (k : bytes) (files : list table) : list bytes :=
  map snd (filter (fun e => beq (fst e) k) (concat files)).

(** [t] results from merging [files]: it has their keys, each once and in order, and
    the value of each key comes from combining all its values pairwise with
    dnstable_merge_func, in some order and grouping. *)
Definition merged_from (files : list table) (t : table) : Prop :=
  strict t /\
  (forall k, has_key k t <-> exists f, In f files /\ has_key k f) /\
  (forall k v, In (k, v) t -> exists tr, Permutation (mleaves tr) (values_of k files) /\ meval k tr = Ok v).

(** [t] results from merging [files] without a merge function: all their entries, in
    key order, those with the same key as dnstable_dupsort_func orders them. *)
Definition unmerged_from (files : list table) (t : table) : Prop :=
  Permutation (concat files) t /\ sorted t /\
  StronglySorted (fun a b => fst a = fst b -> exists c, dnstable_dupsort_func (fst a) (snd a) (snd b) = Ok c /\ c <> Gt) t.

(** libmtbl does so for [files] and whatever part of them a filter leaves. *)
Definition merges (lib : libmtbl) (files : list table) : Prop :=
  forall P part, selects P files part -> merged_from part (lib_merged lib part).
Definition lists_duplicates (lib : libmtbl) (files : list table) : Prop :=
  forall P part, selects P files part -> unmerged_from part (lib_unmerged lib part).

(** ** Files with accurate time ranges *)

(** Keys of RRset and record data entries. *)
Definition timed_key (k : bytes) : Prop := exists b rest, k = b :: rest /\ (b = 0 \/ b = 2).

(** The file's time range entry, or none. *)
Inductive time_range (f : table) : option (N * N) -> Prop :=
| tr_some : forall mn mx v, mn < u64 -> mx < u64 -> In ([254], v) f -> pair_value (mn, mx) v -> time_range f (Some (mn, mx))
| tr_none : (forall k v, In (k, v) f -> hd 0 k <> 254) -> time_range f None.

(** A file: keys strictly ascend, the observations in it have first <= last, and its
    time range, if there is one, covers them. *)
Definition file_ok (f : table) : Prop :=
  strict f /\ exists r, time_range f r /\
  forall k v, In (k, v) f -> timed_key k -> exists o, obs_ok o /\ obs_value o v /\ o_first o <= o_last o /\
    match r with Some (mn, mx) => mn <= o_first o /\ o_last o <= mx | None => True end.

(** ** Which files a query uses *)

(** All observations in the file are before, or after, a bound. *)
Definition before (b : N) (f : table) : Prop := exists mn mx, time_range f (Some (mn, mx)) /\ mx < b.
Definition after (b : N) (f : table) : Prop := exists mn mx, time_range f (Some (mn, mx)) /\ b < mn.

(** Nothing in the file was seen at or after the time_last_after bound; or, when there is
    no such bound, at or before the time_first_before bound.  Such a file cannot make a
    record a result, but adds to the results from other files. *)
Definition adds_only (q : query) (f : table) : Prop :=
  (q_do_tla q = true /\ before (q_tla q) f) \/ (q_do_tla q = false /\ q_do_tfb q = true /\ after (q_tfb q) f /\ ~ (q_do_tlb q = true /\ after (q_tlb q) f)).
(** No record of the file can be a result, as it was first seen before the time_first_after
    bound or last seen after the time_last_before bound. *)
Definition too_early (q : query) (f : table) : Prop := q_do_tfa q = true /\ before (q_tfa q) f.
Definition too_late (q : query) (f : table) : Prop := q_do_tlb q = true /\ after (q_tlb q) f.
Definition file_searched (q : query) (f : table) : Prop := ~ too_early q f /\ ~ adds_only q f /\ ~ too_late q f.
Definition file_added (q : query) (f : table) : Prop := ~ too_early q f /\ adds_only q f.

(** ** Results *)

(** Records in key order, and those with the same key by first, then last seen. *)
Definition earlier (a b : record * kv) : Prop :=
  blt (fst (snd a)) (fst (snd b)) = true \/
  (fst (snd a) = fst (snd b) /\
   match fst a, fst b with
   | RRset _ _ _ _ o, RRset _ _ _ _ o' | RData _ _ _ _ o, RData _ _ _ _ o' =>
       o_first o < o_first o' \/ (o_first o = o_first o' /\ o_last o <= o_last o')
   | _, _ => True
   end).

(** ** Indexes in the files *)

(** The documented index entries are there and well-formed. *)
Definition indexed (recs : list record) : Prop :=
  owners_indexed recs /\ rdata_names_indexed recs /\
  forall n m, In (OwnerIndex n m) recs \/ In (RdataIndex n m) recs -> m = [] \/ union_valid m.

(** Looking up the type of the query in the index of whatever part of the files, merged,
    does not run into the defect of [PropsUnion.index_test_boundary]. *)
Definition parts_index_safe (lib : libmtbl) (q : query) (files : list table) : Prop :=
  q_do_rrtype q = true -> forall P part, selects P files part ->
  forall k m, In (k, m) (lib_merged lib part) -> hd 0 k = 1 \/ hd 0 k = 3 -> index_safe m (q_rrtype q).

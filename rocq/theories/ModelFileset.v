(** Model of dnstable/query.c:1828-2058 (queries over filesets) and of
    dnstable/reader.c:40-66, 126-150 (readers).  Definitions only. *)
From Verif Require Import Base ModelVarint ModelWdns ModelUnion ModelMerge ModelEntry ModelIter ModelQuery ModelReader ModelSetters.

(** ** Duplicates *)

(** query.c:1838-1869 dnstable_dupsort_func: the sign of the result. *)
Definition dnstable_dupsort_func (key v0 v1 : bytes) : res comparison :=
  match key with
  | [] => Ok Eq
  | k0 :: _ =>
      if (k0 =? ENTRY_TYPE_RRSET) || (k0 =? ENTRY_TYPE_RDATA) then
        match v0, v1 with
        | [], _ => Abort
        | _, [] => Abort
        | _, _ =>
            let* t0 := assert_ok (triplet_unpack v0) in
            let* t1 := assert_ok (triplet_unpack v1) in
            let '(tf0, tl0, _) := t0 in
            let '(tf1, tl1, _) := t1 in
            if tf0 <? tf1 then Ok Lt
            else if tf1 <? tf0 then Ok Gt
            else if tl0 <? tl1 then Ok Lt
            else if tl1 <? tl0 then Ok Gt
            else Ok Eq
        end
      else Ok Eq
  end.

(** ** The time filter for the files of a fileset *)

(** What happens to a file: it takes part, it only fills in values, its keys are
    removed (query.c:1886-1985: neither flag, [fill], [remove]). *)
Inductive fate := Keep | Fill | Remove.

(** The counters and the clock of the inner query's iterator (query.c:1892-1894);
    that query has no timeout and no offset, so none of it matters. *)
Definition inner_world : world :=
  {| w_now := fun _ => ts0; w_tick := 0; w_deadline := ts0; w_seek_end := fun _ _ => false; w_offset := 0;
     w_cnt := fun _ _ => 0; w_log := [] |}.

(** query.c:1890-1908: the time range of a file as its first time range entry gives
    it; [Ok None] is one of the jumps to [out]. *)
Definition file_time_range (f : table) : res (option (N * N)) :=
  let* tr_q := dnstable_query_init QTimeRange in
  match dnstable_query_iter tr_q f with
  | Ok tr_it =>
      match qnext (S (S (length f))) tr_it inner_world with
      | (QEntry tr_e, _, _) =>
          match get_time_first tr_e with
          | Ok min_time_first =>
              match get_time_last tr_e with
              | Ok max_time_last => Ok (Some (min_time_first, max_time_last))
              | Fail => Ok None
              | Abort => Abort | UB => UB | Hang => Hang
              end
          | Fail => Ok None
          | Abort => Abort | UB => UB | Hang => Hang
          end
      | (QEnd, _, _) | (QTimeout, _, _) => Ok None
      | (QAbort, _, _) => Abort
      | (QUB, _, _) => UB
      | (QHang, _, _) => Hang
      end
  | Fail => Ok None
  | Abort => Abort | UB => UB | Hang => Hang
  end.

(** query.c:1890-1985 reader_time_filter, the decision; its side effects are
    [files_with] and [fileset_stats] below. *)
Definition reader_time_filter (q : query) (f : table) : res fate :=
  let* range := file_time_range f in
  match range with
  | None => Ok Keep
  | Some (min_time_first, max_time_last) =>
      Ok (if q_do_tfa q && (max_time_last <? q_tfa q) then Remove
          else if q_do_tla q && (max_time_last <? q_tla q) then Fill
          else if q_do_tlb q && (q_tlb q <? min_time_first) then Remove
          else if q_do_tfb q && negb (q_do_tla q) && (q_tfb q <? min_time_first) then Fill
          else Keep)
  end.

(** mtbl_fileset_dup with a reader filter: the function is called once for each file,
    in order. *)
Fixpoint fates (q : query) (files : list table) : res (list (fate * table)) :=
  match files with
  | [] => Ok []
  | f :: more =>
      let* x := reader_time_filter q f in
      let* l := fates q more in
      Ok ((x, f) :: l)
  end.
Definition fate_eqb (a b : fate) : bool :=
  match a, b with Keep, Keep | Fill, Fill | Remove, Remove => true | _, _ => false end.
(** The files with one fate: those the fileset goes on with (Keep), those given to
    mtbl_merger_add_source (Fill) and to remove_mtbl_add_source (Remove). *)
Definition files_with (x : fate) (l : list (fate * table)) : list table :=
  map snd (filter (fun p => fate_eqb x (fst p)) l).

(** ** libmtbl *)

(** What libmtbl makes of several sources: [lib_merged], one table by a merger with
    dnstable_merge_func; [lib_unmerged], one table by a merger without a merge
    function and with dnstable_dupsort_func.  Parameters of the model, constrained in
    SpecFileset. *)
Record libmtbl := { lib_merged : list table -> table; lib_unmerged : list table -> table }.

(** query.c:1987-2001 count_merge_func: the merged value, [None] for NULL, and the counter. *)
Definition count_merge_func (key v0 v1 : bytes) (counter : N) : res (option bytes * N) :=
  match merge_func key v0 v1 with
  | Ok m => Ok (Some m, (counter + 1) mod u64)
  | Fail => Ok (None, (counter + 1) mod u64)
  | Abort => Abort | UB => UB | Hang => Hang
  end.
(** libmtbl combining the values of one key, in the order and grouping of [t]; it gives up
    at NULL. *)
Fixpoint count_meval (key : bytes) (t : mtree) (counter : N) : res (option bytes * N) :=
  match t with
  | MLeaf v => Ok (Some v, counter)
  | MNode l r =>
      let* x := count_meval key l counter in
      match x with
      | (None, c) => Ok (None, c)
      | (Some a, c) =>
          let* y := count_meval key r c in
          match y with
          | (None, c) => Ok (None, c)
          | (Some b, c) => count_merge_func key a b c
          end
      end
  end.
(** libmtbl delivering one key after the other. *)
Fixpoint deliver (l : list (bytes * mtree)) (counter : N) : res (table * N) :=
  match l with
  | [] => Ok ([], counter)
  | (k, t) :: r =>
      let* x := count_meval k t counter in
      match x with
      | (None, c) => Ok ([], c)
      | (Some v, c) => let* y := deliver r c in let (es, c) := (y : table * N) in Ok ((k, v) :: es, c)
      end
  end.

(** ** The query *)

(** query.c:2003-2058 dnstable_query_iter_fileset.  The fileset is the list of its
    files; reloading it while a query is under way is not modelled. *)
Definition dnstable_query_iter_fileset (lib : libmtbl) (q : query) (files : list table) : res qiter :=
  let fence := q_aggregated q && has_time_bound q in
  let* l := fates q files in
  let fc := {| f_remove := if fence && (q_do_tfa q || q_do_tlb q) then Some (files_with Remove l) else None;
               f_fill := if fence then Some (lib_merged lib (files_with Fill l)) else None |} in
  let index := SBase (lib_merged lib (files_with Keep l)) in
  if q_aggregated q then query_iter_common q fc index index
  else
    let* l2 := fates q files in
    query_iter_common q fc (SBase (lib_unmerged lib (files_with Keep l2))) index.

(** The FILES counters of the stages FILESET and FILL_MERGER (query.c:1972-1983): each
    mtbl_fileset_dup runs the filter over all files. *)
Definition fileset_stats (q : query) (files : list table) : res (N * N) :=
  let fence := q_aggregated q && has_time_bound q in
  let* l := fates q files in
  let kept := N.of_nat (length (files_with Keep l)) in
  let filled := if fence then N.of_nat (length (files_with Fill l)) else 0 in
  if q_aggregated q then Ok (kept, filled)
  else
    let* l2 := fates q files in
    Ok (kept + N.of_nat (length (files_with Keep l2)), filled).

(** ** Readers *)

(** reader.c:19-23 struct dnstable_reader. *)
Record reader := { r_source : option table; r_fs : option (list table) }.
(** reader.c:40-47, 49-60. *)
Definition dnstable_reader_init (t : table) : reader := {| r_source := Some t; r_fs := None |}.
Definition dnstable_reader_init_setfile (files : list table) : reader := {| r_source := None; r_fs := Some files |}.

(** reader.c:131-138 dnstable_reader_query; a NULL source is dereferenced. *)
Definition dnstable_reader_query (lib : libmtbl) (r : reader) (q : query) : res qiter :=
  match r_fs r, r_source r with
  | Some fs, _ => dnstable_query_iter_fileset lib q fs
  | None, Some t => dnstable_query_iter q t
  | None, None => UB
  end.

(** reader.c:76-124, 140-147: mtbl_source_iter and mtbl_source_get_prefix dereference
    the source. *)
Definition dnstable_reader_iter (r : reader) : res base_it :=
  match r_source r with Some t => Ok (reader_iter t) | None => UB end.
Definition dnstable_reader_iter_prefix (r : reader) (b : N) : res base_it :=
  match r_source r with Some t => Ok (reader_iter_prefix t b) | None => UB end.

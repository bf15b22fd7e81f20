(** Model of dnstable/reader.c:74-175 (iterators over a reader), dnstable/iter.c and
    of dnstable_query_filter and the counters of a query iterator in
    dnstable/query.c:520-588, 1005-1076.  Definitions only. *)
From Verif Require Import Base ModelVarint ModelWdns ModelUnion ModelMerge ModelEntry ModelIter ModelQuery.

(** ** Readers *)

(** reader.c:74-80 dnstable_reader_iter, 82-124 the iterators by entry type.
    A reader over one source is the table of that source. *)
Definition reader_iter (t : table) : base_it := base_open HIter t.
Definition reader_iter_prefix (t : table) (b : N) : base_it := base_open (HPrefix [b]) t.
Definition reader_iter_rrset (t : table) : base_it := reader_iter_prefix t ENTRY_TYPE_RRSET.
Definition reader_iter_rrset_names (t : table) : base_it := reader_iter_prefix t ENTRY_TYPE_RRSET_NAME_FWD.
Definition reader_iter_rdata (t : table) : base_it := reader_iter_prefix t ENTRY_TYPE_RDATA.
Definition reader_iter_rdata_names (t : table) : base_it := reader_iter_prefix t ENTRY_TYPE_RDATA_NAME_REV.
Definition reader_iter_time_range (t : table) : base_it := reader_iter_prefix t ENTRY_TYPE_TIME_RANGE.
Definition reader_iter_source_info (t : table) : base_it := reader_iter_prefix t ENTRY_TYPE_SOURCE_INFO.
Definition reader_iter_version (t : table) : base_it := reader_iter_prefix t ENTRY_TYPE_VERSION.

(** reader.c:158-175 reader_iter_next; iter.c:58-64.  [fuel] bounds the loop. *)
Fixpoint reader_next (fuel : nat) (b : base_it) : qres * base_it :=
  match fuel with
  | O => (QHang, b)
  | S f =>
      match base_next b with
      | (None, b') => (QEnd, b')
      | (Some (k, v), b') =>
          match entry_decode k v with
          | Ok e => (QEntry e, b')
          | Fail => reader_next f b'
          | Abort => (QAbort, b')
          | UB => (QUB, b')
          | Hang => (QHang, b')
          end
      end
  end.

(** ** dnstable_query_filter *)

(** query.c:520-588; [Fail] is a result other than dnstable_res_success. *)
Definition query_filter (q : query) (e : entry) : res bool :=
  let* ty := if q_do_rrtype q || (match q_type q with QRdataName => true | _ => false end)
             then get_rrtype e else Ok 0 in
  if (if q_do_rrtype q then negb (ty =? q_rrtype q)
      else match q_type q with QRdataName => negb (name_type_all ty) | _ => false end) then Ok false
  else
    let* tf := if q_do_tfb q || q_do_tfa q then get_time_first e else Ok 0 in
    if q_do_tfb q && (q_tfb q <? tf) then Ok false
    else if q_do_tfa q && (tf <? q_tfa q) then Ok false
    else
      let* tl := if q_do_tlb q || q_do_tla q then get_time_last e else Ok 0 in
      if q_do_tlb q && (q_tlb q <? tl) then Ok false
      else if q_do_tla q && (tl <? q_tla q) then Ok false
      else
        match q_type q, q_bailiwick q with
        | QRrset, Some bw =>
            let* b := get_bailiwick e in
            if negb (blen bw =? blen b) then Ok false
            else match wdns_reverse_name b (blen b) with
                 | Ok r => Ok (beq bw r)
                 | Fail => Ok false
                 | Abort => Abort | UB => UB | Hang => Hang
                 end
        | _, _ => Ok true
        end.

(** ** Counters *)

(** Which stages a query iterator has: whether the pointer in struct query_iter is
    set (query.c:76-121; set in 1438-1652, 1743-1800, 2019-2031). *)
Fixpoint source_has (st : stage) (s : source) : bool :=
  match s with
  | SBase _ => false
  | SFilter st' _ u => stage_eqb st st' || source_has st u
  | STimeout u => source_has st u
  | SRemove _ u => stage_eqb st StRemoveStrict || source_has st u
  | SLjoin _ _ u => stage_eqb st StLjoin || source_has st u
  end.
Fixpoint iter_has (st : stage) (it : iter) : bool :=
  match it with
  | IBase _ => false
  | IFilter st' _ u => stage_eqb st st' || iter_has st u
  | ITimeout u => iter_has st u
  | IRemove _ _ u => stage_eqb st StRemoveStrict || iter_has st u
  | ILjoin _ _ _ _ u => stage_eqb st StLjoin || iter_has st u
  end.
Definition qiter_has (st : stage) (qi : qiter) : bool :=
  source_has st (qi_source qi) || match qi_kind qi with Indirect _ idx _ => iter_has st idx | Direct _ => false end.

(** The number of sources given to remove_mtbl_add_source. *)
Fixpoint removed_count (s : source) : N :=
  match s with
  | SBase _ => 0
  | SFilter _ _ u | STimeout u | SLjoin _ _ u => removed_count u
  | SRemove l _ => N.of_nat (length l)
  end.
Fixpoint has_fill (s : source) : bool :=
  match s with
  | SBase _ => false
  | SFilter _ _ u | STimeout u | SRemove _ u => has_fill u
  | SLjoin _ _ _ => true
  end.

(** query.c:1005-1021 get_counter. *)
Definition get_counter (filtered merged sought files : N) (c : category) : N :=
  match c with CFiltered => filtered | CMerged => merged | CSeek => sought | CFiles => files end.

(** query.c:1023-1076 query_iter_get_count, iter.c:66-78: (result is success, *exists,
    *count).  The FILESET and FILL_MERGER numbers are [w_cnt] of these stages; they
    are counted by libmtbl's use of the callbacks (ModelFileset). *)
Definition stage_counter (r : bool * N) (present : bool) : bool * bool * N :=
  if present then (true, fst r, snd r) else (false, false, 0).
Definition filtered_only (c : category) : bool := match c with CFiltered => true | _ => false end.
Definition iter_get_count (qi : qiter) (w : world) (st : stage) (c : category) : bool * bool * N :=
  let present := qiter_has st qi in
  let only_filtered :=
    let '(ok, _, n) := stage_counter (filter_counter st w c) present in
    (ok, filtered_only c && present, n) in
  match st with
  | StFileset =>
      (true, match c with CMerged | CFiles => true | _ => false end,
       get_counter 0 (w_cnt w StFileset CMerged) 0 (w_cnt w StFileset CFiles) c)
  | StSingleLabel | StRrtype => stage_counter (filter_counter st w c) present
  | StBailiwick | StTimePrefilter | StTime | StOffset => only_filtered
  | StRemoveStrict => stage_counter (remove_counter (removed_count (qi_source qi)) w c) present
  | StFillMerger =>
      (true, match c with CMerged | CFiles => has_fill (qi_source qi) | _ => false end,
       get_counter 0 (w_cnt w StFillMerger CMerged) 0 (w_cnt w StFillMerger CFiles) c)
  | StLjoin => stage_counter (ljoin_counter w c) present
  end.

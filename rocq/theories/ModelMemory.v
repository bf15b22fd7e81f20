(** * Memory: the blocks the library allocates, uses and frees

    A second model of the code, next to the one that computes results: it keeps the
    pointers and drops the data.  Every struct and every buffer is a block with an
    address; using or freeing an address that is NULL or not allocated is [UB].  A
    condition that depends on data the model does not have (does the string parse? is
    there another entry? does the deadline lie behind us?) is answered by the next of an
    arbitrary list of choices; a theorem for all lists of choices covers all data.
    Loops and recursions are bounded by [fuel]; running out of it is [Hang].

    Left out: the contents and sizes of buffers, memory running out (my_alloc.h aborts
    then), assertions about data.  The bytes an mtbl iterator hands out belong to it and
    are not blocks of their own.  What libmtbl allocates for a reader's source, an
    iterator over it or a merger is one or two blocks; a fileset has a source, and one for
    each of its files.  An iterator uses its source, also when it is destroyed; a
    duplicate of a fileset does not need the original.  A block that nothing else refers
    to yet is allocated when its members are known. *)
From Verif Require Import Base.
From Verif Require ModelQuery.
Notation qtype := ModelQuery.qtype.

Notation ptr := N.   (* 0 is NULL *)

(** query.c: the filter functions. *)
Inductive filter_func := FSingleLabel | FRrtype | FRrtypeIp | FRdataName | FBailiwick | FTime | FOffset.

(** What implements an mtbl_source or an mtbl_iter (the closure given to
    mtbl_source_init and mtbl_iter_init). *)
Inductive source_impl := SBase | SFilter (f : ptr) | STimeout (t : ptr) | SLjoin (j : ptr) | SRemove (r : ptr).
Inductive iter_impl := IBase (src : ptr) | IFilter (i : ptr) | IWrap (i : ptr) | ITimeout (i : ptr) | ILjoin (i : ptr) | IRemove (i : ptr).

(** query.c:54-74 struct dnstable_query: the pointers, and the flags that decide what is
    allocated or whether a jump buffer is set.  [q_stale]: bailiwick.len may be other than
    0 although bailiwick.data is NULL. *)
Record query_data := {
  q_type : qtype; q_rdata : ptr; q_name : ptr; q_bailiwick : ptr; q_stale : bool; q_err : ptr;
  q_do_timeout : bool; q_do_deadline : bool; q_aggregated : bool;
  q_tfb : bool; q_tfa : bool; q_tlb : bool; q_tla : bool
}.

(** query.c:76-121 struct query_iter.  [t_armed]: setjmp has been called for to_env in a
    function that has not returned.  [t_owned]: the pointers that query_iter_free destroys after the
    two iterators, in the order in which it does. *)
Record query_iter_data := {
  t_query : ptr; t_armed : bool; t_source : ptr; t_source_index : ptr;
  t_m_iter : ptr; t_m_iter2 : ptr; t_key : ptr; t_key2 : ptr; t_owned : list ptr
}.
Definition I_LJOIN := 0%nat.
Definition I_FS_FILTER := 1%nat.
Definition I_FS_NO_MERGE := 2%nat.
Definition I_FILL_MERGER := 3%nat.
Definition I_TIMEOUT := 4%nat.
Definition I_TIMEOUT_INDEX := 5%nat.
Definition I_FILTER_SINGLE_LABEL := 6%nat.
Definition I_FILTER_RRTYPE := 7%nat.
Definition I_FILTER_BAILIWICK := 8%nat.
Definition I_FILTER_TIME_PREFILTER := 9%nat.
Definition I_FILTER_TIME := 10%nat.
Definition I_FILTER_OFFSET := 11%nat.
Definition I_REMOVE_STRICT := 12%nat.

(** entry.c: the types dnstable_entry_decode knows; [EUnknown] is any other, which
    leaves the members NULL. *)
Inductive entry_kind := ERrset | ERrsetName | ERdata | ERdataName | ETimeRange | ESourceInfo | EVersion | EUnknown.

(** iter.c:20-25: the functions of a dnstable_iter. *)
Inductive next_func := NextQuery | NextIndirect | NextReader.

(** The contents of a block. *)
Inductive obj :=
| OBytes                                                     (* bytes, strings, arrays of pointers *)
| OUbuf (data : ptr)                                         (* ubuf.h, vector.h *)
| OVec (data : ptr) (elems : list ptr)                       (* vector.h, a vector of pointers *)
| OEntry (k : entry_kind) (rdatas rrtype_map source_info name bailiwick : ptr)   (* entry.c:37-48 *)
| OFormatter                                                 (* entry.c:50-55 *)
| OOptions                                                   (* mtbl_fileset_options, mtbl_merger_options *)
| OQuery (q : query_data)
| OSource (impl : source_impl)                               (* struct mtbl_source *)
| OFilter (upstream source : ptr) (f : filter_func) (data : ptr)   (* query_mtbl.c:331-337 *)
| OTimeout (upstream source env : ptr)                       (* query_mtbl.c:485-490; deadline and expire_env point into env *)
| OLjoin (left right source : ptr)                           (* query_mtbl.c:130-137 *)
| ORemove (upstream source rm_sources : ptr)                 (* query_mtbl.c:578-583 *)
| OFileset (source : ptr) (files : list ptr)                 (* struct mtbl_fileset: its source, the sources of its readers *)
| OMerger (source : ptr)                                     (* struct mtbl_merger *)
| OIter (impl : iter_impl)                                   (* struct mtbl_iter *)
| OFilterIter (filter it wrap : ptr)                         (* query_mtbl.c:339-343 *)
| OTimeoutIter (timeout it : ptr)                            (* query_mtbl.c:492-495 *)
| OLjoinIter (join left right merged : ptr)                  (* query_mtbl.c:139-149 *)
| ORemoveIter (rm it entries key key2 : ptr)                 (* query_mtbl.c:594-603 *)
| OEntries (l : list (ptr * ptr))                            (* query_mtbl.c:585-592: source and it of each remove_entry *)
| OQueryIter (t : query_iter_data)
| OIterator (next : next_func) (clos : ptr)                  (* iter.c:20-25 *)
| OReader (source fs : ptr)                                  (* reader.c:24-27 *)
| OReaderIter (m_it : ptr).                                  (* reader.c:20-22 *)

(** ** The state, and what can be done to it *)

Record memory := { next : N; cells : list (N * obj); choices : list N }.
Definition start (l : list N) : memory := {| next := 1; cells := []; choices := l |}.

Definition M (A : Type) := memory -> res (A * memory).
Definition ret {A} (a : A) : M A := fun m => Ok (a, m).
Definition mbind {A B} (c : M A) (k : A -> M B) : M B :=
  fun m => match c m with Ok (a, m') => k a m' | Fail => Fail | Abort => Abort | UB => UB | Hang => Hang end.
Definition bad {A} : M A := fun _ => UB.
Definition hang {A} : M A := fun _ => Hang.
Notation "'let!' x ':=' e 'in' k" := (mbind e (fun x => k)) (at level 200, x pattern, e at level 100, k at level 200).
Notation "e ;; k" := (mbind e (fun _ => k)) (at level 61, right associativity).

Fixpoint lookup (p : ptr) (l : list (N * obj)) : option obj :=
  match l with [] => None | (a, o) :: r => if a =? p then Some o else lookup p r end.
Fixpoint update (p : ptr) (o : obj) (l : list (N * obj)) : list (N * obj) :=
  match l with [] => [] | (a, x) :: r => if a =? p then (a, o) :: r else (a, x) :: update p o r end.
Fixpoint delete (p : ptr) (l : list (N * obj)) : list (N * obj) :=
  match l with [] => [] | (a, x) :: r => if a =? p then r else (a, x) :: delete p r end.

Definition with_cells (l : list (N * obj)) (m : memory) : memory := {| next := next m; cells := l; choices := choices m |}.

(** malloc, calloc, strdup: a new block. *)
Definition malloc (o : obj) : M ptr :=
  fun m => Ok (next m, {| next := next m + 1; cells := (next m, o) :: cells m; choices := choices m |}).
(** free; free(NULL) does nothing. *)
Definition free (p : ptr) : M unit :=
  fun m => if p =? 0 then Ok (tt, m) else match lookup p (cells m) with Some _ => Ok (tt, with_cells (delete p (cells m)) m) | None => UB end.
(** Reading through a pointer; writing through one. *)
Definition load (p : ptr) : M obj := fun m => match lookup p (cells m) with Some o => Ok (o, m) | None => UB end.
Definition store (p : ptr) (o : obj) : M unit :=
  fun m => match lookup p (cells m) with Some _ => Ok (tt, with_cells (update p o (cells m)) m) | None => UB end.
(** The next choice, 0 when there are no more. *)
Definition pick : M N :=
  fun m => match choices m with
           | [] => Ok (0, m)
           | c :: r => Ok (c, {| next := next m; cells := cells m; choices := r |})
           end.
Definition choose : M bool := let! c := pick in ret (negb (c =? 0)).

(** The struct behind a pointer. *)
Definition as_bytes (p : ptr) : M unit := let! o := load p in match o with OBytes => ret tt | _ => bad end.
Definition as_ubuf (p : ptr) : M ptr := let! o := load p in match o with OUbuf d => ret d | _ => bad end.
Definition as_vec (p : ptr) : M (ptr * list ptr) := let! o := load p in match o with OVec d l => ret (d, l) | _ => bad end.
Definition as_query (p : ptr) : M query_data := let! o := load p in match o with OQuery q => ret q | _ => bad end.
Definition as_source (p : ptr) : M source_impl := let! o := load p in match o with OSource i => ret i | _ => bad end.
Definition as_filter (p : ptr) : M (ptr * ptr * filter_func * ptr) := let! o := load p in match o with OFilter u s f d => ret (u, s, f, d) | _ => bad end.
Definition as_timeout (p : ptr) : M (ptr * ptr * ptr) := let! o := load p in match o with OTimeout u s e => ret (u, s, e) | _ => bad end.
Definition as_ljoin (p : ptr) : M (ptr * ptr * ptr) := let! o := load p in match o with OLjoin l r s => ret (l, r, s) | _ => bad end.
Definition as_remove (p : ptr) : M (ptr * ptr * ptr) := let! o := load p in match o with ORemove u s v => ret (u, s, v) | _ => bad end.
Definition as_fileset (p : ptr) : M (ptr * list ptr) := let! o := load p in match o with OFileset s l => ret (s, l) | _ => bad end.
Definition as_merger (p : ptr) : M ptr := let! o := load p in match o with OMerger s => ret s | _ => bad end.
Definition as_iter (p : ptr) : M iter_impl := let! o := load p in match o with OIter i => ret i | _ => bad end.
Definition as_filter_iter (p : ptr) : M (ptr * ptr * ptr) := let! o := load p in match o with OFilterIter f i w => ret (f, i, w) | _ => bad end.
Definition as_timeout_iter (p : ptr) : M (ptr * ptr) := let! o := load p in match o with OTimeoutIter t i => ret (t, i) | _ => bad end.
Definition as_ljoin_iter (p : ptr) : M (ptr * ptr * ptr * ptr) := let! o := load p in match o with OLjoinIter j l r v => ret (j, l, r, v) | _ => bad end.
Definition as_remove_iter (p : ptr) : M (ptr * ptr * ptr * ptr * ptr) := let! o := load p in match o with ORemoveIter r i e k k2 => ret (r, i, e, k, k2) | _ => bad end.
Definition as_entries (p : ptr) : M (list (ptr * ptr)) := let! o := load p in match o with OEntries l => ret l | _ => bad end.
Definition as_query_iter (p : ptr) : M query_iter_data := let! o := load p in match o with OQueryIter t => ret t | _ => bad end.
Definition as_iterator (p : ptr) : M (next_func * ptr) := let! o := load p in match o with OIterator n c => ret (n, c) | _ => bad end.
Definition as_reader (p : ptr) : M (ptr * ptr) := let! o := load p in match o with OReader s f => ret (s, f) | _ => bad end.
Definition as_reader_iter (p : ptr) : M ptr := let! o := load p in match o with OReaderIter i => ret i | _ => bad end.
Definition as_formatter (p : ptr) : M unit := let! o := load p in match o with OFormatter => ret tt | _ => bad end.

Fixpoint for_each {A} (l : list A) (f : A -> M unit) : M unit :=
  match l with [] => ret tt | x :: r => f x ;; for_each r f end.

(** ** libmy/vector.h, libmy/ubuf.h *)

(** vector.h:27-38 init. *)
Definition ubuf_init : M ptr := let! d := malloc OBytes in malloc (OUbuf d).
(** vector.h:136-160 size, value, data: the struct and the buffer are read. *)
Definition ubuf_read (u : ptr) : M unit := let! d := as_ubuf u in as_bytes d.
(** vector.h:69-102 reserve, add, append and the functions of ubuf.h that call them: the
    buffer is written; realloc may move it. *)
Definition ubuf_write (u : ptr) : M unit :=
  let! d := as_ubuf u in
  as_bytes d ;;
  let! grow := choose in
  if grow then
    let! d' := malloc OBytes in
    free d ;;
    store u (OUbuf d')
  else ret tt.
(** vector.h:49-59 detach. *)
Definition ubuf_detach (u : ptr) : M ptr :=
  let! d := as_ubuf u in
  let! d' := malloc OBytes in
  store u (OUbuf d') ;;
  ret d.
(** vector.h:60-68 destroy. *)
Definition ubuf_destroy (u : ptr) : M unit :=
  if u =? 0 then ret tt else let! d := as_ubuf u in free d ;; free u.

(** The same for vectors of pointers (rdata_vec, source_vec). *)
Definition vec_init : M ptr := let! d := malloc OBytes in malloc (OVec d []).
Definition vec_add (v x : ptr) : M unit :=
  let! (d, l) := as_vec v in
  as_bytes d ;;
  let! grow := choose in
  if grow then
    let! d' := malloc OBytes in
    free d ;;
    store v (OVec d' (l ++ [x]))
  else store v (OVec d (l ++ [x])).
Definition vec_destroy (v : ptr) : M unit :=
  if v =? 0 then ret tt else let! (d, _) := as_vec v in free d ;; free v.

(** ** query.c: queries *)

Definition with_rdata (x : ptr) (q : query_data) : query_data :=
  {| q_type := q_type q; q_rdata := x; q_name := q_name q; q_bailiwick := q_bailiwick q; q_stale := q_stale q; q_err := q_err q; q_do_timeout := q_do_timeout q; q_do_deadline := q_do_deadline q; q_aggregated := q_aggregated q; q_tfb := q_tfb q; q_tfa := q_tfa q; q_tlb := q_tlb q; q_tla := q_tla q |}.
Definition with_name (x : ptr) (q : query_data) : query_data :=
  {| q_type := q_type q; q_rdata := q_rdata q; q_name := x; q_bailiwick := q_bailiwick q; q_stale := q_stale q; q_err := q_err q; q_do_timeout := q_do_timeout q; q_do_deadline := q_do_deadline q; q_aggregated := q_aggregated q; q_tfb := q_tfb q; q_tfa := q_tfa q; q_tlb := q_tlb q; q_tla := q_tla q |}.
Definition with_bailiwick (x : ptr) (q : query_data) : query_data :=
  {| q_type := q_type q; q_rdata := q_rdata q; q_name := q_name q; q_bailiwick := x; q_stale := q_stale q; q_err := q_err q; q_do_timeout := q_do_timeout q; q_do_deadline := q_do_deadline q; q_aggregated := q_aggregated q; q_tfb := q_tfb q; q_tfa := q_tfa q; q_tlb := q_tlb q; q_tla := q_tla q |}.
Definition with_err (x : ptr) (q : query_data) : query_data :=
  {| q_type := q_type q; q_rdata := q_rdata q; q_name := q_name q; q_bailiwick := q_bailiwick q; q_stale := q_stale q; q_err := x; q_do_timeout := q_do_timeout q; q_do_deadline := q_do_deadline q; q_aggregated := q_aggregated q; q_tfb := q_tfb q; q_tfa := q_tfa q; q_tlb := q_tlb q; q_tla := q_tla q |}.
Definition with_timeout (x : bool) (q : query_data) : query_data :=
  {| q_type := q_type q; q_rdata := q_rdata q; q_name := q_name q; q_bailiwick := q_bailiwick q; q_stale := q_stale q; q_err := q_err q; q_do_timeout := x; q_do_deadline := q_do_deadline q; q_aggregated := q_aggregated q; q_tfb := q_tfb q; q_tfa := q_tfa q; q_tlb := q_tlb q; q_tla := q_tla q |}.
Definition with_deadline (x : bool) (q : query_data) : query_data :=
  {| q_type := q_type q; q_rdata := q_rdata q; q_name := q_name q; q_bailiwick := q_bailiwick q; q_stale := q_stale q; q_err := q_err q; q_do_timeout := q_do_timeout q; q_do_deadline := x; q_aggregated := q_aggregated q; q_tfb := q_tfb q; q_tfa := q_tfa q; q_tlb := q_tlb q; q_tla := q_tla q |}.
Definition with_aggregated (x : bool) (q : query_data) : query_data :=
  {| q_type := q_type q; q_rdata := q_rdata q; q_name := q_name q; q_bailiwick := q_bailiwick q; q_stale := q_stale q; q_err := q_err q; q_do_timeout := q_do_timeout q; q_do_deadline := q_do_deadline q; q_aggregated := x; q_tfb := q_tfb q; q_tfa := q_tfa q; q_tlb := q_tlb q; q_tla := q_tla q |}.
Definition with_stale (x : bool) (q : query_data) : query_data :=
  {| q_type := q_type q; q_rdata := q_rdata q; q_name := q_name q; q_bailiwick := q_bailiwick q; q_stale := x; q_err := q_err q; q_do_timeout := q_do_timeout q; q_do_deadline := q_do_deadline q; q_aggregated := q_aggregated q; q_tfb := q_tfb q; q_tfa := q_tfa q; q_tlb := q_tlb q; q_tla := q_tla q |}.
(** query.c:489-514: the four parameters. *)
Inductive bound := FirstBefore | FirstAfter | LastBefore | LastAfter.
Definition with_bound (b : bound) (x : bool) (q : query_data) : query_data :=
  {| q_type := q_type q; q_rdata := q_rdata q; q_name := q_name q; q_bailiwick := q_bailiwick q; q_stale := q_stale q; q_err := q_err q; q_do_timeout := q_do_timeout q; q_do_deadline := q_do_deadline q; q_aggregated := q_aggregated q;
     q_tfb := match b with FirstBefore => x | _ => q_tfb q end;
     q_tfa := match b with FirstAfter => x | _ => q_tfa q end;
     q_tlb := match b with LastBefore => x | _ => q_tlb q end;
     q_tla := match b with LastAfter => x | _ => q_tla q end |}.

(** query.c:161-175 dnstable_query_init, for any type. *)
Definition query_init (k : qtype) : M ptr :=
  malloc (OQuery {| q_type := k; q_rdata := 0; q_name := 0; q_bailiwick := 0; q_stale := false; q_err := 0; q_do_timeout := false; q_do_deadline := false;
                    q_aggregated := true; q_tfb := false; q_tfa := false; q_tlb := false; q_tla := false |}).

(** query.c:177-187 dnstable_query_destroy. *)
Definition query_destroy (p : ptr) : M unit :=
  if p =? 0 then ret tt
  else
    let! q := as_query p in
    free (q_rdata q) ;;
    free (q_name q) ;;
    free (q_bailiwick q) ;;
    free (q_err q) ;;
    free p.

(** query.c:123-128 query_set_err. *)
Definition query_set_err (p : ptr) : M unit :=
  let! q := as_query p in
  free (q_err q) ;;
  let! e := malloc OBytes in
  let! q := as_query p in
  store p (OQuery (with_err e q)).

(** query.c:189-195 dnstable_query_get_error. *)
Definition query_get_error (p : ptr) : M unit :=
  let! q := as_query p in
  if q_err q =? 0 then let! e := malloc OBytes in store p (OQuery (with_err e q)) else as_bytes (q_err q).

(** query.c:130-144 query_load_name, for the name or the bailiwick; [null]: s_name is
    NULL.  wdns_str_to_name_case sets the pointer to a new block, or to NULL if it
    fails; what it does to the length then is not known. *)
Definition query_load_name (p : ptr) (get : query_data -> ptr) (set : ptr -> query_data -> query_data) (null : bool) : M bool :=
  let! q := as_query p in
  free (get q) ;;
  store p (OQuery (set 0 q)) ;;
  if null then ret true
  else
    let! parsed := choose in
    if parsed then
      let! d := malloc OBytes in
      let! q := as_query p in
      store p (OQuery (set d q)) ;;
      ret true
    else query_set_err p ;; ret false.

(** query.c:204-224 dnstable_query_set_bailiwick. *)
Definition query_set_bailiwick (p : ptr) (null : bool) : M bool :=
  let! q := as_query p in
  match q_type q with
  | ModelQuery.QRrset =>
      let! r := query_load_name p q_bailiwick with_bailiwick null in
      let! q := as_query p in
      store p (OQuery (with_stale (negb r) q)) ;;
      let! q := as_query p in
      if negb r || (q_bailiwick q =? 0) then ret r
      else
        let! rev := malloc OBytes in
        as_bytes (q_bailiwick q) ;;
        let! reversed := choose in
        if reversed then
          free (q_bailiwick q) ;;
          store p (OQuery (with_bailiwick rev q)) ;;
          ret true
        else free rev ;; ret false
  | _ => query_set_err p ;; ret false
  end.

(** query.c:238-245 query_set_data_rdata_raw with hex_decode.h:57-86. *)
Definition query_set_data_raw (p : ptr) (null : bool) : M bool :=
  let! q := as_query p in
  free (q_rdata q) ;;
  store p (OQuery (with_rdata 0 q)) ;;
  if null then ret true
  else
    let! even := choose in
    if even then
      let! d := malloc OBytes in
      let! q := as_query p in
      store p (OQuery (with_rdata d q)) ;;
      let! digits := choose in
      if digits then ret true
      else
        free d ;;
        store p (OQuery (with_rdata 0 q)) ;;
        ret false
    else ret false.

(** query.c:247-364 query_set_data_rdata_ip: an address, a range or a prefix.  A copy of
    the text is made for the latter two. *)
Definition query_set_data_ip (p : ptr) (null : bool) : M bool :=
  if null then ret true
  else
    let! copy := choose in
    let! s := (if copy then malloc OBytes else ret 0) in
    let! parsed := choose in
    (if parsed then ret tt else let! err := choose in if err then query_set_err p else ret tt) ;;
    free s ;;
    ret parsed.

(** query.c:392-408 dnstable_query_set_data, 366-390 query_set_version_type. *)
Definition query_set_data (p : ptr) (null : bool) : M bool :=
  let! q := as_query p in
  match q_type q with
  | ModelQuery.QRrset | ModelQuery.QRdataName => query_load_name p q_name with_name null
  | ModelQuery.QRdataIp => query_set_data_ip p null
  | ModelQuery.QRdataRaw => query_set_data_raw p null
  | ModelQuery.QVersion => if null then ret true else choose
  | _ => ret false
  end.

(** query.c:410-436 dnstable_query_set_rrtype. *)
Definition query_set_rrtype (p : ptr) (null : bool) : M bool :=
  let! _ := as_query p in
  if null then ret true
  else
    let! known := choose in
    if known then ret true else query_set_err p ;; ret false.

(** query.c:197-202, 438-514: the setters that only store a value. *)
Definition query_set (p : ptr) (f : query_data -> query_data) : M unit :=
  let! q := as_query p in store p (OQuery (f q)).

(** query.c:520-588 dnstable_query_filter. *)
Definition query_filter (p e : ptr) : M unit :=
  let! q := as_query p in
  let! o := load e in
  match o with
  | OEntry k _ _ _ _ b =>
      match q_type q with
      | ModelQuery.QRrset =>
          if (q_bailiwick q =? 0) || (b =? 0) then ret tt
          else
            let! reached := choose in
            match k with
            | ERrset => if reached then as_bytes b ;; as_bytes (q_bailiwick q) else ret tt
            | _ => ret tt
            end
      | _ => ret tt
      end
  | _ => bad
  end.

(** ** query_mtbl.c: sources *)

(** query_mtbl.c:428-437 filter_mtbl_init, 467-475 filter_mtbl_destroy. *)
Definition filter_mtbl_init (upstream : ptr) (f : filter_func) (data : ptr) : M ptr :=
  let! p := malloc (OFilter upstream 0 f data) in
  let! s := malloc (OSource (SFilter p)) in
  store p (OFilter upstream s f data) ;;
  ret p.
(** mtbl_source_destroy: the free functions of all sources here do nothing
    (DECL_SOURCE_FREE). *)
Definition source_destroy (s : ptr) : M unit :=
  if s =? 0 then ret tt else let! _ := as_source s in free s.
Definition filter_mtbl_destroy (p : ptr) : M unit :=
  if p =? 0 then ret tt else let! (_, s, _, _) := as_filter p in source_destroy s ;; free p.

(** query_mtbl.c:547-566 timeout_mtbl_init, timeout_mtbl_destroy. *)
Definition timeout_mtbl_init (upstream env : ptr) : M ptr :=
  let! p := malloc (OTimeout upstream 0 env) in
  let! s := malloc (OSource (STimeout p)) in
  store p (OTimeout upstream s env) ;;
  ret p.
Definition timeout_mtbl_destroy (p : ptr) : M unit :=
  if p =? 0 then ret tt else let! (_, s, _) := as_timeout p in source_destroy s ;; free p.

(** query_mtbl.c:270-283 ljoin_mtbl_init, 313-321 ljoin_mtbl_destroy. *)
Definition ljoin_mtbl_init (left right : ptr) : M ptr :=
  let! p := malloc (OLjoin left right 0) in
  let! s := malloc (OSource (SLjoin p)) in
  store p (OLjoin left right s) ;;
  ret p.
Definition ljoin_mtbl_destroy (p : ptr) : M unit :=
  if p =? 0 then ret tt else let! (_, _, s) := as_ljoin p in source_destroy s ;; free p.

(** query_mtbl.c:775-782 remove_mtbl_init, 815-836 add_source, set_upstream, destroy. *)
Definition remove_mtbl_init : M ptr :=
  let! v := vec_init in
  let! p := malloc (ORemove 0 0 v) in
  let! s := malloc (OSource (SRemove p)) in
  store p (ORemove 0 s v) ;;
  ret p.
Definition remove_mtbl_add_source (p s : ptr) : M unit := let! (_, _, v) := as_remove p in vec_add v s.
Definition remove_mtbl_set_upstream (p u : ptr) : M unit := let! (_, s, v) := as_remove p in store p (ORemove u s v).
Definition remove_mtbl_destroy (p : ptr) : M unit :=
  if p =? 0 then ret tt else let! (_, s, v) := as_remove p in vec_destroy v ;; source_destroy s ;; free p.

(** libmtbl: mtbl_fileset_dup opens readers for [n] files, each with a source;
    mtbl_merger_init. *)
Fixpoint open_files (n : nat) : M (list ptr) :=
  match n with
  | O => ret []
  | S n' => let! s := malloc (OSource SBase) in let! r := open_files n' in ret (s :: r)
  end.
Definition fileset_init (n : nat) : M ptr :=
  let! l := open_files n in
  let! s := malloc (OSource SBase) in
  malloc (OFileset s l).
Definition fileset_destroy (p : ptr) : M unit :=
  if p =? 0 then ret tt
  else let! (s, l) := as_fileset p in for_each l source_destroy ;; source_destroy s ;; free p.
Definition merger_init : M ptr := let! s := malloc (OSource SBase) in malloc (OMerger s).
Definition merger_destroy (p : ptr) : M unit :=
  if p =? 0 then ret tt else let! s := as_merger p in source_destroy s ;; free p.

(** ** query_mtbl.c: iterators *)

(** mtbl_source_iter, _get, _get_prefix and _get_range; 0 is NULL.  For the sources of
    query_mtbl.c: filter_source_iter_common (query_mtbl.c:402-418),
    timeout_source_iter_common (526-537), ljoin_source_iter_common (248-259),
    remove_source_iter_common (734-766). *)
Fixpoint source_get (fuel : nat) (s : ptr) : M ptr :=
  match fuel with
  | O => hang
  | S n =>
      let! i := as_source s in
      match i with
      | SBase => let! some := choose in if some then malloc (OIter (IBase s)) else ret 0
      | SFilter f =>
          let! (up, _, _, _) := as_filter f in
          let! it := source_get n up in
          let! i := malloc (OFilterIter f it 0) in
          let! w := malloc (OIter (IWrap i)) in
          store i (OFilterIter f it w) ;;
          malloc (OIter (IFilter i))
      | STimeout t =>
          let! (up, _, _) := as_timeout t in
          let! it := source_get n up in
          let! i := malloc (OTimeoutIter t it) in
          malloc (OIter (ITimeout i))
      | SLjoin j =>
          let! (l, r, _) := as_ljoin j in
          let! il := source_get n l in
          let! ir := source_get n r in
          let! i := malloc (OLjoinIter j il ir 0) in
          malloc (OIter (ILjoin i))
      | SRemove r =>
          let! (up, _, v) := as_remove r in
          let! it := source_get n up in
          let! key := choose in
          let! k := (if key then malloc OBytes else ret 0) in
          let! key2 := choose in
          let! k2 := (if key2 then malloc OBytes else ret 0) in
          let! (d, l) := as_vec v in
          as_bytes d ;;
          let! e := malloc (OEntries (map (fun s => (s, 0)) l)) in
          let! i := malloc (ORemoveIter r it e k k2) in
          malloc (OIter (IRemove i))
      end
  end.

(** mtbl_iter_destroy with filter_iter_free (query_mtbl.c:377-384), seek_wrap_iter_free
    (395-400), timeout_iter_free (518-524), ljoin_iter_free (238-246) and
    remove_iter_free (718-732). *)
Fixpoint iter_destroy (fuel : nat) (p : ptr) : M unit :=
  match fuel with
  | O => hang
  | S n =>
      if p =? 0 then ret tt
      else
        let! i := as_iter p in
        match i with
        | IBase s => let! _ := as_source s in ret tt
        | IFilter i =>
            let! (_, it, w) := as_filter_iter i in
            iter_destroy n it ;; iter_destroy n w ;; free i
        | IWrap _ => ret tt
        | ITimeout i =>
            let! (_, it) := as_timeout_iter i in
            iter_destroy n it ;; free i
        | ILjoin i =>
            let! (_, l, r, v) := as_ljoin_iter i in
            free v ;; iter_destroy n l ;; iter_destroy n r ;; free i
        | IRemove i =>
            let! (_, it, e, _, _) := as_remove_iter i in
            iter_destroy n it ;;
            let! l := as_entries e in
            for_each l (fun x => iter_destroy n (snd x)) ;;
            free e ;; free i
        end ;;
        free p
  end.

(** What mtbl_iter_next does: an entry, none, or longjmp to query_iter_next. *)
Inductive step := Got | End | Jump.

Definition with_key2 (x : ptr) (t : query_iter_data) : query_iter_data :=
  {| t_query := t_query t; t_armed := t_armed t; t_source := t_source t; t_source_index := t_source_index t;
     t_m_iter := t_m_iter t; t_m_iter2 := t_m_iter2 t; t_key := t_key t; t_key2 := x; t_owned := t_owned t |}.

(** query.c:715-721, 1111-1137, 1358-1365: key2, allocated when it is needed first, and
    written to. *)
Definition write_key2 (it : ptr) : M unit :=
  let! t := as_query_iter it in
  (if t_key2 t =? 0 then let! k := ubuf_init in store it (OQueryIter (with_key2 k t)) else ret tt) ;;
  let! t := as_query_iter it in
  ubuf_write (t_key2 t).

(** query.c:635-953, 1078-1311: the filters.  Result and *match; [seek] is
    mtbl_iter_seek(seek_iter, ...). *)
Definition run_filter (f : filter_func) (it : ptr) (seek : M bool) : M (bool * bool) :=
  match f with
  | FSingleLabel =>
      let! t := as_query_iter it in
      ubuf_read (t_key t) ;;
      let! jump := choose in
      if jump then
        write_key2 it ;;
        let! t := as_query_iter it in
        ubuf_read (t_key2 t) ;;
        let! r := seek in
        ret (r, false)
      else let! matched := choose in ret (true, matched)
  | FRrtype | FTime | FOffset =>
      let! t := as_query_iter it in
      let! _ := as_query (t_query t) in
      let! matched := choose in
      ret (true, matched)
  | FRdataName => let! matched := choose in ret (true, matched)
  | FBailiwick =>
      let! t := as_query_iter it in
      let! q := as_query (t_query t) in
      let! same_length := choose in
      if same_length && (negb (q_bailiwick q =? 0) || q_stale q) then
        as_bytes (q_bailiwick q) ;;
        let! matched := choose in
        ret (true, matched)
      else ret (true, false)
  | FRrtypeIp =>
      let! t := as_query_iter it in
      let! _ := as_query (t_query t) in
      let! matched := choose in
      if matched then ret (true, true)
      else
        write_key2 it ;;
        let! t := as_query_iter it in
        ubuf_read (t_key t) ;;
        ubuf_write (t_key2 t) ;;
        let! jump := choose in
        if jump then
          let! t := as_query_iter it in
          ubuf_read (t_key2 t) ;;
          let! r := seek in
          ret (r, false)
        else
          let! r := choose in
          ret (r, false)
  end.

(** mtbl_iter_seek: filter_iter_seek (query_mtbl.c:370-375), seek_wrap_iter_seek (387-393),
    timeout_iter_seek (511-516), ljoin_iter_seek (151-167), remove_iter_seek (681-716).
    mtbl_iter_next: filter_iter_next (345-368), timeout_iter_next (497-509), ljoin_iter_next
    (169-236), remove_iter_next (665-679) with match_key (605-663). *)
Fixpoint iter_seek (fuel : nat) (p : ptr) : M bool :=
  match fuel with
  | O => hang
  | S n =>
      if p =? 0 then ret false
      else
        let! i := as_iter p in
        match i with
        | IBase s => let! _ := as_source s in choose
        | IFilter i => let! (_, it, _) := as_filter_iter i in iter_seek n it
        | IWrap i =>
            let! (f, it, _) := as_filter_iter i in
            let! _ := as_filter f in
            iter_seek n it
        | ITimeout i => let! (_, it) := as_timeout_iter i in iter_seek n it
        | ILjoin i =>
            let! (_, l, r, _) := as_ljoin_iter i in
            let! ok := iter_seek n l in
            if ok then iter_seek n r ;; ret true else ret false
        | IRemove i =>
            let! (rm, it, e, _, _) := as_remove_iter i in
            let! l := as_entries e in
            for_each l (fun x =>
              if snd x =? 0 then ret tt
              else
                let! behind := choose in
                if behind then
                  let! ok := iter_seek n (snd x) in
                  if ok then let! _ := as_remove rm in iter_next n (snd x) ;; ret tt else ret tt
                else ret tt) ;;
            iter_seek n it
        end
  end
with iter_next (fuel : nat) (p : ptr) : M step :=
  match fuel with
  | O => hang
  | S n =>
      if p =? 0 then ret End
      else
        let! i := as_iter p in
        match i with
        | IBase s => let! _ := as_source s in let! more := choose in ret (if more then Got else End)
        | IFilter i | IWrap i => filter_next n i
        | ITimeout i =>
            let! (t, it) := as_timeout_iter i in
            let! (_, _, env) := as_timeout t in
            let! qi := as_query_iter env in
            let! expired := choose in
            if expired then if t_armed qi then ret Jump else bad
            else iter_next n it
        | ILjoin i =>
            let! (_, l, _, _) := as_ljoin_iter i in
            let! r := iter_next n l in
            match r with Got => ljoin_right n i | x => ret x end
        | IRemove i => remove_next n i
        end
  end
(** query_mtbl.c:353-366: the loop. *)
with filter_next (fuel : nat) (i : ptr) : M step :=
  match fuel with
  | O => hang
  | S n =>
      let! (f, it, w) := as_filter_iter i in
      let! r := iter_next n it in
      match r with
      | Got =>
          let! (_, _, fn, data) := as_filter f in
          let! (ok, matched) := run_filter fn data (iter_seek n w) in
          if negb ok then ret End
          else if matched : bool then ret Got
          else let! _ := as_filter f in filter_next n i
      | x => ret x
      end
  end
(** query_mtbl.c:190-233: the loop; first choice: right_finished, or the right key is
    greater. *)
with ljoin_right (fuel : nat) (i : ptr) : M step :=
  match fuel with
  | O => hang
  | S n =>
      let! finished := choose in
      if finished then ret Got
      else
        let! (j, l, r, v) := as_ljoin_iter i in
        let! fetch := choose in
        let! x := (if fetch then iter_next n r else ret Got) in
        match x with
        | End => ret Got
        | Jump => ret Jump
        | Got =>
            let! less := choose in
            if less then
              let! ok := iter_seek n r in
              if ok then let! _ := as_ljoin j in ljoin_right n i else ret Got
            else
              free v ;;
              let! _ := as_ljoin j in
              let! merged := choose in
              if merged then
                let! v' := malloc OBytes in
                store i (OLjoinIter j l r v') ;;
                ret Got
              else store i (OLjoinIter j l r 0) ;; ret End
        end
  end
(** query_mtbl.c:672-676: the loop. *)
with remove_next (fuel : nat) (i : ptr) : M step :=
  match fuel with
  | O => hang
  | S n =>
      let! (rm, it, e, k, k2) := as_remove_iter i in
      let! r := iter_next n it in
      match r with
      | Got =>
          let! l := as_entries e in
          let! x := match_key n rm e k k2 [] l in
          match x with
          | Got => remove_next n i       (* matched: skip the key *)
          | End => ret Got
          | Jump => ret Jump
          end
      | x => ret x
      end
  end
(** query_mtbl.c:610-662: the entries [l], behind [done]; [Got] is true, [End] false.
    The entries are visited in the order of the array, not of the list. *)
with match_key (fuel : nat) (rm e k k2 : ptr) (done l : list (ptr * ptr)) : M step :=
  match fuel with
  | O => hang
  | S n =>
      match l with
      | [] => ret End
      | (s, it) :: rest =>
          let! x :=
            (if it =? 0 then
               (if k =? 0 then ret tt else as_bytes k) ;;
               (if k2 =? 0 then ret tt else as_bytes k2) ;;
               let! it := source_get n s in
               store e (OEntries (done ++ (s, it) :: rest)) ;;
               let! ok := iter_seek n it in
               if ok then
                 let! _ := as_remove rm in
                 let! r := iter_next n it in
                 ret (it, r)
               else ret (it, End)
             else ret (it, Got)) in
          let '(it, r) := x in
          match r with
          | Got =>
              let! y := match_entry n rm it in
              match y with
              | End => match_key n rm e k k2 (done ++ [(s, it)]) rest
              | y => ret y
              end
          | End => match_key n rm e k k2 (done ++ [(s, it)]) rest
          | Jump => ret Jump
          end
      end
  end
(** query_mtbl.c:634-655: the loop for one entry. *)
with match_entry (fuel : nat) (rm it : ptr) : M step :=
  match fuel with
  | O => hang
  | S n =>
      let! c := pick in
      if c =? 0 then ret End             (* finished, or its key is greater *)
      else if c =? 1 then                (* less *)
        let! ok := iter_seek n it in
        if ok then
          let! _ := as_remove rm in
          let! r := iter_next n it in
          match r with Got => match_entry n rm it | x => ret x end
        else ret End
      else let! _ := as_remove rm in ret Got
  end.

(** ** entry.c *)

(** entry.c:862-877 dnstable_entry_destroy. *)
Definition entry_destroy (p : ptr) : M unit :=
  if p =? 0 then ret tt
  else
    let! o := load p in
    match o with
    | OEntry _ rdatas map info name bailiwick =>
        let! (_, l) := as_vec rdatas in
        for_each l free ;;
        ubuf_destroy map ;;
        ubuf_destroy info ;;
        vec_destroy rdatas ;;
        free name ;;
        free bailiwick ;;
        free p
    | _ => bad
    end.

(** entry.c:665-683: the rdata array. *)
Fixpoint decode_rdatas (fuel : nat) (v : ptr) : M bool :=
  match fuel with
  | O => hang
  | S n =>
      let! more := choose in
      if more then
        let! fits := choose in
        if fits then
          let! d := malloc OBytes in
          vec_add v d ;;
          decode_rdatas n v
        else ret false
      else ret true
  end.

(** entry.c:609-811: the decoders of keys and values.  [false] is
    failure. *)
Definition decode_as (fuel : nat) (k : entry_kind) (p v : ptr) : M bool :=
  match k with
  | ERrset =>
      let! ok := choose in
      if negb ok then ret false
      else
        let! name := malloc OBytes in
        store p (OEntry k v 0 0 name 0) ;;
        let! ok := choose in
        if negb ok then ret false
        else
          let! bailiwick := malloc OBytes in
          store p (OEntry k v 0 0 name bailiwick) ;;
          let! ok := decode_rdatas fuel v in
          if negb ok then ret false else choose
  | ERdata =>
      let! ok := choose in
      if negb ok then ret false
      else
        let! name := malloc OBytes in
        store p (OEntry k v 0 0 name 0) ;;
        let! ok := choose in
        if negb ok then ret false
        else
          let! d := malloc OBytes in
          vec_add v d ;;
          choose
  | ERrsetName | ERdataName =>
      let! name := malloc OBytes in
      store p (OEntry k v 0 0 name 0) ;;
      let! ok := (match k with ERdataName => choose | _ => ret true end) in
      if negb ok then ret false
      else
        let! types := choose in
        (if types then
           let! u := ubuf_init in
           store p (OEntry k v u 0 name 0) ;;
           ubuf_write u
         else ret tt) ;;
        ret true
  | ESourceInfo =>
      let! u := ubuf_init in
      store p (OEntry k v 0 u 0 0) ;;
      ubuf_write u ;;
      ret true
  | ETimeRange | EVersion => choose
  | EUnknown => ret true
  end.

Definition entry_kind_of (c : N) : entry_kind :=
  if c =? 1 then ERrset else if c =? 2 then ERrsetName else if c =? 3 then ERdata else if c =? 4 then ERdataName
  else if c =? 5 then ETimeRange else if c =? 6 then ESourceInfo else if c =? 7 then EVersion else EUnknown.

(** entry.c:813-860 dnstable_entry_decode; 0 is NULL.  The choice decides the first byte
    of the key; 0 is an empty key. *)
Definition entry_decode (fuel : nat) : M ptr :=
  let! c := pick in
  if c =? 0 then ret 0
  else
    let k := entry_kind_of c in
    let! v := vec_init in
    let! p := malloc (OEntry k v 0 0 0 0) in
    let! ok := decode_as fuel k p v in
    if ok then ret p else entry_destroy p ;; ret 0.

(** entry.c:929-1094: the accessors read the entry, and the caller what they point to. *)
Definition entry_read (p : ptr) : M unit :=
  let! o := load p in
  match o with
  | OEntry _ rdatas map info name bailiwick =>
      let! (d, l) := as_vec rdatas in
      as_bytes d ;;
      for_each l as_bytes ;;
      (if map =? 0 then ret tt else ubuf_read map) ;;
      (if info =? 0 then ret tt else ubuf_read info) ;;
      (if name =? 0 then ret tt else as_bytes name) ;;
      (if bailiwick =? 0 then ret tt else as_bytes bailiwick)
  | _ => bad
  end.

(** entry.c:267-275, 283-291, 407-410, 453-460: the string of one record's data. *)
Definition format_rdata (u d : ptr) : M unit :=
  as_bytes d ;;
  let! s := malloc OBytes in
  ubuf_write u ;;
  free s.
(** entry.c:423-438, 471-480: the raw data of one record. *)
Definition format_raw (u d : ptr) : M unit :=
  let! r := ubuf_init in
  as_bytes d ;;
  ubuf_write r ;;
  let! s := ubuf_detach r in
  ubuf_destroy r ;;
  as_bytes s ;;
  ubuf_write u ;;
  free s.

(** entry.c:227-332 dnstable_entry_to_text_fmt, 340-524 dnstable_entry_to_json_fmt; [json]
    and [raw] as there.  [EUnknown] is treated as an RRset (its e_type is 0).  0 is
    NULL. *)
Definition entry_format (json raw : bool) (p : ptr) : M ptr :=
  let! u := ubuf_init in
  let! o := load p in
  match o with
  | OEntry k rdatas map info name bailiwick =>
      let! (d, l) := as_vec rdatas in
      as_bytes d ;;
      let! fine :=
        (match k with
         | ERrset | EUnknown =>
             as_bytes bailiwick ;;
             as_bytes name ;;
             ubuf_write u ;;
             for_each l (format_rdata u) ;;
             (if json && raw then for_each l (format_raw u) else ret tt) ;;
             ret true
         | ERdata =>
             as_bytes name ;;
             ubuf_write u ;;
             match l with
             | [d] =>
                 format_rdata u d ;;
                 (if json && raw then format_raw u d else ret tt) ;;
                 ret true
             | _ => ret false
             end
         | ERrsetName | ERdataName =>
             as_bytes name ;;
             (if map =? 0 then ret tt else ubuf_read map) ;;
             ubuf_write u ;;
             ret true
         | ESourceInfo => ubuf_write info ;; ubuf_read info ;; ubuf_write u ;; ret true
         | ETimeRange | EVersion => ubuf_write u ;; ret true
         end) in
      if fine : bool then
        ubuf_write u ;;
        let! s := ubuf_detach u in
        ubuf_destroy u ;;
        ret s
      else ubuf_destroy u ;; ret 0
  | _ => bad
  end.

(** ** query.c: iterators *)

Definition with_source (x : ptr) (t : query_iter_data) : query_iter_data :=
  {| t_query := t_query t; t_armed := t_armed t; t_source := x; t_source_index := t_source_index t;
     t_m_iter := t_m_iter t; t_m_iter2 := t_m_iter2 t; t_key := t_key t; t_key2 := t_key2 t; t_owned := t_owned t |}.
Definition with_source_index (x : ptr) (t : query_iter_data) : query_iter_data :=
  {| t_query := t_query t; t_armed := t_armed t; t_source := t_source t; t_source_index := x;
     t_m_iter := t_m_iter t; t_m_iter2 := t_m_iter2 t; t_key := t_key t; t_key2 := t_key2 t; t_owned := t_owned t |}.
Definition with_m_iter (x : ptr) (t : query_iter_data) : query_iter_data :=
  {| t_query := t_query t; t_armed := t_armed t; t_source := t_source t; t_source_index := t_source_index t;
     t_m_iter := x; t_m_iter2 := t_m_iter2 t; t_key := t_key t; t_key2 := t_key2 t; t_owned := t_owned t |}.
Definition with_m_iter2 (x : ptr) (t : query_iter_data) : query_iter_data :=
  {| t_query := t_query t; t_armed := t_armed t; t_source := t_source t; t_source_index := t_source_index t;
     t_m_iter := t_m_iter t; t_m_iter2 := x; t_key := t_key t; t_key2 := t_key2 t; t_owned := t_owned t |}.
Definition with_key (x : ptr) (t : query_iter_data) : query_iter_data :=
  {| t_query := t_query t; t_armed := t_armed t; t_source := t_source t; t_source_index := t_source_index t;
     t_m_iter := t_m_iter t; t_m_iter2 := t_m_iter2 t; t_key := x; t_key2 := t_key2 t; t_owned := t_owned t |}.
Definition with_armed (x : bool) (t : query_iter_data) : query_iter_data :=
  {| t_query := t_query t; t_armed := x; t_source := t_source t; t_source_index := t_source_index t;
     t_m_iter := t_m_iter t; t_m_iter2 := t_m_iter2 t; t_key := t_key t; t_key2 := t_key2 t; t_owned := t_owned t |}.
Fixpoint set_nth (i : nat) (x : ptr) (l : list ptr) : list ptr :=
  match i, l with
  | O, _ :: r => x :: r
  | S i', y :: r => y :: set_nth i' x r
  | _, [] => []
  end.
Definition with_owned (i : nat) (x : ptr) (t : query_iter_data) : query_iter_data :=
  {| t_query := t_query t; t_armed := t_armed t; t_source := t_source t; t_source_index := t_source_index t;
     t_m_iter := t_m_iter t; t_m_iter2 := t_m_iter2 t; t_key := t_key t; t_key2 := t_key2 t; t_owned := set_nth i x (t_owned t) |}.
Definition owned (i : nat) (t : query_iter_data) : ptr := nth i (t_owned t) 0.

(** Reading and assigning members of a query_iter. *)
Definition set_iter (it : ptr) (f : query_iter_data -> query_iter_data) : M unit :=
  let! t := as_query_iter it in store it (OQueryIter (f t)).

(** query.c:590-612 query_iter_free. *)
Definition destroy_owned (it : ptr) (i : nat) (d : ptr -> M unit) : M unit :=
  let! t := as_query_iter it in
  d (owned i t) ;;
  set_iter it (with_owned i 0).
Definition query_iter_free (fuel : nat) (it : ptr) : M unit :=
  let! t := as_query_iter it in
  iter_destroy fuel (t_m_iter t) ;;
  set_iter it (with_m_iter 0) ;;
  iter_destroy fuel (t_m_iter2 t) ;;
  set_iter it (with_m_iter2 0) ;;
  destroy_owned it I_LJOIN ljoin_mtbl_destroy ;;
  destroy_owned it I_FS_FILTER fileset_destroy ;;
  destroy_owned it I_FS_NO_MERGE fileset_destroy ;;
  destroy_owned it I_FILL_MERGER merger_destroy ;;
  destroy_owned it I_TIMEOUT timeout_mtbl_destroy ;;
  destroy_owned it I_TIMEOUT_INDEX timeout_mtbl_destroy ;;
  destroy_owned it I_FILTER_SINGLE_LABEL filter_mtbl_destroy ;;
  destroy_owned it I_FILTER_RRTYPE filter_mtbl_destroy ;;
  destroy_owned it I_FILTER_BAILIWICK filter_mtbl_destroy ;;
  destroy_owned it I_FILTER_TIME_PREFILTER filter_mtbl_destroy ;;
  destroy_owned it I_FILTER_TIME filter_mtbl_destroy ;;
  destroy_owned it I_FILTER_OFFSET filter_mtbl_destroy ;;
  destroy_owned it I_REMOVE_STRICT remove_mtbl_destroy ;;
  let! t := as_query_iter it in
  ubuf_destroy (t_key t) ;;
  ubuf_destroy (t_key2 t) ;;
  free it.

(** iter.c:27-39 dnstable_iter_init. *)
Definition iter_init (n : next_func) (clos : ptr) : M ptr := malloc (OIterator n clos).

(** query.c:1421-1432 FILTER_SET on source, and on source_index. *)
Definition filter_set (it : ptr) (i : nat) (f : filter_func) : M unit :=
  let! t := as_query_iter it in
  let! p := filter_mtbl_init (t_source t) f it in
  set_iter it (with_owned i p) ;;
  let! (_, s, _, _) := as_filter p in
  set_iter it (with_source s).
Definition filter_set_index (it : ptr) (i : nat) (f : filter_func) : M unit :=
  let! t := as_query_iter it in
  let! p := filter_mtbl_init (t_source_index t) f it in
  set_iter it (with_owned i p) ;;
  let! (_, s, _, _) := as_filter p in
  set_iter it (with_source_index s).
Definition filter_set_if (c : M bool) (it : ptr) (i : nat) (f : filter_func) : M unit :=
  let! b := c in if b : bool then filter_set it i f else ret tt.

(** The query of an iterator; its name; has it a bailiwick? *)
Definition query_of (it : ptr) : M query_data := let! t := as_query_iter it in as_query (t_query t).
Definition read_name (it : ptr) : M unit := let! q := query_of it in as_bytes (q_name q).
Definition has_bailiwick (it : ptr) : M bool := let! q := query_of it in ret (negb (q_bailiwick q =? 0)).
(** Writing to it->key. *)
Definition write_key (it : ptr) : M unit := let! t := as_query_iter it in ubuf_write (t_key t).
Definition init_key (it : ptr) : M unit := let! k := ubuf_init in set_iter it (with_key k).

(** query.c:1434-1478: right and left wildcards; 1510-1547 query_init_rrset. *)
Definition query_init_rrset (fuel : nat) (it : ptr) : M ptr :=
  init_key it ;;
  read_name it ;;
  let! wildcard := pick in
  if wildcard =? 1 then                                     (* 1458-1478: left *)
    write_key it ;;
    let! reversed := choose in
    if negb reversed then ret 0
    else
      write_key it ;;
      filter_set_if choose it I_FILTER_SINGLE_LABEL FSingleLabel ;;
      filter_set_if choose it I_FILTER_RRTYPE FRrtype ;;
      filter_set_if (has_bailiwick it) it I_FILTER_BAILIWICK FBailiwick ;;
      iter_init NextQuery it
  else if wildcard =? 2 then                                (* 1438-1456: right *)
    write_key it ;;
    let! plus := choose in
    (if plus then filter_set_index it I_FILTER_SINGLE_LABEL FSingleLabel else ret tt) ;;
    let! t := as_query_iter it in
    let! i := source_get fuel (t_source_index t) in
    set_iter it (with_m_iter2 i) ;;
    filter_set_if choose it I_FILTER_RRTYPE FRrtype ;;
    filter_set_if (has_bailiwick it) it I_FILTER_BAILIWICK FBailiwick ;;
    iter_init NextIndirect it
  else
    write_key it ;;
    let! reversed := choose in
    if negb reversed then
      let! t := as_query_iter it in
      ubuf_destroy (t_key t) ;;
      set_iter it (with_key 0) ;;
      ret 0
    else
      write_key it ;;
      let! rrtype := choose in
      (if rrtype then
         let! q := query_of it in
         (if q_bailiwick q =? 0 then ret tt else as_bytes (q_bailiwick q)) ;;
         write_key it
       else filter_set_if (has_bailiwick it) it I_FILTER_BAILIWICK FBailiwick) ;;
      iter_init NextQuery it.

(** query.c:1549-1621: rdata names. *)
Definition query_init_rdata_name (fuel : nat) (it : ptr) : M ptr :=
  let! rrtype := choose in
  filter_set it I_FILTER_RRTYPE (if rrtype then FRrtype else FRdataName) ;;
  init_key it ;;
  read_name it ;;
  let! wildcard := pick in
  if wildcard =? 1 then                                     (* 1568-1587: left *)
    write_key it ;;
    let! reversed := choose in
    if negb reversed then ret 0
    else
      write_key it ;;
      let! plus := choose in
      (if plus then filter_set_index it I_FILTER_SINGLE_LABEL FSingleLabel else ret tt) ;;
      let! t := as_query_iter it in
      let! i := source_get fuel (t_source_index t) in
      set_iter it (with_m_iter2 i) ;;
      iter_init NextIndirect it
  else if wildcard =? 2 then                                (* 1549-1561: right *)
    write_key it ;;
    filter_set_if choose it I_FILTER_SINGLE_LABEL FSingleLabel ;;
    iter_init NextQuery it
  else
    write_key it ;;
    iter_init NextQuery it.

(** query.c:1623-1652 query_init_rdata_ip. *)
Definition query_init_rdata_ip (it : ptr) : M ptr :=
  init_key it ;;
  write_key it ;;
  let! range := choose in
  (if range then write_key2 it else ret tt) ;;
  filter_set it I_FILTER_RRTYPE FRrtypeIp ;;
  iter_init NextQuery it.

(** query.c:1654-1673 query_init_rdata_raw. *)
Definition query_init_rdata_raw (it : ptr) : M ptr :=
  init_key it ;;
  let! q := query_of it in
  as_bytes (q_rdata q) ;;
  write_key it ;;
  filter_set_if choose it I_FILTER_RRTYPE FRrtype ;;
  iter_init NextQuery it.

(** query.c:1675-1699: time range, source information, version. *)
Definition query_init_other (it : ptr) : M ptr :=
  init_key it ;;
  write_key it ;;
  iter_init NextQuery it.

(** query.c:1701-1815 dnstable_query_iter_common; 0 is NULL. *)
Definition query_iter_common (fuel : nat) (it : ptr) : M ptr :=
  let! q := query_of it in
  (if q_do_timeout q || q_do_deadline q then
     let! t := as_query_iter it in
     let! p := timeout_mtbl_init (t_source t) it in
     set_iter it (with_owned I_TIMEOUT p) ;;
     let! (_, s, _) := as_timeout p in
     set_iter it (with_source s) ;;
     let! t := as_query_iter it in
     let! p := timeout_mtbl_init (t_source_index t) it in
     set_iter it (with_owned I_TIMEOUT_INDEX p) ;;
     let! (_, s, _) := as_timeout p in
     set_iter it (with_source_index s)
   else ret tt) ;;
  let! d_it :=
    (match q_type q with
     | ModelQuery.QRrset => query_init_rrset fuel it
     | ModelQuery.QRdataName => query_init_rdata_name fuel it
     | ModelQuery.QRdataIp => query_init_rdata_ip it
     | ModelQuery.QRdataRaw => query_init_rdata_raw it
     | _ => query_init_other it
     end) in
  if d_it =? 0 then query_iter_free fuel it ;; ret 0
  else
    (if q_tfa q || q_tlb q || q_tfb q || q_tla q then
       filter_set it I_FILTER_TIME_PREFILTER FTime ;;
       let! t := as_query_iter it in
       if owned I_REMOVE_STRICT t =? 0 then ret tt
       else
         remove_mtbl_set_upstream (owned I_REMOVE_STRICT t) (t_source t) ;;
         let! (_, s, _) := as_remove (owned I_REMOVE_STRICT t) in
         set_iter it (with_source s)
     else ret tt) ;;
    let! t := as_query_iter it in
    (if owned I_FILL_MERGER t =? 0 then ret tt
     else
       let! r := as_merger (owned I_FILL_MERGER t) in
       let! p := ljoin_mtbl_init (t_source t) r in
       set_iter it (with_owned I_LJOIN p) ;;
       let! (_, _, s) := as_ljoin p in
       set_iter it (with_source s)) ;;
    let! t := as_query_iter it in
    (if owned I_FILTER_TIME_PREFILTER t =? 0 then ret tt else filter_set it I_FILTER_TIME FTime) ;;
    filter_set_if choose it I_FILTER_OFFSET FOffset ;;
    let! t := as_query_iter it in
    (if t_m_iter2 t =? 0 then
       ubuf_read (t_key t) ;;
       (if t_key2 t =? 0 then ret tt else ubuf_read (t_key2 t)) ;;
       let! i := source_get fuel (t_source t) in
       set_iter it (with_m_iter i)
     else ret tt) ;;
    ret d_it.

Definition new_query_iter (q source source_index : ptr) : obj :=
  OQueryIter {| t_query := q; t_armed := false; t_source := source; t_source_index := source_index; t_m_iter := 0; t_m_iter2 := 0;
                t_key := 0; t_key2 := 0; t_owned := repeat 0 13 |}.

(** query.c:1817-1826 dnstable_query_iter. *)
Definition query_iter (fuel : nat) (q source : ptr) : M ptr :=
  let! it := malloc (new_query_iter q source source) in
  query_iter_common fuel it.

(** query.c:976-1003 query_iter_next: [Got] with the entry.  Returning makes the jump buffer
    useless. *)
Fixpoint next_loop (fuel : nat) (it : ptr) : M (step * ptr) :=
  match fuel with
  | O => hang
  | S n =>
      let! t := as_query_iter it in
      let! r := iter_next n (t_m_iter t) in
      match r with
      | Got => let! e := entry_decode n in if e =? 0 then next_loop n it else ret (Got, e)
      | x => ret (x, 0)
      end
  end.
Definition arm (it : ptr) : M unit :=
  let! q := query_of it in
  if q_do_timeout q || q_do_deadline q then set_iter it (with_armed true) else ret tt.
Definition query_iter_next (fuel : nat) (it : ptr) : M (step * ptr) :=
  arm it ;;
  let! r := next_loop fuel it in
  set_iter it (with_armed false) ;;
  ret r.

(** query.c:1326-1407 query_iter_next_name_indirect. *)
Fixpoint indirect_loop (fuel : nat) (it : ptr) : M (step * ptr) :=
  match fuel with
  | O => hang
  | S n =>
      let! t := as_query_iter it in
      let! r :=
        (if t_m_iter t =? 0 then
           let! r := iter_next n (t_m_iter2 t) in
           match r with
           | Got =>
               let! _ := query_of it in
               let! has_type := choose in
               if has_type then
                 write_key2 it ;;
                 let! reversed := choose in
                 if reversed then
                   write_key2 it ;;
                   let! t := as_query_iter it in
                   ubuf_read (t_key2 t) ;;
                   let! i := source_get n (t_source t) in
                   set_iter it (with_m_iter i) ;;
                   ret (if i =? 0 then None else Some Got)
                 else ret (Some End)
               else ret None                                (* rrtype_test: next entry of the index *)
           | x => ret (Some x)
           end
         else ret (Some Got)) in
      match r with
      | None => indirect_loop n it
      | Some Got =>
          let! t := as_query_iter it in
          let! r := iter_next n (t_m_iter t) in
          match r with
          | Got => let! e := entry_decode n in if e =? 0 then indirect_loop n it else ret (Got, e)
          | End =>
              iter_destroy n (t_m_iter t) ;;
              set_iter it (with_m_iter 0) ;;
              indirect_loop n it
          | Jump => ret (Jump, 0)
          end
      | Some x => ret (x, 0)
      end
  end.
Definition query_iter_next_indirect (fuel : nat) (it : ptr) : M (step * ptr) :=
  arm it ;;
  let! r := indirect_loop fuel it in
  set_iter it (with_armed false) ;;
  ret r.

(** reader.c:158-175 reader_iter_next, 150-156 reader_iter_free. *)
Fixpoint reader_next_loop (fuel : nat) (it : ptr) : M (step * ptr) :=
  match fuel with
  | O => hang
  | S n =>
      let! m_it := as_reader_iter it in
      let! r := iter_next n m_it in
      match r with
      | Got => let! e := entry_decode n in if e =? 0 then reader_next_loop n it else ret (Got, e)
      | x => ret (x, 0)
      end
  end.
Definition reader_iter_free (fuel : nat) (it : ptr) : M unit :=
  let! m_it := as_reader_iter it in
  iter_destroy fuel m_it ;;
  free it.

(** iter.c:58-64 dnstable_iter_next; [Jump] is dnstable_res_timeout. *)
Definition iterator_next (fuel : nat) (d : ptr) : M (step * ptr) :=
  if d =? 0 then ret (End, 0)
  else
    let! (n, clos) := as_iterator d in
    match n with
    | NextQuery => query_iter_next fuel clos
    | NextIndirect => query_iter_next_indirect fuel clos
    | NextReader => reader_next_loop fuel clos
    end.

(** iter.c:41-49 dnstable_iter_destroy. *)
Definition iterator_destroy (fuel : nat) (d : ptr) : M unit :=
  if d =? 0 then ret tt
  else
    let! (n, clos) := as_iterator d in
    match n with NextReader => reader_iter_free fuel clos | _ => query_iter_free fuel clos end ;;
    free d.

(** iter.c:66-77 dnstable_iter_get_count with query.c:1023-1076 query_iter_get_count: the
    stage that is asked for is read, if there is one. *)
Definition iterator_get_count (d : ptr) : M unit :=
  if d =? 0 then ret tt
  else
    let! (n, clos) := as_iterator d in
    match n with
    | NextReader => ret tt
    | _ =>
        let! t := as_query_iter clos in
        let! c := pick in
        let i := N.to_nat c in
        if owned i t =? 0 then ret tt else let! _ := load (owned i t) in ret tt
    end.

(** query.c:1890-1985 reader_time_filter, for the reader with source [s]; the result is
    not needed. *)
Definition reader_time_filter (fuel : nat) (it s : ptr) : M unit :=
  let! tr_q := query_init ModelQuery.QTimeRange in
  let! tr_it := query_iter fuel tr_q s in
  let! (r, e) := iterator_next fuel tr_it in
  let e := match r with Got => e | _ => 0 end in
  (if e =? 0 then ret tt else entry_read e) ;;
  entry_destroy e ;;
  iterator_destroy fuel tr_it ;;
  query_destroy tr_q ;;
  let! _ := query_of it in
  let! t := as_query_iter it in
  let! c := pick in
  if c =? 1 then                                            (* fill *)
    if owned I_FILL_MERGER t =? 0 then ret tt else let! _ := as_merger (owned I_FILL_MERGER t) in ret tt
  else if c =? 2 then                                       (* remove *)
    if owned I_REMOVE_STRICT t =? 0 then ret tt else remove_mtbl_add_source (owned I_REMOVE_STRICT t) s
  else ret tt.

(** mtbl_fileset_dup with reader_time_filter as the filter: [n] files. *)
Definition fileset_dup (fuel : nat) (it : ptr) : M ptr :=
  let! n := pick in
  let! fs := fileset_init (N.to_nat n) in
  let! (_, l) := as_fileset fs in
  for_each l (reader_time_filter fuel it) ;;
  ret fs.

(** query.c:2003-2058 dnstable_query_iter_fileset. *)
Definition query_iter_fileset (fuel : nat) (q fs : ptr) : M ptr :=
  let! it := malloc (new_query_iter q 0 0) in
  let! fopt := malloc OOptions in
  let! d := as_query q in
  (if q_aggregated d && (q_tfb d || q_tfa d || q_tlb d || q_tla d) then
     (if q_tfa d || q_tlb d then let! r := remove_mtbl_init in set_iter it (with_owned I_REMOVE_STRICT r) else ret tt) ;;
     let! mopt := malloc OOptions in
     let! p := merger_init in
     set_iter it (with_owned I_FILL_MERGER p) ;;
     free mopt
   else ret tt) ;;
  let! _ := as_fileset fs in
  let! p := fileset_dup fuel it in
  set_iter it (with_owned I_FS_FILTER p) ;;
  let! (s, _) := as_fileset p in
  set_iter it (with_source_index s) ;;
  set_iter it (with_source s) ;;
  (if q_aggregated d then ret tt
   else
     let! _ := as_fileset fs in
     let! p := fileset_dup fuel it in
     set_iter it (with_owned I_FS_NO_MERGE p) ;;
     let! (s, _) := as_fileset p in
     set_iter it (with_source s)) ;;
  free fopt ;;
  query_iter_common fuel it.

(** ** reader.c *)

(** reader.c:38-58 dnstable_reader_init, _init_setfile; mtbl_fileset_init opens the
    files. *)
Definition reader_init (source : ptr) : M ptr := malloc (OReader source 0).
Definition reader_init_setfile : M ptr :=
  let! r := malloc (OReader 0 0) in
  let! fopt := malloc OOptions in
  let! n := pick in
  let! fs := fileset_init (N.to_nat n) in
  store r (OReader 0 fs) ;;
  free fopt ;;
  ret r.
(** reader.c:60-74 dnstable_reader_reload_setfile, dnstable_reader_destroy. *)
Definition reader_reload (r : ptr) : M unit :=
  let! (_, fs) := as_reader r in if fs =? 0 then ret tt else let! _ := as_fileset fs in ret tt.
Definition reader_destroy (r : ptr) : M unit :=
  if r =? 0 then ret tt else let! (_, fs) := as_reader r in fileset_destroy fs ;; free r.
(** reader.c:76-124, 141-148: dnstable_reader_iter and the iterators over a type. *)
Definition reader_iter (fuel : nat) (r : ptr) : M ptr :=
  let! (s, _) := as_reader r in
  let! it := malloc (OReaderIter 0) in
  let! m_it := source_get fuel s in
  store it (OReaderIter m_it) ;;
  iter_init NextReader it.
(** reader.c:132-139 dnstable_reader_query. *)
Definition reader_query (fuel : nat) (r q : ptr) : M ptr :=
  let! (s, fs) := as_reader r in
  if fs =? 0 then query_iter fuel q s else query_iter_fileset fuel q fs.

(** ** A client *)

(** What a client of the library holds, and what it knows about it: whether the last
    data were accepted and not NULL, and what has been set; what an iterator was made from,
    and whether the query had a timeout or a deadline then. *)
Record query_view := { v_type : qtype; v_data : bool; v_timeout : bool; v_deadline : bool; v_aggregated : bool; v_strict_after : bool; v_strict_before : bool }.
Record iter_view := { i_query : option ptr; i_source : option ptr; i_timed : bool }.
Inductive handle :=
| HSource (s : ptr)                             (* an mtbl_source the client provides *)
| HReader (r : ptr) (source : option ptr)       (* over a source, or over a set file *)
| HQuery (q : ptr) (v : query_view)
| HIter (i : ptr) (v : iter_view)
| HEntry (e : ptr) (known : bool)
| HString (s : ptr)
| HFormatter (f : ptr).
Definition client := list handle.

(** The calls of dnstable.h.  [null]: NULL is passed.  The setters that store a plain
    value are represented by [QuerySetCase]. *)
Inductive call :=
| SourceOpen | SourceClose (s : ptr)
| ReaderInit (s : ptr) | ReaderInitSetfile | ReaderReload (r : ptr) | ReaderDestroy (r : ptr)
| QueryInit (k : qtype) | QuerySetData (q : ptr) (null : bool) | QuerySetRrtype (q : ptr) (null : bool)
| QuerySetBailiwick (q : ptr) (null : bool) | QuerySetTimeout (q : ptr) (null : bool) | QuerySetDeadline (q : ptr) (null : bool)
| QuerySetAggregated (q : ptr) (x : bool) | QuerySetParameter (q : ptr) (b : bound) (null : bool) | QuerySetCase (q : ptr)
| QueryGetError (q : ptr) | QueryFilter (q e : ptr) | QueryDestroy (q : ptr)
| ReaderIter (r : ptr) | ReaderQuery (r q : ptr) | IterNext (i : ptr) | IterGetCount (i : ptr) | IterDestroy (i : ptr)
| EntryRead (e : ptr) | EntryToText (e : ptr) | EntryToJson (e : ptr) | EntryFormat (f e : ptr) (json raw : bool) | EntryDestroy (e : ptr)
| FormatterInit | FormatterSet (f : ptr) | FormatterDestroy (f : ptr)
| StringFree (s : ptr).

Fixpoint find_query (q : ptr) (c : client) : option query_view :=
  match c with [] => None | HQuery p v :: r => if p =? q then Some v else find_query q r | _ :: r => find_query q r end.
Fixpoint find_iter (i : ptr) (c : client) : option iter_view :=
  match c with [] => None | HIter p v :: r => if p =? i then Some v else find_iter i r | _ :: r => find_iter i r end.
Fixpoint find_reader (x : ptr) (c : client) : option (option ptr) :=
  match c with [] => None | HReader p v :: r => if p =? x then Some v else find_reader x r | _ :: r => find_reader x r end.
Fixpoint find_entry (e : ptr) (c : client) : option bool :=
  match c with [] => None | HEntry p v :: r => if p =? e then Some v else find_entry e r | _ :: r => find_entry e r end.

Definition is_source (s : ptr) (h : handle) : bool := match h with HSource p => p =? s | _ => false end.
Definition is_reader (x : ptr) (h : handle) : bool := match h with HReader p _ => p =? x | _ => false end.
Definition is_query (x : ptr) (h : handle) : bool := match h with HQuery p _ => p =? x | _ => false end.
Definition is_iter (x : ptr) (h : handle) : bool := match h with HIter p _ => p =? x | _ => false end.
Definition is_entry (x : ptr) (h : handle) : bool := match h with HEntry p _ => p =? x | _ => false end.
Definition is_string (x : ptr) (h : handle) : bool := match h with HString p => p =? x | _ => false end.
Definition is_formatter (x : ptr) (h : handle) : bool := match h with HFormatter p => p =? x | _ => false end.
(** Remove the first handle that satisfies [f]; change what is known about a query. *)
Fixpoint drop (f : handle -> bool) (c : client) : client :=
  match c with [] => [] | h :: r => if f h then r else h :: drop f r end.
Fixpoint know (q : ptr) (f : query_view -> query_view) (c : client) : client :=
  match c with
  | [] => []
  | HQuery p v :: r => if p =? q then HQuery p (f v) :: r else HQuery p v :: know q f r
  | h :: r => h :: know q f r
  end.

Definition new_view (k : qtype) : query_view :=
  {| v_type := k; v_data := false; v_timeout := false; v_deadline := false; v_aggregated := true; v_strict_after := false; v_strict_before := false |}.
Definition knows_data (x : bool) (v : query_view) : query_view :=
  {| v_type := v_type v; v_data := x; v_timeout := v_timeout v; v_deadline := v_deadline v; v_aggregated := v_aggregated v; v_strict_after := v_strict_after v; v_strict_before := v_strict_before v |}.
Definition knows_timeout (x : bool) (v : query_view) : query_view :=
  {| v_type := v_type v; v_data := v_data v; v_timeout := x; v_deadline := v_deadline v; v_aggregated := v_aggregated v; v_strict_after := v_strict_after v; v_strict_before := v_strict_before v |}.
Definition knows_deadline (x : bool) (v : query_view) : query_view :=
  {| v_type := v_type v; v_data := v_data v; v_timeout := v_timeout v; v_deadline := x; v_aggregated := v_aggregated v; v_strict_after := v_strict_after v; v_strict_before := v_strict_before v |}.
Definition knows_aggregated (x : bool) (v : query_view) : query_view :=
  {| v_type := v_type v; v_data := v_data v; v_timeout := v_timeout v; v_deadline := v_deadline v; v_aggregated := x; v_strict_after := v_strict_after v; v_strict_before := v_strict_before v |}.
Definition knows_bound (b : bound) (x : bool) (v : query_view) : query_view :=
  {| v_type := v_type v; v_data := v_data v; v_timeout := v_timeout v; v_deadline := v_deadline v; v_aggregated := v_aggregated v;
     v_strict_after := match b with FirstAfter => x | _ => v_strict_after v end;
     v_strict_before := match b with LastBefore => x | _ => v_strict_before v end |}.
Definition v_timed (v : query_view) : bool := v_timeout v || v_deadline v.

(** Is the entry of a type the library knows? *)
Definition entry_known (e : ptr) : M bool :=
  let! o := load e in match o with OEntry EUnknown _ _ _ _ _ => ret false | OEntry _ _ _ _ _ _ => ret true | _ => bad end.

(** Making a call: the client holds what the call returns, and no longer what it destroys. *)
Definition make (fuel : nat) (c : client) (a : call) : M client :=
  match a with
  | SourceOpen => let! s := malloc (OSource SBase) in ret (HSource s :: c)
  | SourceClose s => source_destroy s ;; ret (drop (is_source s) c)
  | ReaderInit s => let! r := reader_init s in ret (HReader r (Some s) :: c)
  | ReaderInitSetfile => let! r := reader_init_setfile in ret (HReader r None :: c)
  | ReaderReload r => reader_reload r ;; ret c
  | ReaderDestroy r => reader_destroy r ;; ret (drop (is_reader r) c)
  | QueryInit k => let! q := query_init k in ret (HQuery q (new_view k) :: c)
  | QuerySetData q null => let! ok := query_set_data q null in ret (know q (knows_data (ok && negb null)) c)
  | QuerySetRrtype q null => query_set_rrtype q null ;; ret c
  | QuerySetBailiwick q null => query_set_bailiwick q null ;; ret c
  | QuerySetTimeout q null => query_set q (with_timeout (negb null)) ;; ret (know q (knows_timeout (negb null)) c)
  | QuerySetDeadline q null => query_set q (with_deadline (negb null)) ;; ret (know q (knows_deadline (negb null)) c)
  | QuerySetAggregated q x => query_set q (with_aggregated x) ;; ret (know q (knows_aggregated x) c)
  | QuerySetParameter q b null => query_set q (with_bound b (negb null)) ;; ret (know q (knows_bound b (negb null)) c)
  | QuerySetCase q => query_set q (fun d => d) ;; ret c
  | QueryGetError q => query_get_error q ;; ret c
  | QueryFilter q e => query_filter q e ;; ret c
  | QueryDestroy q => query_destroy q ;; ret (drop (is_query q) c)
  | ReaderIter r =>
      let! i := reader_iter fuel r in
      match find_reader r c with
      | Some s => ret (HIter i {| i_query := None; i_source := s; i_timed := false |} :: c)
      | None => ret c
      end
  | ReaderQuery r q =>
      let! i := reader_query fuel r q in
      match find_reader r c, find_query q c with
      | Some s, Some v =>
          ret (if i =? 0 then c else HIter i {| i_query := Some q; i_source := s; i_timed := v_timed v |} :: c)
      | _, _ => ret c
      end
  | IterNext i =>
      let! (r, e) := iterator_next fuel i in
      match r with Got => let! k := entry_known e in ret (HEntry e k :: c) | _ => ret c end
  | IterGetCount i => iterator_get_count i ;; ret c
  | IterDestroy i => iterator_destroy fuel i ;; ret (drop (is_iter i) c)
  | EntryRead e => entry_read e ;; ret c
  | EntryToText e => let! s := entry_format false false e in ret (if s =? 0 then c else HString s :: c)
  | EntryToJson e => let! s := entry_format true false e in ret (if s =? 0 then c else HString s :: c)
  | EntryFormat f e json raw =>
      as_formatter f ;;
      let! s := entry_format json raw e in
      ret (if s =? 0 then c else HString s :: c)
  | EntryDestroy e => entry_destroy e ;; ret (drop (is_entry e) c)
  | FormatterInit => let! f := malloc OFormatter in ret (HFormatter f :: c)
  | FormatterSet f => as_formatter f ;; ret c
  | FormatterDestroy f => free f ;; ret (drop (is_formatter f) c)
  | StringFree s => free s ;; ret (drop (is_string s) c)
  end.

Fixpoint make_all (fuel : nat) (c : client) (l : list call) : M client :=
  match l with [] => ret c | a :: r => let! c := make fuel c a in make_all fuel c r end.

(** What reader iterators, prefix queries and dnstable_query_filter should do,
    independently of the program.  Definitions only. *)
From Verif Require Import Base SpecMerge SpecName SpecEntry ModelEntry ModelIter SpecIter ModelQuery PropsEntry SpecQuery ModelReader.

(** ** Readers *)

(** [n] calls of dnstable_iter_next on an iterator of a reader. *)
Fixpoint reader_calls (fuel n : nat) (b : base_it) : list qres :=
  match n with
  | O => []
  | S n' => let '(r, b') := reader_next fuel b in r :: reader_calls fuel n' b'
  end.

(** It lists the entries [es]: each once, in order, and then ends for good. *)
Definition reader_lists (b : base_it) (es : list entry) : Prop :=
  forall n, eventually (fun fuel => reader_calls fuel n b = listing es n).

(** A stored entry whose key starts with the bytes [p]. *)
Definition key_starts (p : bytes) (e : kv) : Prop := exists rest, fst e = p ++ rest.

(** ** Queries that look up one key prefix *)

(** The query [q] asks for everything stored under the prefix [p], dnstable-encoding(5). *)
Inductive asks_prefix (q : query) : bytes -> Prop :=
| ap_rrset : forall name, q_type q = QRrset -> asks_name q name -> not_left_wild name -> not_right_wild name ->
    q_do_rrtype q = false -> q_bailiwick q = None ->
    asks_prefix q (ENTRY_TYPE_RRSET :: rwire name)
| ap_rrset_type : forall name x, q_type q = QRrset -> asks_name q name -> not_left_wild name -> not_right_wild name ->
    q_do_rrtype q = true -> q_rrtype q < 65536 -> q_rrtype q <> 255 -> leb128 (q_rrtype q) x -> q_bailiwick q = None ->
    asks_prefix q (ENTRY_TYPE_RRSET :: rwire name ++ x)
| ap_rrset_bailiwick : forall name x bw, q_type q = QRrset -> asks_name q name -> not_left_wild name -> not_right_wild name ->
    q_do_rrtype q = true -> q_rrtype q < 65536 -> q_rrtype q <> 255 -> leb128 (q_rrtype q) x -> q_bailiwick q = Some (rwire bw) ->
    asks_prefix q (ENTRY_TYPE_RRSET :: rwire name ++ x ++ rwire bw)
| ap_raw : forall raw, q_type q = QRdataRaw -> q_rdata q = Some raw -> q_len_rdata q = blen raw -> q_do_rrtype q = false ->
    asks_prefix q (ENTRY_TYPE_RDATA :: raw)
| ap_time_range : q_type q = QTimeRange -> asks_prefix q [ENTRY_TYPE_TIME_RANGE]
| ap_version : q_type q = QVersion -> q_has_v_type q = false -> asks_prefix q [ENTRY_TYPE_VERSION]
| ap_version_type : forall ty, q_type q = QVersion -> q_has_v_type q = true -> q_v_type q = ty ->
    asks_prefix q [ENTRY_TYPE_VERSION; ty].

Definition no_bounds (q : query) : Prop :=
  q_do_tfa q = false /\ q_do_tfb q = false /\ q_do_tla q = false /\ q_do_tlb q = false.

(** ** dnstable_query_filter *)

(** The reported times are within the bounds of the query. *)
Definition reported_in_fence (q : query) (o : obs) : Prop :=
  (q_do_tfa q = true -> q_tfa q <= o_first o) /\ (q_do_tfb q = true -> o_first o <= q_tfb q) /\
  (q_do_tla q = true -> q_tla q <= seen_last o) /\ (q_do_tlb q = true -> seen_last o <= q_tlb q).

(** The type asked for; without one, a query for a name in record data asks for the
    types that bear one. *)
Definition type_asked (q : query) (ty : N) : Prop :=
  type_ok q ty /\ (q_type q = QRdataName -> q_do_rrtype q = false -> bears_name ty).

(** An entry for this record meets the conditions of the query on type, times and,
    for RRset queries, bailiwick.  The query's name or data is not among them. *)
Definition accepts (q : query) (bw : option (list bytes)) (r : record) : Prop :=
  match r with
  | RRset _ ty b _ o => type_asked q ty /\ reported_in_fence q o /\ (q_type q = QRrset -> bailiwick_ok bw b)
  | RData _ ty _ _ o => type_asked q ty /\ reported_in_fence q o
  | _ => False
  end.

(** Record data has no bailiwick to compare. *)
Definition comparable (q : query) (r : record) : Prop :=
  match r with
  | RRset _ _ b _ _ => name_ok b
  | RData _ _ _ _ _ => q_type q = QRrset -> q_bailiwick q = None
  | _ => False
  end.

(** The record has a last-seen time of its own, or the query does not ask. *)
Definition last_settled (q : query) (r : record) : Prop :=
  match r with
  | RRset _ _ _ _ o | RData _ _ _ _ o => o_last o <> 0 \/ (q_do_tla q = false /\ q_do_tlb q = false)
  | _ => True
  end.

(** The times an entry reports are within the bounds of the query. *)
Definition reports_within (q : query) (e : entry) : Prop :=
  exists first last, get_time_first e = Ok first /\ get_time_last e = Ok last /\
    (q_do_tfa q = true -> q_tfa q <= first) /\ (q_do_tfb q = true -> first <= q_tfb q) /\
    (q_do_tla q = true -> q_tla q <= last) /\ (q_do_tlb q = true -> last <= q_tlb q).

(** ** Counters *)

(** Nothing has happened yet. *)
Definition fresh (w : world) : Prop := w_log w = [] /\ forall s c, w_cnt w s c = 0.

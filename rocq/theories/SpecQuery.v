(** What a query should return, independently of the program: a database is a
    list of records, a query selects some of them.  Definitions only. *)
From Coq Require Import Permutation.
From Verif Require Import Base SpecMerge SpecUnion SpecName SpecEntry ModelEntry ModelIter SpecIter ModelQuery PropsEntry.

(** A record of the database, dnstable-encoding(5).  The rdata of [RData] is
    [head ++ tail]; [head] is the part moved behind the owner by slicing. *)
Inductive record :=
| RRset (owner : list bytes) (rrtype : N) (bailiwick : list bytes) (rdatas : list bytes) (o : obs)
| RData (owner : list bytes) (rrtype : N) (head tail : bytes) (o : obs)
| OwnerIndex (owner : list bytes) (types : bytes)
| RdataIndex (name : list bytes) (types : bytes)
| Other (key val : bytes).   (* time range, version, source info *)

Definition encodes (r : record) (e : kv) : Prop :=
  bytes_ok (fst e) /\
  match r with
  | RRset ow ty bw rs o =>
      name_ok ow /\ name_ok bw /\ ty < 65536 /\ obs_ok o /\
      rrset_key ow ty bw rs (fst e) /\ obs_value o (snd e)
  | RData ow ty head tail o =>
      name_ok ow /\ ty < 65536 /\ obs_ok o /\ blen head + blen tail <= 65535 /\
      rdata_key ow ty head tail (fst e) /\ obs_value o (snd e)
  | OwnerIndex ow m => name_ok ow /\ e = (rrset_name_key ow, m)
  | RdataIndex n m => name_ok n /\ e = (rdata_name_key n, m)
  | Other k v => e = (k, v) /\ exists t rest, k = t :: rest /\ 4 <= t
  end.

(** A table holding these records, in key order. *)
Definition database (recs : list record) (t : table) : Prop := Forall2 encodes recs t /\ sorted t.

(** What the accessors of a returned entry report. *)
Definition reports (r : record) (e : entry) : Prop :=
  match r with
  | RRset ow ty bw rs o =>
      get_type e = ENTRY_TYPE_RRSET /\ get_rrname e = Ok (wire ow) /\ get_rrtype e = Ok ty /\
      get_bailiwick e = Ok (wire bw) /\ reports_rdatas e rs /\ reports_obs e o
  | RData ow ty head tail o =>
      get_type e = ENTRY_TYPE_RDATA /\ get_rrname e = Ok (wire ow) /\ get_rrtype e = Ok ty /\
      reports_rdatas e [head ++ tail] /\ reports_obs e o
  | _ => False
  end.

(** The entry is read from a stored form of the record, and reports it. *)
Definition shows (r : record) (e : entry) : Prop :=
  reports r e /\ exists kv, encodes r kv /\ entry_decode (fst kv) (snd kv) = Ok e.

(** [selects P l m]: [m] is the list of the elements of [l] with [P], in order. *)
Inductive selects {A} (P : A -> Prop) : list A -> list A -> Prop :=
| sel_nil : selects P [] []
| sel_yes : forall a l m, P a -> selects P l m -> selects P (a :: l) (a :: m)
| sel_no : forall a l m, ~ P a -> selects P l m -> selects P (a :: l) m.

(** The first [n] answers of an iterator that lists [es]. *)
Definition listing (es : list entry) (n : nat) : list qres :=
  firstn n (map QEntry es ++ repeat QEnd n).

(** [n] calls of dnstable_iter_next. *)
Fixpoint calls (fuel n : nat) (qi : qiter) (w : world) : list qres :=
  match n with
  | O => []
  | S n' => let '(r, qi', w') := qnext fuel qi w in r :: calls fuel n' qi' w'
  end.

(** The state of clock, counters and offset after them. *)
Fixpoint after_calls (fuel n : nat) (qi : qiter) (w : world) : world :=
  match n with
  | O => w
  | S n' => let '(_, qi', w') := qnext fuel qi w in after_calls fuel n' qi' w'
  end.

(** The same when the timeout or the deadline of the query may be set before each call. *)
Fixpoint timed_calls (fuel : nat) (ts : list timing) (qi : qiter) (w : world) : list qres :=
  match ts with
  | [] => []
  | t :: ts' => let '(r, qi', w') := qnext fuel (set_timing t qi) w in r :: timed_calls fuel ts' qi' w'
  end.
Fixpoint after_timed_calls (fuel : nat) (ts : list timing) (qi : qiter) (w : world) : world :=
  match ts with
  | [] => w
  | t :: ts' => let '(_, qi', w') := qnext fuel (set_timing t qi) w in after_timed_calls fuel ts' qi' w'
  end.
Definition untouched (ts : list timing) : Prop := Forall (eq TKeep) ts.

(** The calls that did not time out. *)
Definition answered (l : list qres) : list qres :=
  filter (fun r => match r with QTimeout => false | _ => true end) l.

(** The query lists the entries [es], with the first ones left out: as many as are
    left of the query's offset, which is [q_offset] at the start and used up by the
    iterators of that query as they leave entries out.  So for every number of
    calls, from whatever state of clock and counters, and if timeout and deadline are
    changed in between.  Calls that time out neither lose nor repeat anything, and do
    not occur without a timeout or deadline.  At the end, the part of the offset that exceeds the number of entries is left. *)
Definition lists (q : query) (it : res qiter) (es : list entry) : Prop :=
  exists qi, it = Ok qi /\
  forall w ts, w_offset w <= q_offset q -> eventually (fun fuel =>
    let rs := timed_calls fuel ts qi w in
    let left_over := w_offset (after_timed_calls fuel ts qi w) in
    answered rs = listing (skipn (N.to_nat (w_offset w)) es) (length (answered rs)) /\
    (q_do_timeout q = false -> q_do_deadline q = false -> untouched ts -> ~ In QTimeout rs) /\
    left_over <= w_offset w /\
    (In QEnd rs -> left_over = w_offset w - N.of_nat (length es))).

(** The entries of [t] that decode, decoded; no entry makes decoding go wrong in
    another way than by failing. *)
Inductive decoded : table -> list entry -> Prop :=
| dec_nil : decoded [] []
| dec_yes : forall e en t es, entry_decode (fst e) (snd e) = Ok en -> decoded t es -> decoded (e :: t) (en :: es)
| dec_no : forall e t es, entry_decode (fst e) (snd e) = Fail -> decoded t es -> decoded (e :: t) es.

(** The query lists what decodes among the stored entries [l]; the offset counts
    stored entries, decodable or not. *)
Definition lists_decodable (q : query) (it : res qiter) (l : table) : Prop :=
  exists qi, it = Ok qi /\
  forall w ts, w_offset w <= q_offset q -> exists es, decoded (skipn (N.to_nat (w_offset w)) l) es /\ eventually (fun fuel =>
    let rs := timed_calls fuel ts qi w in
    let left_over := w_offset (after_timed_calls fuel ts qi w) in
    answered rs = listing es (length (answered rs)) /\
    (q_do_timeout q = false -> q_do_deadline q = false -> untouched ts -> ~ In QTimeout rs) /\
    left_over <= w_offset w /\
    (In QEnd rs -> left_over = w_offset w - N.of_nat (length l))).

(** The query returns the records satisfying [P], in order, each once. *)
Definition returns (q : query) (t : table) (recs : list record) (P : record -> Prop) : Prop :=
  exists out es, selects P recs out /\ Forall2 shows out es /\ lists q (dnstable_query_iter q t) es.

(** The query goes through the index records satisfying [I], in order; for each of
    them it returns the records satisfying [M] that belong to it, in order.
    Altogether these are the records satisfying [M], each once. *)
Definition returns_grouped (q : query) (t : table) (recs : list record)
  (I : record -> Prop) (belongs : record -> record -> Prop) (M : record -> Prop) : Prop :=
  exists heads outs es all,
    selects I recs heads /\
    Forall2 (fun h out => selects (fun r => belongs h r /\ M r) recs out) heads outs /\
    selects M recs all /\ Permutation (concat outs) all /\
    Forall2 shows (concat outs) es /\ lists q (dnstable_query_iter q t) es.

(** ** Conditions of a query *)

Definition type_ok (q : query) (ty : N) : Prop := q_do_rrtype q = true -> ty = q_rrtype q.

(** The bailiwick of the query, as labels. *)
Definition asks_bailiwick (q : query) (bw : option (list bytes)) : Prop :=
  q_bailiwick q = option_map rwire bw /\ match bw with Some b => name_ok b | None => True end.
Definition bailiwick_ok (bw : option (list bytes)) (b : list bytes) : Prop :=
  match bw with Some x => b = x | None => True end.

(** The four time bounds, on the stored times. *)
Definition in_fence (q : query) (o : obs) : Prop :=
  (q_do_tfa q = true -> q_tfa q <= o_first o) /\ (q_do_tfb q = true -> o_first o <= q_tfb q) /\
  (q_do_tla q = true -> q_tla q <= o_last o) /\ (q_do_tlb q = true -> o_last o <= q_tlb q).

Definition asks_name (q : query) (name : list bytes) : Prop :=
  q_name q = Some (wire name) /\ name_ok name.

Definition type_param_ok (q : query) : Prop :=
  q_do_rrtype q = true -> q_rrtype q < 65536 /\ q_rrtype q <> 255.

(** The two wildcard labels are the one-byte labels "*" and "+". *)
Definition star_sign : N := 42.
Definition plus_sign : N := 43.

(** Names that do not look like wildcards: the first label is neither "*" nor "+",
    and the last one does not end in the bytes 1 '*' or 1 '+' and is not "*" or "+". *)
Definition wild_label (l : bytes) : Prop := l = [star_sign] \/ l = [plus_sign].
Definition not_left_wild (name : list bytes) : Prop := forall l ls, name = l :: ls -> ~ wild_label l.
Definition not_right_wild (name : list bytes) : Prop :=
  forall ls l, name = ls ++ [l] -> ~ wild_label l /\ forall a b, l = a ++ [1; b] -> b <> star_sign /\ b <> plus_sign.

(** ** Indexes *)

(** The value [m] of an index record says that type [ty] occurs. *)
Definition lists_type (m : bytes) (ty : N) : Prop := m = [] \/ (union_valid m /\ union_mem m ty).

(** Looking up [ty] in [m] does not run into the defect of
    [PropsUnion.index_test_boundary]: the byte just behind the last bitmap. *)
Definition index_safe (m : bytes) (ty : N) : Prop :=
  m = [] \/
  (union_valid m /\ forall ws w bm, windows_ok (ws ++ [(w, bm)]) ->
     m = encode_windows (ws ++ [(w, bm)]) -> ty / 256 = w -> ty mod 256 / 8 <> blen bm).

(** The documented index entry of every RRset's owner is there. *)
Definition owners_indexed (recs : list record) : Prop :=
  forall ow ty bw rs o, In (RRset ow ty bw rs o) recs ->
    exists m, In (OwnerIndex ow m) recs /\ lists_type m ty.
Definition owner_index_safe (q : query) (recs : list record) : Prop :=
  q_do_rrtype q = true -> forall ow m, In (OwnerIndex ow m) recs -> index_safe m (q_rrtype q).

(** ** Names in record data *)

(** Types whose record data starts with a name once the slice is taken off:
    NS CNAME SOA PTR MX RP NXT SRV DNAME NSEC SVCB HTTPS. *)
Definition bears_name (ty : N) : Prop := In ty [2; 5; 6; 12; 15; 17; 30; 33; 39; 47; 64; 65].
(** Those where it ends with it: NS CNAME PTR MX SRV DNAME. *)
Definition only_name (ty : N) : Prop := In ty [2; 5; 12; 15; 33; 39].

Definition names_canonical (recs : list record) : Prop :=
  forall ow ty head tail o, In (RData ow ty head tail o) recs -> bears_name ty ->
    exists n extra, name_ok n /\ tail = wire n ++ extra /\ (only_name ty -> extra = []).

Definition name_type_param_ok (q : query) : Prop := q_do_rrtype q = true -> bears_name (q_rrtype q).

(** The documented index entry of every name in record data is there. *)
Definition rdata_names_indexed (recs : list record) : Prop :=
  forall ow ty head n extra o, In (RData ow ty head (wire n ++ extra) o) recs -> name_ok n -> bears_name ty ->
    exists m, In (RdataIndex n m) recs /\ lists_type m ty.
Definition rdata_index_safe (q : query) (recs : list record) : Prop :=
  q_do_rrtype q = true -> forall n m, In (RdataIndex n m) recs -> index_safe m (q_rrtype q).

(** ** Addresses *)

(** The number an address stands for. *)
Definition ip_value (a : bytes) : N := fold_left (fun v b => 256 * v + b) a 0.

(** Address length and type: A or AAAA. *)
Definition ip_kind (n : nat) (ty : N) : Prop := (n = 4%nat /\ ty = 1) \/ (n = 16%nat /\ ty = 28).

(** The query asks for the addresses from [lo] to [hi], or for [lo = hi] alone. *)
Definition asks_range (q : query) (n : nat) (ty : N) (lo hi : bytes) : Prop :=
  ip_kind n ty /\ q_do_rrtype q = true /\ q_rrtype q = ty /\
  q_len_ip1 q = N.of_nat n /\ firstn n (q_ip1 q) = lo /\ length lo = n /\ bytes_ok lo /\
  ((q_len_ip2 q = 0 /\ hi = lo) \/
   (q_len_ip2 q = N.of_nat n /\ firstn n (q_ip2 q) = hi /\ length hi = n /\ bytes_ok hi)).

Definition addresses_canonical (recs : list record) (n : nat) (ty : N) : Prop :=
  forall ow head tail o, In (RData ow ty head tail o) recs -> head = [] /\ length tail = n.

(** Keys on which the address filter reads one byte behind the key: those as long
    as the type byte and an address, and those that read as type byte, address,
    record type and some labels without the terminating one. *)
Definition ip_overread (n : nat) (ty : N) (k : bytes) : Prop :=
  length k = S n \/
  exists a ls, length a = n /\ ls <> [] /\ Forall label_ok ls /\ k = ENTRY_TYPE_RDATA :: a ++ ty :: enc_labels ls.
Definition no_overread (recs : list record) (n : nat) (ty : N) : Prop :=
  forall ow ty' head tail o k, In (RData ow ty' head tail o) recs -> ty' <> ty ->
    rdata_key ow ty' head tail k -> ~ ip_overread n ty k.
(** The same for the keys between the two that the query scans: from the address
    [lo] to the address [hi] with the type that follows [ty]. *)
Definition no_overread_between (recs : list record) (n : nat) (ty : N) (lo hi : bytes) : Prop :=
  forall ow ty' head tail o k, In (RData ow ty' head tail o) recs -> ty' <> ty ->
    rdata_key ow ty' head tail k -> ble (ENTRY_TYPE_RDATA :: lo) k = true -> ble k (ENTRY_TYPE_RDATA :: hi ++ [ty + 1]) = true ->
    ~ ip_overread n ty k.

(** ** The records each kind of query asks for *)

(** RRsets of the owner [name], with the type and bailiwick asked for. *)
Definition exact_rrset (q : query) (name : list bytes) (bw : option (list bytes)) (r : record) : Prop :=
  match r with
  | RRset ow ty b _ o => ow = name /\ type_ok q ty /\ bailiwick_ok bw b /\ in_fence q o
  | _ => False
  end.

(** RRsets of owners at or below [x] ("*"), or one label below ("+"). *)
Definition below_rrset (q : query) (c : N) (x : list bytes) (bw : option (list bytes)) (r : record) : Prop :=
  match r with
  | RRset ow ty b _ o =>
      (exists y, ow = y ++ x /\ (c = plus_sign -> length y = 1%nat)) /\
      type_ok q ty /\ bailiwick_ok bw b /\ in_fence q o
  | _ => False
  end.

(** Owners, and RRsets of owners, that begin with the labels [x]. *)
Definition after_index (c : N) (x : list bytes) (h : record) : Prop :=
  match h with OwnerIndex ow _ => exists y, ow = x ++ y /\ (c = plus_sign -> length y = 1%nat) | _ => False end.
Definition same_owner (h r : record) : Prop :=
  match h, r with OwnerIndex ow _, RRset ow' _ _ _ _ => ow = ow' | _, _ => False end.
Definition after_rrset (q : query) (c : N) (x : list bytes) (bw : option (list bytes)) (r : record) : Prop :=
  match r with
  | RRset ow ty b _ o =>
      (exists y, ow = x ++ y /\ (c = plus_sign -> length y = 1%nat)) /\ type_ok q ty /\ bailiwick_ok bw b /\ in_fence q o
  | _ => False
  end.

(** Record data of a name-bearing type whose name is [name]. *)
Definition named_rdata (q : query) (name : list bytes) (r : record) : Prop :=
  match r with
  | RData ow ty head tail o =>
      (exists extra, tail = wire name ++ extra) /\ bears_name ty /\ type_ok q ty /\ in_fence q o
  | _ => False
  end.

(** Record data whose name begins with the labels [x]. *)
Definition name_after (q : query) (c : N) (x : list bytes) (r : record) : Prop :=
  match r with
  | RData ow ty head tail o =>
      (exists y extra, name_ok (x ++ y) /\ tail = wire (x ++ y) ++ extra /\ (c = plus_sign -> length y = 1%nat)) /\
      bears_name ty /\ type_ok q ty /\ in_fence q o
  | _ => False
  end.

(** Record data whose name is at or below [x]. *)
Definition name_below (q : query) (c : N) (x : list bytes) (r : record) : Prop :=
  match r with
  | RData ow ty head tail o =>
      (exists y extra, name_ok (y ++ x) /\ tail = wire (y ++ x) ++ extra /\ (c = plus_sign -> length y = 1%nat)) /\
      bears_name ty /\ type_ok q ty /\ in_fence q o
  | _ => False
  end.
Definition below_index (c : N) (x : list bytes) (h : record) : Prop :=
  match h with RdataIndex n _ => exists y, n = y ++ x /\ (c = plus_sign -> length y = 1%nat) | _ => False end.
Definition names_it (h r : record) : Prop :=
  match h, r with RdataIndex n _, RData _ _ _ tail _ => exists extra, tail = wire n ++ extra | _, _ => False end.

(** Record data whose key begins with the bytes [raw]. *)
Definition raw_rdata (q : query) (raw : bytes) (r : record) : Prop :=
  match r with
  | RData ow ty head tail o =>
      (exists rest, rdata_key ow ty head tail (ENTRY_TYPE_RDATA :: raw ++ rest)) /\ type_ok q ty /\ in_fence q o
  | _ => False
  end.

(** Addresses between [lo] and [hi]. *)
Definition ip_rdata (q : query) (ty : N) (lo hi : bytes) (r : record) : Prop :=
  match r with
  | RData ow ty' head tail o =>
      ty' = ty /\ ip_value lo <= ip_value tail <= ip_value hi /\ in_fence q o
  | _ => False
  end.

(** Queries answered by one lookup: [asks q recs M], the query [q] asks for the
    records [M] of the database [recs]. *)
Inductive asks (q : query) (recs : list record) : (record -> Prop) -> Prop :=
| asks_exact_rrset : forall name bw, q_type q = QRrset -> asks_name q name ->
    not_left_wild name -> not_right_wild name -> asks_bailiwick q bw -> type_param_ok q ->
    asks q recs (exact_rrset q name bw)
| asks_below_rrset : forall c x bw, q_type q = QRrset -> c = star_sign \/ c = plus_sign ->
    asks_name q ([c] :: x) -> asks_bailiwick q bw ->
    asks q recs (below_rrset q c x bw)
| asks_named_rdata : forall name, q_type q = QRdataName -> asks_name q name ->
    not_left_wild name -> not_right_wild name -> name_type_param_ok q -> names_canonical recs ->
    asks q recs (named_rdata q name)
| asks_name_after : forall c x, q_type q = QRdataName -> c = star_sign \/ c = plus_sign ->
    asks_name q (x ++ [[c]]) -> name_type_param_ok q -> names_canonical recs ->
    asks q recs (name_after q c x)
| asks_raw_rdata : forall raw, q_type q = QRdataRaw -> q_rdata q = Some raw -> q_len_rdata q = blen raw ->
    asks q recs (raw_rdata q raw)
| asks_ip_rdata : forall n ty lo hi, q_type q = QRdataIp -> asks_range q n ty lo hi ->
    addresses_canonical recs n ty -> no_overread_between recs n ty lo hi ->
    asks q recs (ip_rdata q ty lo hi).

(** Queries answered through an index. *)
Inductive asks_grouped (q : query) (recs : list record) :
  (record -> Prop) -> (record -> record -> Prop) -> (record -> Prop) -> Prop :=
| asks_after_rrset : forall c x bw, q_type q = QRrset -> c = star_sign \/ c = plus_sign ->
    asks_name q (x ++ [[c]]) -> not_left_wild (x ++ [[c]]) -> asks_bailiwick q bw -> type_param_ok q ->
    owners_indexed recs -> owner_index_safe q recs ->
    asks_grouped q recs (after_index c x) same_owner (after_rrset q c x bw)
| asks_name_below : forall c x, q_type q = QRdataName -> c = star_sign \/ c = plus_sign ->
    asks_name q ([c] :: x) -> not_right_wild ([c] :: x) -> name_type_param_ok q -> names_canonical recs ->
    rdata_names_indexed recs -> rdata_index_safe q recs ->
    asks_grouped q recs (below_index c x) names_it (name_below q c x).

(** The record's times are within the bounds of the query. *)
Definition fenced_in (q : query) (r : record) : Prop :=
  match r with RRset _ _ _ _ o | RData _ _ _ _ o => in_fence q o | _ => True end.

(** The query without its time bounds. *)
Definition without_bounds (q : query) : query :=
  {| q_type := q_type q; q_do_rrtype := q_do_rrtype q; q_rrtype := q_rrtype q;
     q_do_timeout := q_do_timeout q; q_timeout := q_timeout q;
     q_do_deadline := q_do_deadline q; q_deadline := q_deadline q;
     q_aggregated := q_aggregated q; q_case_sensitive := q_case_sensitive q;
     q_do_tfb := false; q_tfb := 0; q_do_tfa := false; q_tfa := 0;
     q_do_tlb := false; q_tlb := 0; q_do_tla := false; q_tla := 0;
     q_name := q_name q; q_bailiwick := q_bailiwick q;
     q_len_ip1 := q_len_ip1 q; q_len_ip2 := q_len_ip2 q; q_ip1 := q_ip1 q; q_ip2 := q_ip2 q;
     q_len_rdata := q_len_rdata q; q_rdata := q_rdata q; q_offset := q_offset q;
     q_has_v_type := q_has_v_type q; q_v_type := q_v_type q |}.

(** The same query with another offset. *)
Definition with_offset_of (n : N) (q : query) : query :=
  {| q_type := q_type q; q_do_rrtype := q_do_rrtype q; q_rrtype := q_rrtype q;
     q_do_timeout := q_do_timeout q; q_timeout := q_timeout q;
     q_do_deadline := q_do_deadline q; q_deadline := q_deadline q;
     q_aggregated := q_aggregated q; q_case_sensitive := q_case_sensitive q;
     q_do_tfb := q_do_tfb q; q_tfb := q_tfb q; q_do_tfa := q_do_tfa q; q_tfa := q_tfa q;
     q_do_tlb := q_do_tlb q; q_tlb := q_tlb q; q_do_tla := q_do_tla q; q_tla := q_tla q;
     q_name := q_name q; q_bailiwick := q_bailiwick q;
     q_len_ip1 := q_len_ip1 q; q_len_ip2 := q_len_ip2 q; q_ip1 := q_ip1 q; q_ip2 := q_ip2 q;
     q_len_rdata := q_len_rdata q; q_rdata := q_rdata q; q_offset := n;
     q_has_v_type := q_has_v_type q; q_v_type := q_v_type q |}.

(** The iterator, continued from [w], lists exactly [es]. *)
Definition drains (qi : qiter) (w : world) (es : list entry) : Prop :=
  forall ts, eventually (fun fuel => let rs := timed_calls fuel ts qi w in answered rs = listing es (length (answered rs))).

(** The same query without timeout and deadline. *)
Definition untimed (q : query) : query :=
  {| q_type := q_type q; q_do_rrtype := q_do_rrtype q; q_rrtype := q_rrtype q;
     q_do_timeout := false; q_timeout := q_timeout q; q_do_deadline := false; q_deadline := q_deadline q;
     q_aggregated := q_aggregated q; q_case_sensitive := q_case_sensitive q;
     q_do_tfb := q_do_tfb q; q_tfb := q_tfb q; q_do_tfa := q_do_tfa q; q_tfa := q_tfa q;
     q_do_tlb := q_do_tlb q; q_tlb := q_tlb q; q_do_tla := q_do_tla q; q_tla := q_tla q;
     q_name := q_name q; q_bailiwick := q_bailiwick q;
     q_len_ip1 := q_len_ip1 q; q_len_ip2 := q_len_ip2 q; q_ip1 := q_ip1 q; q_ip2 := q_ip2 q;
     q_len_rdata := q_len_rdata q; q_rdata := q_rdata q; q_offset := q_offset q;
     q_has_v_type := q_has_v_type q; q_v_type := q_v_type q |}.

(** [q'] asks the same as [q] but for time bounds, offset, timeout and deadline. *)
Definition same_question (q q' : query) : Prop :=
  q_type q' = q_type q /\ q_do_rrtype q' = q_do_rrtype q /\ q_rrtype q' = q_rrtype q /\ q_name q' = q_name q /\
  q_bailiwick q' = q_bailiwick q /\ q_len_ip1 q' = q_len_ip1 q /\ q_len_ip2 q' = q_len_ip2 q /\
  q_ip1 q' = q_ip1 q /\ q_ip2 q' = q_ip2 q /\ q_len_rdata q' = q_len_rdata q /\ q_rdata q' = q_rdata q.

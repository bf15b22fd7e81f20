(** Model of dnstable/query.c:28-121, 614-1003, 1078-1826: queries, the filter
    functions, key building, iterator creation and iteration.  Definitions only. *)
From Verif Require Import Base ModelVarint ModelWdns ModelUnion ModelMerge ModelEntry ModelIter.

(** dnstable.h dnstable_query_type. *)
Inductive qtype := QRrset | QRdataName | QRdataIp | QRdataRaw | QTimeRange | QSourceInfo | QVersion.

(** query.c:54-74 struct dnstable_query.  The error string and dq_wildplus are
    left out: the former is only reported back, the latter is set by
    is_left_wildcard/is_right_wildcard just before it is read.  A wdns_name_t is
    [None] when its data pointer is NULL (its length is 0 then).  The bailiwick is
    kept label-reversed.  An iterator holds a pointer to its query; the model
    passes the query along, so the query may not be changed while it is in use,
    except for the offset, which the iterator itself changes ([w_offset]), and for
    timeout and deadline ([set_timing] below). *)
Record query := {
  q_type : qtype;
  q_do_rrtype : bool; q_rrtype : N;
  q_do_timeout : bool; q_timeout : timespec;
  q_do_deadline : bool; q_deadline : timespec;
  q_aggregated : bool; q_case_sensitive : bool;
  q_do_tfb : bool; q_tfb : N;     (* time_first_before *)
  q_do_tfa : bool; q_tfa : N;     (* time_first_after *)
  q_do_tlb : bool; q_tlb : N;     (* time_last_before *)
  q_do_tla : bool; q_tla : N;     (* time_last_after *)
  q_name : option bytes; q_bailiwick : option bytes;
  q_len_ip1 : N; q_len_ip2 : N; q_ip1 : bytes; q_ip2 : bytes;
  q_len_rdata : N; q_rdata : option bytes;
  q_offset : N;
  q_has_v_type : bool; q_v_type : N
}.

(** query.c:34-52; libwdns type numbers: MX 15, SRV 33, NS 2, CNAME 5, DNAME 39,
    PTR 12; SOA 6, SVCB 64, HTTPS 65, NSEC 47, RP 17, NXT 30. *)
Definition name_type_standalone (t : N) : bool := existsb (N.eqb t) [15; 33; 2; 5; 39; 12].
Definition name_type_all (t : N) : bool := name_type_standalone t || existsb (N.eqb t) [6; 64; 65; 47; 17; 30].
Definition WDNS_TYPE_A : N := 1.
Definition WDNS_TYPE_AAAA : N := 28.
Definition WDNS_TYPE_ANY : N := 255.

(** query.c:614-620 add_rrtype_to_key. *)
Definition add_rrtype_to_key (key : bytes) (rrtype : N) : res bytes :=
  if rrtype =? WDNS_TYPE_ANY then Abort else Ok (key ++ varint_encode32 rrtype).

(** query.c:626-632: [l] is the bytes pos, pos-1, ..., 0. *)
Fixpoint incr_rev (l : bytes) : bool * bytes :=
  match l with
  | [] => (false, [])
  | b :: t =>
      let b' := (b + 1) mod 256 in
      if b' =? 0 then let (ok, t') := incr_rev t in (ok, b' :: t') else (true, b' :: t)
  end.

(** query.c:622-633 increment_key: (success, key). *)
Definition increment_key (key : bytes) (pos : nat) : res (bool * bytes) :=
  if Nat.ltb pos (length key) then
    let (ok, r) := incr_rev (rev (firstn (S pos) key)) in
    Ok (ok, rev r ++ skipn (S pos) key)
  else Abort.

(** query.c:710-729: seek to the successor of the first [next_len] bytes. *)
Definition seek_past (key : bytes) (next_len : nat) : fres :=
  match increment_key (firstn next_len key) (next_len - 1) with
  | Ok (_, k) => FSeek k
  | _ => FAbort
  end.

(** query.c:641-731 filter_single_label; [qks] is ubuf_size(it->key). *)
Definition single_label_res (qks : nat) (key : bytes) : fres :=
  if Nat.leb (length key) qks then FSkip
  else
    match rd key qks with
    | Ok c =>
        if c =? 0 then seek_past key (qks + 1)
        else
          let next_len := (qks + N.to_nat c + 1)%nat in
          if Nat.leb (length key) next_len then FSkip
          else match rd key next_len with
               | Ok c' => if c' =? 0 then FMatch else seek_past key next_len
               | _ => FUB
               end
    | _ => FUB
    end.
Definition filter_single_label (qks : nat) : filter_fn :=
  fun w key _ => (single_label_res qks key, w).

(** query.c:757-767 and 799-807: length of the (sliced) data in an RDATA key;
    [Fail] where the filters give up on the key. *)
Definition rdata_len (key : bytes) : res nat :=
  if Nat.ltb (length key) 2 then Fail
  else
    let* lo := rd key (length key - 2) in
    let* hi := rd key (length key - 1) in
    let rdlen := lo + 256 * hi in
    if N.of_nat (length key) <=? rdlen + 2 then Fail else Ok (N.to_nat rdlen).

(** query.c:749-770: where the rrtype starts, less one. *)
Definition rrtype_pos (key : bytes) : res nat :=
  let* t := rd key 0 in
  if t =? ENTRY_TYPE_RRSET then
    let* len := wdns_len_uname (skipn 1 key) in
    if Nat.leb (length key) (len + 2) then Fail else Ok len
  else if t =? ENTRY_TYPE_RDATA then rdata_len key
  else Abort.

Definition fres_of (r : res fres) : fres :=
  match r with Ok f => f | Fail => FSkip | Abort => FAbort | _ => FUB end.

(** query.c:733-779 filter_rrtype. *)
Definition rrtype_res (want : N) (key : bytes) : fres :=
  fres_of (
    let* len := rrtype_pos key in
    let* r := varint_decode32 (skipn (len + 1) key) in
    if Nat.eqb (fst r) 0 then Fail
    else if snd r =? want then Ok FMatch else Ok FSkip).
Definition filter_rrtype (q : query) : filter_fn := fun w key _ => (rrtype_res (q_rrtype q) key, w).

(** query.c:787-816 filter_rrtype_rdata_name.  The result of
    mtbl_varint_decode32 is not checked: 0 leaves [rrtype] holding what the
    failed decoding put there (its low 7 bits), which is the model's value too. *)
Definition rdata_name_res (key : bytes) : fres :=
  fres_of (
    let* len := rdata_len key in
    let* r := varint_decode32 (skipn (len + 1) key) in
    if name_type_all (snd r) then Ok FMatch else Ok FSkip).
Definition filter_rrtype_rdata_name : filter_fn := fun w key _ => (rdata_name_res key, w).

(** query.c:818-850 filter_bailiwick; [bw] is q->bailiwick. *)
Definition bailiwick_res (bw : bytes) (key : bytes) : fres :=
  fres_of (
    let* len := wdns_len_uname (skipn 1 key) in
    if Nat.leb (length key) (len + 2) then Fail
    else
      let len1 := (len + 1)%nat in
      let* r := varint_decode32 (skipn len1 key) in
      let len2 := (len1 + fst r)%nat in
      if Nat.leb (length key) len2 then Fail
      else
        let* len_name := wdns_len_uname (skipn len2 key) in
        if negb (Nat.eqb len_name (length bw)) then Fail
        else if beq bw (firstn len_name (skipn len2 key)) then Ok FMatch else Ok FSkip).
Definition filter_bailiwick (bw : bytes) : filter_fn := fun w key _ => (bailiwick_res bw key, w).

(** query.c:852-904 filter_time_common. *)
Definition time_res (q : query) (prefilter : bool) (val : bytes) : fres :=
  fres_of (
    let* r := triplet_unpack val in
    let '(time_first, time_last, _) := r in
    if q_do_tfa q && (time_first <? q_tfa q) then Fail
    else if q_do_tlb q && (q_tlb q <? time_last) then Fail
    else if q_do_tla q && (time_last <? q_tla q) then Fail
    else if q_do_tfb q && (q_tfb q <? time_first)
    then (if prefilter && q_do_tla q then Ok FMatch else Ok FSkip)
    else Ok FMatch).

(** query.c:917-925, 927-936. *)
Definition filter_time_prefilter (q : query) : filter_fn := fun w _ val => (time_res q true val, w).
Definition filter_time (q : query) : filter_fn := fun w _ val => (time_res q false val, w).

(** query.c:938-953 filter_offset. *)
Definition filter_offset : filter_fn := fun w _ _ =>
  if 0 <? w_offset w then (FSkip, set_offset (w_offset w - 1) w) else (FMatch, w).

(** query.c:1296-1307: the labels increment and seek. *)
Definition ip_increment (seek_key : bytes) (key_prefix_len : nat) : fres :=
  match increment_key seek_key (key_prefix_len - 1) with
  | Ok (true, k) =>
      match rd k 0 with
      | Ok t => if t =? ENTRY_TYPE_RDATA then FSeek k else FStop
      | _ => FUB
      end
  | _ => FAbort
  end.

(** query.c:1211-1294: the loop over would-be labels.  [sk] is seek_key, always
    the first bytes of [key]. *)
Fixpoint ip_labels (fuel : nat) (rrtype : N) (key sk : bytes) : fres :=
  match fuel with
  | O => FUB
  | S f =>
      match rd key (length sk) with
      | Ok llen =>
          if 63 <? llen then ip_increment sk (length sk)
          else if llen =? 0 then
            let rdlen := if rrtype =? WDNS_TYPE_A then Some [4; 0]
                         else if rrtype =? WDNS_TYPE_AAAA then Some [16; 0] else None in
            match rdlen with
            | None => FAbort
            | Some rl =>
                if blt key (sk ++ [llen] ++ rl) then FSeek (sk ++ [llen] ++ rl)
                else ip_increment (sk ++ [llen]) (length sk + 1)
            end
          else if Nat.ltb (length key) (N.to_nat llen + 1 + length sk) then
            FSeek (key ++ repeat 0 (N.to_nat llen + 1 + length sk - length key))
          else ip_labels f rrtype key
                 (sk ++ [llen] ++ firstn (N.to_nat llen) (skipn (length sk + 1) key))
      | _ => FUB
      end
  end.

(** query.c:1092-1308: after filter_rrtype has said no.  [ksize] is
    ubuf_size(it->key).  The comparison at 1139 reads as many bytes of the
    current key as seek_key has, which may be more than there are. *)
Definition ip_seek (ksize : nat) (rrtype : N) (key : bytes) : fres :=
  let kpl := (ksize - N.to_nat (varint_length rrtype))%nat in
  if Nat.ltb (length key) kpl then
    match add_rrtype_to_key (key ++ repeat 0 (kpl - length key)) rrtype with
    | Ok sk => FSeek sk
    | _ => FAbort
    end
  else
    match add_rrtype_to_key (firstn kpl key) rrtype with
    | Ok sk =>
        if Nat.ltb (length key) (length sk) then FUB
        else
          match bytes_compare sk (firstn (length sk) key) with
          | Lt => ip_increment sk kpl
          | Gt => FSeek sk
          | Eq =>
              if Nat.leb (length key) (length sk) then FSkip
              else
                match rd key (length sk) with
                | Ok c =>
                    if (63 <? c) && ((rrtype =? WDNS_TYPE_A) || (rrtype =? WDNS_TYPE_AAAA))
                    then ip_increment (firstn kpl sk) kpl
                    else ip_labels (S (length key)) rrtype key sk
                | _ => FUB
                end
          end
    | _ => FAbort
    end.

(** query.c:1078-1311 filter_rrtype_ip. *)
Definition rrtype_ip_res (q : query) (ksize : nat) (key : bytes) : fres :=
  match rrtype_res (q_rrtype q) key with
  | FSkip => ip_seek ksize (q_rrtype q) key
  | r => r
  end.
Definition filter_rrtype_ip (q : query) (ksize : nat) : filter_fn :=
  fun w key _ => (rrtype_ip_res q ksize key, w).

(** ** Iterator creation *)

(** What the query_init_* functions leave in struct query_iter.  [p_idx] is the
    iterator m_iter2 and the type byte of the next function for indirect queries. *)
Record plan := {
  p_key : bytes;
  p_key2 : option bytes;
  p_source : source;
  p_index : option (N * iter)
}.

(** query.c:1421-1427 FILTER_SET_COND. *)
Definition filter_set_cond (c : bool) (st : stage) (f : filter_fn) (s : source) : source :=
  if c then SFilter st f s else s.

Definition opt_filter_bailiwick (q : query) (s : source) : source :=
  match q_bailiwick q with Some bw => SFilter StBailiwick (filter_bailiwick bw) s | None => s end.

Definition name_data (q : query) : bytes := match q_name q with Some n => n | None => [] end.

(** wdns_reverse_name into a buffer of WDNS_MAXLEN_NAME bytes on the stack
    (query.c:1461-1470, 1513-1531, 1571-1579). *)
Definition reverse_buf (mem : bytes) (len : N) : res bytes :=
  if WDNS_MAXLEN_NAME <? len then UB else wdns_reverse_name mem len.

(** query.c:1482-1493 is_right_wildcard, 1497-1508 is_left_wildcard:
    [Some plus] with the value of dq_wildplus. *)
Definition star : N := 42.
Definition plus : N := 43.
Definition is_right_wildcard (name : bytes) : option bool :=
  if Nat.leb 3 (length name) then
    match skipn (length name - 3) name with
    | a :: b :: _ => if (a =? 1) && ((b =? star) || (b =? plus)) then Some (b =? plus) else None
    | _ => None
    end
  else None.
Definition is_left_wildcard (name : bytes) : option bool :=
  if Nat.leb 3 (length name) then
    match name with
    | a :: b :: _ => if (a =? 1) && ((b =? star) || (b =? plus)) then Some (b =? plus) else None
    | _ => None
    end
  else None.

(** query.c:1438-1456. *)
Definition init_rrset_right_wildcard (q : query) (wildplus : bool) (src idx : source) : res plan :=
  let key := ENTRY_TYPE_RRSET_NAME_FWD :: firstn (length (name_data q) - 3) (name_data q) in
  let idx' := filter_set_cond wildplus StSingleLabel (filter_single_label (length key)) idx in
  let src' := filter_set_cond (q_do_rrtype q) StRrtype (filter_rrtype q) src in
  Ok {| p_key := key; p_key2 := None; p_source := opt_filter_bailiwick q src';
        p_index := Some (ENTRY_TYPE_RRSET, open (HPrefix key) idx') |}.

(** query.c:1458-1478. *)
Definition init_rrset_left_wildcard (q : query) (wildplus : bool) (src : source) : res plan :=
  let len := (length (name_data q) - 2)%nat in
  let* name := reverse_buf (skipn 2 (name_data q)) (N.of_nat len) in
  let key := ENTRY_TYPE_RRSET :: firstn (len - 1) name in
  let src1 := filter_set_cond wildplus StSingleLabel (filter_single_label (length key)) src in
  let src2 := filter_set_cond (q_do_rrtype q) StRrtype (filter_rrtype q) src1 in
  Ok {| p_key := key; p_key2 := None; p_source := opt_filter_bailiwick q src2; p_index := None |}.

(** query.c:1510-1547. *)
Definition init_rrset (q : query) (src idx : source) : res plan :=
  match is_left_wildcard (name_data q) with
  | Some wp => init_rrset_left_wildcard q wp src
  | None =>
      match is_right_wildcard (name_data q) with
      | Some wp => init_rrset_right_wildcard q wp src idx
      | None =>
          let* name := reverse_buf (name_data q) (blen (name_data q)) in
          let key := ENTRY_TYPE_RRSET :: name in
          if q_do_rrtype q then
            let* key1 := add_rrtype_to_key key (q_rrtype q) in
            let key2 := match q_bailiwick q with Some bw => key1 ++ bw | None => key1 end in
            Ok {| p_key := key2; p_key2 := None; p_source := src; p_index := None |}
          else Ok {| p_key := key; p_key2 := None; p_source := opt_filter_bailiwick q src; p_index := None |}
      end
  end.

(** query.c:1549-1561. *)
Definition init_rdata_right_wildcard (q : query) (wildplus : bool) (src : source) : res plan :=
  let key := ENTRY_TYPE_RDATA :: firstn (length (name_data q) - 3) (name_data q) in
  Ok {| p_key := key; p_key2 := None;
        p_source := filter_set_cond wildplus StSingleLabel (filter_single_label (length key)) src;
        p_index := None |}.

(** query.c:1568-1587. *)
Definition init_rdata_left_wildcard (q : query) (wildplus : bool) (src idx : source) : res plan :=
  let len := (length (name_data q) - 2)%nat in
  let* name := reverse_buf (skipn 2 (name_data q)) (N.of_nat len) in
  let key := ENTRY_TYPE_RDATA_NAME_REV :: firstn (len - 1) name in
  let idx' := filter_set_cond wildplus StSingleLabel (filter_single_label (length key)) idx in
  Ok {| p_key := key; p_key2 := None; p_source := src;
        p_index := Some (ENTRY_TYPE_RDATA, open (HPrefix key) idx') |}.

(** query.c:1589-1621. *)
Definition init_rdata_name (q : query) (src idx : source) : res plan :=
  let src1 := SFilter StRrtype (if q_do_rrtype q then filter_rrtype q else filter_rrtype_rdata_name) src in
  match is_right_wildcard (name_data q) with
  | Some wp => init_rdata_right_wildcard q wp src1
  | None =>
      match is_left_wildcard (name_data q) with
      | Some wp => init_rdata_left_wildcard q wp src1 idx
      | None =>
          let key := ENTRY_TYPE_RDATA :: name_data q in
          let* key1 := if q_do_rrtype q && name_type_standalone (q_rrtype q)
                       then add_rrtype_to_key key (q_rrtype q) else Ok key in
          Ok {| p_key := key1; p_key2 := None; p_source := src1; p_index := None |}
      end
  end.

(** query.c:1623-1652. *)
Definition init_rdata_ip (q : query) (src : source) : res plan :=
  if negb (q_do_rrtype q) then Abort
  else if q_len_ip1 q =? 0 then Abort
  else
    let* key := add_rrtype_to_key
                  (ENTRY_TYPE_RDATA :: firstn (N.to_nat (q_len_ip1 q)) (q_ip1 q)) (q_rrtype q) in
    let* key2 :=
      (if 0 <? q_len_ip2 q then
         let* k := add_rrtype_to_key
                     (ENTRY_TYPE_RDATA :: firstn (N.to_nat (q_len_ip2 q)) (q_ip2 q)) (q_rrtype q) in
         let* r := increment_key k (length k - 1) in
         Ok (Some (snd r))
       else Ok None) in
    Ok {| p_key := key; p_key2 := key2;
          p_source := SFilter StRrtype (filter_rrtype_ip q (length key)) src; p_index := None |}.

(** query.c:1654-1673.  Copying [len_rdata] bytes from a NULL pointer or past the
    buffer is [UB]. *)
Definition init_rdata_raw (q : query) (src : source) : res plan :=
  let data := match q_rdata q with Some r => r | None => [] end in
  if blen data <? q_len_rdata q then UB
  else
    Ok {| p_key := ENTRY_TYPE_RDATA :: firstn (N.to_nat (q_len_rdata q)) data; p_key2 := None;
          p_source := filter_set_cond (q_do_rrtype q) StRrtype (filter_rrtype q) src; p_index := None |}.

(** query.c:1675-1681, 1683-1689, 1691-1699. *)
Definition init_simple (key : bytes) (src : source) : res plan :=
  Ok {| p_key := key; p_key2 := None; p_source := src; p_index := None |}.
Definition init_version (q : query) (src : source) : res plan :=
  init_simple (ENTRY_TYPE_VERSION :: (if q_has_v_type q then [q_v_type q] else [])) src.

(** query.c:1720-1736. *)
Definition query_init (q : query) (src idx : source) : res plan :=
  match q_type q with
  | QRrset => init_rrset q src idx
  | QRdataName => init_rdata_name q src idx
  | QRdataIp => init_rdata_ip q src
  | QRdataRaw => init_rdata_raw q src
  | QTimeRange => init_simple [ENTRY_TYPE_TIME_RANGE] src
  | QSourceInfo => init_simple [ENTRY_TYPE_SOURCE_INFO] src
  | QVersion => init_version q src
  end.

(** What a fileset query adds (query.c:86-91): the merged fill files and the
    removed files. *)
Record fenced := { f_remove : option (list table); f_fill : option table }.
Definition no_fence : fenced := {| f_remove := None; f_fill := None |}.

Definition has_time_bound (q : query) : bool := q_do_tfa q || q_do_tlb q || q_do_tfb q || q_do_tla q.
Definition is_timed (q : query) : bool := q_do_timeout q || q_do_deadline q.

(** query.c:1743-1800: the stages above those of query_init_*. *)
Definition stack_filters (q : query) (fc : fenced) (src : source) : source :=
  let src1 :=
    if has_time_bound q then
      let s := SFilter StTimePrefilter (filter_time_prefilter q) src in
      match f_remove fc with Some l => SRemove l s | None => s end
    else src in
  let src2 := match f_fill fc with Some t => SLjoin merge_func t src1 | None => src1 end in
  let src3 := if has_time_bound q then SFilter StTime (filter_time q) src2 else src2 in
  if 0 <? q_offset q then SFilter StOffset filter_offset src3 else src3.

(** query.c:76-121 struct query_iter, the parts iteration uses. *)
Inductive kind :=
| Direct (it : iter)                                      (* m_iter *)
| Indirect (type_byte : N) (idx : iter) (cur : option iter).  (* m_iter2, m_iter *)
Record qiter := { qi_query : query; qi_source : source; qi_kind : kind }.

(** query.c:1701-1815 dnstable_query_iter_common; [Fail] is a NULL iterator. *)
Definition query_iter_common (q : query) (fc : fenced) (src idx : source) : res qiter :=
  let src0 := if is_timed q then STimeout src else src in
  let idx0 := if is_timed q then STimeout idx else idx in
  let* p := query_init q src0 idx0 in
  let top := stack_filters q fc (p_source p) in
  Ok {| qi_query := q; qi_source := top;
        qi_kind :=
          match p_index p with
          | Some (tb, m_iter2) => Indirect tb m_iter2 None
          | None =>
              match p_key2 p with
              | Some key2 => Direct (open (HRange (p_key p) key2) top)
              | None => Direct (open (HPrefix (p_key p)) top)
              end
          end |}.

(** query.c:1817-1826 dnstable_query_iter. *)
Definition dnstable_query_iter (q : query) (t : table) : res qiter :=
  query_iter_common q no_fence (SBase t) (SBase t).

(** ** Iteration *)

(** query.c:959-974 query_iter_set_deadline. *)
Definition iter_set_deadline (q : query) (w : world) : world :=
  if negb (q_do_timeout q) then set_deadline (q_deadline q) w
  else
    let (now, w1) := gettime w in
    let d := ts_add (q_timeout q) now in
    set_deadline (match q_do_deadline q, ts_cmp (q_deadline q) d with
                  | true, Lt => q_deadline q
                  | _, _ => d
                  end) w1.

(** Result of dnstable_iter_next: an entry, dnstable_res_failure,
    dnstable_res_timeout, or a crash. *)
Inductive qres := QEntry (e : entry) | QEnd | QTimeout | QAbort | QUB | QHang.

(** query.c:988-1000. *)
Fixpoint direct_loop (n fuel : nat) (it : iter) (w : world) : qres * iter * world :=
  match n with
  | O => (QHang, it, w)
  | S n' =>
      match next fuel it w with
      | (OOk (k, v), it', w') =>
          match entry_decode k v with
          | Ok e => (QEntry e, it', w')
          | Fail => direct_loop n' fuel it' w'
          | Abort => (QAbort, it', w')
          | UB => (QUB, it', w')
          | Hang => (QHang, it', w')
          end
      | (OFail, it', w') => (QEnd, it', w')
      | (OExpired, it', w') => (QTimeout, it', w')
      | (OAbort, it', w') => (QAbort, it', w')
      | (OUB, it', w') => (QUB, it', w')
      | (OHang, it', w') => (QHang, it', w')
      end
  end.

(** query.c:1353-1382: the key to look up for an index entry; [Fail] is the
    wdns_reverse_name error, [Ok None] the entry is skipped. *)
Definition index_lookup_key (q : query) (tb : N) (key val : bytes) : res (option bytes) :=
  let wanted := q_rrtype q mod u16 in
  let* t := if q_do_rrtype q then rrtype_test tb wanted val else Ok true in
  if negb t then Ok None
  else
    let* name := wdns_reverse_name (skipn 1 key) (blen key - 1) in
    let k := tb :: name in
    if q_do_rrtype q && ((tb =? ENTRY_TYPE_RRSET) || name_type_standalone wanted) then
      let* k' := add_rrtype_to_key k wanted in Ok (Some k')
    else Ok (Some k).

(** query.c:1340-1405. *)
Fixpoint indirect_loop (n fuel : nat) (q : query) (src : source) (tb : N)
  (idx : iter) (cur : option iter) (w : world) : qres * iter * option iter * world :=
  match n with
  | O => (QHang, idx, cur, w)
  | S n' =>
      match cur with
      | None =>
          match next fuel idx w with
          | (OOk (k, v), idx', w') =>
              match index_lookup_key q tb k v with
              | Ok None => indirect_loop n' fuel q src tb idx' None w'
              | Ok (Some fk) => indirect_loop n' fuel q src tb idx' (Some (open (HPrefix fk) src)) w'
              | Fail => (QEnd, idx', None, w')
              | Abort => (QAbort, idx', None, w')
              | UB => (QUB, idx', None, w')
              | Hang => (QHang, idx', None, w')
              end
          | (OFail, idx', w') => (QEnd, idx', None, w')
          | (OExpired, idx', w') => (QTimeout, idx', None, w')
          | (OAbort, idx', w') => (QAbort, idx', None, w')
          | (OUB, idx', w') => (QUB, idx', None, w')
          | (OHang, idx', w') => (QHang, idx', None, w')
          end
      | Some it =>
          match next fuel it w with
          | (OOk (k, v), it', w') =>
              match entry_decode k v with
              | Ok e => (QEntry e, idx, Some it', w')
              | Fail => indirect_loop n' fuel q src tb idx (Some it') w'
              | Abort => (QAbort, idx, Some it', w')
              | UB => (QUB, idx, Some it', w')
              | Hang => (QHang, idx, Some it', w')
              end
          | (OFail, _, w') => indirect_loop n' fuel q src tb idx None w'
          | (OExpired, it', w') => (QTimeout, idx, Some it', w')
          | (OAbort, it', w') => (QAbort, idx, Some it', w')
          | (OUB, it', w') => (QUB, idx, Some it', w')
          | (OHang, it', w') => (QHang, idx, Some it', w')
          end
      end
  end.

(** query.c:976-1003 query_iter_next, 1326-1419 the indirect ones;
    iter.c:58-64 dnstable_iter_next. *)
Definition qnext (fuel : nat) (qi : qiter) (w : world) : qres * qiter * world :=
  let q := qi_query qi in
  let w0 := if is_timed q then iter_set_deadline q w else w in
  match qi_kind qi with
  | Direct it =>
      let '(r, it', w') := direct_loop fuel fuel it w0 in
      (r, {| qi_query := q; qi_source := qi_source qi; qi_kind := Direct it' |}, w')
  | Indirect tb idx cur =>
      let '(r, idx', cur', w') := indirect_loop fuel fuel q (qi_source qi) tb idx cur w0 in
      (r, {| qi_query := q; qi_source := qi_source qi; qi_kind := Indirect tb idx' cur' |}, w')
  end.

(** The query's offset lives in the world while an iterator is in use. *)
Definition load_offset (q : query) (w : world) : world := set_offset (q_offset q) w.

(** ** Changing timeout and deadline while an iterator is in use *)

Definition is_some {A} (o : option A) : bool := match o with Some _ => true | None => false end.
Definition val_or {A} (d : A) (o : option A) : A := match o with Some x => x | None => d end.
Definition with_timeout (t : option timespec) (q : query) : query :=
  {| q_type := q_type q; q_do_rrtype := q_do_rrtype q; q_rrtype := q_rrtype q;
     q_do_timeout := is_some t; q_timeout := val_or (q_timeout q) t; q_do_deadline := q_do_deadline q; q_deadline := q_deadline q;
     q_aggregated := q_aggregated q; q_case_sensitive := q_case_sensitive q;
     q_do_tfb := q_do_tfb q; q_tfb := q_tfb q; q_do_tfa := q_do_tfa q; q_tfa := q_tfa q;
     q_do_tlb := q_do_tlb q; q_tlb := q_tlb q; q_do_tla := q_do_tla q; q_tla := q_tla q;
     q_name := q_name q; q_bailiwick := q_bailiwick q;
     q_len_ip1 := q_len_ip1 q; q_len_ip2 := q_len_ip2 q; q_ip1 := q_ip1 q; q_ip2 := q_ip2 q;
     q_len_rdata := q_len_rdata q; q_rdata := q_rdata q; q_offset := q_offset q;
     q_has_v_type := q_has_v_type q; q_v_type := q_v_type q |}.
Definition with_deadline (t : option timespec) (q : query) : query :=
  {| q_type := q_type q; q_do_rrtype := q_do_rrtype q; q_rrtype := q_rrtype q;
     q_do_timeout := q_do_timeout q; q_timeout := q_timeout q; q_do_deadline := is_some t; q_deadline := val_or (q_deadline q) t;
     q_aggregated := q_aggregated q; q_case_sensitive := q_case_sensitive q;
     q_do_tfb := q_do_tfb q; q_tfb := q_tfb q; q_do_tfa := q_do_tfa q; q_tfa := q_tfa q;
     q_do_tlb := q_do_tlb q; q_tlb := q_tlb q; q_do_tla := q_do_tla q; q_tla := q_tla q;
     q_name := q_name q; q_bailiwick := q_bailiwick q;
     q_len_ip1 := q_len_ip1 q; q_len_ip2 := q_len_ip2 q; q_ip1 := q_ip1 q; q_ip2 := q_ip2 q;
     q_len_rdata := q_len_rdata q; q_rdata := q_rdata q; q_offset := q_offset q;
     q_has_v_type := q_has_v_type q; q_v_type := q_v_type q |}.

(** query.c:453-477 with a non-NULL argument, on the query of an iterator: the iterator
    holds a pointer to the query and reads both at the start of each call (query.c:959-983).
    The other uses of the query by the iterator do not involve them. *)
Inductive timing := TKeep | TTimeout (t : timespec) | TDeadline (t : timespec).
Definition retime (t : timing) (q : query) : query :=
  match t with
  | TKeep => q
  | TTimeout x => with_timeout (Some x) q
  | TDeadline x => with_deadline (Some x) q
  end.
Definition set_timing (t : timing) (qi : qiter) : qiter :=
  {| qi_query := retime t (qi_query qi); qi_source := qi_source qi; qi_kind := qi_kind qi |}.

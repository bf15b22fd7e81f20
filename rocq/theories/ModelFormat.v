(** Model of dnstable/dnstable-json.h, of dnstable/entry.c:24-35, 62-605 (text and
    JSON output of entries), and of libmy/my_format.c:59-82.  Definitions only. *)
From Verif Require Import Str ModelVarint ModelUnion ModelEntry ModelNames.

(** ** Buffers *)

(** Storing one byte through a pointer. *)
Fixpoint wr (l : bytes) (i : nat) (b : N) : res bytes :=
  match l, i with
  | [], _ => UB
  | _ :: r, O => Ok (b :: r)
  | x :: r, S i' => let* r' := wr r i' b in Ok (x :: r')
  end.

(** libmy/ubuf.h:50-56 ubuf_add_cstr. *)
Definition add_cstr (u s : bytes) : bytes :=
  (match rev u with 0 :: r => rev r | _ => u end) ++ cstr s.

(** ** JSON, dnstable-json.h *)

(** dnstable-json.h:32-35: the loop that counts digits. *)
Fixpoint count_digits (fuel : nat) (tmp : N) : res nat :=
  match fuel with
  | O => Hang
  | S f => if tmp / 10 =? 0 then Ok 1%nat else let* n := count_digits f (tmp / 10) in Ok (S n)
  end.
(** dnstable-json.h:39-45: the loop that stores them, ndx = left - 1. *)
Fixpoint store_digits (left : nat) (num : N) (ptr : bytes) : res bytes :=
  match left with
  | O => Ok ptr
  | S n => let* ptr := wr ptr n (48 + num mod 10) in store_digits n (num / 10) ptr
  end.
(** dnstable-json.h:27-50 vnum_to_str: the buffer and the number of digits. *)
Definition vnum_to_str (num : N) (ptr : bytes) : res (bytes * nat) :=
  let* ndigits := count_digits 64 num in
  let* ptr := store_digits ndigits num ptr in
  let* ptr := wr ptr ndigits 0 in
  Ok (ptr, ndigits).

(** dnstable-json.h:130-137 append_json_value_int; what numbuf holds at first is
    arbitrary. *)
Definition append_json_value_int (u : bytes) (val : N) : res bytes :=
  let* r := vnum_to_str val (repeat 170 32) in
  Ok (u ++ firstn (snd r) (fst r)).

(** dnstable-json.h:52-61 declare_json_value. *)
Definition declare_json_value (u : bytes) (name : bytes) (is_first : bool) : bytes :=
  u ++ (if is_first then [34] else [44; 34]) ++ name ++ [34; 58].

(** printf %x of one digit. *)
Definition hex_digit (d : N) : N := if d <? 10 then 48 + d else 87 + d.

(** dnstable-json.h:73-95: the switch; 0 is no escape. *)
Definition json_esc (c : N) : N :=
  if c =? 8 then 98 else if c =? 12 then 102 else if c =? 10 then 110 else if c =? 13 then 114
  else if c =? 9 then 116 else if c =? 34 then 34 else if c =? 92 then 92 else 0.

(** dnstable-json.h:70-118: the loop and what follows it.  [str] is what is left from
    [scan] on, [pending] what is between [scan_last] and [scan]. *)
Fixpoint escape_loop (u pending str : bytes) : bytes :=
  match str with
  | [] => u ++ pending
  | c :: r =>
      let esc := json_esc c in
      if (0 <? esc) || (c <=? 31) then
        let u := match pending with [] => u | _ => u ++ pending end in
        let u := if 0 <? esc then u ++ [92; esc]
                 else u ++ [92; 117; 48; 48; hex_digit (c / 16); hex_digit (c mod 16)] in
        escape_loop u [] r
      else escape_loop u (pending ++ [c]) r
  end.
Definition append_json_string_escaped (u str : bytes) : bytes := escape_loop u [] str.

(** dnstable-json.h:120-125 append_json_value_string; entry.c:33 JSON_STR_APPEND and
    entry.c:34 JSON_STR_APPEND_LEN. *)
Definition append_json_value_string (u val : bytes) : bytes :=
  append_json_string_escaped (u ++ [34]) val ++ [34].
Definition json_str_append (u s : bytes) : bytes := append_json_value_string u (cstr s).

(** ** External functions *)

(** libwdns's presentation forms, as C strings, and snprintf of "%'" PRIu64 in the
    current locale.  Parameters of the model.  wdns_rdata_to_str and
    wdns_rrtype_to_str take the type as a uint16_t. *)
Record fmtlib := {
  wdns_domain_to_str : bytes -> bytes;
  wdns_rdata_to_str : bytes -> N -> bytes;
  wdns_rrtype_to_str : N -> option bytes;
  locale_uint64 : N -> bytes
}.

(** struct tm, and gmtime_r of the C library: the proleptic Gregorian calendar; [None]
    is NULL, when the year does not fit in an int. *)
Record tm := { tm_sec : Z; tm_min : Z; tm_hour : Z; tm_mday : Z; tm_mon : Z; tm_year : Z }.
Open Scope Z_scope.
Definition civil (days : Z) : Z * Z * Z :=
  let z := days + 719468 in
  let era := z / 146097 in
  let doe := z mod 146097 in
  let yoe := (doe - doe / 1460 + doe / 36524 - doe / 146096) / 365 in
  let doy := doe - (365 * yoe + yoe / 4 - yoe / 100) in
  let mp := (5 * doy + 2) / 153 in
  let d := doy - (153 * mp + 2) / 5 + 1 in
  let m := if mp <? 10 then mp + 3 else mp - 9 in
  (yoe + era * 400 + (if m <=? 2 then 1 else 0), m, d).
Definition gmtime_r (t : Z) : option tm :=
  let '(y, m, d) := civil (t / 86400) in
  let s := t mod 86400 in
  if (-2147483648 <=? y - 1900) && (y - 1900 <=? 2147483647) then
    Some {| tm_sec := s mod 60; tm_min := s / 60 mod 60; tm_hour := s / 3600;
            tm_mday := d; tm_mon := m - 1; tm_year := y - 1900 |}
  else None.
(** uint64_t to time_t. *)
Definition to_time_t (v : N) : Z := if (v <? 9223372036854775808)%N then Z.of_N v else Z.of_N v - 18446744073709551616.
(** int to uint64_t. *)
Definition to_uint64 (z : Z) : N := Z.to_N (z mod 18446744073709551616).
Close Scope Z_scope.

(** ** Times *)

(** libmy/my_format.c:66-78: the loop; [k] characters remain, ptr = dst + k - 1. *)
Fixpoint put_digits (k off : nat) (num : N) (dst : bytes) : res bytes :=
  match k with
  | O => Ok dst
  | S k' =>
      let* dst := wr dst (off + k') (48 + num mod 10) in
      if num / 10 =? 0 then Ok dst else put_digits k' off (num / 10) dst
  end.
(** libmy/my_format.c:59-82 my_uint64_to_str, with dst = buffer + off, start = NULL. *)
Definition my_uint64_to_str (num : N) (dst : bytes) (off dst_size : nat) : res bytes :=
  let* dst := wr dst (off + (dst_size - 1)) 0 in
  put_digits (dst_size - 1) off num dst.

(** entry.c:83-99 fmt_rfc3339; 1900 + tm_year can overflow an int. *)
Definition fmt_rfc3339 (src : tm) (dst : bytes) : res bytes :=
  if (2147483647 <? 1900 + tm_year src)%Z then UB
  else
    let* dst := my_uint64_to_str (to_uint64 (1900 + tm_year src)) dst 0 5 in
    let* dst := wr dst 4 45 in
    let* dst := my_uint64_to_str (to_uint64 (1 + tm_mon src)) dst 5 3 in
    let* dst := wr dst 7 45 in
    let* dst := my_uint64_to_str (to_uint64 (tm_mday src)) dst 8 3 in
    let* dst := wr dst 10 84 in
    let* dst := my_uint64_to_str (to_uint64 (tm_hour src)) dst 11 3 in
    let* dst := wr dst 13 58 in
    let* dst := my_uint64_to_str (to_uint64 (tm_min src)) dst 14 3 in
    let* dst := wr dst 16 58 in
    let* dst := my_uint64_to_str (to_uint64 (tm_sec src)) dst 17 3 in
    wr dst 19 90.

(** entry.c:106-111, 127-132: the sizeof(ts) - 1 characters of ts. *)
Definition rfc3339_ts (v : N) : res bytes :=
  match gmtime_r (to_time_t v) with
  | None => Abort
  | Some gm => let* ts := fmt_rfc3339 gm (str "0000-00-00T00:00:00Z" ++ [0]) in Ok (firstn 20 ts)
  end.
(** entry.c:101-118 fmt_rfc3339_time, 120-136 fmt_rfc3339_time_json. *)
Definition fmt_rfc3339_time (u : bytes) (v : N) : res bytes := let* ts := rfc3339_ts v in Ok (u ++ ts).
Definition fmt_rfc3339_time_json (u : bytes) (v : N) : res bytes :=
  let* ts := rfc3339_ts v in Ok (append_json_value_string u ts).

(** printf of a decimal number: %u, %hu, %d of nonnegative numbers. *)
Fixpoint printf_digits (fuel : nat) (n : N) : bytes :=
  match fuel with
  | O => []
  | S f => (if n / 10 =? 0 then [] else printf_digits f (n / 10)) ++ [48 + n mod 10]
  end.
Definition printf_u (n : N) : bytes := printf_digits (S (N.size_nat n)) n.
(** printf of %d, and of %02d of a number below 100. *)
Definition printf_d (z : Z) : bytes := if (z <? 0)%Z then 45 :: printf_u (Z.to_N (- z)) else printf_u (Z.to_N z).
Definition printf_02d (z : Z) : bytes := [48 + Z.to_N z / 10; 48 + Z.to_N z mod 10].

(** strftime of "%Y-%m-%d %H:%M:%S -0000".  The C library is taken to add 1900 to tm_year
    without overflow; no theorem is about years above 2147483647, where this matters. *)
Definition strftime_text (r : tm) : bytes :=
  printf_d (1900 + tm_year r) ++ [45] ++ printf_02d (1 + tm_mon r) ++ [45] ++ printf_02d (tm_mday r) ++ [32] ++
  printf_02d (tm_hour r) ++ [58] ++ printf_02d (tm_min r) ++ [58] ++ printf_02d (tm_sec r) ++ str " -0000".
(** entry.c:70-81 fmt_time; the buffer has 32 bytes, strftime returns 0 when the text
    and its NUL do not fit. *)
Definition fmt_time (u : bytes) (v : N) : res bytes :=
  match gmtime_r (to_time_t v) with
  | None => Ok u
  | Some r => let s := strftime_text r in if (length s <? 32)%nat then Ok (u ++ s) else Ok u
  end.

(** ** Pieces *)

(** entry.c:62-68 fmt_uint64: [ret] bytes of a buffer of 27, which snprintf filled with
    at most 26 and a NUL. *)
Definition fmt_uint64 (lib : fmtlib) (u : bytes) (v : N) : res bytes :=
  let s := locale_uint64 lib v in
  let ret := length s in
  if (ret <=? 26)%nat then Ok (u ++ s)
  else if (ret <=? 27)%nat then Ok (u ++ firstn 26 s ++ [0])
  else UB.

(** entry.c:144-152 fmt_hex_str. *)
Definition fmt_hex_str (u s : bytes) : bytes :=
  u ++ flat_map (fun c => [hex_digit (c / 16); hex_digit (c mod 16)]) s.

(** entry.c:154-165 fmt_rrtype; the argument is a uint16_t. *)
Definition fmt_rrtype (lib : fmtlib) (u : bytes) (rrtype : N) : bytes :=
  let rrtype := rrtype mod u16 in
  match wdns_rrtype_to_str lib rrtype with
  | Some s => add_cstr u s
  | None => u ++ str "TYPE" ++ printf_u rrtype
  end.
(** entry.c:167-179 fmt_rrtype_json. *)
Definition fmt_rrtype_json (lib : fmtlib) (u : bytes) (rrtype : N) : bytes :=
  let rrtype := rrtype mod u16 in
  match wdns_rrtype_to_str lib rrtype with
  | Some s => json_str_append u s
  | None => append_json_value_string u (str "TYPE" ++ printf_u rrtype)
  end.

(** entry.c:191-197, 216-219, 404-414, 421-443: loops over an array, with a delimiter
    after all elements but the last. *)
Fixpoint fmt_list {A} (delim : bytes) (f : bytes -> A -> res bytes) (u : bytes) (l : list A) : res bytes :=
  match l with
  | [] => Ok u
  | a :: r => let* u := f u a in fmt_list delim f (match r with [] => u | _ => u ++ delim end) r
  end.

(** entry.c:181-202 fmt_rrtypes_union. *)
Definition fmt_rrtypes_union (lib : fmtlib) (u : bytes) (e : entry) : res bytes :=
  let u := u ++ str " RRtypes=[" in
  let* u := match e_rrtype_map e with
            | None => Ok u
            | Some m =>
                let* set := rrtype_union_unpack m in
                match set with
                | None => Ok (u ++ str "<failure>")
                | Some l => fmt_list (str " ") (fun u t => Ok (fmt_rrtype lib u t)) u l
                end
            end in
  Ok (u ++ str "] ").
(** entry.c:204-225 fmt_rrtypes_union_json. *)
Definition fmt_rrtypes_union_json (lib : fmtlib) (u : bytes) (e : entry) : res bytes :=
  let u := declare_json_value u (str "rrtypes") false in
  let u := u ++ str "[" in
  let* u := match e_rrtype_map e with
            | None => Ok u
            | Some m =>
                let* set := rrtype_union_unpack m in
                match set with
                | None => Ok (json_str_append u (str "<failure>"))
                | Some l => fmt_list (str ",") (fun u t => Ok (fmt_rrtype_json lib u t)) u l
                end
            end in
  Ok (u ++ str "]").

(** wdns_domain_to_str of a name field. *)
Definition domain_str (lib : fmtlib) (nm : option bytes) : res bytes :=
  match nm with Some n => Ok (wdns_domain_to_str lib n) | None => UB end.

(** entry.c:935-939 dnstable_entry_set_iszone. *)
Definition set_iszone (e : entry) (iszone : bool) : entry :=
  {| e_type := e_type e; e_name := e_name e; e_bailiwick := e_bailiwick e; e_rrtype := e_rrtype e;
     e_rdatas := e_rdatas e; e_rrtype_map := e_rrtype_map e; e_source_info := e_source_info e;
     e_time_first := e_time_first e; e_time_last := e_time_last e; e_count := e_count e;
     e_v_type := e_v_type e; e_version := e_version e; e_iszone := iszone |}.

Inductive date_format := DateUnix | DateRfc3339.
Inductive output_format := OutJson | OutText.

(** ** Text *)

(** entry.c:270-279, 287-296: one resource record. *)
Definition text_rr (lib : fmtlib) (name : bytes) (rrtype : N) (u : bytes) (rdata : bytes) : res bytes :=
  let data := wdns_rdata_to_str lib rdata (rrtype mod u16) in
  let u := add_cstr u name in
  let u := u ++ str " IN " in
  let u := fmt_rrtype lib u rrtype in
  let u := u ++ str " " in
  let u := add_cstr u data in
  Ok (u ++ [10]).

(** entry.c:227-332 dnstable_entry_to_text_fmt; [Ok None] is NULL, [Ok (Some s)] the C
    string s. *)
Definition dnstable_entry_to_text_fmt (lib : fmtlib) (e : entry) (date : date_format) : res (option bytes) :=
  let time := match date with DateUnix => fmt_time | DateRfc3339 => fmt_rfc3339_time end in
  let u := [] in
  let finish u := Ok (Some (cstr u)) in
  if e_type e =? ENTRY_TYPE_RRSET then
    let* name := domain_str lib (e_bailiwick e) in
    let u := u ++ str ";;  bailiwick: " in
    let u := add_cstr u name in
    let u := u ++ [10] ++ str ";;      count: " in
    let* u := fmt_uint64 lib u (e_count e) in
    let u := u ++ [10] ++ (if e_iszone e then str ";; first seen in zone file: " else str ";; first seen: ") in
    let* u := time u (e_time_first e) in
    let u := u ++ [10] ++ (if e_iszone e then str ";;  last seen in zone file: " else str ";;  last seen: ") in
    let* u := time u (e_time_last e) in
    let u := u ++ [10] in
    let* name := domain_str lib (e_name e) in
    let* u := fmt_list [] (text_rr lib name (e_rrtype e)) u (e_rdatas e) in
    finish u
  else if e_type e =? ENTRY_TYPE_RDATA then
    match e_rdatas e with
    | [rdata] =>
        let* name := domain_str lib (e_name e) in
        let* u := text_rr lib name (e_rrtype e) u rdata in
        finish u
    | _ => Ok None
    end
  else if e_type e =? ENTRY_TYPE_RRSET_NAME_FWD then
    let* name := domain_str lib (e_name e) in
    let* u := fmt_rrtypes_union lib (add_cstr u name) e in
    finish (u ++ str " ;; rrset name fwd" ++ [10])
  else if e_type e =? ENTRY_TYPE_RDATA_NAME_REV then
    let* name := domain_str lib (e_name e) in
    let* u := fmt_rrtypes_union lib (add_cstr u name) e in
    finish (u ++ str " ;; rdata name rev" ++ [10])
  else if e_type e =? ENTRY_TYPE_TIME_RANGE then
    let u := u ++ str ";; Earliest time_first: " in
    let* u := time u (e_time_first e) in
    let u := u ++ [10] ++ str ";; Latest time_last: " in
    let* u := time u (e_time_last e) in
    finish (u ++ [10])
  else if e_type e =? ENTRY_TYPE_SOURCE_INFO then
    let u := u ++ str ";; source info: " in
    let u := add_cstr u (name_bytes (e_source_info e)) in
    finish (u ++ [10])
  else if e_type e =? ENTRY_TYPE_VERSION then
    finish (u ++ str ";; Version type " ++
      (match entry_type_to_string (e_v_type e) with Some s => s | None => printf_u (e_v_type e) end) ++
      str ": " ++ printf_u (e_version e) ++ [10])
  else finish u.

(** ** JSON *)

(** entry.c:421-443: raw record data of an RRset, with the type appended; the buffer
    for the type has 3 bytes. *)
Definition json_raw_typed (rrtype : N) (u : bytes) (rdata : bytes) : res bytes :=
  let rbuf := fmt_hex_str [] rdata in
  let t := varint_encode32 rrtype in
  if (3 <? length t)%nat then UB
  else Ok (json_str_append u (fmt_hex_str rbuf t)).

(** entry.c:32 JSON_DECL_VALUE, with [first] for started == 0; entry.c:453-461. *)
Definition decl (u : bytes) (s : string) (first : bool) : bytes := declare_json_value u (str s) first.
Definition arr (always_array : bool) (c : string) (u : bytes) : bytes := if always_array then u ++ str c else u.
Arguments decl u s%string first.
Arguments arr always_array c%string u.

(** entry.c:340-518 dnstable_entry_to_json_fmt. *)
Definition dnstable_entry_to_json_fmt (lib : fmtlib) (e : entry) (date : date_format)
  (always_array add_raw_rdata : bool) : res (option bytes) :=
  let time := match date with DateUnix => append_json_value_int | DateRfc3339 => fmt_rfc3339_time_json end in
  let u := str "{" in
  let finish u := Ok (Some (cstr (u ++ str "}"))) in
  let* u :=
    if (e_type e =? ENTRY_TYPE_RRSET) || (e_type e =? ENTRY_TYPE_RDATA) then
      let u := decl u "count" true in
      let* u := append_json_value_int u (e_count e) in
      let u := decl u (if e_iszone e then "zone_time_first" else "time_first")%string false in
      let* u := time u (e_time_first e) in
      let u := decl u (if e_iszone e then "zone_time_last" else "time_last")%string false in
      let* u := time u (e_time_last e) in
      let u := decl u "rrname" false in
      let* name := domain_str lib (e_name e) in
      let u := json_str_append u name in
      let u := decl u "rrtype" false in
      Ok (fmt_rrtype_json lib u (e_rrtype e))
    else Ok u in
  if e_type e =? ENTRY_TYPE_RRSET then
    let u := decl u "bailiwick" false in
    let* name := domain_str lib (e_bailiwick e) in
    let u := json_str_append u name in
    let u := decl u "rdata" false in
    let u := u ++ str "[" in
    let* u := fmt_list (str ",") (fun u rdata => Ok (json_str_append u (wdns_rdata_to_str lib rdata (e_rrtype e mod u16)))) u (e_rdatas e) in
    let u := u ++ str "]" in
    let* u :=
      if add_raw_rdata then
        let u := decl u "rdata_raw" false in
        let u := u ++ str "[" in
        let* u := fmt_list (str ",") (json_raw_typed (e_rrtype e)) u (e_rdatas e) in
        Ok (u ++ str "]")
      else Ok u in
    finish u
  else if e_type e =? ENTRY_TYPE_RDATA then
    match e_rdatas e with
    | [rdata] =>
        let u := decl u "rdata" false in
        let u := arr always_array "[" u in
        let u := json_str_append u (wdns_rdata_to_str lib rdata (e_rrtype e mod u16)) in
        let u := arr always_array "]" u in
        let u :=
          if add_raw_rdata then
            let u := decl u "rdata_raw" false in
            let u := arr always_array "[" u in
            let u := json_str_append u (fmt_hex_str [] rdata) in
            arr always_array "]" u
          else u in
        finish u
    | _ => Ok None
    end
  else if e_type e =? ENTRY_TYPE_RRSET_NAME_FWD then
    let u := decl u "rrset_name" true in
    let* name := domain_str lib (e_name e) in
    let u := json_str_append u name in
    let* u := fmt_rrtypes_union_json lib u e in
    finish u
  else if e_type e =? ENTRY_TYPE_RDATA_NAME_REV then
    let u := decl u "rdata_name" true in
    let* name := domain_str lib (e_name e) in
    let u := json_str_append u name in
    let* u := fmt_rrtypes_union_json lib u e in
    finish u
  else if e_type e =? ENTRY_TYPE_TIME_RANGE then
    let u := decl u "time_first" true in
    let* u := time u (e_time_first e) in
    let u := decl u "time_last" false in
    let* u := time u (e_time_last e) in
    finish u
  else if e_type e =? ENTRY_TYPE_SOURCE_INFO then
    let u := decl u "source info" true in
    finish (json_str_append u (name_bytes (e_source_info e)))
  else if e_type e =? ENTRY_TYPE_VERSION then
    let vtype := match entry_type_to_string (e_v_type e) with
                 | Some s => s
                 | None => str "unknown-" ++ printf_u (e_v_type e mod 256)
                 end in
    let u := decl u "entry_type" true in
    let u := json_str_append u vtype in
    let u := decl u "version" false in
    let* u := append_json_value_int u (e_version e) in
    finish u
  else finish u.

(** entry.c:334-338, 521-525. *)
Definition dnstable_entry_to_text (lib : fmtlib) (e : entry) := dnstable_entry_to_text_fmt lib e DateUnix.
Definition dnstable_entry_to_json (lib : fmtlib) (e : entry) := dnstable_entry_to_json_fmt lib e DateUnix false false.

(** entry.c:51-56 struct dnstable_formatter, 527-590 its setters. *)
Record formatter := { fm_output : output_format; fm_date : date_format; fm_array : bool; fm_raw : bool }.
Definition dnstable_formatter_init : formatter :=
  {| fm_output := OutJson; fm_date := DateUnix; fm_array := false; fm_raw := false |}.
Definition set_output_format (f : formatter) (x : output_format) :=
  {| fm_output := x; fm_date := fm_date f; fm_array := fm_array f; fm_raw := fm_raw f |}.
Definition set_date_format (f : formatter) (x : date_format) :=
  {| fm_output := fm_output f; fm_date := x; fm_array := fm_array f; fm_raw := fm_raw f |}.
Definition set_rdata_array (f : formatter) (x : bool) :=
  {| fm_output := fm_output f; fm_date := fm_date f; fm_array := x; fm_raw := fm_raw f |}.
Definition set_raw_rdata (f : formatter) (x : bool) :=
  {| fm_output := fm_output f; fm_date := fm_date f; fm_array := fm_array f; fm_raw := x |}.
(** entry.c:592-603 dnstable_entry_format. *)
Definition dnstable_entry_format (lib : fmtlib) (f : formatter) (e : entry) : res (option bytes) :=
  match fm_output f with
  | OutJson => dnstable_entry_to_json_fmt lib e (fm_date f) (fm_array f) (fm_raw f)
  | OutText => dnstable_entry_to_text_fmt lib e (fm_date f)
  end.

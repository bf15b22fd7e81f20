(** The JSON objects the library documents for its entries (dnstable_entry(3),
    dnstable_dump(1)), as members of an object.  Definitions only. *)
From Verif Require Import Str ModelEntry SpecMerge SpecUnion SpecName SpecEntry PropsEntry SpecQuery ModelNames ModelFormat SpecFormat.

(** libwdns hands out C strings. *)
Definition c_strings (lib : fmtlib) : Prop :=
  (forall n, ~ In 0 (wdns_domain_to_str lib n)) /\ (forall r t, ~ In 0 (wdns_rdata_to_str lib r t)) /\
  (forall t s, wdns_rrtype_to_str lib t = Some s -> ~ In 0 s).

(** The mnemonic of a type, or TYPEnnn (RFC 3597 section 5). *)
Definition type_text (lib : fmtlib) (ty : N) (s : bytes) : Prop :=
  match wdns_rrtype_to_str lib ty with
  | Some m => s = m
  | None => exists d, decimal ty d /\ s = str "TYPE" ++ d
  end.

(** A time, in the format asked for. *)
Definition time_value (date : date_format) (v : N) (j : jv) : Prop :=
  match date with
  | DateUnix => j = JNum v
  | DateRfc3339 => exists s, rfc3339 s v /\ j = JStr s
  end.
(** The times that can be shown: RFC 3339 has years of four digits. *)
Definition time_shown (date : date_format) (v : N) : Prop :=
  match date with DateUnix => True | DateRfc3339 => v < 253402300800 end.

Definition zone_prefix (zone : bool) (s : bytes) : bytes := if zone then str "zone_" ++ s else s.

(** The members common to RRsets and record data: count, times, owner, type. *)
Definition common_members (lib : fmtlib) (date : date_format) (zone : bool) (ow : list bytes) (ty : N) (o : obs)
  (m : list (bytes * jv)) : Prop :=
  exists tf tl t, time_value date (o_first o) tf /\ time_value date (seen_last o) tl /\ type_text lib ty t /\
    m = [(str "count", JNum (seen_count o));
         (zone_prefix zone (str "time_first"), tf);
         (zone_prefix zone (str "time_last"), tl);
         (str "rrname", JStr (wdns_domain_to_str lib (wire ow)));
         (str "rrtype", JStr t)].

(** One value, in an array when that is asked for. *)
Definition one (array : bool) (v : jv) : jv := if array then JArr [v] else v.

(** The object for a record.  Raw record data is in hexadecimal; for RRsets, it is
    followed by the type as a varint. *)
Definition record_members (lib : fmtlib) (date : date_format) (array raw zone : bool) (r : record)
  (m : list (bytes * jv)) : Prop :=
  match r with
  | RRset ow ty bw rs o =>
      exists c x, common_members lib date zone ow ty o c /\
        Forall2 (fun r h => exists t, leb128 ty t /\ hex_of (r ++ t) h) rs x /\
        m = c ++ [(str "bailiwick", JStr (wdns_domain_to_str lib (wire bw)));
                  (str "rdata", JArr (map (fun r => JStr (wdns_rdata_to_str lib r ty)) rs))] ++
            (if raw then [(str "rdata_raw", JArr (map JStr x))] else [])
  | RData ow ty head tail o =>
      exists c x, common_members lib date zone ow ty o c /\ hex_of (head ++ tail) x /\
        m = c ++ [(str "rdata", one array (JStr (wdns_rdata_to_str lib (head ++ tail) ty)))] ++
            (if raw then [(str "rdata_raw", one array (JStr x))] else [])
  | _ => False
  end.

(** The object for an index entry of the name [n] with the types [types]. *)
Definition index_members (lib : fmtlib) (key : bytes) (n : bytes) (types : list N) (m : list (bytes * jv)) : Prop :=
  exists ts, Forall2 (type_text lib) types ts /\
    m = [(key, JStr (wdns_domain_to_str lib n)); (str "rrtypes", JArr (map JStr ts))].

(** The name of the entry type a version is about, or its number. *)
Definition version_type_text (t : N) (s : bytes) : Prop :=
  match entry_type_to_string t with
  | Some n => s = n
  | None => exists d, decimal t d /\ s = str "unknown-" ++ d
  end.

(** The result is the text of the object with the members [m], on one line. *)
Definition prints_object (r : res (option bytes)) (m : list (bytes * jv)) : Prop :=
  exists s, r = Ok (Some s) /\ json (JObj m) s /\ one_line s.

(** libwdns's strings are UTF-8 (they are ASCII). *)
Definition utf8_strings (lib : fmtlib) : Prop :=
  (forall n, utf8 (wdns_domain_to_str lib n)) /\ (forall r t, utf8 (wdns_rdata_to_str lib r t)) /\
  (forall t s, wdns_rrtype_to_str lib t = Some s -> utf8 s).

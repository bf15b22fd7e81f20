(** The text output of entries, as lines.  Definitions only. *)
From Verif Require Import Str ModelEntry SpecMerge SpecUnion SpecName SpecEntry PropsEntry SpecQuery ModelNames ModelFormat SpecFormat SpecJson.

(** Text made of the given lines. *)
Definition lines (l : list bytes) : bytes := flat_map (fun x => x ++ [10]) l.

(** [s] is "YYYY-MM-DD hh:mm:ss -0000" for the second [v] since 1970. *)
Definition plain_time (s : bytes) (v : N) : Prop :=
  exists y mo d h mi se ty tmo td th tmi tse,
    1970 <= y /\ 1 <= mo <= 12 /\ 1 <= d <= nth (N.to_nat (mo - 1)) (month_lengths y) 0 /\
    h < 24 /\ mi < 60 /\ se < 60 /\
    decimal y ty /\ padded 2 mo tmo /\ padded 2 d td /\ padded 2 h th /\ padded 2 mi tmi /\ padded 2 se tse /\
    s = ty ++ str "-" ++ tmo ++ str "-" ++ td ++ str " " ++ th ++ str ":" ++ tmi ++ str ":" ++ tse ++ str " -0000" /\
    v = 86400 * days_to y mo d + 3600 * h + 60 * mi + se.

Definition text_time (date : date_format) (v : N) (s : bytes) : Prop :=
  match date with DateUnix => plain_time s v | DateRfc3339 => rfc3339 s v end.
(** The times that can be shown: up to the last year that fits in an int, or the last one
    of RFC 3339. *)
Definition text_shown (date : date_format) (v : N) : Prop :=
  match date with DateUnix => v < 67767976233532800 | DateRfc3339 => v < 253402300800 end.

(** A count as the locale groups its digits; the program has room for 26 bytes. *)
Definition count_shown (lib : fmtlib) (n : N) : Prop :=
  ~ In 0 (locale_uint64 lib n) /\ (length (locale_uint64 lib n) <= 26)%nat.

Definition seen_in (zone : bool) : bytes := if zone then str " in zone file: " else str ": ".

(** A resource record. *)
Definition rr_line (lib : fmtlib) (ow : bytes) (ty : N) (t : bytes) (rdata : bytes) : bytes :=
  wdns_domain_to_str lib ow ++ str " IN " ++ t ++ str " " ++ wdns_rdata_to_str lib rdata ty.

Definition record_lines (lib : fmtlib) (date : date_format) (zone : bool) (r : record) (ls : list bytes) : Prop :=
  match r with
  | RRset ow ty bw rs o =>
      exists tf tl t, text_time date (o_first o) tf /\ text_time date (seen_last o) tl /\ type_text lib ty t /\
        ls = [str ";;  bailiwick: " ++ wdns_domain_to_str lib (wire bw);
              str ";;      count: " ++ locale_uint64 lib (seen_count o);
              str ";; first seen" ++ seen_in zone ++ tf;
              str ";;  last seen" ++ seen_in zone ++ tl] ++
             map (rr_line lib (wire ow) ty t) rs
  | RData ow ty head tail o =>
      exists t, type_text lib ty t /\ ls = [rr_line lib (wire ow) ty t (head ++ tail)]
  | _ => False
  end.

(** Strings with spaces between them. *)
Fixpoint spaced (l : list bytes) : bytes :=
  match l with [] => [] | [a] => a | a :: r => a ++ str " " ++ spaced r end.

Definition index_line (lib : fmtlib) (what : bytes) (n : bytes) (types : list N) (s : bytes) : Prop :=
  exists ts, Forall2 (type_text lib) types ts /\
    s = wdns_domain_to_str lib n ++ str " RRtypes=[" ++ spaced ts ++ str "]  ;; " ++ what.

Definition version_text (t : N) (s : bytes) : Prop :=
  match entry_type_to_string t with Some n => s = n | None => decimal t s end.

(** The result is the text of the lines [ls]. *)
Definition prints_lines (r : res (option bytes)) (ls : list bytes) : Prop := r = Ok (Some (lines ls)).

(** libwdns's and the locale's strings have no line breaks. *)
Definition one_line_strings (lib : fmtlib) : Prop :=
  (forall n, ~ In 10 (wdns_domain_to_str lib n)) /\ (forall r t, ~ In 10 (wdns_rdata_to_str lib r t)) /\
  (forall t s, wdns_rrtype_to_str lib t = Some s -> ~ In 10 s) /\ (forall n, ~ In 10 (locale_uint64 lib n)).

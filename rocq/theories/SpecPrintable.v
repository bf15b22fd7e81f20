(** Which entries can be printed.  Definitions only. *)
From Verif Require Import Str ModelEntry ModelFormat SpecFormat SpecJson SpecText SpecTimes PropsEntry.

(** The times that RFC 3339 output goes through without harm: from the year -2147481748,
    the first that fits in struct tm, up to the end of the year 2147483647. *)
Definition in_years (v : N) : Prop := (-67768040609740800 <= instant v < 67767976233532800)%Z.

(** The times whose year fits in struct tm: 1900 years more. *)
Definition in_struct_tm (v : N) : Prop := (-67768040609740800 <= instant v < 67768036191676800)%Z.

(** A time as JSON output shows it: a number, or its date with four digits of the year. *)
Definition time_member (date : date_format) (v : N) (j : jv) : Prop :=
  match date with
  | DateUnix => j = JNum v
  | DateRfc3339 => exists y mo d h mi se s, falls_on (instant v) y mo d h mi se /\ stamp (four_digits y) mo d h mi se (str "T") (str "Z") s /\ j = JStr s
  end.

(** A decoded entry with the first byte [k] in its key: its type is known, its times
    are in the years above if they are shown as dates, and the stored type of an RRset
    with record data has at most three digits in base 128 if raw data is asked for. *)
Definition json_printable (date : date_format) (raw : bool) (k : N) (e : entry) : Prop :=
  known_type k /\
  (date = DateRfc3339 -> forall v, get_time_first e = Ok v \/ get_time_last e = Ok v -> in_years v) /\
  (raw = true -> k = ENTRY_TYPE_RRSET -> e_rdatas e <> [] -> e_rrtype e < 128 * 128 * 128).

(** A time as text output shows it.  The dates of the years 2147483648 to 2147485547 are
    left open. *)
Definition time_text (date : date_format) (v : N) (s : bytes) : Prop :=
  exists y mo d h mi se, falls_on (instant v) y mo d h mi se /\
  match date with
  | DateUnix => ((y < -2147481748 \/ 2147485547 < y \/ y <= -1000000000)%Z -> s = []) /\
                ((-1000000000 < y <= 2147483647)%Z -> stamp (signed_year y) mo d h mi se (str " ") (str " -0000") s)
  | DateRfc3339 => stamp (four_digits y) mo d h mi se (str "T") (str "Z") s
  end.

(** Text output shows times of RRsets and time ranges, and counts of RRsets. *)
Definition text_printable (lib : fmtlib) (date : date_format) (k : N) (e : entry) : Prop :=
  known_type k /\
  (date = DateRfc3339 -> k <> ENTRY_TYPE_RDATA -> forall v, get_time_first e = Ok v \/ get_time_last e = Ok v -> in_years v) /\
  (k = ENTRY_TYPE_RRSET -> (length (locale_uint64 lib (e_count e)) <= 26)%nat).

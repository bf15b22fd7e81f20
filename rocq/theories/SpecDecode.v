(** What dnstable_entry_decode makes of arbitrary bytes.  Definitions only. *)
From Verif Require Import Base SpecMerge SpecName SpecEntry ModelEntry.

(** ** Numbers *)

(** The value of base 128 digits, lowest first; the top bit of a byte does not count. *)
Fixpoint base128 (l : bytes) : N := match l with [] => 0 | b :: r => b mod 128 + 128 * base128 r end.

(** Where a number of up to [max] bytes is read there is one that ends, or [max] bytes
    that all announce another one, or the data end before the number does. *)
Definition announcing (l : bytes) : Prop := Forall (fun b => 128 <= b) l.
Definition finished (max : nat) (enc : bytes) : Prop :=
  exists init last, enc = init ++ [last] /\ announcing init /\ last < 128 /\ (length enc <= max)%nat.
Definition overlong (max : nat) (l : bytes) : Prop := exists a b, l = a ++ b /\ length a = max /\ announcing a.
Definition cut (max : nat) (l : bytes) : Prop := announcing l /\ (length l < max)%nat.

(** ** Names and arrays of record data *)

(** A name of the DNS, in order or with its labels reversed, that is [wire] of it. *)
Inductive item : bytes -> bytes -> bytes -> Prop :=
| item_counted : forall enc data rest, finished 5 enc -> base128 enc mod u32 = blen data -> blen data <= 65535 ->
    item (enc ++ data ++ rest) data rest
  (** A length that does not end counts for its first digit, and is itself the data. *)
| item_overlong : forall data rest, overlong 5 (data ++ rest) -> data <> [] -> hd 0 data = 128 + blen data ->
    item (data ++ rest) data rest.
Inductive items : bytes -> list bytes -> bytes -> Prop :=
| items_none : forall l, items l [] l
| items_more : forall l d l' ds rest, item l d l' -> items l' ds rest -> items l (d :: ds) rest.

(** A length that does not end and whose first digit is 0: nothing is taken, and the next
    length is read at the same place. *)
Definition endless (l : bytes) : Prop := overlong 5 l /\ hd 0 l = 128.

(** ** Keys *)

(** The part of an RRset key before the record data. *)
Inductive rrset_front : bytes -> list bytes -> N -> list bytes -> bytes -> Prop :=
| front_intro : forall owner t bw rest, name_ok owner -> name_ok bw -> finished 5 t ->
    rrset_front (rwire owner ++ t ++ rwire bw ++ rest) owner (base128 t mod u32) bw rest.

(** An RData key: data, type, owner, the first part of the data, and the length of the
    second. *)
Inductive rdata_parts : bytes -> list bytes -> N -> bytes -> Prop :=
| parts_intro : forall tail t owner slice, finished 5 t -> name_ok owner -> blen tail < 65536 ->
    rdata_parts (tail ++ t ++ rwire owner ++ slice ++ enc_le16 (blen tail)) owner (base128 t mod u32)
      (firstn (N.to_nat (blen (slice ++ tail) mod 65536)) (slice ++ tail)).

(** Labels without the limits of the DNS. *)
Definition long_labels (ls : list bytes) : Prop := Forall (fun l => (1 <= length l)%nat) ls.

(** ** Values *)

Inductive numbers : list N -> bytes -> Prop :=
| numbers_none : numbers [] []
| numbers_more : forall enc ns l, finished 10 enc -> numbers ns l -> numbers (base128 enc mod u64 :: ns) (enc ++ l).

(** Fewer than [n] numbers, and then one that does not end before the value does. *)
Inductive short : nat -> bytes -> Prop :=
| short_now : forall n l, cut 10 l -> short (S n) l
| short_later : forall n enc l, finished 10 enc -> short n l -> short (S n) (enc ++ l).

(** ** What is decoded *)

Inductive content : Type :=
| CRrset (owner : list bytes) (rrtype : N) (bailiwick : list bytes) (rdatas : list bytes) (first last count : N)
| CRrsetName (name : bytes) (types : bytes)
| CRdata (owner : list bytes) (rrtype : N) (rdata : bytes) (first last count : N)
| CRdataName (name : list bytes) (types : bytes)
| CTimeRange (first last : N)
| CSourceInfo (text : bytes)
| CVersion (type version : N)
| CUnknown.

Inductive holds : bytes -> bytes -> content -> Prop :=
| holds_rrset : forall buf owner ty bw rest ds val f l c, rrset_front buf owner ty bw rest -> items rest ds [] -> numbers [f; l; c] val ->
    holds (ENTRY_TYPE_RRSET :: buf) val (CRrset owner ty bw ds f l c)
| holds_rrset_name : forall buf val, holds (ENTRY_TYPE_RRSET_NAME_FWD :: buf) val (CRrsetName buf val)
| holds_rdata : forall buf owner ty data val f l c, rdata_parts buf owner ty data -> numbers [f; l; c] val ->
    holds (ENTRY_TYPE_RDATA :: buf) val (CRdata owner ty data f l c)
| holds_rdata_name : forall ls val, long_labels ls -> holds (ENTRY_TYPE_RDATA_NAME_REV :: rwire ls) val (CRdataName ls val)
| holds_time_range : forall buf val f l, numbers [f; l] val -> holds (ENTRY_TYPE_TIME_RANGE :: buf) val (CTimeRange f l)
| holds_source_info : forall buf val, holds (ENTRY_TYPE_SOURCE_INFO :: buf) val (CSourceInfo buf)
| holds_version : forall t enc, finished 5 enc -> holds [ENTRY_TYPE_VERSION; t] enc (CVersion t (base128 enc mod u32))
| holds_unknown : forall k buf val, ~ In k [ENTRY_TYPE_RRSET; ENTRY_TYPE_RRSET_NAME_FWD; ENTRY_TYPE_RDATA; ENTRY_TYPE_RDATA_NAME_REV;
    ENTRY_TYPE_TIME_RANGE; ENTRY_TYPE_SOURCE_INFO; ENTRY_TYPE_VERSION] -> holds (k :: buf) val CUnknown.

(** What the accessors report of an entry. *)
Definition tells (e : entry) (c : content) : Prop :=
  match c with
  | CRrset owner ty bw ds f l n =>
      get_type e = ENTRY_TYPE_RRSET /\ get_rrname e = Ok (wire owner) /\ get_rrtype e = Ok (ty mod 65536) /\
      get_bailiwick e = Ok (wire bw) /\ get_num_rdata e = Ok (N.of_nat (length ds)) /\
      (forall i d, nth_error ds i = Some d -> get_rdata e (N.of_nat i) = Ok d) /\
      get_time_first e = Ok f /\ get_time_last e = Ok (if l =? 0 then f else l) /\ get_count e = Ok (if n =? 0 then 1 else n)
  | CRrsetName name types => get_type e = ENTRY_TYPE_RRSET_NAME_FWD /\ get_rrname e = Ok name /\ e_rrtype_map e = opt_map types
  | CRdata owner ty d f l n =>
      get_type e = ENTRY_TYPE_RDATA /\ get_rrname e = Ok (wire owner) /\ get_rrtype e = Ok (ty mod 65536) /\
      get_num_rdata e = Ok 1 /\ get_rdata e 0 = Ok d /\
      get_time_first e = Ok f /\ get_time_last e = Ok (if l =? 0 then f else l) /\ get_count e = Ok (if n =? 0 then 1 else n)
  | CRdataName name types => get_type e = ENTRY_TYPE_RDATA_NAME_REV /\ get_rdata_name e = Ok (wire name) /\ e_rrtype_map e = opt_map types
  | CTimeRange f l => get_type e = ENTRY_TYPE_TIME_RANGE /\ get_time_first e = Ok f /\ get_time_last e = Ok l
  | CSourceInfo s => get_type e = ENTRY_TYPE_SOURCE_INFO /\ get_source_info e = Ok (cstr s)
  | CVersion t n => get_type e = ENTRY_TYPE_VERSION /\ get_version_type e = Ok t /\ get_version e = Ok n
  | CUnknown => e = entry0
  end.

(** ** Reads outside the key or the value *)

Inductive overread : bytes -> bytes -> Prop :=
| over_rrset_type : forall owner l val, name_ok owner -> cut 5 l -> overread (ENTRY_TYPE_RRSET :: rwire owner ++ l) val
| over_rrset_length : forall buf owner ty bw rest ds l val, rrset_front buf owner ty bw rest -> items rest ds l -> l <> [] -> cut 5 l ->
    overread (ENTRY_TYPE_RRSET :: buf) val
| over_rrset_value : forall buf owner ty bw rest ds val, rrset_front buf owner ty bw rest -> items rest ds [] -> short 3 val ->
    overread (ENTRY_TYPE_RRSET :: buf) val
| over_rdata_type : forall tail l val, cut 5 (l ++ enc_le16 (blen tail)) -> blen tail < 65536 ->
    overread (ENTRY_TYPE_RDATA :: tail ++ l ++ enc_le16 (blen tail)) val
| over_rdata_value : forall buf owner ty data val, rdata_parts buf owner ty data -> short 3 val -> overread (ENTRY_TYPE_RDATA :: buf) val
  (** Reversing a name: nothing there, no root label at the end, or one before it. *)
| over_name_open : forall ls val, long_labels ls -> overread (ENTRY_TYPE_RDATA_NAME_REV :: enc_labels ls) val
| over_name_early : forall ls rest val, long_labels ls -> rest <> [] -> overread (ENTRY_TYPE_RDATA_NAME_REV :: wire ls ++ rest) val
| over_time_range : forall buf val, short 2 val -> overread (ENTRY_TYPE_TIME_RANGE :: buf) val
| over_version : forall t val, val <> [] -> cut 5 val -> overread [ENTRY_TYPE_VERSION; t] val.

(** Keys that keep the decoder busy for ever. *)
Inductive unending : bytes -> Prop :=
| unending_intro : forall buf owner ty bw rest ds l, rrset_front buf owner ty bw rest -> items rest ds l -> endless l ->
    unending (ENTRY_TYPE_RRSET :: buf).

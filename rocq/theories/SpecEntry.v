(** Documented key encodings, dnstable-encoding(5). *)
From Verif Require Import Base SpecMerge SpecName.

(** "An array of ... record data values.  Each ... preceded by its length,
    encoded as a variable-width integer." *)
Inductive rdata_array : list bytes -> bytes -> Prop :=
| ra_nil : rdata_array [] []
| ra_cons : forall r rs len l, blen r <= 65535 -> leb128 (blen r) len ->
    rdata_array rs l -> rdata_array (r :: rs) (len ++ r ++ l).

Definition rrset_key (owner : list bytes) (rrtype : N) (bailiwick : list bytes) (rdatas : list bytes)
  (key : bytes) : Prop :=
  exists t rd, leb128 rrtype t /\ rdata_array rdatas rd /\
    key = ENTRY_TYPE_RRSET :: rwire owner ++ t ++ rwire bailiwick ++ rd.

(** 16 bit little-endian. *)
Definition enc_le16 (n : N) : bytes := [n mod 256; n / 256].

(** [head] is the initial data slice, empty for an un-sliced record; the record
    data is [head ++ tail]. *)
Definition rdata_key (owner : list bytes) (rrtype : N) (head tail : bytes) (key : bytes) : Prop :=
  exists t, leb128 rrtype t /\
    key = ENTRY_TYPE_RDATA :: tail ++ t ++ rwire owner ++ head ++ enc_le16 (blen tail).

Definition rrset_name_key (owner : list bytes) : bytes := ENTRY_TYPE_RRSET_NAME_FWD :: wire owner.
Definition rdata_name_key (name : list bytes) : bytes := ENTRY_TYPE_RDATA_NAME_REV :: rwire name.

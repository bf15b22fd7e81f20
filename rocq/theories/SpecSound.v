(** What every entry a query returns satisfies, whatever is in the file.  Definitions only. *)
From Verif Require Import Base SpecName SpecEntry SpecDecode SpecQuery SpecLookup SpecReader ModelQuery ModelMerge ModelIter ModelFileset SpecFileset.

(** The four time bounds, on stored times. *)
Definition bounds_kept (q : query) (first last : N) : Prop :=
  (q_do_tfa q = true -> q_tfa q <= first) /\ (q_do_tfb q = true -> first <= q_tfb q) /\
  (q_do_tla q = true -> q_tla q <= last) /\ (q_do_tlb q = true -> last <= q_tlb q).

(** The bytes start with a name the pattern stands for; with a "*" at its end, with the
    labels in front of it, and with a "+", with these, one label and the root label. *)
Inductive opens : list bytes -> bytes -> Prop :=
| opens_itself : forall n rest, not_left_wild n -> not_right_wild n -> opens n (wire n ++ rest)
| opens_below : forall c x y rest, c = star_sign \/ c = plus_sign -> not_right_wild ([c] :: x) -> (c = plus_sign -> length y = 1%nat) ->
    opens ([c] :: x) (wire (y ++ x) ++ rest)
| opens_after : forall c x rest, c = star_sign \/ c = plus_sign ->
    (c = plus_sign -> exists l more, l <> [] /\ rest = wire [l] ++ more) -> opens (x ++ [[c]]) (enc_labels x ++ rest).

(** Queries whose name, type and bailiwick are ones. *)
Record well_posed (q : query) : Prop := {
  wp_name : q_type q = QRrset -> exists name, asks_name q name /\ one_sided name;
  wp_bailiwick : q_type q = QRrset -> exists bw, asks_bailiwick q bw;
  wp_type : q_do_rrtype q = true -> q_rrtype q < 65536
}.

(** The stored entry with key [k] and content [c] is one the query asks for. *)
Definition asked (q : query) (k : bytes) (c : content) : Prop :=
  match q_type q, c with
  | QRrset, CRrset owner ty bw _ f l _ =>
      (forall name, asks_name q name -> one_sided name -> fits name owner) /\ type_ok q ty /\
      (forall b, asks_bailiwick q (Some b) -> bw = b) /\ bounds_kept q f l
  | QRdataName, CRdata _ ty _ f l _ =>
      (forall name, asks_name q name -> one_sided name -> exists buf, k = ENTRY_TYPE_RDATA :: buf /\ opens name buf) /\
      type_ok q ty /\ (q_do_rrtype q = false -> bears_name ty) /\ bounds_kept q f l
  | QRdataIp, CRdata _ ty _ f l _ => q_do_rrtype q = true /\ ty = q_rrtype q /\ bounds_kept q f l
  | QRdataRaw, CRdata _ ty _ f l _ =>
      (forall raw, q_rdata q = Some raw -> q_len_rdata q = blen raw -> exists rest, k = ENTRY_TYPE_RDATA :: raw ++ rest) /\
      type_ok q ty /\ bounds_kept q f l
  | QTimeRange, CTimeRange _ _ => no_bounds q
  | QSourceInfo, CSourceInfo _ => True
  | QVersion, CVersion ty _ => (q_has_v_type q = true -> ty = q_v_type q) /\ no_bounds q
  | _, _ => False
  end.

(** What libmtbl delivers of files that may hold anything: values some of which were merged,
    in some order and grouping, and without a merge function the stored ones. *)
Definition stored_under (files : list table) (k v : bytes) : Prop := exists f, In f files /\ In (k, v) f.
Definition delivers (lib : libmtbl) (files : list table) : Prop :=
  forall part, incl part files ->
    (forall k v, In (k, v) (lib_merged lib part) -> exists tr, Forall (stored_under part k) (mleaves tr) /\ meval k tr = Ok v) /\
    (forall k v, In (k, v) (lib_unmerged lib part) -> stored_under part k v).

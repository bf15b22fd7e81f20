(** Properties C45, C46, C47, C49: JSON and RFC 3339 output. *)
From Coq Require Import Lia Sorted.
From Verif Require Import Str BaseFacts ModelVarint ModelUnion ModelEntry ModelNames ModelFormat SpecFormat.
From Verif Require Import SpecName NameFacts SpecMerge SpecUnion SpecEntry MergeProofs EntryProofs UnionMerge PropsEntry PropsUnion FilterProofs.
From Verif Require Import ModelIter SpecQuery SpecJson TextProofs CalendarProofs TimeProofs JsonProofs JsonSyntax Demo.

(** ** C45 *)

(** The JSON string emitted for [s]: RFC 8259 reads it back as [s], and it has no
    raw control character; raw quotes and backslashes are excluded by the grammar. *)
Theorem json_string_lossless : forall u s, exists t, append_json_value_string u s = u ++ t /\ json_string s t /\ one_line t.
Proof.
  intros u s. exists (34 :: flat_map esc1 s ++ [34]). split; [apply json_value_string_ok|].
  pose proof (esc_string s) as H. split; [exact H|]. exact (json_string_one_line _ _ H).
Qed.
Print Assumptions json_string_lossless.

(** A JSON string stands for one byte string only. *)
Theorem json_string_unescapes_uniquely : forall s s' t, json_string s t -> json_string s' t -> s = s'.
Proof.
  intros s s' t H H'. destruct (string_prefix s t s' t [] [] H H' eq_refl) as (E & _). exact E.
Qed.
Print Assumptions json_string_unescapes_uniquely.

Example c45_case : append_json_value_string (str "x:") [97; 34; 92; 10; 27; 255] =
  str "x:" ++ [34; 97; 92; 34; 92; 92; 92; 110; 92; 117; 48; 48; 49; 98; 255; 34].
Proof. vm_compute. reflexivity. Qed.

(** ** C46 *)

(** Whatever the 32 bytes of the buffer hold, no store is outside it, and the digits
    followed by a NUL are the decimal representation. *)
Theorem json_number_decimal : forall n buf, n < u64 -> length buf = 32%nat ->
  exists s k, vnum_to_str n buf = Ok (s, k) /\ length s = 32%nat /\ (k <= 20)%nat /\ nth_error s k = Some 0 /\ decimal n (firstn k s).
Proof.
  intros n buf H HL. destruct (vnum_ok n buf H HL) as (k & R & HK & D).
  eexists _, _. split; [exact R|]. rewrite app_length. cbn [length]. rewrite skipn_length, digits_length.
  split; [lia|]. split; [exact HK|]. split.
  - rewrite nth_error_app2 by (rewrite digits_length; lia). rewrite digits_length, Nat.sub_diag. reflexivity.
  - rewrite firstn_app, digits_length, Nat.sub_diag, firstn_O, app_nil_r, firstn_all2 by (rewrite digits_length; lia). exact D.
Qed.
Print Assumptions json_number_decimal.

Theorem decimal_representation_unique : forall n s s', decimal n s -> decimal n s' -> s = s'.
Proof. exact decimal_unique. Qed.
Print Assumptions decimal_representation_unique.

Example c46_case : append_json_value_int [] 18446744073709551615 = Ok (str "18446744073709551615") /\
  append_json_value_int [] 0 = Ok (str "0").
Proof. split; vm_compute; reflexivity. Qed.

(** ** C49 *)

(** Up to 9999-12-31T23:59:59Z, which RFC 3339 ends with. *)
Theorem rfc3339_same_second_partial : forall u v, v < 253402300800 ->
  exists s, fmt_rfc3339_time u v = Ok (u ++ s) /\ rfc3339 s v.
Proof.
  intros u v H. destruct (rfc3339_ts_ok v H) as (s & E & R & _). exists s. unfold fmt_rfc3339_time. rewrite E. split; [reflexivity|exact R].
Qed.
Print Assumptions rfc3339_same_second_partial.

(** A timestamp denotes one second only. *)
Theorem rfc3339_denotes_one_second : forall s v v', rfc3339 s v -> rfc3339 s v' -> v = v'.
Proof.
  assert (A : forall (a b c d : bytes), length a = length b -> a ++ c = b ++ d -> a = b /\ c = d).
  { induction a as [|x a IH]; intros [|y b] c d L E; try discriminate; cbn [app length] in *; [auto|].
    injection L as L. injection E as -> E. destruct (IH b c d L E) as [-> ->]. auto. }
  intros s v v'
    (y & mo & d & h & mi & se & ty & tmo & td & th & tmi & tse & _ & _ & _ & _ & _ & _ & (_ & L1 & V1) & (_ & L2 & V2) & (_ & L3 & V3) & (_ & L4 & V4) & (_ & L5 & V5) & (_ & L6 & V6) & E & ->)
    (y' & mo' & d' & h' & mi' & se' & ty' & tmo' & td' & th' & tmi' & tse' & _ & _ & _ & _ & _ & _ & (_ & L1' & V1') & (_ & L2' & V2') & (_ & L3' & V3') & (_ & L4' & V4') & (_ & L5' & V5') & (_ & L6' & V6') & E' & ->).
  rewrite E in E'. clear E.
  apply A in E'; [|congruence]. destruct E' as [-> E']. apply A in E'; [|reflexivity]. destruct E' as [_ E'].
  apply A in E'; [|congruence]. destruct E' as [-> E']. apply A in E'; [|reflexivity]. destruct E' as [_ E'].
  apply A in E'; [|congruence]. destruct E' as [-> E']. apply A in E'; [|reflexivity]. destruct E' as [_ E'].
  apply A in E'; [|congruence]. destruct E' as [-> E']. apply A in E'; [|reflexivity]. destruct E' as [_ E'].
  apply A in E'; [|congruence]. destruct E' as [-> E']. apply A in E'; [|reflexivity]. destruct E' as [_ E'].
  apply A in E'; [|congruence]. destruct E' as [-> _].
  congruence.
Qed.
Print Assumptions rfc3339_denotes_one_second.

(** Later years are cut to four digits, the ones that do not fit in an int make the
    library abort, and just before that the addition of 1900 overflows. *)
Theorem rfc3339_year_10000_refuted : exists v s, v < u64 /\ fmt_rfc3339_time [] v = Ok s /\ forall v', rfc3339 s v' -> v' <> v.
Proof.
  exists 253402300800, (str "0000-01-01T00:00:00Z"). split; [reflexivity|]. split; [vm_compute; reflexivity|].
  intros v' (y & mo & d & h & mi & se & ty & tmo & td & th & tmi & tse & Hy & _ & _ & _ & _ & _ & (_ & L1 & V1) & _ & _ & _ & _ & _ & E & _) _.
  destruct ty as [|a [|b [|c [|e [|]]]]]; try discriminate L1. cbn [app] in E.
  assert (a = 48 /\ b = 48 /\ c = 48 /\ e = 48) as (-> & -> & -> & ->).
  { change (str "0000-01-01T00:00:00Z") with (48 :: 48 :: 48 :: 48 :: str "-01-01T00:00:00Z") in E. injection E as <- <- <- <- _. auto. }
  change (decimal_value [48; 48; 48; 48]) with 0 in V1. lia.
Qed.
Print Assumptions rfc3339_year_10000_refuted.

Theorem rfc3339_huge_time_refuted : exists v v', v < u64 /\ v' < u64 /\ fmt_rfc3339_time [] v = Abort /\ fmt_rfc3339_time [] v' = UB.
Proof.
  exists 9223372036854775807, 67768036191676799. repeat split; vm_compute; reflexivity.
Qed.
Print Assumptions rfc3339_huge_time_refuted.

Example c49_case : fmt_rfc3339_time [] 951782399 = Ok (str "2000-02-28T23:59:59Z") /\
  fmt_rfc3339_time [] 951782400 = Ok (str "2000-02-29T00:00:00Z") /\
  fmt_rfc3339_time [] 253402300799 = Ok (str "9999-12-31T23:59:59Z").
Proof. repeat split; vm_compute; reflexivity. Qed.

(** ** C47 *)

Lemma bytes_ok_rdatas : forall rs l, rdata_array rs l -> bytes_ok l -> Forall bytes_ok rs.
Proof.
  intros rs l H. induction H as [|r rs len l HL HB _ IH]; intro B; [constructor|].
  apply bytes_ok_app in B. destruct B as [_ B]. apply bytes_ok_app in B. destruct B as [B1 B2]. constructor; [exact B1|apply IH; exact B2].
Qed.

Lemma seen_last_bound : forall o, obs_ok o -> seen_last o < u64.
Proof. intros o (H1 & H2 & _). unfold seen_last. destruct (o_last o =? 0); assumption. Qed.
Lemma seen_count_bound : forall o, obs_ok o -> seen_count o < u64.
Proof. intros o (_ & _ & H). unfold seen_count. destruct (o_count o =? 0); [reflexivity|exact H]. Qed.

(** The formatter settings. *)
Definition json_formatter (date : date_format) (array raw : bool) : formatter :=
  set_raw_rdata (set_rdata_array (set_date_format (set_output_format dnstable_formatter_init OutJson) date) array) raw.

Lemma json_formatter_ok : forall lib date array raw e,
  dnstable_entry_format lib (json_formatter date array raw) e = dnstable_entry_to_json_fmt lib e date array raw.
Proof. reflexivity. Qed.

(** An RRset or a resource record, however the formatter is set. *)
Theorem json_record_object : forall lib date array raw zone r k v, c_strings lib -> encodes r (k, v) ->
  match r with
  | RRset _ _ _ _ o | RData _ _ _ _ o => time_shown date (o_first o) /\ time_shown date (seen_last o)
  | _ => False
  end ->
  exists e m, entry_decode k v = Ok e /\ record_members lib date array raw zone r m /\
    prints_object (dnstable_entry_format lib (json_formatter date array raw) (set_iszone e zone)) m.
Proof.
  intros lib date array raw zone r k v HC (HB & HE) HT. cbn [fst snd] in *.
  destruct r as [ow ty bw rs o|ow ty head tail o| | |]; try contradiction; destruct HT as [T1 T2].
  - destruct HE as (Ho & Hb & Ht & Hobs & (t & rd & Hl & Hr & ->) & Hv).
    unfold entry_decode. cbn [N.eqb ENTRY_TYPE_RRSET].
    rewrite (decode_rrset_ok ow ty bw rs t rd) by (assumption || (unfold u32; lia)).
    cbn [bind]. rewrite (decode_val_triplet_ok o v Hobs Hv). cbn [bind].
    eexists. 
    destruct (rrset_object lib (set_iszone
      {| e_type := ENTRY_TYPE_RRSET; e_name := Some (wire ow); e_bailiwick := Some (wire bw); e_rrtype := ty; e_rdatas := rs;
         e_rrtype_map := None; e_source_info := None; e_time_first := o_first o; e_time_last := seen_last o;
         e_count := seen_count o; e_v_type := 0; e_version := 0; e_iszone := false |} zone) date array raw (wire ow) (wire bw) HC)
      as (jf & jl & tt & Vf & Vl & Tt & P); try reflexivity; try assumption;
      cbn [set_iszone e_count e_time_first e_time_last e_rdatas e_rrtype];
      [exact (seen_count_bound o Hobs)|apply Hobs|exact (seen_last_bound o Hobs)|intros _ _; lia|].
    cbn [set_iszone e_type e_name e_bailiwick e_rrtype e_rdatas e_time_first e_time_last e_count e_iszone] in *.
    rewrite N.mod_small in * by (unfold u16; lia).
    eexists. split; [reflexivity|]. split.
    2: { rewrite json_formatter_ok. exact P. }
    exists (common_list lib zone (seen_count o) jf jl (wire ow) tt), (map (fun r => hex (r ++ varint_encode32 ty)) rs).
    split; [exists jf, jl, tt; repeat (split; [assumption|]); reflexivity|].
    split; [|rewrite map_map; reflexivity].
    assert (HRB : Forall bytes_ok rs).
    { apply (bytes_ok_rdatas rs rd Hr). inversion HB; subst. apply bytes_ok_app in H2. destruct H2 as [_ H2].
      apply bytes_ok_app in H2. destruct H2 as [_ H2]. apply bytes_ok_app in H2. apply H2. }
    clear -HRB Ht. induction HRB as [|r rs Hr _ IH]; cbn [map]; constructor; [|exact IH].
    exists (varint_encode32 ty). split; [apply encode32_leb128; unfold u32; lia|].
    apply hex_ok. apply bytes_ok_app. split; [exact Hr|apply encode32_bytes].
  - destruct HE as (Ho & Ht & Hobs & HL & (t & Hl & ->) & Hv).
    unfold entry_decode. cbn [N.eqb ENTRY_TYPE_RRSET ENTRY_TYPE_RRSET_NAME_FWD ENTRY_TYPE_RDATA Pos.eqb].
    rewrite (decode_rdata_ok ow ty head tail t) by (assumption || (unfold u32; lia)).
    cbn [bind]. rewrite (decode_val_triplet_ok o v Hobs Hv). cbn [bind].
    eexists.
    destruct (rdata_object lib (set_iszone
      {| e_type := ENTRY_TYPE_RDATA; e_name := Some (wire ow); e_bailiwick := None; e_rrtype := ty; e_rdatas := [head ++ tail];
         e_rrtype_map := None; e_source_info := None; e_time_first := o_first o; e_time_last := seen_last o;
         e_count := seen_count o; e_v_type := 0; e_version := 0; e_iszone := false |} zone) date array raw (wire ow) (head ++ tail) HC)
      as (jf & jl & tt & Vf & Vl & Tt & P); try reflexivity; try assumption;
      cbn [set_iszone e_count e_time_first e_time_last e_rdatas e_rrtype];
      [exact (seen_count_bound o Hobs)|apply Hobs|exact (seen_last_bound o Hobs)|].
    cbn [set_iszone e_type e_name e_bailiwick e_rrtype e_rdatas e_time_first e_time_last e_count e_iszone] in *.
    rewrite N.mod_small in * by (unfold u16; lia).
    eexists. split; [reflexivity|]. split.
    2: { rewrite json_formatter_ok. exact P. }
    exists (common_list lib zone (seen_count o) jf jl (wire ow) tt), (hex (head ++ tail)).
    split; [exists jf, jl, tt; repeat (split; [assumption|]); reflexivity|].
    split; [|reflexivity].
    apply hex_ok. inversion HB as [|? ? _ H2]; subst. apply bytes_ok_app in H2. destruct H2 as [H2 H3].
    apply bytes_ok_app in H3. destruct H3 as [_ H3]. apply bytes_ok_app in H3. destruct H3 as [_ H3]. apply bytes_ok_app in H3.
    apply bytes_ok_app. tauto.
Qed.
Print Assumptions json_record_object.

(** An index entry lists the types of its value in order, each once. *)
Theorem json_index_object : forall lib date array raw zone r n m k key, c_strings lib -> union_valid m ->
  (exists t, t < 65536 /\ ~ union_mem m t) -> encodes r (k, m) ->
  (r = OwnerIndex n m /\ key = str "rrset_name") \/ (r = RdataIndex n m /\ key = str "rdata_name") ->
  exists e types ms, entry_decode k m = Ok e /\
    StronglySorted N.lt types /\ (forall t, In t types <-> union_mem m t) /\
    index_members lib key (wire n) types ms /\
    prints_object (dnstable_entry_format lib (json_formatter date array raw) (set_iszone e zone)) ms.
Proof.
  intros lib date array raw zone r n m k key HC HV (t & Ht & Hnt) HE HK.
  destruct (union_types m HV) as (l & S & _ & BL & M & U).
  assert (HU : rrtype_union_unpack m = Ok (Some l)) by (apply (U t Ht); rewrite M; exact Hnt).
  assert (HM : m <> []) by (intros ->; inversion HV; destruct ws as [|[]]; [congruence|discriminate]).
  assert (OM : opt_map m = Some m) by (destruct m; [congruence|reflexivity]).
  assert (ML : map (fun t => t mod u16) l = l).
  { clear -BL. induction l as [|a l IH]; [reflexivity|]. cbn [map]. rewrite IH by (intros; apply BL; right; assumption).
    rewrite N.mod_small; [reflexivity|]. apply (BL a). left. reflexivity. }
  assert (G : exists e, entry_decode k m = Ok e /\ e_name e = Some (wire n) /\ e_rrtype_map e = Some m /\ index_kind (e_type e) key).
  { destruct HE as (HB & HE). cbn [fst snd] in *. destruct HK as [[-> ->] | [-> ->]].
    - destruct HE as (Hn & E). injection E as ->. eexists. split; [reflexivity|]. cbn [e_name e_rrtype_map e_type]. rewrite OM.
      split; [reflexivity|]. split; [reflexivity|]. left. split; reflexivity.
    - destruct HE as (Hn & E). injection E as ->. unfold entry_decode, rdata_name_key.
      cbn [N.eqb ENTRY_TYPE_RRSET ENTRY_TYPE_RRSET_NAME_FWD ENTRY_TYPE_RDATA ENTRY_TYPE_RDATA_NAME_REV Pos.eqb].
      assert (E : ModelWdns.wdns_reverse_name (rwire n) (blen (rwire n)) = Ok (wire n)).
      { unfold blen. rewrite length_rwire. rewrite <- (app_nil_r (rwire n)). apply reverse_rwire. apply Hn. }
      rewrite E. cbn [bind]. eexists. split; [reflexivity|]. cbn [e_name e_rrtype_map e_type]. rewrite OM.
      split; [reflexivity|]. split; [reflexivity|]. right. split; reflexivity. }
  destruct G as (e & D & GN & GM & GK). exists e, l.
  destruct (index_object lib (set_iszone e zone) date array raw (wire n) key (Some l) HC) as (ts & F & P).
  - exact GK.
  - exact GN.
  - cbn [set_iszone e_rrtype_map]. rewrite GM. exact HU.
  - rewrite ML in F. eexists. split; [exact D|]. split; [exact S|]. split; [exact M|].
    split; [exists ts; split; [exact F|reflexivity]|exact P].
Qed.
Print Assumptions json_index_object.

(** The metadata entries. *)
Theorem json_time_range_object : forall lib date array raw zone f l val, f < u64 -> l < u64 -> pair_value (f, l) val ->
  time_shown date f -> time_shown date l ->
  exists e jf jl, entry_decode [ENTRY_TYPE_TIME_RANGE] val = Ok e /\ time_value date f jf /\ time_value date l jl /\
    prints_object (dnstable_entry_format lib (json_formatter date array raw) (set_iszone e zone))
      [(str "time_first", jf); (str "time_last", jl)].
Proof.
  intros lib date array raw zone f l val Hf Hl Hv S1 S2. destruct (decode_time_range_entry f l val Hf Hl Hv) as (e & D & T & G1 & G2).
  exists e. assert (HT : e_type e = ENTRY_TYPE_TIME_RANGE) by exact T.
  assert (E1 : e_time_first e = f) by (unfold get_time_first, is_type in G1; rewrite HT in G1; cbn in G1; congruence).
  assert (E2 : e_time_last e = l) by (unfold get_time_last, is_type in G2; rewrite HT in G2; cbn in G2; congruence).
  destruct (time_range_object lib (set_iszone e zone) date array raw) as (jf & jl & V1 & V2 & P);
    cbn [set_iszone e_type e_time_first e_time_last]; rewrite ?E1, ?E2; try assumption.
  cbn [set_iszone e_type e_time_first e_time_last] in V1, V2. rewrite E1 in V1. rewrite E2 in V2.
  exists jf, jl. split; [exact D|]. split; [exact V1|]. split; [exact V2|]. rewrite json_formatter_ok. exact P.
Qed.
Print Assumptions json_time_range_object.

Theorem json_source_info_object : forall lib date array raw zone s val, ~ In 0 s ->
  exists e, entry_decode (ENTRY_TYPE_SOURCE_INFO :: s) val = Ok e /\
    prints_object (dnstable_entry_format lib (json_formatter date array raw) (set_iszone e zone)) [(str "source info", JStr s)].
Proof.
  intros lib date array raw zone s val H. eexists. split; [reflexivity|].
  rewrite <- (cstr_no_nul s H) at 2. rewrite json_formatter_ok.
  match goal with |- prints_object (dnstable_entry_to_json_fmt _ ?e _ _ _) _ => exact (source_info_object lib e date array raw eq_refl) end.
Qed.
Print Assumptions json_source_info_object.

Theorem json_version_object : forall lib date array raw zone t n val, t < 256 -> n < u32 -> leb128 n val ->
  exists e s, entry_decode [ENTRY_TYPE_VERSION; t] val = Ok e /\ version_type_text t s /\
    prints_object (dnstable_entry_format lib (json_formatter date array raw) (set_iszone e zone))
      [(str "entry_type", JStr s); (str "version", JNum n)].
Proof.
  intros lib date array raw zone t n val Ht Hn Hv. destruct (decode_version_entry t n val Hn Hv) as (e & D & T & G1 & G2).
  exists e. assert (HT : e_type e = ENTRY_TYPE_VERSION) by exact T.
  assert (E1 : e_v_type e = t) by (unfold get_version_type, is_type in G1; rewrite HT in G1; cbn in G1; congruence).
  assert (E2 : e_version e = n) by (unfold get_version, is_type in G2; rewrite HT in G2; cbn in G2; congruence).
  destruct (version_object lib (set_iszone e zone) date array raw) as (s & V & P); cbn [set_iszone e_type e_v_type e_version]; rewrite ?E1, ?E2.
  - exact HT.
  - exact Ht.
  - unfold u32, u64 in *. lia.
  - cbn [set_iszone e_v_type e_version] in V, P. rewrite E1 in V. rewrite E2 in P.
    exists s. split; [exact D|]. split; [exact V|]. rewrite json_formatter_ok. exact P.
Qed.
Print Assumptions json_version_object.

(** ** C47: every decoded entry *)

Lemma ascii_str : forall s, forallb (fun c => c <? 128) (str s) = true -> utf8 (str s).
Proof.
  intros s H. apply utf8_ascii. apply Forall_forall. intros c Hc. rewrite forallb_forall in H. apply H in Hc. lia.
Qed.

Lemma decimal_ascii : forall n s, decimal n s -> utf8 s.
Proof. intros n s (D & _). apply utf8_ascii. eapply Forall_impl; [|exact D]. cbv beta. unfold digit. intros; lia. Qed.

Lemma hex_ascii : forall s, bytes_ok s -> utf8 (hex s).
Proof.
  unfold bytes_ok. intros s H. apply utf8_ascii. unfold hex. apply Forall_flat_map. eapply Forall_impl; [|exact H]. cbv beta.
  unfold byte_ok. intros c Hc.
  assert (HD : forall d, d < 16 -> hex_digit d < 128) by (intros d Hd; unfold hex_digit; destruct (d <? 10) eqn:E; lia).
  constructor; [apply HD; apply N.div_lt_upper_bound; lia|]. constructor; [apply HD; apply N.mod_lt; lia|constructor].
Qed.

Lemma type_text_utf8 : forall lib ty s, utf8_strings lib -> type_text lib ty s -> utf8 s.
Proof.
  intros lib ty s (_ & _ & H) T. unfold type_text in T. destruct (wdns_rrtype_to_str lib ty) eqn:E.
  - subst s. exact (H _ _ E).
  - destruct T as (d & D & ->). apply utf8_app; [apply ascii_str; reflexivity|exact (decimal_ascii _ _ D)].
Qed.

Lemma time_value_utf8 : forall date v j, time_value date v j -> Forall utf8 (jv_strings j).
Proof.
  intros [|] v j H; cbn [time_value] in H.
  - subst j. constructor.
  - destruct H as (s & R & ->). constructor; [|constructor].
    destruct R as (y & mo & d & h & mi & se & ty & tmo & td & th & tmi & tse & _ & _ & _ & _ & _ & _ & (P1 & _) & (P2 & _) & (P3 & _) & (P4 & _) & (P5 & _) & (P6 & _) & -> & _).
    assert (D : forall s, Forall digit s -> utf8 s).
    { intros s D. apply utf8_ascii. eapply Forall_impl; [|exact D]. cbv beta. unfold digit. intros; lia. }
    repeat (apply utf8_app; [first [apply D; assumption|apply ascii_str; reflexivity]|]). apply ascii_str. reflexivity.
Qed.

Lemma strings_utf8 : forall l, Forall utf8 l -> Forall utf8 (jv_strings (JArr (map JStr l))).
Proof. intros l H. cbn [jv_strings]. induction H; cbn [map flat_map jv_strings app]; constructor; assumption. Qed.

Lemma unpack_blocks_total : forall f prev m, (length m < f)%nat -> exists r, unpack_blocks f prev m = Ok r.
Proof.
  induction f as [|f IH]; intros prev m H; [lia|]. cbn [unpack_blocks].
  destruct m as [|w [|bl rest]]; [eexists; reflexivity|eexists; reflexivity|].
  destruct (match prev with Some p => w <=? p | None => false end); [eexists; reflexivity|].
  destruct ((bl <? 1) || (blen rest <? bl)); [eexists; reflexivity|].
  destruct (IH (Some w) (skipn (N.to_nat bl) rest)) as (r & ->); [rewrite skipn_length; cbn [length] in H; lia|].
  cbn [bind]. destruct r; eexists; reflexivity.
Qed.

Lemma union_unpack_total : forall m, exists r, rrtype_union_unpack m = Ok r.
Proof.
  intro m. unfold rrtype_union_unpack. destruct m as [|a [|b [|c m]]]; try (eexists; reflexivity).
  destruct (unpack_blocks_total (S (length (a :: b :: c :: m))) None (a :: b :: c :: m)) as (r & ->); [lia|].
  cbn [bind]. destruct r as [l|]; [destruct (MAX_RRTYPES_MAPPABLE <? N.of_nat (length l))|]; eexists; reflexivity.
Qed.

Lemma decode_rdatas_bytes : forall f l rs, decode_rdatas f l = Ok rs -> bytes_ok l -> Forall bytes_ok rs.
Proof.
  induction f as [|f IH]; intros l rs H B; [discriminate|]. cbn [decode_rdatas] in H. destruct l as [|b l]; [injection H as <-; constructor|].
  destruct (varint_decode32 (b :: l)) as [[n v]| | | |]; try discriminate. cbn [bind fst snd] in H.
  destruct (65535 <? v); [discriminate|]. destruct (blen (skipn n (b :: l)) <? v); [discriminate|].
  destruct (decode_rdatas f (skipn (N.to_nat v) (skipn n (b :: l)))) as [rest| | | |] eqn:E; try discriminate. cbn [bind] in H.
  assert (rs = firstn (N.to_nat v) (skipn n (b :: l)) :: rest) as -> by congruence.
  assert (B' : bytes_ok (skipn n (b :: l))) by (apply bytes_ok_skipn; exact B).
  constructor; [apply bytes_ok_firstn; exact B'|]. apply (IH _ _ E). apply bytes_ok_skipn. exact B'.
Qed.

Lemma decode_rrset_bytes : forall buf nm ty bw rs, decode_rrset buf = Ok (nm, ty, bw, rs) -> bytes_ok buf -> Forall bytes_ok rs.
Proof.
  intros buf nm ty bw rs H B. unfold decode_rrset, decode_rrset_fuel in H.
  destruct (decode_rev_name buf (length buf)) as [[n1 x1]| | | |]; try discriminate. cbn [bind fst snd] in H.
  destruct (varint_decode32 (skipn n1 buf)) as [[n2 x2]| | | |]; try discriminate. cbn [bind fst snd] in H.
  destruct (decode_rev_name (skipn n2 (skipn n1 buf)) _) as [[n3 x3]| | | |]; try discriminate. cbn [bind fst snd] in H.
  match type of H with context [decode_rdatas ?f ?l] => destruct (decode_rdatas f l) as [r| | | |] eqn:E end; try discriminate. cbn [bind] in H.
  assert (r = rs) as -> by congruence. apply (decode_rdatas_bytes _ _ _ E). repeat apply bytes_ok_skipn. exact B.
Qed.

Lemma decode_rdata_bytes : forall buf nm ty r, decode_rdata buf = Ok (nm, ty, r) -> bytes_ok buf -> bytes_ok r.
Proof.
  intros buf nm ty r H B. unfold decode_rdata in H. destruct (blen buf <? 2); [discriminate|].
  destruct (rd buf (length buf - 2)) as [lo| | | |]; try discriminate. cbn [bind] in H.
  destruct (rd buf (S (length buf - 2))) as [hi| | | |]; try discriminate. cbn [bind] in H.
  destruct (N.of_nat (length buf - 2) <? lo + 256 * hi); [discriminate|].
  destruct (varint_decode32 (skipn (N.to_nat (lo + 256 * hi)) buf)) as [[n2 x2]| | | |]; try discriminate. cbn [bind fst snd] in H.
  destruct (Nat.ltb _ _) in H; [discriminate|].
  match type of H with context [decode_rev_name ?a ?b] => destruct (decode_rev_name a b) as [[n3 x3]| | | |] end; try discriminate. cbn [bind fst snd] in H.
  match type of H with Ok (_, _, ?x) = _ => assert (x = r) as <- by congruence end.
  apply bytes_ok_firstn. apply bytes_ok_app. split; [apply bytes_ok_firstn, bytes_ok_skipn; exact B|apply bytes_ok_firstn; exact B].
Qed.

Lemma val_triplet_bound : forall v a b c, decode_val_triplet v = Ok (a, b, c) -> a < u64 /\ b < u64 /\ c < u64.
Proof.
  intros v a b c H. unfold decode_val_triplet in H. destruct (triplet_unpack v) as [[[x y] z]| | | |] eqn:E; try discriminate.
  destruct (triplet_unpack_bound v x y z E) as (H1 & H2 & H3). cbn [bind] in H.
  assert (a = x) as -> by congruence. assert (b = if y =? 0 then x else y) as -> by congruence.
  assert (c = if z =? 0 then 1 else z) as -> by congruence.
  split; [exact H1|]. split; [destruct (y =? 0); assumption|destruct (z =? 0); [reflexivity|assumption]].
Qed.

(** What a decoded entry holds, by its type. *)
Lemma decoded_fields : forall k rest val e, known_type k -> bytes_ok (k :: rest) -> entry_decode (k :: rest) val = Ok e ->
  (e_type e = ENTRY_TYPE_RRSET /\ (exists nm bw, e_name e = Some nm /\ e_bailiwick e = Some bw) /\
     e_count e < u64 /\ e_time_first e < u64 /\ e_time_last e < u64 /\ Forall bytes_ok (e_rdatas e)) \/
  (e_type e = ENTRY_TYPE_RDATA /\ (exists nm r, e_name e = Some nm /\ e_rdatas e = [r] /\ bytes_ok r) /\
     e_count e < u64 /\ e_time_first e < u64 /\ e_time_last e < u64) \/
  (exists key nm, index_kind (e_type e) key /\ e_name e = Some nm) \/
  (e_type e = ENTRY_TYPE_TIME_RANGE /\ e_time_first e < u64 /\ e_time_last e < u64) \/
  (e_type e = ENTRY_TYPE_SOURCE_INFO) \/
  (e_type e = ENTRY_TYPE_VERSION /\ e_v_type e < 256 /\ e_version e < u32).
Proof.
  intros k rest val e Hk B H. assert (BR : bytes_ok rest) by (inversion B; assumption). cbn in Hk.
  repeat (destruct Hk as [<-|Hk]); [..|destruct Hk];
    cbn [entry_decode N.eqb Pos.eqb ENTRY_TYPE_RRSET ENTRY_TYPE_RRSET_NAME_FWD ENTRY_TYPE_RDATA ENTRY_TYPE_RDATA_NAME_REV
         ENTRY_TYPE_SOURCE_INFO ENTRY_TYPE_TIME_RANGE ENTRY_TYPE_VERSION] in H.
  - destruct (decode_rrset rest) as [[[[nm ty] bw] rs]| | | |] eqn:ER; try discriminate. cbn [bind] in H.
    destruct (decode_val_triplet val) as [[[a b] c]| | | |] eqn:EV; try discriminate. cbn [bind] in H.
    destruct (val_triplet_bound _ _ _ _ EV) as (B1 & B2 & B3). injection H as <-. left.
    cbn [e_type e_name e_bailiwick e_count e_time_first e_time_last e_rdatas]. split; [reflexivity|]. split; [eauto|].
    repeat (split; [assumption|]). exact (decode_rrset_bytes _ _ _ _ _ ER BR).
  - injection H as <-. do 2 right. left. exists (str "rrset_name"), rest. split; [left; split; reflexivity|reflexivity].
  - destruct (decode_rdata rest) as [[[nm ty] r]| | | |] eqn:ER; try discriminate. cbn [bind] in H.
    destruct (decode_val_triplet val) as [[[a b] c]| | | |] eqn:EV; try discriminate. cbn [bind] in H.
    destruct (val_triplet_bound _ _ _ _ EV) as (B1 & B2 & B3). injection H as <-. right. left.
    cbn [e_type e_name e_bailiwick e_count e_time_first e_time_last e_rdatas]. split; [reflexivity|].
    split; [exists nm, r; split; [reflexivity|]; split; [reflexivity|]; exact (decode_rdata_bytes _ _ _ _ ER BR)|].
    repeat (split; [assumption|]). assumption.
  - destruct (ModelWdns.wdns_reverse_name rest (blen rest)) as [nm| | | |]; try discriminate. cbn [bind] in H. injection H as <-.
    do 2 right. left. exists (str "rdata_name"), nm. split; [right; split; reflexivity|reflexivity].
  - injection H as <-. do 4 right. left. reflexivity.
  - destruct (pair_unpack val) as [[a b]| | | |] eqn:E; try discriminate. cbn [bind] in H. injection H as <-.
    destruct (pair_unpack_bound _ _ _ E) as (B1 & B2). do 3 right. left. split; [reflexivity|]. split; assumption.
  - destruct rest as [|vt [|]]; try discriminate. destruct val as [|v0 val]; [discriminate|].
    destruct (varint_decode32 (v0 :: val)) as [[n t]| | | |] eqn:E; try discriminate. cbn [bind fst snd] in H.
    destruct (Nat.eqb n _); [|discriminate]. injection H as <-. do 5 right. split; [reflexivity|].
    cbn [e_v_type e_version]. split; [inversion BR; assumption|]. exact (decode32_bound _ _ _ E).
Qed.

Fixpoint nodupb (l : list bytes) : bool :=
  match l with [] => true | x :: r => forallb (fun y => negb (if list_eq_dec N.eq_dec x y then true else false)) r && nodupb r end.
Lemma nodup_keys : forall l, nodupb l = true -> NoDup l.
Proof.
  induction l as [|x l IH]; intro H; [constructor|]. cbn [nodupb] in H. apply andb_prop in H. destruct H as [H1 H2].
  constructor; [|apply IH; exact H2]. intro Hin. rewrite forallb_forall in H1. specialize (H1 x Hin).
  destruct (list_eq_dec N.eq_dec x x); [discriminate|congruence].
Qed.

Lemma common_keys : forall lib zone c jf jl nm t, map fst (common_list lib zone c jf jl nm t) =
  [str "count"; zone_prefix zone (str "time_first"); zone_prefix zone (str "time_last"); str "rrname"; str "rrtype"].
Proof. reflexivity. Qed.

Lemma common_utf8 : forall lib zone c jf jl nm t ty, utf8_strings lib -> Forall utf8 (jv_strings jf) -> Forall utf8 (jv_strings jl) ->
  type_text lib ty t -> Forall utf8 (flat_map (fun p => fst p :: jv_strings (snd p)) (common_list lib zone c jf jl nm t)).
Proof.
  intros lib zone c jf jl nm t ty HU U1 U2 T. unfold common_list. cbn [flat_map fst snd jv_strings].
  pose proof (type_text_utf8 _ _ _ HU T) as U3. pose proof (proj1 HU nm) as U4.
  assert (Z1 : utf8 (zone_prefix zone (str "time_first"))) by (destruct zone; apply (ascii_str "zone_time_first") || apply ascii_str; reflexivity).
  assert (Z2 : utf8 (zone_prefix zone (str "time_last"))) by (destruct zone; apply (ascii_str "zone_time_last") || apply ascii_str; reflexivity).
  constructor; [apply ascii_str; reflexivity|]. cbn [app]. constructor; [exact Z1|]. apply Forall_app. split; [exact U1|].
  constructor; [exact Z2|]. apply Forall_app. split; [exact U2|]. constructor; [apply ascii_str; reflexivity|]. cbn [app].
  constructor; [exact U4|]. constructor; [apply ascii_str; reflexivity|]. cbn [app]. constructor; [exact U3|constructor].
Qed.

Ltac nil_right := refine (proj2 (Forall_app utf8 _ []) (conj _ (Forall_nil _))).

(** For any way to write times: where the times are, and what else holds of the object. *)
Definition record_zone (e : entry) (zone : bool) : bool := if e_type e =? ENTRY_TYPE_TIME_RANGE then false else zone.
Ltac times G j V TY :=
  let v := fresh "v" in let E := fresh "E" in intros v E; rewrite G in E; injection E as <-; exists j; split; [exact V|];
  unfold record_zone; rewrite TY; unfold common_list; cbn [app N.eqb Pos.eqb ENTRY_TYPE_RRSET ENTRY_TYPE_RDATA ENTRY_TYPE_TIME_RANGE zone_prefix set_iszone e_iszone In]; auto.
Lemma json_entry_any : forall lib date array raw zone k rest val e (T : N -> jv -> Prop), c_strings lib -> known_type k -> bytes_ok (k :: rest) ->
  entry_decode (k :: rest) val = Ok e -> (forall v j, T v j -> Forall utf8 (jv_strings j)) ->
  (forall v, v < u64 -> get_time_first e = Ok v \/ get_time_last e = Ok v -> exists j, writes date v j /\ T v j) ->
  (raw = true -> e_type e = ENTRY_TYPE_RRSET -> e_rdatas e <> [] -> e_rrtype e < 2097152) ->
  exists m, prints_object (dnstable_entry_format lib (json_formatter date array raw) (set_iszone e zone)) m /\ 
    (forall v, get_time_first e = Ok v -> exists j, T v j /\ In (zone_prefix (record_zone e zone) (str "time_first"), j) m) /\
    (forall v, get_time_last e = Ok v -> exists j, T v j /\ In (zone_prefix (record_zone e zone) (str "time_last"), j) m) /\
    NoDup (map fst m) /\
    (utf8_strings lib -> (forall x, get_source_info e = Ok x -> utf8 x) -> Forall utf8 (jv_strings (JObj m))).
Proof.
  intros lib date array raw zone k rest val e T HC HK HB HD HTU HT HR.
  rewrite json_formatter_ok.
    destruct (decoded_fields k rest val e HK HB HD) as
      [(TY & (nm & bw & N1 & N2) & B1 & B2 & B3 & B4)|[(TY & (nm & r & N1 & N2 & B4) & B1 & B2 & B3)|[(key & nm & IK & N1)|[(TY & B1 & B2)|[TY|(TY & B1 & B2)]]]]].
    - assert (G1 : get_time_first e = Ok (e_time_first e)) by (unfold get_time_first, is_type; rewrite TY; reflexivity).
      assert (G2 : get_time_last e = Ok (e_time_last e)) by (unfold get_time_last, is_type; rewrite TY; reflexivity).
      destruct (HT (e_time_first e) ltac:(assumption) (or_introl G1)) as (jf & W1 & V1). destruct (HT (e_time_last e) ltac:(assumption) (or_intror G2)) as (jl & W2 & V2).
      pose proof (HTU _ _ V1) as U1. pose proof (HTU _ _ V2) as U2.
      destruct (rrset_object_any lib (set_iszone e zone) date array raw nm bw jf jl HC TY N1 N2 B1 W1 W2 (fun E => HR E TY)) as (tt & Tt & P).
      eexists. split; [exact P|]. split; [times G1 jf V1 TY|]. split; [times G2 jl V2 TY|]. split.
      + rewrite !map_app, common_keys. apply nodup_keys. cbn [set_iszone e_iszone]. destruct zone; destruct raw; vm_compute; reflexivity.
      + intros HU _. cbn [jv_strings]. rewrite !flat_map_app. apply Forall_app. split; [eapply common_utf8; eassumption|].
        apply Forall_app. split.
        * cbn [flat_map fst snd]. constructor; [apply ascii_str; reflexivity|]. apply Forall_app. split; [constructor; [apply HU|constructor]|].
          constructor; [apply ascii_str; reflexivity|]. nil_right. apply strings_utf8. apply Forall_forall. intros x Hx.
          apply in_map_iff in Hx. destruct Hx as (r & <- & _). apply HU.
        * destruct raw; [|constructor]. cbn [flat_map fst snd]. constructor; [apply ascii_str; reflexivity|]. nil_right.
          apply strings_utf8. apply Forall_forall. intros x Hx. apply in_map_iff in Hx. destruct Hx as (r & <- & Hr).
          apply hex_ascii. apply bytes_ok_app. split; [|apply encode32_bytes]. rewrite Forall_forall in B4. apply B4. exact Hr.
    - assert (G1 : get_time_first e = Ok (e_time_first e)) by (unfold get_time_first, is_type; rewrite TY; reflexivity).
      assert (G2 : get_time_last e = Ok (e_time_last e)) by (unfold get_time_last, is_type; rewrite TY; reflexivity).
      destruct (HT (e_time_first e) ltac:(assumption) (or_introl G1)) as (jf & W1 & V1). destruct (HT (e_time_last e) ltac:(assumption) (or_intror G2)) as (jl & W2 & V2).
      pose proof (HTU _ _ V1) as U1. pose proof (HTU _ _ V2) as U2.
      destruct (rdata_object_any lib (set_iszone e zone) date array raw nm r jf jl HC TY N1 N2 B1 W1 W2) as (tt & Tt & P).
      assert (HO : forall s, utf8 s -> Forall utf8 (jv_strings (one array (JStr s)))).
      { intros s Hs. destruct array; cbn [one jv_strings flat_map app]; constructor; auto. }
      eexists. split; [exact P|]. split; [times G1 jf V1 TY|]. split; [times G2 jl V2 TY|]. split.
      + rewrite !map_app, common_keys. apply nodup_keys. cbn [set_iszone e_iszone]. destruct zone; destruct raw; vm_compute; reflexivity.
      + intros HU _. cbn [jv_strings]. rewrite !flat_map_app. apply Forall_app. split; [eapply common_utf8; eassumption|].
        apply Forall_app. split.
        * cbn [flat_map fst snd]. constructor; [apply ascii_str; reflexivity|]. nil_right. apply HO. apply HU.
        * destruct raw; [|constructor]. cbn [flat_map fst snd]. constructor; [apply ascii_str; reflexivity|]. nil_right.
          apply HO. apply hex_ascii. exact B4.
    - destruct (union_unpack_total (name_bytes (e_rrtype_map e))) as (types & U).
      destruct (index_object lib (set_iszone e zone) date array raw nm key types HC IK N1 U) as (ts & F & P).
      eexists. split; [exact P|].
      do 2 (split; [unfold get_time_first, get_time_last, is_type; destruct IK as [[-> _]|[-> _]]; discriminate|]). split.
      + cbn [map fst]. destruct IK as [[_ ->] | [_ ->]]; apply nodup_keys; vm_compute; reflexivity.
      + intros HU _. cbn [jv_strings]. cbn [flat_map fst snd].
        constructor; [destruct IK as [[_ ->] | [_ ->]]; apply ascii_str; reflexivity|]. cbn [app jv_strings].
        constructor; [apply HU|]. constructor; [apply ascii_str; reflexivity|]. nil_right.
        apply (strings_utf8 ts). destruct types as [l|].
        * clear -F HU. remember (map (fun t => t mod u16) l) as l' eqn:E. clear E. induction F; constructor; [eapply type_text_utf8; eassumption|assumption].
        * subst ts. constructor; [apply ascii_str; reflexivity|constructor].
    - assert (G1 : get_time_first e = Ok (e_time_first e)) by (unfold get_time_first, is_type; rewrite TY; reflexivity).
      assert (G2 : get_time_last e = Ok (e_time_last e)) by (unfold get_time_last, is_type; rewrite TY; reflexivity).
      destruct (HT (e_time_first e) ltac:(assumption) (or_introl G1)) as (jf & W1 & V1). destruct (HT (e_time_last e) ltac:(assumption) (or_intror G2)) as (jl & W2 & V2).
      pose proof (HTU _ _ V1) as U1. pose proof (HTU _ _ V2) as U2.
      pose proof (time_range_object_any lib (set_iszone e zone) date array raw jf jl TY W1 W2) as P.
      eexists. split; [exact P|]. split; [times G1 jf V1 TY|]. split; [times G2 jl V2 TY|]. split; [apply nodup_keys; vm_compute; reflexivity|]. intros _ _. cbn [jv_strings flat_map fst snd].
      constructor; [apply ascii_str; reflexivity|]. apply Forall_app. split; [exact U1|].
      constructor; [apply ascii_str; reflexivity|]. nil_right. exact U2.
    - eexists. split; [apply source_info_object; exact TY|].
      do 2 (split; [unfold get_time_first, get_time_last, is_type; rewrite TY; discriminate|]). split; [apply nodup_keys; vm_compute; reflexivity|].
      intros _ HS. cbn [jv_strings flat_map fst snd]. constructor; [apply ascii_str; reflexivity|]. cbn [app]. constructor; [|constructor].
      apply HS. unfold get_source_info, is_type. rewrite TY. reflexivity.
    - destruct (version_object lib (set_iszone e zone) date array raw) as (s & V & P); try assumption.
      { cbn [set_iszone e_version]. unfold u32, u64 in *. lia. }
      eexists. split; [exact P|].
      do 2 (split; [unfold get_time_first, get_time_last, is_type; rewrite TY; discriminate|]). split; [apply nodup_keys; vm_compute; reflexivity|].
      intros _ _. cbn [jv_strings flat_map fst snd]. constructor; [apply ascii_str; reflexivity|]. cbn [app].
      constructor; [|constructor; [apply ascii_str; reflexivity|constructor]].
      unfold version_type_text in V. destruct (entry_type_to_string (e_v_type (set_iszone e zone))) as [n|] eqn:E.
      + subst s. unfold entry_type_to_string in E.
        repeat match type of E with context [if ?b then _ else _] => destruct b end; try discriminate; injection E as <-;
          apply utf8_ascii; repeat constructor.
      + destruct V as (d & D & ->). apply utf8_app; [apply ascii_str; reflexivity|exact (decimal_ascii _ _ D)].
Qed.

(** Any entry that decodes, well-formed or not: one object on one line, with distinct
    keys, which denotes these members only, and which is UTF-8 if the strings of
    libwdns and the source information are.  The hypotheses exclude what is refuted
    below: unknown entry types, times beyond the year 9999 in RFC 3339 form, and raw
    output of types above 2^21. *)
Theorem json_valid_partial : forall lib date array raw zone k rest val e, c_strings lib -> known_type k -> bytes_ok (k :: rest) ->
  entry_decode (k :: rest) val = Ok e ->
  (forall v, get_time_first e = Ok v \/ get_time_last e = Ok v -> time_shown date v) ->
  (raw = true -> e_rrtype e < 2097152) ->
  exists s m, dnstable_entry_format lib (json_formatter date array raw) (set_iszone e zone) = Ok (Some s) /\
    json (JObj m) s /\ one_line s /\ NoDup (map fst m) /\ (forall v, json v s -> v = JObj m) /\
    (utf8_strings lib -> (forall x, get_source_info e = Ok x -> utf8 x) -> utf8 s).
Proof.
  intros lib date array raw zone k rest val e HC HK HB HD HT HR.
  destruct (json_entry_any lib date array raw zone k rest val e (time_value date) HC HK HB HD (time_value_utf8 date)) as (m & (s & E & J & L) & _ & _ & ND & U).
  { intros v B H. exact (time_writes date v B (HT v H)). }
  { intros E _ _. exact (HR E). }
  exists s, m. split; [exact E|]. split; [exact J|]. split; [exact L|]. split; [exact ND|].
  split; [intros v Hv; exact (json_unambiguous _ _ _ Hv J)|]. intros HU HS. exact (json_utf8 _ _ J (U HU HS)).
Qed.
Print Assumptions json_valid_partial.

(** *** What is excluded above is really excluded *)

(** A stored type that takes more than three bytes overruns the buffer. *)
Theorem json_raw_type_refuted : exists k v e, bytes_ok k /\ bytes_ok v /\ entry_decode k v = Ok e /\
  forall lib date array, dnstable_entry_format lib (json_formatter date array true) e = UB.
Proof.
  exists ([0; 1; 97; 0] ++ [128; 128; 128; 1] ++ [1; 97; 0] ++ [1; 7]), [1; 1; 1].
  eexists. split; [repeat constructor; reflexivity|]. split; [repeat constructor; reflexivity|]. split; [vm_compute; reflexivity|].
  intros lib date array. rewrite json_formatter_ok. unfold dnstable_entry_to_json_fmt.
  cbn [e_type e_count e_time_first e_time_last e_name e_rrtype e_bailiwick e_rdatas e_iszone].
  destruct date, array; reflexivity.
Qed.
Print Assumptions json_raw_type_refuted.

(** Times beyond those gmtime(3) can represent stop the program. *)
Theorem json_huge_time_refuted : exists k v e, bytes_ok k /\ bytes_ok v /\ entry_decode k v = Ok e /\
  forall lib array raw, dnstable_entry_format lib (json_formatter DateRfc3339 array raw) e = Abort.
Proof.
  exists [ENTRY_TYPE_TIME_RANGE], (repeat 255 8 ++ [127] ++ repeat 255 8 ++ [127]).
  eexists. split; [repeat constructor; reflexivity|]. split; [repeat constructor; reflexivity|]. split; [vm_compute; reflexivity|].
  intros lib array raw. rewrite json_formatter_ok. unfold dnstable_entry_to_json_fmt.
  cbn [e_type e_count e_time_first e_time_last e_name e_rrtype e_bailiwick e_rdatas e_iszone]. vm_compute. reflexivity.
Qed.
Print Assumptions json_huge_time_refuted.

(** Entries of unknown types decode, to an RRset without a name. *)
Theorem json_unknown_type_refuted : exists k v e, bytes_ok k /\ entry_decode k v = Ok e /\
  forall lib array raw, dnstable_entry_format lib (json_formatter DateUnix array raw) e = UB.
Proof.
  exists [99], []. eexists. split; [repeat constructor; reflexivity|]. split; [vm_compute; reflexivity|].
  intros lib array raw. rewrite json_formatter_ok. vm_compute. reflexivity.
Qed.
Print Assumptions json_unknown_type_refuted.

(** Source information is copied as it is, UTF-8 or not, up to a NUL. *)
Theorem json_source_info_utf8_refuted : exists k v e s, bytes_ok k /\ entry_decode k v = Ok e /\
  (forall lib, dnstable_entry_format lib (json_formatter DateUnix false false) e = Ok (Some s)) /\ ~ utf8 s.
Proof.
  exists [ENTRY_TYPE_SOURCE_INFO; 255], []. do 2 eexists. split; [repeat constructor; reflexivity|].
  split; [vm_compute; reflexivity|]. split; [intro lib; rewrite json_formatter_ok; vm_compute; reflexivity|].
  intro H. do 16 (inversion H as [|? ? ? H'|? ? ? ? ?|? ? ? ? ?|? ? ? ? ? ?]; clear H; subst; [|lia..]; rename H' into H; try lia).
  inversion H; lia.
Qed.
Print Assumptions json_source_info_utf8_refuted.

Theorem json_source_info_nul_refuted : exists k k' v e e' s, k <> k' /\ entry_decode k v = Ok e /\ entry_decode k' v = Ok e' /\
  forall lib, dnstable_entry_format lib (json_formatter DateUnix false false) e = Ok (Some s) /\
              dnstable_entry_format lib (json_formatter DateUnix false false) e' = Ok (Some s).
Proof.
  exists [ENTRY_TYPE_SOURCE_INFO; 97; 0; 98], [ENTRY_TYPE_SOURCE_INFO; 97; 0; 99], []. do 3 eexists. split; [discriminate|].
  split; [vm_compute; reflexivity|]. split; [vm_compute; reflexivity|].
  intro lib. rewrite !json_formatter_ok. split; vm_compute; reflexivity.
Qed.
Print Assumptions json_source_info_nul_refuted.

(** A library in the style of libwdns: names and record data with everything that is
    not a letter as '?'. *)
Definition demo_text (s : bytes) : bytes := map (fun c => if (97 <=? c) && (c <=? 122) then c else 63) s.
Definition demo_lib : fmtlib := {|
  wdns_domain_to_str := demo_text;
  wdns_rdata_to_str := fun r t => printf_u t ++ [58] ++ demo_text r;
  wdns_rrtype_to_str := fun t => if t =? 1 then Some (str "A") else None;
  locale_uint64 := printf_u
|}.

Lemma demo_text_ok : forall s, Forall (fun c => 63 <= c < 128) (demo_text s).
Proof.
  intro s. unfold demo_text. apply Forall_forall. intros c H. apply in_map_iff in H. destruct H as (x & <- & _).
  destruct ((97 <=? x) && (x <=? 122)) eqn:E; lia.
Qed.
Lemma demo_rdata_ok : forall r t, Forall (fun c => 48 <= c < 128) (wdns_rdata_to_str demo_lib r t).
Proof.
  intros r t. cbn [demo_lib wdns_rdata_to_str]. apply Forall_app. split; [|constructor; [lia|]].
  - eapply Forall_impl; [|apply printf_u_decimal]. cbv beta. unfold digit. lia.
  - eapply Forall_impl; [|apply demo_text_ok]. cbv beta. lia.
Qed.
Lemma demo_lib_ok : c_strings demo_lib /\ utf8_strings demo_lib.
Proof.
  split.
  - split; [|split].
    + intros n H. pose proof (demo_text_ok n) as F. rewrite Forall_forall in F. apply F in H. lia.
    + intros r t H. pose proof (demo_rdata_ok r t) as F. rewrite Forall_forall in F. apply F in H. lia.
    + intros t s H. cbn in H. destruct (t =? 1); [|discriminate]. assert (s = [65]) as -> by congruence. cbn. lia.
  - split; [|split].
    + intros n. apply utf8_ascii. eapply Forall_impl; [|apply demo_text_ok]. cbv beta. lia.
    + intros r t. apply utf8_ascii. eapply Forall_impl; [|apply demo_rdata_ok]. cbv beta. lia.
    + intros t s H. cbn in H. destruct (t =? 1); [|discriminate]. assert (s = [65]) as -> by congruence. repeat constructor.
Qed.

Definition demo_rrset : record :=
  RRset [str "www"; str "example"] 1 [str "example"] [str "abcd"; str "efgh"] {| o_first := 1500000000; o_last := 0; o_count := 0 |}.

Example c47_case :
  c_strings demo_lib /\ utf8_strings demo_lib /\ encodes demo_rrset (put demo_rrset) /\
  (let* e := entry_decode (fst (put demo_rrset)) (snd (put demo_rrset)) in
   dnstable_entry_format demo_lib (json_formatter DateRfc3339 true true) (set_iszone e true)) =
  Ok (Some (str "{""count"":1,""zone_time_first"":""2017-07-14T02:40:00Z"",""zone_time_last"":""2017-07-14T02:40:00Z"",""rrname"":""?www?example?"",""rrtype"":""A"",""bailiwick"":""?example?"",""rdata"":[""1:abcd"",""1:efgh""],""rdata_raw"":[""6162636401"",""6566676801""]}")) /\
  (let* e := entry_decode (fst (put demo_rrset)) (snd (put demo_rrset)) in Ok (e_rrtype e)) = Ok 1.
Proof.
  split; [apply demo_lib_ok|]. split; [apply demo_lib_ok|]. split; [apply put_ok; vm_compute; reflexivity|].
  split; vm_compute; reflexivity.
Qed.

Example c47_index_case :
  union_valid [0; 4; 64; 0; 0; 8] /\ (exists t, t < 65536 /\ ~ union_mem [0; 4; 64; 0; 0; 8] t) /\
  (let* e := entry_decode (rdata_name_key [str "www"; str "example"]) [0; 4; 64; 0; 0; 8] in
   dnstable_entry_format demo_lib (json_formatter DateRfc3339 true true) e) =
  Ok (Some (str "{""rdata_name"":""?www?example?"",""rrtypes"":[""A"",""TYPE28""]}")).
Proof.
  assert (W : windows_ok [(0, [64; 0; 0; 8])]).
  { split; [|repeat constructor]. constructor; [|constructor]. split; [reflexivity|]. split; [cbn; lia|].
    split; [repeat constructor; reflexivity|discriminate]. }
  assert (R : rfc4034 [0; 4; 64; 0; 0; 8]) by (exists [(0, [64; 0; 0; 8])]; split; [discriminate|split; [exact W|reflexivity]]).
  split; [apply (uv_map [(0, [64; 0; 0; 8])]); [intro H; inversion H|exact W]|]. split; [apply small_rfc_missing; [exact R|reflexivity]|vm_compute; reflexivity].
Qed.

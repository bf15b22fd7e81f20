(** C56: text output.  Theorems, with examples. *)
From Coq Require Import Lia Sorted.
From Verif Require Import Str BaseFacts ModelVarint ModelUnion ModelEntry ModelNames ModelFormat SpecFormat.
From Verif Require Import SpecName NameFacts SpecMerge SpecUnion SpecEntry MergeProofs EntryProofs UnionMerge PropsEntry PropsUnion FilterProofs.
From Verif Require Import ModelIter SpecQuery SpecJson SpecText TextProofs TimeProofs JsonProofs LineProofs PropsFormat Demo.

Definition text_formatter (date : date_format) (array raw : bool) : formatter :=
  set_raw_rdata (set_rdata_array (set_date_format (set_output_format dnstable_formatter_init OutText) date) array) raw.

Lemma text_formatter_ok : forall lib date array raw e,
  dnstable_entry_format lib (text_formatter date array raw) e = dnstable_entry_to_text_fmt lib e date.
Proof. reflexivity. Qed.

(** Records: four comment lines for an RRset, then one line for each resource record. *)
Theorem text_record_lines : forall lib date array raw zone r k v, c_strings lib -> encodes r (k, v) ->
  match r with
  | RRset _ _ _ _ o => text_shown date (o_first o) /\ text_shown date (seen_last o) /\ count_shown lib (seen_count o)
  | RData _ _ _ _ _ => True
  | _ => False
  end ->
  exists e ls, entry_decode k v = Ok e /\ record_lines lib date zone r ls /\
    prints_lines (dnstable_entry_format lib (text_formatter date array raw) (set_iszone e zone)) ls.
Proof.
  intros lib date array raw zone r k v HC (HB & HE) HT. cbn [fst snd] in *.
  destruct r as [ow ty bw rs o|ow ty head tail o| | |]; try contradiction.
  - destruct HT as (T1 & T2 & T3). destruct HE as (Ho & Hb & Ht & Hobs & (t & rd & Hl & Hr & ->) & Hv).
    unfold entry_decode. cbn [N.eqb ENTRY_TYPE_RRSET].
    rewrite (decode_rrset_ok ow ty bw rs t rd) by (assumption || (unfold u32; lia)).
    cbn [bind]. rewrite (decode_val_triplet_ok o v Hobs Hv). cbn [bind].
    destruct (rrset_lines lib (set_iszone
      {| e_type := ENTRY_TYPE_RRSET; e_name := Some (wire ow); e_bailiwick := Some (wire bw); e_rrtype := ty; e_rdatas := rs;
         e_rrtype_map := None; e_source_info := None; e_time_first := o_first o; e_time_last := seen_last o;
         e_count := seen_count o; e_v_type := 0; e_version := 0; e_iszone := false |} zone) date (wire ow) (wire bw) HC)
      as (tf & tl & tt & Vf & Vl & Tt & P); try reflexivity; try assumption.
    cbn [set_iszone e_type e_name e_bailiwick e_rrtype e_rdatas e_time_first e_time_last e_count e_iszone] in *.
    rewrite N.mod_small in * by (unfold u16; lia).
    do 2 eexists. split; [reflexivity|]. split; [|rewrite text_formatter_ok; exact P].
    exists tf, tl, tt. split; [exact Vf|]. split; [exact Vl|]. split; [exact Tt|]. reflexivity.
  - destruct HE as (Ho & Ht & Hobs & HL & (t & Hl & ->) & Hv).
    unfold entry_decode. cbn [N.eqb ENTRY_TYPE_RRSET ENTRY_TYPE_RRSET_NAME_FWD ENTRY_TYPE_RDATA Pos.eqb].
    rewrite (decode_rdata_ok ow ty head tail t) by (assumption || (unfold u32; lia)).
    cbn [bind]. rewrite (decode_val_triplet_ok o v Hobs Hv). cbn [bind].
    destruct (rdata_lines lib (set_iszone
      {| e_type := ENTRY_TYPE_RDATA; e_name := Some (wire ow); e_bailiwick := None; e_rrtype := ty; e_rdatas := [head ++ tail];
         e_rrtype_map := None; e_source_info := None; e_time_first := o_first o; e_time_last := seen_last o;
         e_count := seen_count o; e_v_type := 0; e_version := 0; e_iszone := false |} zone) date (wire ow) (head ++ tail) HC)
      as (tt & Tt & P); try reflexivity.
    cbn [set_iszone e_type e_name e_bailiwick e_rrtype e_rdatas e_time_first e_time_last e_count e_iszone] in *.
    rewrite N.mod_small in * by (unfold u16; lia).
    do 2 eexists. split; [reflexivity|]. split; [|rewrite text_formatter_ok; exact P].
    exists tt. split; [exact Tt|reflexivity].
Qed.
Print Assumptions text_record_lines.

(** Index entries: one line, with the types in order. *)
Theorem text_index_line : forall lib date array raw zone r n m k what, c_strings lib -> union_valid m ->
  (exists t, t < 65536 /\ ~ union_mem m t) -> encodes r (k, m) ->
  (r = OwnerIndex n m /\ what = str "rrset name fwd") \/ (r = RdataIndex n m /\ what = str "rdata name rev") ->
  exists e types s, entry_decode k m = Ok e /\
    StronglySorted N.lt types /\ (forall t, In t types <-> union_mem m t) /\
    index_line lib what (wire n) types s /\
    prints_lines (dnstable_entry_format lib (text_formatter date array raw) (set_iszone e zone)) [s].
Proof.
  intros lib date array raw zone r n m k what HC HV (t & Ht & Hnt) HE HK.
  destruct (union_types m HV) as (l & S & _ & BL & M & U).
  assert (HU : rrtype_union_unpack m = Ok (Some l)) by (apply (U t Ht); rewrite M; exact Hnt).
  assert (ML : map (fun t => t mod u16) l = l).
  { clear -BL. induction l as [|a l IH]; [reflexivity|]. cbn [map]. rewrite IH by (intros; apply BL; right; assumption).
    rewrite N.mod_small; [reflexivity|]. apply (BL a). left. reflexivity. }
  assert (HK' : exists key, (r = OwnerIndex n m /\ key = str "rrset_name") \/ (r = RdataIndex n m /\ key = str "rdata_name"))
    by (destruct HK as [[-> _] | [-> _]]; eauto).
  assert (G : exists e, entry_decode k m = Ok e /\ e_name e = Some (wire n) /\ e_rrtype_map e = Some m /\ index_what (e_type e) what).
  { destruct HK' as (key & HK'). assert (HM : m <> []) by (intros ->; inversion HV; destruct ws as [|[]]; [congruence|discriminate]).
    assert (OM : opt_map m = Some m) by (destruct m; [congruence|reflexivity]).
    destruct HE as (HB & HE). cbn [fst snd] in *. destruct HK as [[-> ->] | [-> ->]].
    - destruct HE as (Hn & E). injection E as ->. eexists. split; [reflexivity|]. cbn [e_name e_rrtype_map e_type]. rewrite OM.
      split; [reflexivity|]. split; [reflexivity|]. left. split; reflexivity.
    - destruct HE as (Hn & E). injection E as ->. unfold entry_decode, rdata_name_key.
      cbn [N.eqb ENTRY_TYPE_RRSET ENTRY_TYPE_RRSET_NAME_FWD ENTRY_TYPE_RDATA ENTRY_TYPE_RDATA_NAME_REV Pos.eqb].
      assert (E : ModelWdns.wdns_reverse_name (rwire n) (blen (rwire n)) = Ok (wire n)).
      { unfold blen. rewrite length_rwire. rewrite <- (app_nil_r (rwire n)). apply reverse_rwire. apply Hn. }
      rewrite E. cbn [bind]. eexists. split; [reflexivity|]. cbn [e_name e_rrtype_map e_type]. rewrite OM.
      split; [reflexivity|]. split; [reflexivity|]. right. split; reflexivity. }
  destruct G as (e & D & GN & GM & GK). exists e, l.
  destruct (index_lines lib (set_iszone e zone) date (wire n) what (Some l) HC) as (ts & F & P).
  - exact GK.
  - exact GN.
  - cbn [set_iszone e_rrtype_map]. rewrite GM. exact HU.
  - rewrite ML in F. eexists. split; [exact D|]. split; [exact S|]. split; [exact M|].
    split; [exists ts; split; [exact F|reflexivity]|exact P].
Qed.
Print Assumptions text_index_line.

(** The metadata entries. *)
Theorem text_time_range_lines : forall lib date array raw zone f l val, f < u64 -> l < u64 -> pair_value (f, l) val ->
  text_shown date f -> text_shown date l ->
  exists e tf tl, entry_decode [ENTRY_TYPE_TIME_RANGE] val = Ok e /\ text_time date f tf /\ text_time date l tl /\
    prints_lines (dnstable_entry_format lib (text_formatter date array raw) (set_iszone e zone))
      [str ";; Earliest time_first: " ++ tf; str ";; Latest time_last: " ++ tl].
Proof.
  intros lib date array raw zone f l val Hf Hl Hv S1 S2. destruct (decode_time_range_entry f l val Hf Hl Hv) as (e & D & T & G1 & G2).
  exists e. assert (HT : e_type e = ENTRY_TYPE_TIME_RANGE) by exact T.
  assert (E1 : e_time_first e = f) by (unfold get_time_first, is_type in G1; rewrite HT in G1; cbn in G1; congruence).
  assert (E2 : e_time_last e = l) by (unfold get_time_last, is_type in G2; rewrite HT in G2; cbn in G2; congruence).
  destruct (time_range_lines lib (set_iszone e zone) date) as (tf & tl & V1 & V2 & P);
    cbn [set_iszone e_type e_time_first e_time_last]; rewrite ?E1, ?E2; try assumption.
  cbn [set_iszone e_type e_time_first e_time_last] in V1, V2. rewrite E1 in V1. rewrite E2 in V2.
  exists tf, tl. split; [exact D|]. split; [exact V1|]. split; [exact V2|]. rewrite text_formatter_ok. exact P.
Qed.
Print Assumptions text_time_range_lines.

Theorem text_source_info_line : forall lib date array raw zone s val, ~ In 0 s ->
  exists e, entry_decode (ENTRY_TYPE_SOURCE_INFO :: s) val = Ok e /\
    prints_lines (dnstable_entry_format lib (text_formatter date array raw) (set_iszone e zone)) [str ";; source info: " ++ s].
Proof.
  intros lib date array raw zone s val H. eexists. split; [reflexivity|].
  rewrite <- (cstr_no_nul s H) at 2. rewrite text_formatter_ok.
  match goal with |- prints_lines (dnstable_entry_to_text_fmt _ ?e _) _ => exact (source_info_lines lib e date eq_refl) end.
Qed.
Print Assumptions text_source_info_line.

Theorem text_version_line : forall lib date array raw zone t n val, t < 256 -> n < u32 -> leb128 n val ->
  exists e s d, entry_decode [ENTRY_TYPE_VERSION; t] val = Ok e /\ version_text t s /\ decimal n d /\
    prints_lines (dnstable_entry_format lib (text_formatter date array raw) (set_iszone e zone))
      [str ";; Version type " ++ s ++ str ": " ++ d].
Proof.
  intros lib date array raw zone t n val Ht Hn Hv. destruct (decode_version_entry t n val Hn Hv) as (e & D & T & G1 & G2).
  exists e. assert (HT : e_type e = ENTRY_TYPE_VERSION) by exact T.
  assert (E1 : e_v_type e = t) by (unfold get_version_type, is_type in G1; rewrite HT in G1; cbn in G1; congruence).
  assert (E2 : e_version e = n) by (unfold get_version, is_type in G2; rewrite HT in G2; cbn in G2; congruence).
  destruct (version_lines lib (set_iszone e zone) date) as (s & d & V & Dd & P); [exact HT|].
  cbn [set_iszone e_v_type e_version] in V, Dd. rewrite E1 in V. rewrite E2 in Dd.
  exists s, d. split; [exact D|]. split; [exact V|]. split; [exact Dd|]. rewrite text_formatter_ok. exact P.
Qed.
Print Assumptions text_version_line.

(** A time in this form denotes one second only. *)
Theorem plain_time_denotes_one_second : forall s v v', plain_time s v -> plain_time s v' -> v = v'.
Proof.
  assert (A : forall (a b c d : bytes), length a = length b -> a ++ c = b ++ d -> a = b /\ c = d).
  { induction a as [|x a IH]; intros [|y b] c d L E; try discriminate; cbn [app length] in *; [auto|].
    injection L as L. injection E as -> E. destruct (IH b c d L E) as [-> ->]. auto. }
  assert (B : forall (a b c d : bytes), Forall digit a -> Forall digit b -> a ++ 45 :: c = b ++ 45 :: d -> a = b /\ c = d).
  { induction a as [|x a IH]; intros [|y b] c d Ha Hb E; cbn [app] in E.
    - split; [reflexivity|congruence].
    - assert (y = 45) by congruence. subst. inversion Hb as [|? ? X _]. unfold digit in X. lia.
    - assert (x = 45) by congruence. subst. inversion Ha as [|? ? X _]. unfold digit in X. lia.
    - inversion Ha; inversion Hb; subst. assert (x = y) by congruence. subst.
      destruct (IH b c d) as [-> ->]; [assumption|assumption|congruence|]. auto. }
  intros s v v'
    (y & mo & d & h & mi & se & ty & tmo & td & th & tmi & tse & _ & _ & _ & _ & _ & _ & (D1 & _ & _ & V1) & (_ & L2 & V2) & (_ & L3 & V3) & (_ & L4 & V4) & (_ & L5 & V5) & (_ & L6 & V6) & E & ->)
    (y' & mo' & d' & h' & mi' & se' & ty' & tmo' & td' & th' & tmi' & tse' & _ & _ & _ & _ & _ & _ & (D1' & _ & _ & V1') & (_ & L2' & V2') & (_ & L3' & V3') & (_ & L4' & V4') & (_ & L5' & V5') & (_ & L6' & V6') & E' & ->).
  rewrite E in E'. clear E.
  apply B in E'; [|assumption|assumption]. destruct E' as [-> E'].
  apply A in E'; [|congruence]. destruct E' as [-> E']. apply A in E'; [|reflexivity]. destruct E' as [_ E'].
  apply A in E'; [|congruence]. destruct E' as [-> E']. apply A in E'; [|reflexivity]. destruct E' as [_ E'].
  apply A in E'; [|congruence]. destruct E' as [-> E']. apply A in E'; [|reflexivity]. destruct E' as [_ E'].
  apply A in E'; [|congruence]. destruct E' as [-> E']. apply A in E'; [|reflexivity]. destruct E' as [_ E'].
  apply A in E'; [|congruence]. destruct E' as [-> _].
  congruence.
Qed.
Print Assumptions plain_time_denotes_one_second.

Definition no_break (s : bytes) : Prop := ~ In 10 s.
Lemma nb_app : forall a b, no_break a -> no_break b -> no_break (a ++ b).
Proof. unfold no_break. intros a b Ha Hb H. apply in_app_or in H. tauto. Qed.
Lemma nb_str : forall s, existsb (N.eqb 10) s = false -> no_break s.
Proof. intros s H Hin. assert (existsb (N.eqb 10) s = true) by (apply existsb_exists; exists 10; split; [exact Hin|reflexivity]). congruence. Qed.
Lemma nb_digits : forall s, Forall digit s -> no_break s.
Proof. intros s H Hin. rewrite Forall_forall in H. apply H in Hin. unfold digit in Hin. lia. Qed.
Lemma nb_type : forall lib ty t, one_line_strings lib -> type_text lib ty t -> no_break t.
Proof.
  intros lib ty t (_ & _ & H & _) T. unfold type_text in T. destruct (wdns_rrtype_to_str lib ty) as [m|] eqn:E; [subst; exact (H _ _ E)|].
  destruct T as (d & (D & _) & ->). apply nb_app; [apply nb_str; reflexivity|apply nb_digits; exact D].
Qed.
Lemma nb_time : forall date v s, text_time date v s -> no_break s.
Proof.
  intros [|] v s H.
  - destruct H as (y & mo & d & h & mi & se & ty & tmo & td & th & tmi & tse & _ & _ & _ & _ & _ & _ & (D1 & _) & (D2 & _) & (D3 & _) & (D4 & _) & (D5 & _) & (D6 & _) & -> & _).
    repeat (apply nb_app; [first [apply nb_digits; assumption|apply nb_str; reflexivity]|]). apply nb_str. reflexivity.
  - destruct H as (y & mo & d & h & mi & se & ty & tmo & td & th & tmi & tse & _ & _ & _ & _ & _ & _ & (D1 & _) & (D2 & _) & (D3 & _) & (D4 & _) & (D5 & _) & (D6 & _) & -> & _).
    repeat (apply nb_app; [first [apply nb_digits; assumption|apply nb_str; reflexivity]|]). apply nb_str. reflexivity.
Qed.
Lemma nb_rr : forall lib nm ty ty' t r, one_line_strings lib -> type_text lib ty' t -> no_break (rr_line lib nm ty t r).
Proof.
  intros lib nm ty ty' t r H T. pose proof (nb_type lib ty' t H T) as Ht. destruct H as (H1 & H2 & _). unfold rr_line.
  repeat (apply nb_app; [first [assumption|apply H1|apply H2|apply nb_str; reflexivity]|]). apply H2.
Qed.
Lemma nb_spaced : forall l, Forall no_break l -> no_break (spaced l).
Proof.
  intros l H. induction H as [|a l Ha Hl IH]; [intros []|]. destruct l as [|b l]; [exact Ha|].
  change (spaced (a :: b :: l)) with (a ++ str " " ++ spaced (b :: l)).
  apply nb_app; [exact Ha|]. apply nb_app; [apply nb_str; reflexivity|exact IH].
Qed.

(** What stands before the times of an entry. *)
Definition first_label (e : entry) (zone : bool) : bytes :=
  if e_type e =? ENTRY_TYPE_TIME_RANGE then str ";; Earliest time_first: " else str ";; first seen" ++ seen_in zone.
Definition last_label (e : entry) (zone : bool) : bytes :=
  if e_type e =? ENTRY_TYPE_TIME_RANGE then str ";; Latest time_last: " else str ";;  last seen" ++ seen_in zone.

(** For any way to show times. *)
Lemma text_entry_any : forall lib date array raw zone k rest val e (W : N -> bytes -> Prop), c_strings lib -> known_type k -> bytes_ok (k :: rest) ->
  entry_decode (k :: rest) val = Ok e ->
  (e_type e <> ENTRY_TYPE_RDATA -> forall v, v < u64 -> get_time_first e = Ok v \/ get_time_last e = Ok v -> exists s, text_writes date v s /\ W v s /\ no_break s) ->
  (e_type e = ENTRY_TYPE_RRSET -> count_shown lib (e_count e)) ->
  exists ls, dnstable_entry_format lib (text_formatter date array raw) (set_iszone e zone) = Ok (Some (lines ls)) /\
    ls <> [] /\
    (e_type e <> ENTRY_TYPE_RDATA -> forall v, get_time_first e = Ok v -> exists s, W v s /\ In (first_label e zone ++ s) ls) /\
    (e_type e <> ENTRY_TYPE_RDATA -> forall v, get_time_last e = Ok v -> exists s, W v s /\ In (last_label e zone ++ s) ls) /\
    (one_line_strings lib -> (forall x, get_source_info e = Ok x -> no_break x) -> Forall no_break ls).
Proof.
  intros lib date array raw zone k rest val e W HC HK HB HD HT HN. rewrite text_formatter_ok.
  destruct (decoded_fields k rest val e HK HB HD) as
    [(T & (nm & bw & N1 & N2) & _ & B1 & B2 & _)|[(T & (nm & r & N1 & N2 & _) & _)|[(key & nm & IK & N1)|[(T & B1 & B2)|[T|(T & _)]]]]].
  - assert (G1 : get_time_first e = Ok (e_time_first e)) by (unfold get_time_first, is_type; rewrite T; reflexivity).
    assert (G2 : get_time_last e = Ok (e_time_last e)) by (unfold get_time_last, is_type; rewrite T; reflexivity).
    assert (NR : e_type e <> ENTRY_TYPE_RDATA) by (rewrite T; discriminate).
    destruct (HT NR (e_time_first e) ltac:(assumption) (or_introl G1)) as (tf & W1 & P1 & Q1). destruct (HT NR (e_time_last e) ltac:(assumption) (or_intror G2)) as (tl & W2 & P2 & Q2).
    destruct (rrset_lines_any lib (set_iszone e zone) date nm bw tf tl HC T N1 N2 (HN T) W1 W2) as (t & Pt & P).
    eexists. split; [exact P|]. split; [discriminate|]. split; [intros _ v E; rewrite G1 in E; injection E as <-; exists tf; split; [exact P1|unfold first_label; rewrite T; cbn [N.eqb Pos.eqb ENTRY_TYPE_RRSET ENTRY_TYPE_TIME_RANGE set_iszone e_iszone In]; rewrite <- ?app_assoc; apply in_or_app; left; cbn [In]; auto]|]. split; [intros _ v E; rewrite G2 in E; injection E as <-; exists tl; split; [exact P2|unfold last_label; rewrite T; cbn [N.eqb Pos.eqb ENTRY_TYPE_RRSET ENTRY_TYPE_TIME_RANGE set_iszone e_iszone In]; rewrite <- ?app_assoc; apply in_or_app; left; cbn [In]; auto]|]. intros HL _. pose proof HL as (L1 & L2 & L3 & L4).
    assert (no_break (seen_in (e_iszone (set_iszone e zone)))) by (unfold seen_in; destruct (e_iszone (set_iszone e zone)); apply nb_str; reflexivity).
    
    apply Forall_app. split.
    + repeat apply Forall_cons; try apply Forall_nil;
      repeat (apply nb_app; [first [assumption|apply nb_str; reflexivity]|]); first [assumption|apply L1|apply L4].
    + apply Forall_forall. intros x Hx. apply in_map_iff in Hx. destruct Hx as (r & <- & _). eapply nb_rr; eassumption.
  - destruct (rdata_lines lib (set_iszone e zone) date nm r HC T N1 N2) as (t & Pt & P).
    eexists. split; [exact P|]. split; [discriminate|]. split; [intro X; exfalso; apply X; exact T|]. split; [intro X; exfalso; apply X; exact T|]. intros HL _. constructor; [eapply nb_rr; eassumption|constructor].
  - destruct (union_unpack_total (name_bytes (e_rrtype_map e))) as (types & U).
    assert (IW : exists what, index_what (e_type (set_iszone e zone)) what /\ no_break what).
    { destruct IK as [[E _] | [E _]]; [exists (str "rrset name fwd")|exists (str "rdata name rev")]; (split; [|apply nb_str; reflexivity]);
        [left|right]; split; try exact E; reflexivity. }
    destruct IW as (what & IW & NW).
    destruct (index_lines lib (set_iszone e zone) date nm what types HC IW N1 U) as (ts & F & P).
    eexists. split; [exact P|]. split; [discriminate|]. split; [intros _ v; unfold get_time_first, get_time_last, is_type; destruct IK as [[-> _]|[-> _]]; discriminate|]. split; [intros _ v; unfold get_time_first, get_time_last, is_type; destruct IK as [[-> _]|[-> _]]; discriminate|]. intros HL _. pose proof HL as (L1 & _). constructor; [|constructor].
    assert (no_break (spaced ts)).
    { apply nb_spaced. destruct types as [l|].
      - clear -F HL. remember (map (fun t => t mod u16) l) as l' eqn:E. clear E. induction F; constructor; [eapply nb_type; eassumption|assumption].
      - subst ts. constructor; [apply nb_str; reflexivity|constructor]. }
    repeat (apply nb_app; [first [assumption|apply L1|apply nb_str; reflexivity]|]). assumption.
  - assert (G1 : get_time_first e = Ok (e_time_first e)) by (unfold get_time_first, is_type; rewrite T; reflexivity).
    assert (G2 : get_time_last e = Ok (e_time_last e)) by (unfold get_time_last, is_type; rewrite T; reflexivity).
    assert (NR : e_type e <> ENTRY_TYPE_RDATA) by (rewrite T; discriminate).
    destruct (HT NR (e_time_first e) ltac:(assumption) (or_introl G1)) as (tf & W1 & P1 & Q1). destruct (HT NR (e_time_last e) ltac:(assumption) (or_intror G2)) as (tl & W2 & P2 & Q2).
    pose proof (time_range_lines_any lib (set_iszone e zone) date tf tl T W1 W2) as P.
    eexists. split; [exact P|]. split; [discriminate|]. split; [intros _ v E; rewrite G1 in E; injection E as <-; exists tf; split; [exact P1|unfold first_label; rewrite T; cbn [N.eqb Pos.eqb ENTRY_TYPE_RRSET ENTRY_TYPE_TIME_RANGE set_iszone e_iszone In]; auto]|]. split; [intros _ v E; rewrite G2 in E; injection E as <-; exists tl; split; [exact P2|unfold last_label; rewrite T; cbn [N.eqb Pos.eqb ENTRY_TYPE_RRSET ENTRY_TYPE_TIME_RANGE set_iszone e_iszone In]; auto]|]. intros _ _. 
    constructor; [apply nb_app; [apply nb_str; reflexivity|assumption]|]. constructor; [apply nb_app; [apply nb_str; reflexivity|assumption]|constructor].
  - eexists. split; [apply (source_info_lines lib (set_iszone e zone) date T)|]. split; [discriminate|]. split; [intros _ v; unfold get_time_first, get_time_last, is_type; rewrite T; discriminate|]. split; [intros _ v; unfold get_time_first, get_time_last, is_type; rewrite T; discriminate|]. intros _ HS.
    constructor; [|constructor]. apply nb_app; [apply nb_str; reflexivity|]. apply HS. unfold get_source_info, is_type. rewrite T. reflexivity.
  - destruct (version_lines lib (set_iszone e zone) date T) as (s & d & V & (D & _) & P).
    eexists. split; [exact P|]. split; [discriminate|]. split; [intros _ v; unfold get_time_first, get_time_last, is_type; rewrite T; discriminate|]. split; [intros _ v; unfold get_time_first, get_time_last, is_type; rewrite T; discriminate|]. intros _ _. constructor; [|constructor].
    apply nb_app; [apply nb_str; reflexivity|]. apply nb_app; [|apply nb_app; [apply nb_str; reflexivity|apply nb_digits; exact D]].
    unfold version_text in V. destruct (entry_type_to_string (e_v_type (set_iszone e zone))) as [n|] eqn:E; [|apply nb_digits; apply V].
    subst s. unfold entry_type_to_string in E.
    repeat match type of E with context [if ?b then _ else _] => destruct b end; try discriminate; injection E as <-; apply nb_str; reflexivity.
Qed.

(** Any entry that decodes, well-formed or not, is shown as complete lines.  The
    hypotheses exclude what is refuted below, and unknown entry types. *)
Theorem text_valid_partial : forall lib date array raw zone k rest val e, c_strings lib -> known_type k -> bytes_ok (k :: rest) ->
  entry_decode (k :: rest) val = Ok e ->
  (forall v, get_time_first e = Ok v \/ get_time_last e = Ok v -> text_shown date v) ->
  (e_type e = ENTRY_TYPE_RRSET -> count_shown lib (e_count e)) ->
  exists ls, dnstable_entry_format lib (text_formatter date array raw) (set_iszone e zone) = Ok (Some (lines ls)) /\
    ls <> [] /\
    (one_line_strings lib -> (forall x, get_source_info e = Ok x -> no_break x) -> Forall no_break ls).
Proof.
  intros lib date array raw zone k rest val e HC HK HB HD HT HN.
  destruct (text_entry_any lib date array raw zone k rest val e (text_time date) HC HK HB HD) as (ls & E & NE & _ & _ & L); [|exact HN|exists ls; auto].
  intros _ v _ H. destruct (text_time_ok date v (HT v H)) as (s & F & P & Z). exists s. split; [split; assumption|]. split; [exact P|exact (nb_time _ _ _ P)].
Qed.
Print Assumptions text_valid_partial.

(** *** What is excluded above is really excluded *)

(** Times that gmtime cannot represent are left out, and those from 2^63 on are shown
    as times before 1970. *)
Theorem text_huge_time_refuted : exists k v e s, bytes_ok k /\ bytes_ok v /\ entry_decode k v = Ok e /\
  get_time_first e = Ok 18446744073709551615 /\ get_time_last e = Ok 67768036191676800 /\
  (forall lib, dnstable_entry_format lib (text_formatter DateUnix false false) e = Ok (Some s)) /\
  s = lines [str ";; Earliest time_first: 1969-12-31 23:59:59 -0000"; str ";; Latest time_last: "].
Proof.
  exists [ENTRY_TYPE_TIME_RANGE], (varint_encode64 18446744073709551615 ++ varint_encode64 67768036191676800).
  do 2 eexists. split; [repeat constructor; reflexivity|]. split; [vm_compute; repeat constructor; discriminate|]. split; [vm_compute; reflexivity|].
  split; [reflexivity|]. split; [reflexivity|]. split; [|reflexivity].
  intro lib. rewrite text_formatter_ok. vm_compute. reflexivity.
Qed.
Print Assumptions text_huge_time_refuted.

(** Locales that separate groups of digits by more than one byte (as UTF-8 locales may)
    overrun the buffer: here three bytes, U+202F. *)
Definition nnbsp : bytes := [226; 128; 175].
Fixpoint grouped (n : nat) (s : bytes) : bytes :=   (* [n] groups of three digits at the end *)
  match n with
  | O => s
  | S k => grouped k (firstn (length s - 3) s) ++ nnbsp ++ skipn (length s - 3) s
  end.
Theorem text_count_refuted : exists k v e, bytes_ok k /\ bytes_ok v /\ entry_decode k v = Ok e /\
  get_count e = Ok 1000000000000000 /\
  forall lib, locale_uint64 lib 1000000000000000 = grouped 5 (str "1000000000000000") ->
    dnstable_entry_format lib (text_formatter DateUnix false false) e = UB.
Proof.
  exists [0; 1; 97; 0; 1; 0; 4; 1; 2; 3; 4], (varint_encode64 1 ++ varint_encode64 2 ++ varint_encode64 1000000000000000).
  eexists. split; [repeat constructor; reflexivity|]. split; [vm_compute; repeat constructor; discriminate|]. split; [vm_compute; reflexivity|].
  split; [reflexivity|]. intros lib H. rewrite text_formatter_ok. unfold dnstable_entry_to_text_fmt.
  cbn [e_type e_bailiwick e_count N.eqb ENTRY_TYPE_RRSET domain_str bind]. unfold fmt_uint64. rewrite H. reflexivity.
Qed.
Print Assumptions text_count_refuted.

(** Source information with line breaks can look like records. *)
Theorem text_source_info_break_refuted : exists k e, bytes_ok k /\ entry_decode k [] = Ok e /\
  forall lib, dnstable_entry_format lib (text_formatter DateUnix false false) e =
    Ok (Some (lines [str ";; source info: x"; str "www.example.com. IN A 192.0.2.1"])).
Proof.
  exists (ENTRY_TYPE_SOURCE_INFO :: str "x" ++ [10] ++ str "www.example.com. IN A 192.0.2.1"). eexists.
  split; [vm_compute; repeat constructor; discriminate|]. split; [reflexivity|]. intro lib. rewrite text_formatter_ok. vm_compute. reflexivity.
Qed.
Print Assumptions text_source_info_break_refuted.

Lemma demo_text_break : forall s, no_break (demo_text s).
Proof. intros s H. pose proof (demo_text_ok s) as F. rewrite Forall_forall in F. apply F in H. lia. Qed.
Example c56_case :
  c_strings demo_lib /\ one_line_strings demo_lib /\ encodes demo_rrset (put demo_rrset) /\ count_shown demo_lib 1 /\
  (let* e := entry_decode (fst (put demo_rrset)) (snd (put demo_rrset)) in
   dnstable_entry_format demo_lib (text_formatter DateUnix false false) e) =
  Ok (Some (lines [str ";;  bailiwick: ?example?"; str ";;      count: 1"; str ";; first seen: 2017-07-14 02:40:00 -0000";
                   str ";;  last seen: 2017-07-14 02:40:00 -0000"; str "?www?example? IN A 1:abcd"; str "?www?example? IN A 1:efgh"])).
Proof.
  split; [apply demo_lib_ok|]. split.
  { split; [intro; apply demo_text_break|]. split; [|split].
    - intros r t H. pose proof (demo_rdata_ok r t) as F. rewrite Forall_forall in F. apply F in H. lia.
    - intros t s H. cbn in H. destruct (t =? 1); [|discriminate]. assert (s = [65]) as -> by congruence. intros [E|[]]; discriminate.
    - intro n. apply nb_digits. apply printf_u_decimal. }
  split; [apply put_ok; vm_compute; reflexivity|]. split; [split; [apply digits_nz; apply printf_u_decimal|apply Nat.leb_le; reflexivity]|].
  vm_compute. reflexivity.
Qed.

(** ** Formatters *)

(** Calls of the functions that set up a formatter. *)
Inductive setting := SetOutput (x : output_format) | SetDate (x : date_format) | SetArray (x : bool) | SetRaw (x : bool).
Definition set_up (f : formatter) (s : setting) : formatter :=
  match s with
  | SetOutput x => set_output_format f x
  | SetDate x => set_date_format f x
  | SetArray x => set_rdata_array f x
  | SetRaw x => set_raw_rdata f x
  end.
(** The value given last, or [d]. *)
Definition last_given {A} (d : A) (get : setting -> option A) (l : list setting) : A :=
  last (flat_map (fun s => match get s with Some x => [x] | None => [] end) l) d.
Definition asked_output (l : list setting) := last_given OutJson (fun s => match s with SetOutput x => Some x | _ => None end) l.
Definition asked_date (l : list setting) := last_given DateUnix (fun s => match s with SetDate x => Some x | _ => None end) l.
Definition asked_array (l : list setting) := last_given false (fun s => match s with SetArray x => Some x | _ => None end) l.
Definition asked_raw (l : list setting) := last_given false (fun s => match s with SetRaw x => Some x | _ => None end) l.

Lemma last_given_snoc : forall A (d : A) get l s, last_given d get (l ++ [s]) = match get s with Some x => x | None => last_given d get l end.
Proof.
  intros A d get l s. unfold last_given. rewrite flat_map_app. cbn [flat_map]. rewrite app_nil_r.
  destruct (get s) as [x|]; [apply last_last|rewrite app_nil_r; reflexivity].
Qed.

(** In whatever order and however often a formatter is set up, the last setting of each
    kind counts; a new one makes JSON with numeric times, single values outside an array
    and no raw data.  The functions without a formatter use the same defaults. *)
Theorem formatter_settings : forall lib l e,
  dnstable_entry_format lib (fold_left set_up l dnstable_formatter_init) e =
    match asked_output l with
    | OutJson => dnstable_entry_format lib (json_formatter (asked_date l) (asked_array l) (asked_raw l)) e
    | OutText => dnstable_entry_format lib (text_formatter (asked_date l) (asked_array l) (asked_raw l)) e
    end /\
  dnstable_entry_to_json lib e = dnstable_entry_format lib (json_formatter DateUnix false false) e /\
  dnstable_entry_to_text lib e = dnstable_entry_format lib (text_formatter DateUnix false false) e.
Proof.
  intros lib l e. split; [|split; reflexivity].
  assert (H : fold_left set_up l dnstable_formatter_init =
    {| fm_output := asked_output l; fm_date := asked_date l; fm_array := asked_array l; fm_raw := asked_raw l |}).
  { induction l as [|s l IH] using rev_ind; [reflexivity|]. rewrite fold_left_app, IH. cbn [fold_left].
    unfold asked_output, asked_date, asked_array, asked_raw. rewrite !last_given_snoc. destruct s; reflexivity. }
  rewrite H. unfold dnstable_entry_format. cbn [fm_output fm_date fm_array fm_raw]. destruct (asked_output l); reflexivity.
Qed.
Print Assumptions formatter_settings.

Example c56_settings_case : asked_output [SetOutput OutText; SetDate DateRfc3339; SetOutput OutJson; SetRaw true; SetDate DateUnix] = OutJson /\
  asked_date [SetDate DateRfc3339; SetRaw true] = DateRfc3339 /\ asked_raw [SetDate DateRfc3339; SetRaw true] = true /\ asked_array [SetRaw true] = false.
Proof. repeat split; reflexivity. Qed.

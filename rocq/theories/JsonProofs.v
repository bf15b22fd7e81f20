(** Proofs about the JSON objects of ModelFormat. *)
From Coq Require Import Lia.
From Verif Require Import Str BaseFacts ModelVarint ModelUnion ModelEntry ModelNames ModelFormat SpecFormat SpecName SpecMerge SpecUnion SpecEntry SpecJson.
From Verif Require Import TextProofs CalendarProofs TimeProofs MergeProofs FilterProofs PropsEntry.

(** ** Members *)

Definition plainb (c : N) : bool := (32 <=? c) && negb (c =? 34) && negb (c =? 92).
Definition plain (k : bytes) : Prop := forallb plainb k = true.

Lemma plain_chars : forall k, plain k -> json_chars k k.
Proof.
  unfold plain. induction k as [|c k IH]; intro H; [constructor|]. cbn [forallb] in H.
  apply andb_prop in H. destruct H as [H1 H2]. unfold plainb in H1.
  apply andb_prop in H1. destruct H1 as [H1 H4]. apply andb_prop in H1. destruct H1 as [H1 H3].
  apply negb_true_iff in H3, H4. apply N.eqb_neq in H3, H4.
  apply jc_plain; [lia|assumption|assumption|]. apply IH. exact H2.
Qed.

Lemma plain_key : forall k, plain k -> json_string k (34 :: k ++ [34]).
Proof. intros k H. exists k. split; [apply plain_chars; exact H|reflexivity]. Qed.

(** The text of members. *)
Fixpoint members_text (l : list (bytes * bytes)) : bytes :=
  match l with
  | [] => []
  | (k, t) :: r => 34 :: k ++ 34 :: 58 :: t ++ match r with [] => [] | _ => 44 :: members_text r end
  end.

Definition member_ok (m : bytes * jv) (x : bytes * bytes) : Prop :=
  fst m = fst x /\ plain (fst x) /\ json (snd m) (snd x).

Lemma members_json : forall ms xs, Forall2 member_ok ms xs -> json_members ms (members_text xs).
Proof.
  intros ms xs H. induction H as [|[k v] [k' t] ms xs (E & P & J) H IH]; [constructor|].
  cbn [fst snd] in E, P, J. subst k'. cbn [members_text]. destruct H as [|m x ms xs Hm H].
  - rewrite app_nil_r. change (34 :: k ++ 34 :: 58 :: t) with ((34 :: k) ++ [34] ++ 58 :: t). rewrite app_assoc.
    apply jm_last; [apply plain_key; exact P|exact J].
  - replace (34 :: k ++ 34 :: 58 :: t ++ 44 :: members_text (x :: xs))
      with ((34 :: k ++ [34]) ++ 58 :: t ++ 44 :: members_text (x :: xs)) by (cbn [app]; rewrite <- app_assoc; reflexivity).
    apply jm_more; [apply plain_key; exact P|exact J|exact IH].
Qed.

Lemma prints_intro : forall r ms xs, Forall2 member_ok ms xs -> r = Ok (Some (cstr (123 :: members_text xs ++ [125]))) ->
  prints_object r ms.
Proof.
  intros r ms xs H ->. pose proof (members_json ms xs H) as J.
  assert (O : json (JObj ms) (123 :: members_text xs ++ [125])) by (constructor; exact J).
  pose proof (json_one_line _ _ O) as L. rewrite (cstr_one_line _ L). exists (123 :: members_text xs ++ [125]).
  split; [reflexivity|]. split; assumption.
Qed.

(** ** Values *)

Definition jstr (s : bytes) : bytes := 34 :: flat_map esc1 s ++ [34].
Lemma jstr_json : forall s, json (JStr s) (jstr s).
Proof. intro s. constructor. apply esc_string. Qed.

Lemma json_str_append_ok : forall u s, json_str_append u s = u ++ jstr (cstr s).
Proof. intros u s. apply json_value_string_ok. Qed.

Lemma decl_ok : forall u s first, decl u s first = u ++ (if first then [] else [44]) ++ 34 :: str s ++ [34; 58].
Proof. intros u s first. unfold decl, declare_json_value. destruct first; reflexivity. Qed.

Lemma num_json : forall n t, decimal n t -> json (JNum n) t.
Proof. intros. constructor. assumption. Qed.

Lemma time_ok : forall date v, v < u64 -> time_shown date v ->
  exists t j, (forall u, (match date with DateUnix => append_json_value_int | DateRfc3339 => fmt_rfc3339_time_json end) u v = Ok (u ++ t)) /\
    json j t /\ time_value date v j.
Proof.
  intros [|] v H HS; cbn [time_shown time_value] in *.
  - destruct (json_int_ok v H) as (t & E & D). exists t, (JNum v). split; [exact E|]. split; [apply num_json; exact D|reflexivity].
  - destruct (rfc3339_ts_ok v HS) as (s & E & R & L). exists (jstr s), (JStr s).
    split; [|split; [apply jstr_json|exists s; split; [exact R|reflexivity]]].
    intro u. unfold fmt_rfc3339_time_json. rewrite E. cbn [bind]. rewrite json_value_string_ok. reflexivity.
Qed.

Lemma c_string_domain : forall lib n, c_strings lib -> cstr (wdns_domain_to_str lib n) = wdns_domain_to_str lib n.
Proof. intros lib n (H & _). apply cstr_no_nul. apply H. Qed.
Lemma c_string_rdata : forall lib r t, c_strings lib -> cstr (wdns_rdata_to_str lib r t) = wdns_rdata_to_str lib r t.
Proof. intros lib r t (_ & H & _). apply cstr_no_nul. apply H. Qed.

Lemma type_ok : forall lib ty, c_strings lib -> exists s, (forall u, fmt_rrtype_json lib u ty = u ++ jstr s) /\ type_text lib (ty mod u16) s.
Proof.
  intros lib ty (_ & _ & H). unfold fmt_rrtype_json, type_text. cbv zeta. destruct (wdns_rrtype_to_str lib (ty mod u16)) as [s|] eqn:E.
  - exists s. split; [|reflexivity]. intro u. rewrite json_str_append_ok. rewrite (cstr_no_nul s (H _ _ E)). reflexivity.
  - exists (str "TYPE" ++ printf_u (ty mod u16)). split; [intro u; apply json_value_string_ok|].
    exists (printf_u (ty mod u16)). split; [apply printf_u_decimal|reflexivity].
Qed.

(** ** Arrays *)

Fixpoint joined (delim : bytes) (l : list bytes) : bytes :=
  match l with [] => [] | a :: r => a ++ match r with [] => [] | _ => delim ++ joined delim r end end.

Lemma fmt_list_ok : forall {A} delim (f : bytes -> A -> res bytes) g l, (forall u a, In a l -> f u a = Ok (u ++ g a)) ->
  forall u, fmt_list delim f u l = Ok (u ++ joined delim (map g l)).
Proof.
  intros A delim f g l. induction l as [|a r IH]; intros H u; cbn [fmt_list map joined]; [rewrite app_nil_r; reflexivity|].
  rewrite H by (left; reflexivity). cbn [bind].
  assert (IH' : forall u, fmt_list delim f u r = Ok (u ++ joined delim (map g r))) by (apply IH; intros; apply H; right; assumption).
  destruct r as [|b r']; [cbn [fmt_list map]; rewrite app_nil_r; reflexivity|].
  rewrite IH'. cbn [map]. rewrite <- !app_assoc. reflexivity.
Qed.

Lemma array_json : forall vs ts, Forall2 json vs ts -> json (JArr vs) (91 :: joined [44] ts ++ [93]).
Proof.
  intros vs ts H. constructor. induction H as [|v t vs ts J H IH]; [constructor|]. cbn [joined].
  destruct H as [|v' t' vs ts J' H]; [rewrite app_nil_r; apply je_last; exact J|].
  cbn [app]. apply je_more; assumption.
Qed.

Lemma strings_json : forall l, json (JArr (map JStr l)) (91 :: joined [44] (map jstr l) ++ [93]).
Proof.
  intro l. apply array_json. induction l as [|s l IH]; cbn [map]; constructor; [apply jstr_json|exact IH].
Qed.

(** ** Hexadecimal *)

Definition hex (s : bytes) : bytes := flat_map (fun c => [hex_digit (c / 16); hex_digit (c mod 16)]) s.

Lemma hex_ok : forall s, bytes_ok s -> hex_of s (hex s).
Proof.
  unfold bytes_ok. intros s H. induction H as [|c s Hc _ IH]; [constructor|]. unfold byte_ok in Hc.
  unfold hex. cbn [flat_map app].
  apply (hex_cons c s _ _ (c / 16) (c mod 16)); [apply hex_digit_value|apply hex_digit_value| |exact IH].
  - apply N.div_lt_upper_bound; lia.
  - apply N.mod_lt. lia.
  - apply N.div_mod'.
Qed.

Lemma fmt_hex_ok : forall u s, fmt_hex_str u s = u ++ hex s. Proof. reflexivity. Qed.

Lemma hex_app : forall a b, hex (a ++ b) = hex a ++ hex b.
Proof. intros a b. unfold hex. apply flat_map_app. Qed.

Lemma hex_no_nul : forall s, cstr (hex s) = hex s.
Proof.
  intro s. apply cstr_no_nul. unfold hex. intro H. apply in_flat_map in H. destruct H as (c & _ & H).
  cbn [In] in H. unfold hex_digit in H.
  destruct (c / 16 <? 10) eqn:E1; destruct (c mod 16 <? 10) eqn:E2; destruct H as [H|[H|[]]]; lia.
Qed.

Lemma varint3 : forall ty, ty < 2097152 -> (length (varint_encode32 ty) <= 3)%nat.
Proof.
  intros ty H. unfold varint_encode32.
  repeat match goal with |- context [if ty <? ?k then _ else _] => let k' := eval vm_compute in k in change k with k'; destruct (N.ltb_spec ty k') end; cbn [length]; lia.
Qed.

Lemma encode32_bytes : forall ty, bytes_ok (varint_encode32 ty).
Proof.
  assert (B : forall v, byte_ok (to_byte v)) by (intro v; unfold byte_ok, to_byte; apply N.mod_lt; lia).
  intro ty. unfold varint_encode32, bytes_ok.
  repeat match goal with |- context [if ?b then _ else _] => destruct b end; repeat constructor; apply B.
Qed.

Lemma raw_typed_ok : forall ty u r, ty < 2097152 -> json_raw_typed ty u r = Ok (u ++ jstr (hex (r ++ varint_encode32 ty))).
Proof.
  intros ty u r H. unfold json_raw_typed. pose proof (varint3 ty H) as L.
  destruct (3 <? length (varint_encode32 ty))%nat eqn:E; [apply Nat.ltb_lt in E; lia|].
  rewrite !fmt_hex_ok. cbn [app]. rewrite <- hex_app, json_str_append_ok, hex_no_nul. reflexivity.
Qed.

(** ** Objects *)

Ltac text_eq :=
  change (str "{") with [123]; change (str "}") with [125]; change (str "[") with [91]; change (str "]") with [93];
  change (str ",") with [44]; cbn [members_text];
  repeat (progress (rewrite <- ?app_assoc; cbn [app members_text])); rewrite ?app_nil_r; reflexivity.

(** The format writes the value j for the time v. *)
Definition writes (date : date_format) (v : N) (j : jv) : Prop :=
  exists t, (forall u, (match date with DateUnix => append_json_value_int | DateRfc3339 => fmt_rfc3339_time_json end) u v = Ok (u ++ t)) /\ json j t.
Lemma time_writes : forall date v, v < u64 -> time_shown date v -> exists j, writes date v j /\ time_value date v j.
Proof. intros date v H S. destruct (time_ok date v H S) as (t & j & E & J & V). exists j. split; [exists t; split; assumption|exact V]. Qed.

Lemma common_ok : forall e date lib jf jl, c_strings lib -> e_count e < u64 -> writes date (e_time_first e) jf -> writes date (e_time_last e) jl ->
  exists tc tf tl t, decimal (e_count e) tc /\ json jf tf /\ json jl tl /\ type_text lib (e_rrtype e mod u16) t /\
    (forall u, append_json_value_int u (e_count e) = Ok (u ++ tc)) /\
    (forall u, (match date with DateUnix => append_json_value_int | DateRfc3339 => fmt_rfc3339_time_json end) u (e_time_first e) = Ok (u ++ tf)) /\
    (forall u, (match date with DateUnix => append_json_value_int | DateRfc3339 => fmt_rfc3339_time_json end) u (e_time_last e) = Ok (u ++ tl)) /\
    (forall u, fmt_rrtype_json lib u (e_rrtype e) = u ++ jstr t).
Proof.
  intros e date lib jf jl HC H1 (tf & Ef & Jf) (tl & El & Jl).
  destruct (json_int_ok (e_count e) H1) as (tc & Ec & Dc).
  destruct (type_ok lib (e_rrtype e) HC) as (t & Et & Tt).
  exists tc, tf, tl, t. repeat (split; [assumption|]). assumption.
Qed.

Definition common_list (lib : fmtlib) (zone : bool) (count : N) (jf jl : jv) (nm : bytes) (t : bytes) : list (bytes * jv) :=
  [(str "count", JNum count); (zone_prefix zone (str "time_first"), jf); (zone_prefix zone (str "time_last"), jl);
   (str "rrname", JStr (wdns_domain_to_str lib nm)); (str "rrtype", JStr t)].

Definition common_texts (lib : fmtlib) (zone : bool) (tc tf tl : bytes) (nm : bytes) (t : bytes) : list (bytes * bytes) :=
  [(str "count", tc); (zone_prefix zone (str "time_first"), tf); (zone_prefix zone (str "time_last"), tl);
   (str "rrname", jstr (wdns_domain_to_str lib nm)); (str "rrtype", jstr t)].

Lemma common_forall : forall lib zone count jf jl nm t tc tf tl, decimal count tc -> json jf tf -> json jl tl ->
  Forall2 member_ok (common_list lib zone count jf jl nm t) (common_texts lib zone tc tf tl nm t).
Proof.
  intros lib zone count jf jl nm t tc tf tl Dc Jf Jl. unfold common_list, common_texts.
  constructor; [split; [reflexivity|split; [reflexivity|apply num_json; exact Dc]]|].
  constructor; [split; [reflexivity|split; [destruct zone; reflexivity|exact Jf]]|].
  constructor; [split; [reflexivity|split; [destruct zone; reflexivity|exact Jl]]|].
  constructor; [split; [reflexivity|split; [reflexivity|apply jstr_json]]|].
  constructor; [split; [reflexivity|split; [reflexivity|apply jstr_json]]|constructor].
Qed.

Ltac object_eq HC :=
  rewrite !decl_ok, ?json_str_append_ok, ?c_string_domain by exact HC; rewrite ?map_map;
  unfold common_texts;
  match goal with |- context [if e_iszone ?e then _ else _] =>
    destruct (e_iszone e); cbn [zone_prefix]; change (str "zone_" ++ str "time_first") with (str "zone_time_first");
    change (str "zone_" ++ str "time_last") with (str "zone_time_last") end;
  do 3 f_equal; text_eq.

Lemma rrset_object_any : forall lib e date array raw nm bw jf jl, c_strings lib ->
  e_type e = ENTRY_TYPE_RRSET -> e_name e = Some nm -> e_bailiwick e = Some bw ->
  e_count e < u64 -> writes date (e_time_first e) jf -> writes date (e_time_last e) jl ->
  (raw = true -> e_rdatas e <> [] -> e_rrtype e < 2097152) ->
  exists t, type_text lib (e_rrtype e mod u16) t /\
    prints_object (dnstable_entry_to_json_fmt lib e date array raw)
      (common_list lib (e_iszone e) (e_count e) jf jl nm t ++
       [(str "bailiwick", JStr (wdns_domain_to_str lib bw));
        (str "rdata", JArr (map JStr (map (fun r => wdns_rdata_to_str lib r (e_rrtype e mod u16)) (e_rdatas e))))] ++
       (if raw then [(str "rdata_raw", JArr (map JStr (map (fun r => hex (r ++ varint_encode32 (e_rrtype e))) (e_rdatas e))))] else [])).
Proof.
  intros lib e date array raw nm bw jf jl HC HT HN HB H1 S1 S2 HR.
  destruct (common_ok e date lib jf jl HC H1 S1 S2) as (tc & tf & tl & t & Dc & Jf & Jl & Tt & Ec & Ef & El & Et).
  exists t. split; [exact Tt|].
  set (rd := fun r => wdns_rdata_to_str lib r (e_rrtype e mod u16)).
  set (rw := fun r => hex (r ++ varint_encode32 (e_rrtype e))).
  apply (prints_intro _ _
    (common_texts lib (e_iszone e) tc tf tl nm t ++
     [(str "bailiwick", jstr (wdns_domain_to_str lib bw));
      (str "rdata", 91 :: joined [44] (map jstr (map rd (e_rdatas e))) ++ [93])] ++
     (if raw then [(str "rdata_raw", 91 :: joined [44] (map jstr (map rw (e_rdatas e))) ++ [93])] else []))).
  { apply Forall2_app; [apply common_forall; assumption|]. cbn [app].
    constructor; [split; [reflexivity|split; [reflexivity|apply jstr_json]]|].
    constructor; [split; [reflexivity|split; [reflexivity|apply strings_json]]|].
    destruct raw; [|constructor]. constructor; [|constructor]. split; [reflexivity|split; [reflexivity|apply strings_json]]. }
  unfold dnstable_entry_to_json_fmt. rewrite HT, HN, HB. cbv zeta.
  change (ENTRY_TYPE_RRSET =? ENTRY_TYPE_RRSET) with true. cbn [orb domain_str].
  rewrite Ec. cbn [bind]. rewrite Ef. cbn [bind]. rewrite El. cbn [bind]. rewrite Et.
  rewrite (fmt_list_ok _ _ (fun r => jstr (rd r))).
  2: { intros u r _. rewrite json_str_append_ok. unfold rd. rewrite c_string_rdata by exact HC. reflexivity. }
  cbn [bind]. destruct raw.
  - rewrite (fmt_list_ok _ _ (fun r => jstr (rw r))).
    2: { intros u r Hin. apply raw_typed_ok. apply HR; [reflexivity|]. intro E. rewrite E in Hin. destruct Hin. }
    cbn [bind]. object_eq HC.
  - cbn [bind]. object_eq HC.
Qed.
Lemma rrset_object : forall lib e date array raw nm bw, c_strings lib ->
  e_type e = ENTRY_TYPE_RRSET -> e_name e = Some nm -> e_bailiwick e = Some bw ->
  e_count e < u64 -> e_time_first e < u64 -> e_time_last e < u64 ->
  time_shown date (e_time_first e) -> time_shown date (e_time_last e) ->
  (raw = true -> e_rdatas e <> [] -> e_rrtype e < 2097152) ->
  exists jf jl t, time_value date (e_time_first e) jf /\ time_value date (e_time_last e) jl /\ type_text lib (e_rrtype e mod u16) t /\
    prints_object (dnstable_entry_to_json_fmt lib e date array raw)
      (common_list lib (e_iszone e) (e_count e) jf jl nm t ++
       [(str "bailiwick", JStr (wdns_domain_to_str lib bw));
        (str "rdata", JArr (map JStr (map (fun r => wdns_rdata_to_str lib r (e_rrtype e mod u16)) (e_rdatas e))))] ++
       (if raw then [(str "rdata_raw", JArr (map JStr (map (fun r => hex (r ++ varint_encode32 (e_rrtype e))) (e_rdatas e))))] else [])).
Proof.
  intros lib e date array raw nm bw HC HT HN HB H1 H2 H3 S1 S2 HR.
  destruct (time_writes date _ H2 S1) as (jf & Wf & Vf). destruct (time_writes date _ H3 S2) as (jl & Wl & Vl).
  destruct (rrset_object_any lib e date array raw nm bw jf jl HC HT HN HB H1 Wf Wl HR) as (t & Tt & P).
  exists jf, jl, t. split; [exact Vf|]. split; [exact Vl|]. split; [exact Tt|]. exact P.
Qed.

Lemma one_json : forall array s, json (one array (JStr s)) (if array then 91 :: jstr s ++ [93] else jstr s).
Proof.
  intros [|] s; cbn [one]; [|apply jstr_json]. pose proof (strings_json [s]) as H. cbn [map joined] in H.
  rewrite app_nil_r in H. exact H.
Qed.

Lemma rdata_object_any : forall lib e date array raw nm r jf jl, c_strings lib ->
  e_type e = ENTRY_TYPE_RDATA -> e_name e = Some nm -> e_rdatas e = [r] ->
  e_count e < u64 -> writes date (e_time_first e) jf -> writes date (e_time_last e) jl ->
  exists t, type_text lib (e_rrtype e mod u16) t /\
    prints_object (dnstable_entry_to_json_fmt lib e date array raw)
      (common_list lib (e_iszone e) (e_count e) jf jl nm t ++
       [(str "rdata", one array (JStr (wdns_rdata_to_str lib r (e_rrtype e mod u16))))] ++
       (if raw then [(str "rdata_raw", one array (JStr (hex r)))] else [])).
Proof.
  intros lib e date array raw nm r jf jl HC HT HN HD H1 S1 S2.
  destruct (common_ok e date lib jf jl HC H1 S1 S2) as (tc & tf & tl & t & Dc & Jf & Jl & Tt & Ec & Ef & El & Et).
  exists t. split; [exact Tt|].
  set (rd := wdns_rdata_to_str lib r (e_rrtype e mod u16)).
  apply (prints_intro _ _
    (common_texts lib (e_iszone e) tc tf tl nm t ++
     [(str "rdata", if array then 91 :: jstr rd ++ [93] else jstr rd)] ++
     (if raw then [(str "rdata_raw", if array then 91 :: jstr (hex r) ++ [93] else jstr (hex r))] else []))).
  { apply Forall2_app; [apply common_forall; assumption|]. cbn [app].
    constructor; [split; [reflexivity|split; [reflexivity|apply one_json]]|].
    destruct raw; [|constructor]. constructor; [|constructor]. split; [reflexivity|split; [reflexivity|apply one_json]]. }
  unfold dnstable_entry_to_json_fmt. rewrite HT, HN, HD. cbv zeta.
  change (ENTRY_TYPE_RDATA =? ENTRY_TYPE_RDATA) with true. change (ENTRY_TYPE_RDATA =? ENTRY_TYPE_RRSET) with false.
  cbn [orb domain_str].
  rewrite Ec. cbn [bind]. rewrite Ef. cbn [bind]. rewrite El. cbn [bind]. rewrite Et.
  destruct raw; destruct array; cbn [arr]; rewrite ?fmt_hex_ok, !json_str_append_ok; cbn [app]; rewrite ?hex_no_nul;
    rewrite (c_string_rdata lib r) by exact HC; fold rd; object_eq HC.
Qed.
Lemma rdata_object : forall lib e date array raw nm r, c_strings lib ->
  e_type e = ENTRY_TYPE_RDATA -> e_name e = Some nm -> e_rdatas e = [r] ->
  e_count e < u64 -> e_time_first e < u64 -> e_time_last e < u64 ->
  time_shown date (e_time_first e) -> time_shown date (e_time_last e) ->
  exists jf jl t, time_value date (e_time_first e) jf /\ time_value date (e_time_last e) jl /\ type_text lib (e_rrtype e mod u16) t /\
    prints_object (dnstable_entry_to_json_fmt lib e date array raw)
      (common_list lib (e_iszone e) (e_count e) jf jl nm t ++
       [(str "rdata", one array (JStr (wdns_rdata_to_str lib r (e_rrtype e mod u16))))] ++
       (if raw then [(str "rdata_raw", one array (JStr (hex r)))] else [])).
Proof.
  intros lib e date array raw nm r HC HT HN HD H1 H2 H3 S1 S2.
  destruct (time_writes date _ H2 S1) as (jf & Wf & Vf). destruct (time_writes date _ H3 S2) as (jl & Wl & Vl).
  destruct (rdata_object_any lib e date array raw nm r jf jl HC HT HN HD H1 Wf Wl) as (t & Tt & P).
  exists jf, jl, t. split; [exact Vf|]. split; [exact Vl|]. split; [exact Tt|]. exact P.
Qed.

(** ** Index entries and metadata *)

Lemma types_ok : forall lib l, c_strings lib ->
  exists ts, Forall2 (type_text lib) (map (fun t => t mod u16) l) ts /\
    forall u, fmt_list (str ",") (fun u t => Ok (fmt_rrtype_json lib u t)) u l = Ok (u ++ joined [44] (map jstr ts)).
Proof.
  intros lib l HC. induction l as [|a l (ts & F & E)].
  - exists []. split; [constructor|]. intro u. cbn [fmt_list map joined]. rewrite app_nil_r. reflexivity.
  - destruct (type_ok lib a HC) as (t & Et & Tt). exists (t :: ts). split; [constructor; assumption|].
    intro u. cbn [fmt_list]. rewrite Et. cbn [bind map joined]. inversion F; subst.
    + cbn [fmt_list map joined]. destruct l; [|discriminate]. cbn [fmt_list]. rewrite app_nil_r. reflexivity.
    + destruct l as [|b l]; [discriminate|]. rewrite E. cbn [map]. change (str ",") with [44]. rewrite <- !app_assoc. reflexivity.
Qed.

Definition index_kind (ty : N) (key : bytes) : Prop :=
  (ty = ENTRY_TYPE_RRSET_NAME_FWD /\ key = str "rrset_name") \/ (ty = ENTRY_TYPE_RDATA_NAME_REV /\ key = str "rdata_name").

(** [types] is what the index value unpacks to, [None] that it does not. *)
Lemma index_object : forall lib e date array raw nm key types, c_strings lib ->
  index_kind (e_type e) key -> e_name e = Some nm -> rrtype_union_unpack (name_bytes (e_rrtype_map e)) = Ok types ->
  exists ts, match types with
             | Some l => Forall2 (type_text lib) (map (fun t => t mod u16) l) ts
             | None => ts = [str "<failure>"]
             end /\
    prints_object (dnstable_entry_to_json_fmt lib e date array raw)
      [(key, JStr (wdns_domain_to_str lib nm)); (str "rrtypes", JArr (map JStr ts))].
Proof.
  intros lib e date array raw nm key types HC HK HN HU.
  assert (U : exists ts, match types with
             | Some l => Forall2 (type_text lib) (map (fun t => t mod u16) l) ts
             | None => ts = [str "<failure>"]
             end /\ forall u, fmt_rrtypes_union_json lib u e = Ok (declare_json_value u (str "rrtypes") false ++ 91 :: joined [44] (map jstr ts) ++ [93])).
  { destruct types as [l|].
    - destruct (types_ok lib l HC) as (ts & F & E). exists ts. split; [exact F|]. intro u. unfold fmt_rrtypes_union_json.
      destruct (e_rrtype_map e) as [m|]; cbn [name_bytes] in HU.
      + rewrite HU. cbn [bind]. rewrite E. cbn [bind]. rewrite <- !app_assoc. reflexivity.
      + cbn [rrtype_union_unpack] in HU. injection HU as <-. inversion F; subst. cbn [bind map joined]. rewrite <- !app_assoc. reflexivity.
    - exists [str "<failure>"]. split; [reflexivity|]. intro u. unfold fmt_rrtypes_union_json.
      destruct (e_rrtype_map e) as [m|]; cbn [name_bytes] in HU; [|discriminate].
      rewrite HU. cbn [bind]. rewrite json_str_append_ok. change (cstr (str "<failure>")) with (str "<failure>").
      cbn [map joined]. rewrite <- !app_assoc. reflexivity. }
  destruct U as (ts & F & E). exists ts. split; [exact F|].
  apply (prints_intro _ _ [(key, jstr (wdns_domain_to_str lib nm)); (str "rrtypes", 91 :: joined [44] (map jstr ts) ++ [93])]).
  { constructor; [split; [reflexivity|split; [destruct HK as [[_ ->] | [_ ->]]; reflexivity|apply jstr_json]]|].
    constructor; [split; [reflexivity|split; [reflexivity|apply strings_json]]|constructor]. }
  unfold dnstable_entry_to_json_fmt.
  destruct HK as [[-> ->] | [-> ->]]; rewrite HN; cbv zeta;
    cbn [N.eqb ENTRY_TYPE_RRSET ENTRY_TYPE_RRSET_NAME_FWD ENTRY_TYPE_RDATA ENTRY_TYPE_RDATA_NAME_REV Pos.eqb orb bind domain_str];
    rewrite E; cbn [bind]; rewrite !decl_ok, !json_str_append_ok, ?c_string_domain by exact HC; unfold declare_json_value;
    do 3 f_equal; text_eq.
Qed.

Lemma time_range_object_any : forall lib e date array raw jf jl, e_type e = ENTRY_TYPE_TIME_RANGE ->
  writes date (e_time_first e) jf -> writes date (e_time_last e) jl ->
  prints_object (dnstable_entry_to_json_fmt lib e date array raw) [(str "time_first", jf); (str "time_last", jl)].
Proof.
  intros lib e date array raw jf jl HT (tf & Ef & Jf) (tl & El & Jl).
  apply (prints_intro _ _ [(str "time_first", tf); (str "time_last", tl)]).
  { constructor; [split; [reflexivity|split; [reflexivity|exact Jf]]|].
    constructor; [split; [reflexivity|split; [reflexivity|exact Jl]]|constructor]. }
  unfold dnstable_entry_to_json_fmt. rewrite HT. cbv zeta.
  cbn [N.eqb ENTRY_TYPE_RRSET ENTRY_TYPE_RRSET_NAME_FWD ENTRY_TYPE_RDATA ENTRY_TYPE_RDATA_NAME_REV ENTRY_TYPE_TIME_RANGE Pos.eqb orb bind].
  rewrite Ef. cbn [bind]. rewrite El. cbn [bind]. rewrite !decl_ok. do 3 f_equal; text_eq.
Qed.
Lemma time_range_object : forall lib e date array raw, e_type e = ENTRY_TYPE_TIME_RANGE ->
  e_time_first e < u64 -> e_time_last e < u64 -> time_shown date (e_time_first e) -> time_shown date (e_time_last e) ->
  exists jf jl, time_value date (e_time_first e) jf /\ time_value date (e_time_last e) jl /\
    prints_object (dnstable_entry_to_json_fmt lib e date array raw) [(str "time_first", jf); (str "time_last", jl)].
Proof.
  intros lib e date array raw HT H1 H2 S1 S2.
  destruct (time_writes date _ H1 S1) as (jf & Wf & Vf). destruct (time_writes date _ H2 S2) as (jl & Wl & Vl).
  exists jf, jl. split; [exact Vf|]. split; [exact Vl|]. apply time_range_object_any; assumption.
Qed.

Lemma source_info_object : forall lib e date array raw, e_type e = ENTRY_TYPE_SOURCE_INFO ->
  prints_object (dnstable_entry_to_json_fmt lib e date array raw) [(str "source info", JStr (cstr (name_bytes (e_source_info e))))].
Proof.
  intros lib e date array raw HT.
  apply (prints_intro _ _ [(str "source info", jstr (cstr (name_bytes (e_source_info e))))]).
  { constructor; [split; [reflexivity|split; [reflexivity|apply jstr_json]]|constructor]. }
  unfold dnstable_entry_to_json_fmt. rewrite HT. cbv zeta.
  cbn [N.eqb ENTRY_TYPE_RRSET ENTRY_TYPE_RRSET_NAME_FWD ENTRY_TYPE_RDATA ENTRY_TYPE_RDATA_NAME_REV ENTRY_TYPE_TIME_RANGE
       ENTRY_TYPE_SOURCE_INFO Pos.eqb orb bind].
  rewrite decl_ok, json_str_append_ok. do 3 f_equal; text_eq.
Qed.

Lemma printf_no_nul : forall n, ~ In 0 (printf_u n).
Proof.
  intros n H. destruct (printf_u_decimal n) as (D & _). rewrite Forall_forall in D. specialize (D 0 H). unfold digit in D. lia.
Qed.

Lemma entry_type_to_string_no_nul : forall t s, entry_type_to_string t = Some s -> ~ In 0 s.
Proof.
  intros t s H. unfold entry_type_to_string in H.
  repeat match type of H with context [if ?b then _ else _] => destruct b end; try discriminate;
    injection H as <-; intro X; vm_compute in X; repeat destruct X as [X|X]; try discriminate; contradiction.
Qed.

Lemma version_object : forall lib e date array raw, e_type e = ENTRY_TYPE_VERSION -> e_v_type e < 256 -> e_version e < u64 ->
  exists s, version_type_text (e_v_type e) s /\
    prints_object (dnstable_entry_to_json_fmt lib e date array raw) [(str "entry_type", JStr s); (str "version", JNum (e_version e))].
Proof.
  intros lib e date array raw HT HV H.
  destruct (json_int_ok (e_version e) H) as (tv & Ev & Dv).
  set (s := match entry_type_to_string (e_v_type e) with Some n => n | None => str "unknown-" ++ printf_u (e_v_type e mod 256) end).
  exists s. split.
  { unfold version_type_text, s. destruct (entry_type_to_string (e_v_type e)); [reflexivity|].
    exists (printf_u (e_v_type e mod 256)). rewrite N.mod_small by exact HV. split; [apply printf_u_decimal|reflexivity]. }
  assert (CS : cstr s = s).
  { apply cstr_no_nul. unfold s. destruct (entry_type_to_string (e_v_type e)) as [n|] eqn:E.
    - exact (entry_type_to_string_no_nul _ _ E).
    - intro X. apply in_app_or in X. destruct X as [X|X]; [vm_compute in X; repeat destruct X as [X|X]; try discriminate; contradiction|].
      exact (printf_no_nul _ X). }
  apply (prints_intro _ _ [(str "entry_type", jstr s); (str "version", tv)]).
  { constructor; [split; [reflexivity|split; [reflexivity|apply jstr_json]]|].
    constructor; [split; [reflexivity|split; [reflexivity|apply num_json; exact Dv]]|constructor]. }
  unfold dnstable_entry_to_json_fmt. rewrite HT. cbv zeta. fold s.
  cbn [N.eqb ENTRY_TYPE_RRSET ENTRY_TYPE_RRSET_NAME_FWD ENTRY_TYPE_RDATA ENTRY_TYPE_RDATA_NAME_REV ENTRY_TYPE_TIME_RANGE
       ENTRY_TYPE_SOURCE_INFO ENTRY_TYPE_VERSION Pos.eqb orb bind].
  rewrite Ev. cbn [bind]. rewrite !decl_ok, json_str_append_ok, CS. do 3 f_equal; text_eq.
Qed.

(** Theorems about which entries can be printed: C78. *)
From Coq Require Import Lia ZifyBool.
From Verif Require Import Str BaseFacts ModelVarint ModelEntry ModelNames ModelFormat SpecFormat TextProofs CalendarProofs TimeProofs SpecTimes PropsTimes.
From Verif Require Import SpecMerge SpecJson SpecText JsonProofs JsonSyntax LineProofs PropsEntry PropsFormat PropsText SpecPrintable Demo.

Open Scope Z_scope.
Lemma falls_bounds : forall t y mo d h mi se, falls_on t y mo d h mi se -> 86400 * (year_days y - 719528) <= t < 86400 * (year_days (y + 1) - 719528).
Proof.
  intros t y mo d h mi se (Hm & Hd & Hh & Hmi & Hse & jan1 & C & E). rewrite months_len in Hd by exact Hm.
  rewrite (calendar_unique jan1 C), months_days in E by exact Hm. pose proof (month_days_bounds _ _ _ Hm Hd) as B.
  rewrite year_days_step. lia.
Qed.

(** The years in numbers of seconds. *)
Theorem in_years_iff : forall v y mo d h mi se, falls_on (instant v) y mo d h mi se -> (in_years v <-> tm_years y /\ y <= 2147483647).
Proof.
  intros v y mo d h mi se F. pose proof (falls_bounds _ _ _ _ _ _ _ F) as B. unfold in_years, tm_years.
  assert (Y1 : year_days (-2147481748) = -784351602344) by reflexivity. assert (Y2 : year_days 2147483648 = 784352296305) by reflexivity.
  split.
  - intros [L U]. assert (-2147481748 <= y).
    { destruct (Z.le_gt_cases (-2147481748) y); [assumption|]. pose proof (year_days_mono (y + 1) (-2147481748) ltac:(lia)). lia. }
    assert (y <= 2147483647).
    { destruct (Z.le_gt_cases y 2147483647); [assumption|]. pose proof (year_days_mono 2147483648 y ltac:(lia)). lia. }
    lia.
  - intros [[L _] U]. pose proof (year_days_mono (-2147481748) y ltac:(lia)). pose proof (year_days_mono (y + 1) 2147483648 ltac:(lia)). lia.
Qed.
Print Assumptions in_years_iff.
Theorem in_struct_tm_iff : forall v y mo d h mi se, falls_on (instant v) y mo d h mi se -> (in_struct_tm v <-> tm_years y).
Proof.
  intros v y mo d h mi se F. pose proof (falls_bounds _ _ _ _ _ _ _ F) as B. unfold in_struct_tm, tm_years.
  assert (Y1 : year_days (-2147481748) = -784351602344) by reflexivity. assert (Y2 : year_days 2147485548 = 784352990265) by reflexivity.
  split.
  - intros [L U]. assert (-2147481748 <= y).
    { destruct (Z.le_gt_cases (-2147481748) y); [assumption|]. pose proof (year_days_mono (y + 1) (-2147481748) ltac:(lia)). lia. }
    assert (y <= 2147485547).
    { destruct (Z.le_gt_cases y 2147485547); [assumption|]. pose proof (year_days_mono 2147485548 y ltac:(lia)). lia. }
    lia.
  - intros [L U]. pose proof (year_days_mono (-2147481748) y ltac:(lia)). pose proof (year_days_mono (y + 1) 2147485548 ltac:(lia)). lia.
Qed.
Print Assumptions in_struct_tm_iff.
Close Scope Z_scope.

(** What the JSON form of a time does. *)
Lemma json_time_cases : forall v,
  (in_years v /\ exists j, writes DateRfc3339 v j /\ time_member DateRfc3339 v j) \/
  (~ in_years v /\ ((~ in_struct_tm v /\ forall u, fmt_rfc3339_time_json u v = Abort) \/ (forall u, fmt_rfc3339_time_json u v = UB))).
Proof.
  intro v. destruct (every_time_has_a_date (instant v)) as (y & mo & d & h & mi & se & F & _).
  pose proof (in_years_iff v y mo d h mi se F) as I. pose proof (in_struct_tm_iff v y mo d h mi se F) as I2. destruct (rfc3339_any_time [] v y mo d h mi se F) as (A & B & C).
  unfold fmt_rfc3339_time in A, B, C. unfold fmt_rfc3339_time_json.
  destruct (Z_le_gt_dec (-2147481748) y); [destruct (Z_le_gt_dec y 2147485547)|].
  - assert (TY : tm_years y) by (split; assumption). destruct (Z_le_gt_dec y 2147483647).
    + left. split; [apply I; split; assumption|]. destruct (C TY ltac:(assumption)) as (s & E & ST). cbn [app] in E.
      destruct (rfc3339_ts v) as [ts| | | |] eqn:X; try discriminate. cbn [bind app] in E. injection E as ->.
      exists (JStr s). split; [|exists y, mo, d, h, mi, se, s; split; [exact F|split; [exact ST|reflexivity]]].
      exists (jstr s). split; [|apply jstr_json]. intro u. unfold fmt_rfc3339_time_json. rewrite X. cbn [bind]. rewrite json_value_string_ok. reflexivity.
    + right. split; [intro IY; apply I in IY; lia|]. right. intro u. specialize (B TY ltac:(lia)). destruct (rfc3339_ts v); try discriminate. reflexivity.
  - right. split; [intro IY; apply I in IY; unfold tm_years in IY; lia|]. left. split; [intro IY; apply I2 in IY; unfold tm_years in IY; lia|]. intro u. specialize (A ltac:(unfold tm_years; lia)). destruct (rfc3339_ts v); try discriminate. reflexivity.
  - right. split; [intro IY; apply I in IY; unfold tm_years in IY; lia|]. left. split; [intro IY; apply I2 in IY; unfold tm_years in IY; lia|]. intro u. specialize (A ltac:(unfold tm_years; lia)). destruct (rfc3339_ts v); try discriminate. reflexivity.
Qed.

Lemma time_member_utf8 : forall date v j, time_member date v j -> Forall utf8 (jv_strings j).
Proof.
  intros [|] v j H; cbn [time_member] in H; [subst j; constructor|].
  destruct H as (y & mo & d & h & mi & se & s & _ & (ty & tmo & td & th & tmi & tse & (P1 & _) & (P2 & _) & (P3 & _) & (P4 & _) & (P5 & _) & (P6 & _) & ->) & ->).
  constructor; [|constructor].
  assert (D : forall s, Forall digit s -> utf8 s).
  { intros s D. apply utf8_ascii. eapply Forall_impl; [|exact D]. cbv beta. unfold digit. intros; lia. }
  repeat (apply utf8_app; [first [apply D; assumption|apply ascii_str; reflexivity]|]). apply ascii_str. reflexivity.
Qed.

(** An entry that can be printed is one JSON object on one line, as in C47, and shows its
    times. *)
Theorem json_printed : forall lib date array raw zone k rest val e, c_strings lib -> bytes_ok (k :: rest) -> entry_decode (k :: rest) val = Ok e ->
  json_printable date raw k e ->
  exists s m, dnstable_entry_format lib (json_formatter date array raw) (set_iszone e zone) = Ok (Some s) /\
    json (JObj m) s /\ one_line s /\ NoDup (map fst m) /\ (forall v, json v s -> v = JObj m) /\
    (forall v, get_time_first e = Ok v -> exists key j, In key [str "time_first"; str "zone_time_first"] /\ In (key, j) m /\ time_member date v j) /\
    (forall v, get_time_last e = Ok v -> exists key j, In key [str "time_last"; str "zone_time_last"] /\ In (key, j) m /\ time_member date v j) /\
    (utf8_strings lib -> (forall x, get_source_info e = Ok x -> utf8 x) -> utf8 s).
Proof.
  intros lib date array raw zone k rest val e HC HB HD (HK & HT & HR).
  destruct (json_entry_any lib date array raw zone k rest val e (time_member date) HC HK HB HD (time_member_utf8 date)) as (m & (s & E & J & L) & TF & TL & ND & U).
  { intros v B H. destruct date.
    - destruct (json_int_ok v B) as (t & E & D). exists (JNum v). split; [exists t; split; [exact E|apply num_json; exact D]|reflexivity].
    - destruct (json_time_cases v) as [(_ & j & X)|(N & _)]; [exists j; exact X|]. exfalso. apply N. exact (HT eq_refl v H). }
  { intros E TY. apply HR; [exact E|]. pose proof (decoded_type_partial k rest val e HK HD) as G. unfold get_type in G. congruence. }
  assert (Z : forall b a c, In (zone_prefix b a) [a; str "zone_" ++ a] /\ str "zone_" ++ a = c -> In (zone_prefix b a) [a; c]) by (intros b a c [X <-]; exact X).
  assert (Z' : forall b a, In (zone_prefix b a) [a; str "zone_" ++ a]) by (intros [|] a; cbn [zone_prefix In]; auto).
  exists s, m. split; [exact E|]. split; [exact J|]. split; [exact L|]. split; [exact ND|]. split; [intros v Hv; exact (json_unambiguous _ _ _ Hv J)|].
  split; [|split].
  - intros v G. destruct (TF v G) as (j & T & I). exists (zone_prefix (record_zone e zone) (str "time_first")), j. split; [apply Z; split; [apply Z'|reflexivity]|]. split; [exact I|exact T].
  - intros v G. destruct (TL v G) as (j & T & I). exists (zone_prefix (record_zone e zone) (str "time_last")), j. split; [apply Z; split; [apply Z'|reflexivity]|]. split; [exact I|exact T].
  - intros HU HS. exact (json_utf8 _ _ J (U HU HS)).
Qed.
Print Assumptions json_printed.

Lemma raw_typed_overrun : forall ty u r l, 2097152 <= ty -> fmt_list (str ",") (json_raw_typed ty) u (r :: l) = UB.
Proof.
  intros ty u r l H. cbn [fmt_list]. unfold json_raw_typed.
  assert (L : (3 < length (varint_encode32 ty))%nat).
  { unfold varint_encode32.
    repeat match goal with |- context [if ty <? ?k then _ else _] => let k' := eval vm_compute in k in change k with k'; destruct (N.ltb_spec ty k') end; cbn [length]; lia. }
  apply Nat.ltb_lt in L. rewrite L. reflexivity.
Qed.

(** An entry that cannot be printed stops the program, or makes it overrun a buffer,
    overflow an int or go through a null pointer; no entry makes printing return NULL. *)
Theorem json_not_printed : forall lib date array raw zone k rest val e, c_strings lib -> bytes_ok (k :: rest) -> entry_decode (k :: rest) val = Ok e ->
  ~ json_printable date raw k e ->
  let r := dnstable_entry_format lib (json_formatter date array raw) (set_iszone e zone) in
  r = UB \/ (r = Abort /\ date = DateRfc3339 /\ exists v, (get_time_first e = Ok v \/ get_time_last e = Ok v) /\ ~ in_struct_tm v).
Proof.
  intros lib date array raw zone k rest val e HC HB HD NP. cbv zeta. rewrite json_formatter_ok.
  destruct (in_dec N.eq_dec k [ENTRY_TYPE_RRSET; ENTRY_TYPE_RRSET_NAME_FWD; ENTRY_TYPE_RDATA; ENTRY_TYPE_RDATA_NAME_REV;
        ENTRY_TYPE_SOURCE_INFO; ENTRY_TYPE_TIME_RANGE; ENTRY_TYPE_VERSION]) as [HK|HK].
  2: { left. assert (E0 : entry_decode (k :: rest) val = Ok entry0).
       { cbn [entry_decode].
         assert (H : forall t, In t [ENTRY_TYPE_RRSET; ENTRY_TYPE_RRSET_NAME_FWD; ENTRY_TYPE_RDATA; ENTRY_TYPE_RDATA_NAME_REV;
           ENTRY_TYPE_SOURCE_INFO; ENTRY_TYPE_TIME_RANGE; ENTRY_TYPE_VERSION] -> (k =? t) = false).
         { intros t Ht. apply N.eqb_neq. intros ->. apply HK. exact Ht. }
         rewrite !H by (cbn; tauto). reflexivity. }
       rewrite E0 in HD. injection HD as <-. destruct zone, date; vm_compute; reflexivity. }
  pose proof (decoded_type_partial k rest val e HK HD) as TK. unfold get_type in TK.
  assert (TIMES : get_time_first e = Ok (e_time_first e) -> get_time_last e = Ok (e_time_last e) ->
    (date = DateRfc3339 -> in_years (e_time_first e)) -> (date = DateRfc3339 -> in_years (e_time_last e)) ->
    raw = true /\ k = ENTRY_TYPE_RRSET /\ e_rdatas e <> [] /\ 2097152 <= e_rrtype e).
  { intros G1 G2 I1 I2. destruct raw; [|exfalso; apply NP; split; [exact HK|]; split; [|discriminate]; intros D v [X|X]; [rewrite G1 in X|rewrite G2 in X]; injection X as <-; auto].
    destruct (N.eq_dec k ENTRY_TYPE_RRSET) as [->|NK]; [|exfalso; apply NP; split; [exact HK|]; split; [|intros _ X; contradiction]; intros D v [X|X]; [rewrite G1 in X|rewrite G2 in X]; injection X as <-; auto].
    destruct (e_rdatas e) as [|r0 l] eqn:ER; [exfalso; apply NP; split; [exact HK|]; split; [|intros _ _ X; contradiction]; intros D v [X|X]; [rewrite G1 in X|rewrite G2 in X]; injection X as <-; auto|].
    split; [reflexivity|]. split; [reflexivity|]. split; [discriminate|].
    destruct (N.le_gt_cases 2097152 (e_rrtype e)) as [L|L]; [exact L|]. exfalso. apply NP. split; [exact HK|]. split; [|intros _ _ _; exact L].
    intros D v [X|X]; [rewrite G1 in X|rewrite G2 in X]; injection X as <-; auto. }
  assert (W : forall v, v < u64 -> (exists j, writes date v j /\ (date = DateRfc3339 -> in_years v)) \/
    (date = DateRfc3339 /\ ~ in_years v /\ ((~ in_struct_tm v /\ forall u, fmt_rfc3339_time_json u v = Abort) \/ (forall u, fmt_rfc3339_time_json u v = UB)))).
  { intros v B. destruct date.
    - left. destruct (json_int_ok v B) as (t & E & D). exists (JNum v). split; [exists t; split; [exact E|apply num_json; exact D]|discriminate].
    - destruct (json_time_cases v) as [(I & j & X & _)|(N & X)]; [left; exists j; split; [exact X|intros _; exact I]|right; split; [reflexivity|split; assumption]]. }
  assert (NT : (forall v, get_time_first e <> Ok v) -> (forall v, get_time_last e <> Ok v) -> k <> ENTRY_TYPE_RRSET -> False).
  { intros N1 N2 NK. apply NP. split; [exact HK|]. split; [|intros _ X; contradiction]. intros _ v [X|X]; [destruct (N1 v X)|destruct (N2 v X)]. }
  destruct (decoded_fields k rest val e HK HB HD) as
    [(TY & (nm & bw & N1 & N2) & B1 & B2 & B3 & B4)|[(TY & (nm & r & N1 & N2 & B4) & B1 & B2 & B3)|[(key & nm & IK & N1)|[(TY & B1 & B2)|[TY|(TY & B1 & B2)]]]]].
  - assert (G1 : get_time_first e = Ok (e_time_first e)) by (unfold get_time_first, is_type; rewrite TY; reflexivity).
    assert (G2 : get_time_last e = Ok (e_time_last e)) by (unfold get_time_last, is_type; rewrite TY; reflexivity).
    destruct (json_int_ok (e_count e) B1) as (tc & Ec & _).
    unfold dnstable_entry_to_json_fmt. cbn [set_iszone e_type e_count e_time_first e_time_last e_name e_rrtype e_bailiwick e_rdatas e_iszone].
    rewrite TY. cbv zeta. change (ENTRY_TYPE_RRSET =? ENTRY_TYPE_RRSET) with true. cbn [orb]. rewrite Ec. cbn [bind].
    destruct (W _ B2) as [(jf & (tf & Ef & _) & If)|(-> & _ & [[NI X]|X])].
    2: { rewrite X. cbn [bind]. right. split; [reflexivity|]. split; [reflexivity|]. exists (e_time_first e). split; [left; exact G1|exact NI]. }
    2: { rewrite X. cbn [bind]. left. reflexivity. }
    rewrite Ef. cbn [bind].
    destruct (W _ B3) as [(jl & (tl & El & _) & Il)|(-> & _ & [[NI X]|X])].
    2: { rewrite X. cbn [bind]. right. split; [reflexivity|]. split; [reflexivity|]. exists (e_time_last e). split; [right; exact G2|exact NI]. }
    2: { rewrite X. cbn [bind]. left. reflexivity. }
    rewrite El. cbn [bind]. destruct (TIMES G1 G2 If Il) as (-> & _ & NE & LT). rewrite N1, N2. cbn [domain_str bind].
    rewrite (fmt_list_ok _ _ (fun r => jstr (wdns_rdata_to_str lib r (e_rrtype e mod u16)))).
    2: { intros u r _. rewrite json_str_append_ok. rewrite c_string_rdata by exact HC. reflexivity. }
    cbn [bind]. destruct (e_rdatas e) as [|r0 l]; [contradiction|]. rewrite raw_typed_overrun by exact LT. left. reflexivity.
  - assert (G1 : get_time_first e = Ok (e_time_first e)) by (unfold get_time_first, is_type; rewrite TY; reflexivity).
    assert (G2 : get_time_last e = Ok (e_time_last e)) by (unfold get_time_last, is_type; rewrite TY; reflexivity).
    destruct (json_int_ok (e_count e) B1) as (tc & Ec & _).
    unfold dnstable_entry_to_json_fmt. cbn [set_iszone e_type e_count e_time_first e_time_last e_name e_rrtype e_bailiwick e_rdatas e_iszone].
    rewrite TY. cbv zeta. change (ENTRY_TYPE_RDATA =? ENTRY_TYPE_RDATA) with true. rewrite Bool.orb_true_r. rewrite Ec. cbn [bind].
    destruct (W _ B2) as [(jf & (tf & Ef & _) & If)|(-> & _ & [[NI X]|X])].
    2: { rewrite X. cbn [bind]. right. split; [reflexivity|]. split; [reflexivity|]. exists (e_time_first e). split; [left; exact G1|exact NI]. }
    2: { rewrite X. cbn [bind]. left. reflexivity. }
    rewrite Ef. cbn [bind].
    destruct (W _ B3) as [(jl & (tl & El & _) & Il)|(-> & _ & [[NI X]|X])].
    2: { rewrite X. cbn [bind]. right. split; [reflexivity|]. split; [reflexivity|]. exists (e_time_last e). split; [right; exact G2|exact NI]. }
    2: { rewrite X. cbn [bind]. left. reflexivity. }
    destruct (TIMES G1 G2 If Il) as (_ & KK & _). rewrite KK in TK. rewrite TY in TK. discriminate.
  - exfalso. apply NT.
    + intro v. unfold get_time_first, is_type. destruct IK as [[-> _]|[-> _]]; discriminate.
    + intro v. unfold get_time_last, is_type. destruct IK as [[-> _]|[-> _]]; discriminate.
    + rewrite <- TK. destruct IK as [[-> _]|[-> _]]; discriminate.
  - assert (G1 : get_time_first e = Ok (e_time_first e)) by (unfold get_time_first, is_type; rewrite TY; reflexivity).
    assert (G2 : get_time_last e = Ok (e_time_last e)) by (unfold get_time_last, is_type; rewrite TY; reflexivity).
    unfold dnstable_entry_to_json_fmt. cbn [set_iszone e_type e_count e_time_first e_time_last e_name e_rrtype e_bailiwick e_rdatas e_iszone].
    rewrite TY. cbv zeta. cbn [N.eqb ENTRY_TYPE_RRSET ENTRY_TYPE_RRSET_NAME_FWD ENTRY_TYPE_RDATA ENTRY_TYPE_RDATA_NAME_REV ENTRY_TYPE_TIME_RANGE Pos.eqb orb bind].
    destruct (W _ B1) as [(jf & (tf & Ef & _) & If)|(-> & _ & [[NI X]|X])].
    2: { rewrite X. cbn [bind]. right. split; [reflexivity|]. split; [reflexivity|]. exists (e_time_first e). split; [left; exact G1|exact NI]. }
    2: { rewrite X. cbn [bind]. left. reflexivity. }
    rewrite Ef. cbn [bind].
    destruct (W _ B2) as [(jl & (tl & El & _) & Il)|(-> & _ & [[NI X]|X])].
    2: { rewrite X. cbn [bind]. right. split; [reflexivity|]. split; [reflexivity|]. exists (e_time_last e). split; [right; exact G2|exact NI]. }
    2: { rewrite X. cbn [bind]. left. reflexivity. }
    destruct (TIMES G1 G2 If Il) as (_ & KK & _). rewrite KK in TK. rewrite TY in TK. discriminate.
  - exfalso. apply NT; [intro v; unfold get_time_first, is_type; rewrite TY; discriminate|intro v; unfold get_time_last, is_type; rewrite TY; discriminate|].
    rewrite <- TK, TY. discriminate.
  - exfalso. apply NT; [intro v; unfold get_time_first, is_type; rewrite TY; discriminate|intro v; unfold get_time_last, is_type; rewrite TY; discriminate|].
    rewrite <- TK, TY. discriminate.
Qed.
Print Assumptions json_not_printed.

(** ** Text *)

Lemma fmt_time_always : forall v y mo d h mi se, falls_on (instant v) y mo d h mi se -> exists s, (forall u, fmt_time u v = Ok (u ++ s)) /\ nz s /\ no_break s.
Proof.
  intros v y mo d h mi se F. pose proof (gmtime_exact _ _ _ _ _ _ _ F) as G. destruct F as (Hm & Hd & Hh & Hmi & Hse & _).
  rewrite months_len in Hd by exact Hm. pose proof (month_len_31 (zleap y) mo Hm) as L31.
  assert (NIL : exists s, (forall u : bytes, Ok u = Ok (u ++ s)) /\ nz s /\ no_break s) by (exists []; split; [intro u; rewrite app_nil_r; reflexivity|split; intros []]).
  unfold fmt_time. rewrite to_time_instant, G. destruct (_ && _)%bool; [|exact NIL]. cbv zeta. destruct (_ <? 32)%nat; [|exact NIL].
  eexists. split; [reflexivity|]. unfold strftime_text. cbn [tm_sec tm_min tm_hour tm_mday tm_mon tm_year].
  assert (P2 : forall n, (0 <= n < 100)%Z -> Forall digit (printf_02d n)) by (intros n H; apply (printf_02_ok n H)).
  assert (PY : nz (printf_d (1900 + (y - 1900))) /\ no_break (printf_d (1900 + (y - 1900)))).
  { pose proof (printf_d_signed (1900 + (y - 1900))) as S. unfold signed_year in S. destruct (_ <? 0)%Z.
    - destruct S as (r & (D & _) & ->). split; [apply nz_app; [apply nz_str; reflexivity|apply digits_nz; exact D]|apply nb_app; [apply nb_str; reflexivity|apply nb_digits; exact D]].
    - destruct S as (D & _). split; [apply digits_nz; exact D|apply nb_digits; exact D]. }
  destruct PY as (PY1 & PY2).
  split.
  - repeat (apply nz_app; [first [exact PY1|apply digits_nz; apply P2; lia|apply nz_str; reflexivity]|]). apply nz_str. reflexivity.
  - repeat (apply nb_app; [first [exact PY2|apply nb_digits; apply P2; lia|apply nb_str; reflexivity]|]). apply nb_str. reflexivity.
Qed.

Lemma text_time_cases : forall date v,
  ((date = DateRfc3339 -> in_years v) /\ exists s, text_writes date v s /\ time_text date v s /\ no_break s) \/
  (date = DateRfc3339 /\ ~ in_years v /\ ((~ in_struct_tm v /\ forall u, fmt_rfc3339_time u v = Abort) \/ (forall u, fmt_rfc3339_time u v = UB))).
Proof.
  intros date v. destruct (every_time_has_a_date (instant v)) as (y & mo & d & h & mi & se & F & _).
  destruct date.
  - left. split; [discriminate|]. destruct (fmt_time_always v y mo d h mi se F) as (s & E & Z & N). exists s. split; [split; assumption|]. split; [|exact N].
    exists y, mo, d, h, mi, se. split; [exact F|]. specialize (E []). cbn [app] in E. split.
    + intro O. destruct (plain_any_time [] v y mo d h mi se F ltac:(lia)) as (A & _). rewrite E in A. specialize (A ltac:(unfold tm_years; lia)). congruence.
    + intro O. destruct (plain_any_time [] v y mo d h mi se F ltac:(lia)) as (_ & B). rewrite E in B. destruct (B ltac:(unfold tm_years; lia) ltac:(lia)) as (s' & E' & ST). cbn [app] in E'. congruence.
  - pose proof (in_years_iff v y mo d h mi se F) as I. pose proof (in_struct_tm_iff v y mo d h mi se F) as I2.
    destruct (rfc3339_any_time [] v y mo d h mi se F) as (A & B & C). unfold fmt_rfc3339_time in *.
    destruct (Z_le_gt_dec (-2147481748) y); [destruct (Z_le_gt_dec y 2147485547)|].
    + assert (TY : tm_years y) by (split; assumption). destruct (Z_le_gt_dec y 2147483647).
      * left. split; [intros _; apply I; split; assumption|]. destruct (C TY ltac:(assumption)) as (s & E & ST). cbn [app] in E.
        destruct (rfc3339_ts v) as [ts| | | |] eqn:X; try discriminate. cbn [bind app] in E. injection E as ->.
        exists s. destruct ST as (ty & tmo & td & th & tmi & tse & P1 & P2 & P3 & P4 & P5 & P6 & ES).
        assert (ZN : nz s /\ no_break s).
        { pose proof (proj1 P1). pose proof (proj1 P2). pose proof (proj1 P3). pose proof (proj1 P4). pose proof (proj1 P5). pose proof (proj1 P6). rewrite ES.
          split; [repeat (apply nz_app; [first [apply digits_nz; assumption|apply nz_str; reflexivity]|]); apply nz_str; reflexivity|
                  repeat (apply nb_app; [first [apply nb_digits; assumption|apply nb_str; reflexivity]|]); apply nb_str; reflexivity]. }
        split; [split; [intro u; unfold fmt_rfc3339_time; rewrite X; reflexivity|apply ZN]|]. split; [|apply ZN].
        exists y, mo, d, h, mi, se. split; [exact F|]. exists ty, tmo, td, th, tmi, tse. repeat (split; [assumption|]). exact ES.
      * right. split; [reflexivity|]. split; [intro IY; apply I in IY; lia|]. right. intro u. specialize (B TY ltac:(lia)). destruct (rfc3339_ts v); try discriminate. reflexivity.
    + right. split; [reflexivity|]. split; [intro IY; apply I in IY; unfold tm_years in IY; lia|]. left. split; [intro IY; apply I2 in IY; unfold tm_years in IY; lia|].
      intro u. specialize (A ltac:(unfold tm_years; lia)). destruct (rfc3339_ts v); try discriminate. reflexivity.
    + right. split; [reflexivity|]. split; [intro IY; apply I in IY; unfold tm_years in IY; lia|]. left. split; [intro IY; apply I2 in IY; unfold tm_years in IY; lia|].
      intro u. specialize (A ltac:(unfold tm_years; lia)). destruct (rfc3339_ts v); try discriminate. reflexivity.
Qed.

(** An entry that can be printed as text is shown as complete lines, with its times. *)
Theorem text_printed : forall lib date array raw zone k rest val e, c_strings lib -> (forall n, ~ In 0 (locale_uint64 lib n)) -> bytes_ok (k :: rest) ->
  entry_decode (k :: rest) val = Ok e -> text_printable lib date k e ->
  exists ls, dnstable_entry_format lib (text_formatter date array raw) (set_iszone e zone) = Ok (Some (lines ls)) /\ ls <> [] /\
    (k <> ENTRY_TYPE_RDATA -> forall v, get_time_first e = Ok v ->
      exists label s, In label [str ";; first seen: "; str ";; first seen in zone file: "; str ";; Earliest time_first: "] /\ time_text date v s /\ In (label ++ s) ls) /\
    (k <> ENTRY_TYPE_RDATA -> forall v, get_time_last e = Ok v ->
      exists label s, In label [str ";;  last seen: "; str ";;  last seen in zone file: "; str ";; Latest time_last: "] /\ time_text date v s /\ In (label ++ s) ls) /\
    (one_line_strings lib -> (forall x, get_source_info e = Ok x -> ~ In 10 x) -> Forall (fun l => ~ In 10 l) ls).
Proof.
  intros lib date array raw zone k rest val e HC HL HB HD (HK & HT & HN).
  pose proof (decoded_type_partial k rest val e HK HD) as TK. unfold get_type in TK.
  destruct (text_entry_any lib date array raw zone k rest val e (time_text date) HC HK HB HD) as (ls & E & NE & F & L & NB).
  { intros NR v _ H. destruct (text_time_cases date v) as [(_ & X)|(DR & NI & _)]; [exact X|]. exfalso. apply NI. apply HT; [exact DR|congruence|exact H]. }
  { intro T. split; [apply HL|]. apply HN. congruence. }
  exists ls. split; [exact E|]. split; [exact NE|]. split; [|split; [|exact NB]].
  - intros NR v G. destruct (F ltac:(congruence) v G) as (s & W & I). exists (first_label e zone), s. split; [|split; assumption].
    unfold first_label, seen_in. destruct (_ =? _); [cbn [In]; auto|]. destruct zone; cbn [In]; auto.
  - intros NR v G. destruct (L ltac:(congruence) v G) as (s & W & I). exists (last_label e zone), s. split; [|split; assumption].
    unfold last_label, seen_in. destruct (_ =? _); [cbn [In]; auto|]. destruct zone; cbn [In]; auto.
Qed.
Print Assumptions text_printed.

(** Text behind a NUL. *)
Definition behind (a u : bytes) : Prop := exists x, x <> [] /\ nz x /\ u = a ++ 0 :: x.
Lemma cstr_nz : forall s, nz (cstr s).
Proof. induction s as [|c b IH]; [intros []|]. cbn [cstr]. destruct (c =? 0) eqn:C; [intros []|]. intros [H|H]; [lia|exact (IH H)]. Qed.
Lemma behind_app : forall a u s, behind a u -> nz s -> behind a (u ++ s).
Proof.
  intros a u s (x & N & Z & ->) Hs. exists (x ++ s). split; [destruct x; [contradiction|discriminate]|]. split; [apply nz_app; assumption|].
  rewrite <- app_assoc. reflexivity.
Qed.
Lemma behind_add : forall a u s, behind a u -> behind a (add_cstr u s).
Proof.
  intros a u s (x & N & Z & ->). assert (E : add_cstr (a ++ 0 :: x) s = (a ++ 0 :: x) ++ cstr s).
  { unfold add_cstr. rewrite rev_app_distr. cbn [rev]. destruct (rev x) as [|c r] eqn:R; [exfalso; apply N; rewrite <- (rev_involutive x), R; reflexivity|].
    cbn [app]. destruct c; [|reflexivity]. exfalso. apply Z. rewrite <- (rev_involutive x), R. apply in_rev. rewrite rev_involutive. left. reflexivity. }
  rewrite E. apply behind_app; [|apply cstr_nz]. exists x. auto.
Qed.
Lemma behind_list : forall a lib nm ty rs u, behind a u -> exists u', fmt_list [] (text_rr lib nm ty) u rs = Ok u' /\ behind a u'.
Proof.
  intros a lib nm ty. induction rs as [|r rs IH]; intros u B; cbn [fmt_list]; [exists u; split; [reflexivity|exact B]|].
  unfold text_rr at 1. cbv zeta. cbn [bind]. apply IH.
  assert (B1 : behind a (fmt_rrtype lib (add_cstr u nm ++ str " IN ") ty)).
  { assert (B0 : behind a (add_cstr u nm ++ str " IN ")) by (apply behind_app; [apply behind_add; exact B|apply nz_str; reflexivity]).
    unfold fmt_rrtype. cbv zeta. destruct (wdns_rrtype_to_str lib (ty mod u16)); [apply behind_add; exact B0|].
    apply behind_app; [exact B0|]. apply nz_app; [apply nz_str; reflexivity|apply digits_nz; apply printf_u_decimal]. }
  assert (B2 : behind a (add_cstr (fmt_rrtype lib (add_cstr u nm ++ str " IN ") ty ++ str " ") (wdns_rdata_to_str lib r (ty mod u16)) ++ [10])).
  { apply behind_app; [|apply nz_str; reflexivity]. apply behind_add. apply behind_app; [exact B1|apply nz_str; reflexivity]. }
  destruct rs; [exact B2|apply behind_app; [exact B2|intros []]].
Qed.
Lemma cut : forall a u, nz a -> behind a u -> cstr u = a.
Proof.
  intros a u Z (x & _ & _ & ->). revert Z. induction a as [|c a IH]; intro Z; [reflexivity|]. cbn [cstr app].
  destruct (c =? 0) eqn:E; [exfalso; apply Z; left; lia|]. f_equal. apply IH. intro H. apply Z. right. exact H.
Qed.

(** An entry that cannot be printed as text stops the program, or makes it overflow an
    int, go through a null pointer or read beyond a buffer, or - if its count takes
    exactly 27 bytes - is cut off within the count. *)
Theorem text_not_printed : forall lib date array raw zone k rest val e, c_strings lib -> (forall n, ~ In 0 (locale_uint64 lib n)) -> bytes_ok (k :: rest) ->
  entry_decode (k :: rest) val = Ok e -> ~ text_printable lib date k e ->
  let r := dnstable_entry_format lib (text_formatter date array raw) (set_iszone e zone) in
  r = UB \/
  (r = Abort /\ date = DateRfc3339 /\ exists v, (get_time_first e = Ok v \/ get_time_last e = Ok v) /\ ~ in_struct_tm v) \/
  (exists bw, e_bailiwick e = Some bw /\ length (locale_uint64 lib (e_count e)) = 27%nat /\
    r = Ok (Some (lines [str ";;  bailiwick: " ++ wdns_domain_to_str lib bw] ++ str ";;      count: " ++ firstn 26 (locale_uint64 lib (e_count e))))).
Proof.
  intros lib date array raw zone k rest val e HC HL HB HD NP. cbv zeta. rewrite text_formatter_ok.
  destruct (in_dec N.eq_dec k [ENTRY_TYPE_RRSET; ENTRY_TYPE_RRSET_NAME_FWD; ENTRY_TYPE_RDATA; ENTRY_TYPE_RDATA_NAME_REV;
        ENTRY_TYPE_SOURCE_INFO; ENTRY_TYPE_TIME_RANGE; ENTRY_TYPE_VERSION]) as [HK|HK].
  2: { left. assert (E0 : entry_decode (k :: rest) val = Ok entry0).
       { cbn [entry_decode].
         assert (H : forall t, In t [ENTRY_TYPE_RRSET; ENTRY_TYPE_RRSET_NAME_FWD; ENTRY_TYPE_RDATA; ENTRY_TYPE_RDATA_NAME_REV;
           ENTRY_TYPE_SOURCE_INFO; ENTRY_TYPE_TIME_RANGE; ENTRY_TYPE_VERSION] -> (k =? t) = false).
         { intros t Ht. apply N.eqb_neq. intros ->. apply HK. exact Ht. }
         rewrite !H by (cbn; tauto). reflexivity. }
       rewrite E0 in HD. injection HD as <-. reflexivity. }
  pose proof (decoded_type_partial k rest val e HK HD) as TK. unfold get_type in TK.
  assert (W : forall v, (exists s, text_writes date v s /\ (date = DateRfc3339 -> in_years v)) \/
    (date = DateRfc3339 /\ ((~ in_struct_tm v /\ forall u, fmt_rfc3339_time u v = Abort) \/ (forall u, fmt_rfc3339_time u v = UB)))).
  { intro v. destruct (text_time_cases date v) as [(I & s & X & _)|(D & _ & X)]; [left; exists s; split; assumption|right; split; assumption]. }
  assert (NT : (forall v, get_time_first e = Ok v \/ get_time_last e = Ok v -> k = ENTRY_TYPE_RDATA) -> k <> ENTRY_TYPE_RRSET -> False).
  { intros N1 NK. apply NP. split; [exact HK|]. split; [|intro; contradiction]. intros _ NR v X. exfalso. apply NR. exact (N1 v X). }
  destruct (decoded_fields k rest val e HK HB HD) as
    [(TY & (nm & bw & N1 & N2) & B1 & B2 & B3 & B4)|[(TY & (nm & r & N1 & N2 & B4) & B1 & B2 & B3)|[(key & nm & IK & N1)|[(TY & B1 & B2)|[TY|(TY & B1 & B2)]]]]].
  - assert (G1 : get_time_first e = Ok (e_time_first e)) by (unfold get_time_first, is_type; rewrite TY; reflexivity).
    assert (G2 : get_time_last e = Ok (e_time_last e)) by (unfold get_time_last, is_type; rewrite TY; reflexivity).
    unfold dnstable_entry_to_text_fmt. cbn [set_iszone e_type e_count e_time_first e_time_last e_name e_rrtype e_bailiwick e_rdatas e_iszone].
    rewrite TY. cbv zeta. change (ENTRY_TYPE_RRSET =? ENTRY_TYPE_RRSET) with true. cbn [orb]. rewrite N1, N2. cbn [domain_str bind app].
    pose proof (nz_domain lib bw HC) as Zb. rewrite add_cstr_nz by (assumption || (apply nz_str; reflexivity)).
    set (c := locale_uint64 lib (e_count e)). unfold fmt_uint64. fold c. cbv zeta.
    destruct (Nat.leb_spec (length c) 26) as [L26|L26]; [|destruct (Nat.leb_spec (length c) 27) as [L27|L27]; [|left; reflexivity]]; cbn [bind].
    + destruct (W (e_time_first e)) as [(tf & (Ef & _) & If)|(-> & [[NI X]|X])].
      2: { rewrite X. cbn [bind]. right. left. split; [reflexivity|]. split; [reflexivity|]. exists (e_time_first e). split; [left; exact G1|exact NI]. }
      2: { rewrite X. cbn [bind]. left. reflexivity. }
      rewrite Ef. cbn [bind].
      destruct (W (e_time_last e)) as [(tl & (El & _) & Il)|(-> & [[NI X]|X])].
      2: { rewrite X. cbn [bind]. right. left. split; [reflexivity|]. split; [reflexivity|]. exists (e_time_last e). split; [right; exact G2|exact NI]. }
      2: { rewrite X. cbn [bind]. left. reflexivity. }
      exfalso. apply NP. split; [exact HK|]. split; [|intros _; exact L26].
      intros D _ v [X|X]; [rewrite G1 in X|rewrite G2 in X]; injection X as <-; auto.
    + destruct (W (e_time_first e)) as [(tf & (Ef & Zf) & If)|(-> & [[NI X]|X])].
      2: { rewrite X. cbn [bind]. right. left. split; [reflexivity|]. split; [reflexivity|]. exists (e_time_first e). split; [left; exact G1|exact NI]. }
      2: { rewrite X. cbn [bind]. left. reflexivity. }
      rewrite Ef. cbn [bind].
      destruct (W (e_time_last e)) as [(tl & (El & Zl) & Il)|(-> & [[NI X]|X])].
      2: { rewrite X. cbn [bind]. right. left. split; [reflexivity|]. split; [reflexivity|]. exists (e_time_last e). split; [right; exact G2|exact NI]. }
      2: { rewrite X. cbn [bind]. left. reflexivity. }
      rewrite El. cbn [bind]. right. right. exists bw. split; [reflexivity|]. split; [lia|].
      match goal with |- context [fmt_list [] _ ?u _] => assert (BH : behind (lines [str ";;  bailiwick: " ++ wdns_domain_to_str lib bw] ++ str ";;      count: " ++ firstn 26 c) u) end.
      { do 4 (apply behind_app; [|first [assumption|apply nz_str; reflexivity|destruct zone; apply nz_str; reflexivity]]).
        exists ([10] ++ (if zone then str ";; first seen in zone file: " else str ";; first seen: ")).
        split; [discriminate|]. split; [apply nz_app; [apply nz_str; reflexivity|destruct zone; apply nz_str; reflexivity]|].
        unfold lines. cbn [flat_map]. rewrite app_nil_r, <- !app_assoc. reflexivity. }
      destruct (behind_list _ lib (wdns_domain_to_str lib nm) (e_rrtype e) (e_rdatas e) _ BH) as (u' & EU & BU). rewrite EU. cbn [bind].
      rewrite (cut (lines [str ";;  bailiwick: " ++ wdns_domain_to_str lib bw] ++ str ";;      count: " ++ firstn 26 c) u'); [reflexivity| |exact BU]. apply nz_app; [apply lines_nz; constructor; [apply nz_app; [apply nz_str; reflexivity|exact Zb]|constructor]|].
      apply nz_app; [apply nz_str; reflexivity|]. intro H. apply (HL (e_count e)). fold c. rewrite <- (firstn_skipn 26 c). apply in_or_app. left. exact H.
  - exfalso. apply NT; [intros _ _; congruence|rewrite <- TK, TY; discriminate].
  - exfalso. apply NT.
    + intros v [X|X]; [unfold get_time_first, is_type in X|unfold get_time_last, is_type in X]; destruct IK as [[IK _]|[IK _]]; rewrite IK in X; discriminate.
    + rewrite <- TK. destruct IK as [[-> _]|[-> _]]; discriminate.
  - assert (G1 : get_time_first e = Ok (e_time_first e)) by (unfold get_time_first, is_type; rewrite TY; reflexivity).
    assert (G2 : get_time_last e = Ok (e_time_last e)) by (unfold get_time_last, is_type; rewrite TY; reflexivity).
    unfold dnstable_entry_to_text_fmt. cbn [set_iszone e_type e_count e_time_first e_time_last e_name e_rrtype e_bailiwick e_rdatas e_iszone].
    rewrite TY. cbv zeta. cbn [N.eqb ENTRY_TYPE_RRSET ENTRY_TYPE_RRSET_NAME_FWD ENTRY_TYPE_RDATA ENTRY_TYPE_RDATA_NAME_REV ENTRY_TYPE_TIME_RANGE Pos.eqb orb bind].
    destruct (W (e_time_first e)) as [(tf & (Ef & _) & If)|(-> & [[NI X]|X])].
    2: { rewrite X. cbn [bind]. right. left. split; [reflexivity|]. split; [reflexivity|]. exists (e_time_first e). split; [left; exact G1|exact NI]. }
    2: { rewrite X. cbn [bind]. left. reflexivity. }
    rewrite Ef. cbn [bind].
    destruct (W (e_time_last e)) as [(tl & (El & _) & Il)|(-> & [[NI X]|X])].
    2: { rewrite X. cbn [bind]. right. left. split; [reflexivity|]. split; [reflexivity|]. exists (e_time_last e). split; [right; exact G2|exact NI]. }
    2: { rewrite X. cbn [bind]. left. reflexivity. }
    exfalso. apply NP. split; [exact HK|]. split; [|intro KK; rewrite KK in TK; rewrite TY in TK; discriminate].
    intros D _ v [X|X]; [rewrite G1 in X|rewrite G2 in X]; injection X as <-; auto.
  - exfalso. apply NT; [intros v [X|X]; [unfold get_time_first, is_type in X|unfold get_time_last, is_type in X]; rewrite TY in X; discriminate|rewrite <- TK, TY; discriminate].
  - exfalso. apply NT; [intros v [X|X]; [unfold get_time_first, is_type in X|unfold get_time_last, is_type in X]; rewrite TY in X; discriminate|rewrite <- TK, TY; discriminate].
Qed.
Print Assumptions text_not_printed.

(** A time range from just before 1970 to the year 12017: the RFC 3339 form is one object,
    with a year that has lost its first digit. *)
Example c78_case :
  let k := ENTRY_TYPE_TIME_RANGE in let val := varint_encode64 18446744073709551615 ++ varint_encode64 317069510400 in
  exists e, entry_decode [k] val = Ok e /\ json_printable DateRfc3339 true k e /\ text_printable demo_lib DateUnix k e /\
    c_strings demo_lib /\ (forall n, ~ In 0 (locale_uint64 demo_lib n)) /\
    dnstable_entry_format demo_lib (json_formatter DateRfc3339 true true) e = Ok (Some (str "{""time_first"":""1969-12-31T23:59:59Z"",""time_last"":""2017-07-14T00:00:00Z""}")) /\
    dnstable_entry_format demo_lib (text_formatter DateUnix false false) e =
      Ok (Some (lines [str ";; Earliest time_first: 1969-12-31 23:59:59 -0000"; str ";; Latest time_last: 12017-07-14 00:00:00 -0000"])).
Proof.
  cbv zeta. eexists. split; [vm_compute; reflexivity|].
  assert (K : known_type ENTRY_TYPE_TIME_RANGE) by (cbn; tauto).
  split; [split; [exact K|split; [|discriminate]]|].
  { intros _ v [X|X]; vm_compute in X; injection X as <-; vm_compute; split; [discriminate|reflexivity|discriminate|reflexivity]. }
  split; [split; [exact K|split; [discriminate|discriminate]]|].
  split; [apply demo_lib_ok|]. split; [|split; vm_compute; reflexivity].
  intros n H. cbn in H. exact (digits_nz _ (proj1 (printf_u_decimal n)) H).
Qed.

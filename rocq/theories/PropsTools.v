(** Theorems about the arguments of dnstable_lookup and about dnstable_dump. *)
From Verif Require Import Str BaseFacts ModelEntry ModelIter ModelQuery SpecIter SpecMerge SpecName SpecEntry SpecQuery SpecReader ModelReader ModelSetters ModelWdns ModelFormat ModelFileset.
From Verif Require Import SpecFormat PropsReader SpecDeadline SpecSettings PropsSettings PropsFormat Demo PropsQuery FilesetDemo ModelLookup SpecLookup LookupProofs LookupQuery LookupBuild PropsLookup SpecTimeArg TimeArgProofs TimeArgConverse SpecDump SpecJson SpecText SpecOutput OutputProofs SelectProofs.

(** * C61: options and arguments of dnstable_lookup *)

(** The program takes exactly the command lines described by [options_mean],
    [command_means] and [allowed], and takes them to mean that. *)
Theorem lookup_arguments :
  (forall now l o, take_options now l opts0 = Ok o <-> options_mean now l o) /\
  (forall args c, take_command args = Ok c <-> command_means args c) /\
  (forall o c, check_options o c = Ok tt <-> allowed o c).
Proof. split; [exact options_iff|]. split; [exact command_iff|exact allowed_iff]. Qed.
Print Assumptions lookup_arguments.

(** The numbers of -i, -t and -O. *)
Theorem number_arguments : forall s v, atoi s = v <-> (exists z, leading_integer s z /\ as_int z v) \/ ((forall z, ~ leading_integer s z) /\ v = 0%Z).
Proof. exact atoi_meaning. Qed.
Print Assumptions number_arguments.
Example number_arguments_case : leading_integer (str " +17 seconds") 17 /\ as_int 17 17 /\ atoi (str " +17 seconds") = 17%Z /\ atoi (str "seconds") = 0%Z /\
  leading_integer (str "4294967297") 4294967297 /\ atoi (str "4294967297") = 1%Z.
Proof.
  split; [|split; [|split; [|split; [|split]]]]; try (vm_compute; reflexivity).
  - exists (str " +17"), (str " seconds"). split; [reflexivity|]. split; [|intros c r [= <- _]; unfold digit; lia].
    apply (in_plus (str " ") (str "17") 17); [repeat constructor; vm_compute; auto|]. split; [repeat constructor; vm_compute; intuition congruence|split; [discriminate|reflexivity]].
  - split; [lia|]. exists 0%Z. reflexivity.
  - exists (str "4294967297"), []. split; [reflexivity|]. split; [|discriminate].
    apply (in_plain [] (str "4294967297") 4294967297); [constructor|]. split; [repeat constructor; vm_compute; intuition congruence|split; [discriminate|reflexivity]].
Qed.

(** If it prints anything at all, the command line was one of these, the database could be
    opened, and names, types and data made sense. *)
Theorem lookup_only : forall rounds fuel lib ev ml v options args now clk w out err, env_ok ev ->
  dnstable_lookup rounds fuel lib ev ml v options args now clk w = Ok (out, err) ->
  exists o c d, understood ev now options args v o c d.
Proof.
  intros rounds fuel lib ev ml v options args now clk w out err HE H. unfold dnstable_lookup in H.
  apply bind_ok in H. destruct H as (o & EO & H). apply bind_ok in H. destruct H as (c & EC & H). apply bind_ok in H. destruct H as ([] & EK & H).
  apply bind_ok in H. destruct H as (d & ED & H). apply bind_ok in H. destruct H as ([[[gd gi] clk'] q] & EB & _).
  apply options_iff in EO. apply command_iff in EC. apply allowed_iff in EK. apply opened_iff in ED.
  exists o, c, d. split; try assumption.
  unfold build_query in EB. apply bind_ok in EB. destruct EB as (q0 & E0 & EB). apply bind_ok in EB. destruct EB as (q1 & E1 & _).
  apply data_does in E1. eapply data_needs; [exact HE|exact EC| |exact E1]. destruct (new_query _ _ E0) as (T & _). rewrite <- T. reflexivity.
Qed.
Print Assumptions lookup_only.

(** Only these outcomes. *)
Definition settled {A} (r : res A) : Prop := r = Fail \/ exists x, r = Ok x.
Lemma settled_bind : forall A B (r : res A) (f : A -> res B), settled r -> (forall x, r = Ok x -> settled (f x)) -> settled (let* x := r in f x).
Proof. intros A B r f [->|(x & ->)] H; [left; reflexivity|exact (H x eq_refl)]. Qed.


Lemma relative_settled : forall fuel s total, (length s < fuel)%nat -> relative fuel s total = UB \/ exists x, relative fuel s total = Ok x.
Proof.
  induction fuel as [|f IH]; intros s total L; [lia|]. destruct s as [|c s]; [right; eexists; reflexivity|].
  change (relative (S f) (c :: s) total) with (let (n, endp) := strtoll (c :: s) in if (n <=? 0)%Z then Ok None else
    match unit_seconds (hd_error endp) n with Ok n => let* total := ll (total + n)%Z in relative f (tl endp) total | Fail => Ok None | Abort => Abort | UB => UB | Hang => Hang end).
  destruct (strtoll (c :: s)) as [n endp] eqn:ES. destruct (n <=? 0)%Z; [right; eexists; reflexivity|].
  assert (LE : (length (tl endp) < f)%nat).
  { destruct (strtoll_split _ _ _ ES) as [(_ & ->)|(t & z & E & _)]; [cbn [tl length] in *; lia|]. apply (f_equal (@length N)) in E. rewrite app_length in E. destruct endp; cbn [length tl] in *; lia. }
  assert (LL : forall z, ll z = UB \/ exists x, ll z = Ok x) by (intro z; unfold ll; destruct (_ && _); [right; eexists; reflexivity|left; reflexivity]).
  assert (US : unit_seconds (hd_error endp) n = UB \/ unit_seconds (hd_error endp) n = Fail \/ exists x, unit_seconds (hd_error endp) n = Ok x).
  { unfold unit_seconds. destruct (hd_error endp) as [d|]; [|right; right; eexists; reflexivity]. cbv zeta.
    destruct (_ || _ || _ || _ || _); [|right; left; reflexivity].
    destruct ((d =? 87) || (d =? 87 + 32)), ((d =? 68) || (d =? 68 + 32)), ((d =? 72) || (d =? 72 + 32)), ((d =? 77) || (d =? 77 + 32)); cbn [orb bind];
      repeat (match goal with |- context [ll ?z] => destruct (LL z) as [->|(? & ->)]; cbn [bind]; [left; reflexivity|] end); right; right; eexists; reflexivity. }
  destruct US as [->|[->|(x & ->)]]; [left; reflexivity|right; eexists; reflexivity|].
  destruct (LL (total + x)%Z) as [->|(y & ->)]; cbn [bind]; [left; reflexivity|]. apply IH. exact LE.
Qed.
Lemma parse_time_settled : forall now s, parse_time now s = UB \/ exists t, parse_time now s = Ok t.
Proof.
  intros now s. unfold parse_time. destruct (parse_date s); [right; eexists; reflexivity|].
  assert (R : relative (S (length s)) s 0 = UB \/ exists x, relative (S (length s)) s 0 = Ok x) by (apply relative_settled; lia).
  destruct (strtoll s) as [n [|c e]].
  - destruct (n <? 0)%Z; [|right; eexists; reflexivity]. unfold ll. destruct (_ && _); cbn [bind]; [|left; reflexivity].
    right. destruct (_ <? 0)%Z; eexists; reflexivity.
  - destruct R as [->|([x|] & ->)]; cbn [bind]; [left; reflexivity| |right; eexists; reflexivity]. right. destruct (_ <? _)%Z; eexists; reflexivity.
Qed.

Lemma take_options_settled : forall l now o,
  (forall i ch arg, nth_error l i = Some (ch, arg) -> In ch (str "aAbB") -> parse_time (now i) arg <> UB) -> settled (take_options now l o).
Proof.
  induction l as [|[ch arg] r IH]; intros now o F; [right; eexists; reflexivity|]. cbn [take_options]. apply settled_bind.
  - assert (VT : In ch (str "aAbB") -> settled (valid_time (now 0%nat) arg)).
    { intro I. specialize (F 0%nat ch arg eq_refl I). unfold valid_time. destruct (parse_time_settled (now 0%nat) arg) as [?|(t & ->)]; [contradiction|]. cbn [bind].
      destruct (t =? 0); [left; reflexivity|right; eexists; reflexivity]. }
    assert (PO : settled (positive arg)) by (unfold positive; destruct (_ <=? _)%Z; [left; reflexivity|right; eexists; reflexivity]).
    unfold take_option.
    repeat match goal with |- settled (if ?c =? ?k then _ else _) => destruct (N.eqb_spec c k); [|] end; subst;
      try (right; eexists; reflexivity); try (left; reflexivity);
      (apply settled_bind; [first [exact PO|apply VT; vm_compute; tauto]|intros; right; eexists; reflexivity]).
  - intros o' _. apply IH. intros i c a H. exact (F (S i) c a H).
Qed.
Lemma take_command_settled : forall args, settled (take_command args).
Proof.
  intro args. unfold take_command.
  repeat match goal with
  | |- settled (match ?l with _ => _ end) => destruct l
  | |- settled Fail => left; reflexivity
  | |- settled (Ok _) => right; eexists; reflexivity
  end.
Qed.
Lemma must_settled : forall r, settled r -> settled (must r).
Proof. intros r H. apply settled_bind; [exact H|]. intros [b q] _. cbn [fst snd]. destruct b; [right; eexists; reflexivity|left; reflexivity]. Qed.

Lemma build_settled : forall ev o c clk, env_ok ev ->
  (c_type c = QRdataIp -> forall d, c_data c = Some d -> ~ mishandled ev d) -> c_type c <> QSourceInfo -> settled (build_query ev o c clk).
Proof.
  intros ev o c clk HE NM NS. unfold build_query. apply settled_bind; [destruct (c_type c); try contradiction; right; eexists; reflexivity|].
  intros q0 E0. destruct (new_query _ _ E0) as (T & _). apply settled_bind.
  2:{ intros q1 _. destruct (query_deadline _ _ _) as [[gd clk1] q2]. destruct (query_interval _ _ _ _) as [[gi clk2] q3]. right. eexists. reflexivity. }
  set (q := snd (set_case_sensitive (o_case o) q0)). assert (TQ : q_type q = c_type c) by (rewrite <- T; reflexivity). clearbody q.
  assert (SD : settled (set_data ev (c_data c) q)).
  { destruct (c_type c) eqn:CT; try (destruct (data_total ev (c_data c) q HE) as (b & q' & ->); [rewrite TQ; discriminate|right; eexists; reflexivity]).
    destruct (c_data c) as [d|] eqn:CD; [|unfold set_data; rewrite TQ; right; eexists; reflexivity].
    destruct (ip_text_cases ev q d HE TQ) as [(n & lo & hi & H)|[H|(q' & ->)]]; [|exfalso; exact (NM eq_refl d eq_refl H)|right; eexists; reflexivity].
    destruct (proj1 (address_texts ev q d HE TQ) n lo hi H) as (q' & -> & _). right. eexists. reflexivity. }
  assert (OK : forall A (x : A), settled (Ok x)) by (intros; right; eexists; reflexivity).
  unfold query_data. destruct (c_type c); try contradiction; try apply OK; try (apply must_settled; exact SD);
    (apply settled_bind; [apply must_settled; exact SD|intros q1 _]).
  - apply settled_bind; [apply must_settled; apply OK|]. intros q2 _. apply must_settled. destruct (bailiwick_total ev (c_bailiwick c) q2 HE) as (b & q' & ->). apply OK.
  - destruct (c_rrtype c); [apply must_settled; apply OK|apply OK].
  - destruct (c_rrtype c); [apply must_settled; apply OK|apply OK].
  - destruct (c_rrtype c); [apply must_settled; apply OK|apply OK].
Qed.

(** Anything else ends with a failure status and prints nothing (but for arguments for
    which the behaviour is undefined, see C27 and C58). *)
Theorem lookup_refused : forall rounds fuel lib ev ml v options args now clk w, env_ok ev ->
  ~ undefined_time now options -> ~ undefined_address ev args -> (~ exists o c d, understood ev now options args v o c d) ->
  dnstable_lookup rounds fuel lib ev ml v options args now clk w = Fail.
Proof.
  intros rounds fuel lib ev ml v options args now clk w HE NT NA N. unfold dnstable_lookup.
  assert (F : forall i ch arg, nth_error options i = Some (ch, arg) -> In ch (str "aAbB") -> parse_time (now i) arg <> UB) by (intros i ch arg H I U; apply NT; exists i, ch, arg; auto).
  destruct (take_options_settled options now opts0 F) as [->|(o & EO)]; [reflexivity|]. rewrite EO. cbn [bind].
  destruct (take_command_settled args) as [->|(c & EC)]; [reflexivity|]. rewrite EC. cbn [bind].
  assert (CK : settled (check_options o c)) by (unfold check_options; repeat match goal with |- settled (if ?b then _ else _) => destruct b; [left; reflexivity|] end; right; eexists; reflexivity).
  destruct CK as [->|([] & EK)]; [reflexivity|]. rewrite EK. cbn [bind].
  assert (OD : settled (open_database v o)).
  { unfold open_database. destruct (v_fname v) as [[t|]|], (v_setfile v), (o_aggregate o); first [left; reflexivity|right; eexists; reflexivity]. }
  destruct OD as [->|(d & ED)]; [reflexivity|]. rewrite ED. cbn [bind].
  apply options_iff in EO. apply command_iff in EC. apply allowed_iff in EK. apply opened_iff in ED.
  destruct (build_settled ev o c clk HE) as [->|([[[gd gi] clk'] q] & EB)]; [| |reflexivity|].
  - intros CT x CD MH. apply NA. exists x. split; [|exact MH]. destruct EC; try discriminate CT. injection CD as <-. reflexivity.
  - destruct EC; discriminate.
  - exfalso. apply N. exists o, c, d. split; try assumption.
    unfold build_query in EB. apply bind_ok in EB. destruct EB as (q0 & E0 & EB). apply bind_ok in EB. destruct EB as (q1 & E1 & _).
    apply data_does in E1. eapply data_needs; [exact HE|exact EC| |exact E1]. destruct (new_query _ _ E0) as (T & _). rewrite <- T. reflexivity.
Qed.
Print Assumptions lookup_refused.

(** For example a name with a slash, or -n together with -j. *)
Example c61_refused_case : forall ev v, ~ undefined_time (fun _ => 0%Z) [(code "n", []); (code "j", [])] /\
  ~ undefined_address ev [str "rrset"; str "ex.com"] /\
  (~ exists o c d, understood ev (fun _ => 0%Z) [(code "n", []); (code "j", [])] [str "rrset"; str "ex.com"] v o c d) /\
  ~ exists o c d, understood ev (fun _ => 0%Z) [] [str "rrset"; str "ex.com/"] v o c d.
Proof.
  intros ev v. split; [|split; [|split]].
  - intros (i & ch & arg & H & I & _). destruct i as [|[|i]]; [| |destruct i; discriminate]; injection H as <- _; vm_compute in I; decompose [or] I; try discriminate; try contradiction.
  - intros (d & H & _). discriminate.
  - intros (o & c & d & [OM _ AL _ _]). destruct (al_count _ _ AL) as (J & _); [apply (om_n _ _ _ OM); exists []; left; reflexivity|].
    assert (o_json o = true) by (apply (om_j _ _ _ OM); exists []; right; left; reflexivity). congruence.
  - intros (o & c & d & [_ CM _ _ _]). inversion CM as [ow NI| | | | | | | | | |]; subst. apply NI. vm_compute. tauto.
Qed.

Definition args61 : list (N * bytes) := [(code "a", str "2020-02-29"); (code "O", str "3"); (code "a", str "1d"); (code "s", []); (code "s", [])].
Example c61_case : exists o, options_mean (fun _ => 1700000000%Z) args61 o /\ o_tfa o = 1699913600 /\ o_offset o = 3%Z /\ o_stats o = 2 /\ o_json o = false /\
  command_means [str "rrset"; str "www.ex.com"; str "A"] (cmd QRrset (Some (str "www.ex.com")) (Some (str "A")) None) /\
  allowed o (cmd QRrset (Some (str "www.ex.com")) (Some (str "A")) None).
Proof.
  assert (E : exists o, take_options (fun _ => 1700000000%Z) args61 opts0 = Ok o /\ o_tfa o = 1699913600 /\ o_offset o = 3%Z /\ o_stats o = 2 /\ o_json o = false /\
    check_options o (cmd QRrset (Some (str "www.ex.com")) (Some (str "A")) None) = Ok tt) by (eexists; repeat split; vm_compute; reflexivity).
  destruct E as (o & A & B & C & D & F & G). exists o. split; [apply options_iff; exact A|]. repeat (split; [assumption|]).
  split; [apply command_iff; vm_compute; reflexivity|apply allowed_iff; exact G].
Qed.

(** * C58: times *)

Theorem lookup_times : forall now s v, now < 9223372036854775808 -> time_arg now s v -> parse_time (Z.of_N now) s = Ok v.
Proof. exact parse_time_ok. Qed.
Print Assumptions lookup_times.

(** The timestamps that dnstable prints can be given as they are. *)
Theorem lookup_takes_rfc3339 : forall now s v, rfc3339 s v -> parse_time now s = Ok v.
Proof.
  intros now s v (y & mo & d & h & mi & se & ty & tmo & td & th & tmi & tse & Hy & Hm & Hd & Hh & Hi & Hs & P1 & P2 & P3 & P4 & P5 & P6 & -> & ->).
  assert (D : date_form (ty ++ str "-" ++ tmo ++ str "-" ++ td) (86400 * days_to y mo d)) by (exists y, mo, d, ty, tmo, td; repeat (split; [assumption|]); auto).
  assert (C : clock_form (th ++ str ":" ++ tmi ++ str ":" ++ tse) (3600 * h + 60 * mi + se)) by (exists h, mi, se, th, tmi, tse; repeat (split; [assumption|]); auto).
  pose proof (parse_date_T _ _ _ _ (str "Z") D C (or_intror eq_refl)) as E. unfold parse_time. rewrite <- !app_assoc in *. rewrite E.
  pose proof (date_bound _ _ D). pose proof (clock_bound _ _ C). f_equal. rewrite TimeProofs.to_uint64_small by (unfold u64; lia). lia.
Qed.
Print Assumptions lookup_takes_rfc3339.

(** Times before 1970 that are given relative to now are refused. *)
Theorem lookup_times_before_1970 : forall now s n, now < n -> n < 9223372036854775808 ->
  (exists d, s = str "-" ++ d /\ number d n) \/ duration s n -> parse_time (Z.of_N now) s = Ok 0.
Proof.
  intros now s n H1 H2 H. apply (parse_time_negative now s n); [lia| |exact H1]. destruct H as [(d & A & B)|H]; [left; exists d; auto|right; auto].
Qed.
Print Assumptions lookup_times_before_1970.

(** Nothing else is taken: whatever is not refused is of one of these forms, except for the
    liberties in [time_like], and means that second. *)
Theorem lookup_times_only : forall now s v, now < 9223372036854775807 -> parse_time (Z.of_N now) s = Ok v -> v <> 0 -> time_like now s v.
Proof. exact parse_time_split. Qed.
Print Assumptions lookup_times_only.

(** False of the program: the start of 1970 cannot be given, dates before it are taken for
    times in the far future, and durations can overflow. *)
Theorem lookup_time_1970_refuted : exists s v, date_form s v /\ forall now, time_option now [(code "a", s)] "a" v -> False.
Proof.
  exists (str "1970-01-01"), 0. split.
  - exists 1970, 1, 1, (str "1970"), (str "01"), (str "01"). repeat split; try (vm_compute; congruence); repeat constructor; vm_compute; discriminate.
  - intros now (A & _). destruct (A O (str "1970-01-01") eq_refl) as (t & E & NZ). vm_compute in E. congruence.
Qed.
Theorem lookup_time_wraps_refuted : forall now, parse_time now (str "1969-12-31") = Ok 18446744073709465216.
Proof. reflexivity. Qed.
Theorem lookup_time_overflow_refuted : exists s, forall now, parse_time now s = UB.
Proof. exists (str "9223372036854775807w"). intro now. vm_compute. reflexivity. Qed.
Print Assumptions lookup_time_1970_refuted.

Example c58_case : time_arg 1700000000 (str "2024-02-29 12:00:01") 1709208001 /\ time_arg 1700000000 (str "1w2D3h") 1699211600 /\
  time_arg 1700000000 (str "-60") 1699999940 /\ rfc3339 (str "2024-02-29T12:00:01Z") 1709208001 /\
  duration (str "1w") 604800 /\ parse_time 5%Z (str "1w") = Ok 0 /\
  parse_time 1700000000%Z (str "2024-02-29T12:00:01X") = Ok 0 /\ parse_time 1700000000%Z (str "2024-2-30T 1:2:60Z") = Ok 1709254980.
Proof.
  assert (N1 : number (str "1") 1) by (split; [repeat constructor; vm_compute; discriminate|split; [discriminate|reflexivity]]).
  assert (N2 : number (str "2") 2) by (split; [repeat constructor; vm_compute; discriminate|split; [discriminate|reflexivity]]).
  assert (N3 : number (str "3") 3) by (split; [repeat constructor; vm_compute; discriminate|split; [discriminate|reflexivity]]).
  assert (PD : forall k n t, forallb isdigit t = true -> length t = k -> decimal_value t = n -> padded k n t).
  { intros k n t F L V. split; [|auto]. apply Forall_forall. intros x Hx. rewrite forallb_forall in F. specialize (F x Hx). unfold isdigit in F. unfold digit. lia. }
  assert (D : date_form (str "2024-02-29") 1709164800).
  { exists 2024, 2, 29, (str "2024"), (str "02"), (str "29"). split; [lia|]. split; [lia|]. split; [vm_compute; split; discriminate|].
    repeat (split; [apply PD; reflexivity|]). split; [reflexivity|]. vm_compute. reflexivity. }
  assert (C : clock_form (str "12:00:01") 43201).
  { exists 12, 0, 1, (str "12"), (str "00"), (str "01"). do 3 (split; [lia|]). repeat (split; [apply PD; reflexivity|]). split; reflexivity. }
  split; [exact (ta_date_time _ _ _ _ _ D C)|]. split.
  { apply (ta_before 1700000000 (str "1w2D3h") 788400); [|lia]. change (str "1w2D3h") with (str "1" ++ str "w" ++ str "2" ++ str "D" ++ str "3" ++ str "h").
    change 788400 with (1 * 604800 + (2 * 86400 + 3 * 3600)). apply du_more; [exact N1|lia|cbn; tauto|].
    apply du_more; [exact N2|lia|cbn; tauto|]. apply du_one; [exact N3|lia|cbn; tauto]. }
  split.
  { apply (ta_ago 1700000000 (str "60") 60); [|lia|lia]. split; [repeat constructor; vm_compute; discriminate|split; [discriminate|reflexivity]]. }
  split.
  { exists 2024, 2, 29, 12, 0, 1, (str "2024"), (str "02"), (str "29"), (str "12"), (str "00"), (str "01").
    split; [lia|]. split; [lia|]. split; [vm_compute; split; discriminate|]. do 3 (split; [lia|]). repeat (split; [apply PD; reflexivity|]). split; reflexivity. }
  split; [apply (du_one (str "1") 1 (str "w") 604800); [exact N1|lia|cbn; tauto]|repeat split; vm_compute; reflexivity].
Qed.

(** * C51: -c *)

(** The query that is made lets through exactly the observations that lie completely
    between the bounds given, if their stored times are in order. *)
Theorem complete_bounds_partial : forall ev o args c clk gd gi clk' q ob, env_ok ev -> command_means args c -> clock_ok clk ->
  (0 <= o_timeout o)%Z -> (0 <= o_interval o)%Z -> (0 <= o_offset o < 2147483648)%Z ->
  build_query ev o c clk = Ok (gd, gi, clk', q) -> c_type c <> QVersion -> c_type c <> QTimeRange -> o_strict o = true ->
  o_first ob <= o_last ob -> (in_fence q ob <-> completely_within o (o_first ob) (o_last ob)).
Proof.
  intros ev o args c clk gd gi clk' q ob HE HC HK HT HI HO HB NV NT HS HL.
  pose proof (build_question ev o args c clk gd gi clk' q HE HC HK HT HI HO HB) as HQ.
  pose proof (qs_bounds _ _ _ _ _ HQ NV NT ob) as H. rewrite HS in H. exact (H HL).
Qed.
Print Assumptions complete_bounds_partial.

(** ** An example database, with the name www.ex.com *)

Definition V : vars := {| v_fname := Some (Some demo_table); v_setfile := None |}.
Definition noclk : clock := fun n => {| tv_sec := Z.of_nat n; tv_nsec := 0 |}.
Definition lookup_demo (options : list (N * bytes)) (args : list bytes) : res (bytes * bytes) :=
  dnstable_lookup 5 100 demo_lib demo_env lib0 V options args (fun _ => 1700000000%Z) noclk inner_world.

(** False of the program without that condition: a stored last-seen time 0 is shown as
    the first-seen time, but -c compares with 0.  Both RRsets of www.ex.com were seen at
    100, within the bounds; only one of them is printed. *)
Definition line_A : bytes := str "{""count"":7,""time_first"":100,""time_last"":200,""rrname"":""?www?ex?com?"",""rrtype"":""A"",""bailiwick"":""?ex?com?"",""rdata"":[""1:????"",""1:????""]}" ++ [10].
Definition line_AAAA : bytes := str "{""count"":1,""time_first"":100,""time_last"":100,""rrname"":""?www?ex?com?"",""rrtype"":""TYPE28"",""bailiwick"":""?ex?com?"",""rdata"":[""28:????????????????""]}" ++ [10].
Theorem complete_bounds_refuted : exists o,
  options_mean (fun _ => 1700000000%Z) [(code "c", []); (code "j", []); (code "a", str "50"); (code "A", str "40")] o /\
  completely_within o 100 200 /\ completely_within o 100 100 /\
  lookup_demo [(code "j", [])] [str "rrset"; str "WWW.ex.com"] = Ok (line_A ++ line_AAAA, []) /\
  lookup_demo [(code "c", []); (code "j", []); (code "a", str "50"); (code "A", str "40")] [str "rrset"; str "WWW.ex.com"] = Ok (line_A, []).
Proof.
  eexists. split; [apply options_iff; vm_compute; reflexivity|]. unfold completely_within, at_least, at_most. cbn [o_tfa o_tla o_tfb o_tlb].
  split; [repeat split; lia|]. split; [repeat split; lia|]. split; vm_compute; reflexivity.
Qed.
Print Assumptions complete_bounds_refuted.

(** * An example for C51, C57 and C60 *)

(** Type A, not -c. *)
Definition cmd57 : command := cmd QRrset (Some (str "WWW.ex.com")) (Some (str "A")) None.
Definition args57 : list bytes := [str "rrset"; str "WWW.ex.com"; str "A"].
Definition opts57 : list (N * bytes) := [(code "j", []); (code "t", str "9"); (code "i", str "1")].

Lemma name57 : forall o name, o_case o = false -> name_of demo_env o (str "WWW.ex.com") name -> name = [L_www; L_ex; L_com].
Proof.
  intros o name HC (ls & HL & E & ->). rewrite HC. change (str_to_name demo_env (str "WWW.ex.com")) with (Some (wire [str "WWW"; str "ex"; str "com"])) in E.
  injection E as E. assert (ls = [str "WWW"; str "ex"; str "com"]) as ->; [|reflexivity].
  apply NameFacts.wire_inj; [apply HL|apply name_okb_ok; reflexivity|symmetry; exact E].
Qed.

Example c57_case : exists o, understood demo_env (fun _ => 1700000000%Z) opts57 args57 V o cmd57 (dnstable_reader_init demo_table) /\
  clock_ok noclk /\ database demo demo_table /\ strict demo_table /\ findable demo_env o cmd57 demo /\ Forall (timely o) demo /\ c_strings demo_lib /\ Forall (showable demo_lib o) demo /\
  (forall i, (11 <= i)%nat -> past_total o noclk i) /\
  wanted demo_env o cmd57 (RRset [L_www; L_ex; L_com] 1 [L_ex; L_com] [[10; 0; 0; 1]; [10; 0; 0; 3]] (ob 100 200 7)) /\
  match lookup_demo opts57 args57 with Ok (out, _) => out = line_A | _ => False end.
Proof.
  assert (E : exists o, take_options (fun _ => 1700000000%Z) opts57 opts0 = Ok o) by (eexists; vm_compute; reflexivity). destruct E as (o & EO). exists o.
  assert (HO : options_mean (fun _ => 1700000000%Z) opts57 o) by (apply options_iff; exact EO).
  vm_compute in EO. injection EO as EO.
  split.
  { split; [exact HO|apply command_iff; reflexivity|apply allowed_iff; subst o; reflexivity| |apply op_file; try reflexivity; subst o; reflexivity].
    split; [|split].
    - intros s Hs. injection Hs as <-. right. discriminate.
    - intros s Hs. discriminate Hs.
    - cbn. discriminate. }
  split; [intro n; split; [split; cbn; lia|cbn; lia]|]. split; [apply demo_database|]. split; [apply demo_database|]. split; [|split; [|split; [apply demo_lib_ok|split; [|split; [|split]]]]].
  - split.
    + intros d name Hd _ HN. injection Hd as <-. apply name57 in HN; [|subst o; reflexivity]. subst name. apply os_plain.
      * intros l ls Hl. injection Hl as <- _. intros [H|H]; discriminate H.
      * intros ls l Hl. change ([L_www; L_ex; L_com]) with ([L_www; L_ex] ++ [L_com]) in Hl. apply app_inj_tail in Hl. destruct Hl as [_ <-].
        split; [intros [H|H]; discriminate H|]. intros a b Hab. destruct a as [|x [|y a]]; try discriminate Hab. destruct a as [|z a]; [discriminate Hab|]. destruct a; discriminate Hab.
    + intros s Hs _. injection Hs as <-. cbn. discriminate.
    + intros _. exact demo_owners_indexed.
    + intros s ow m _ Hs Hin. injection Hs as <-. apply (demo_owner_safe ow). exact Hin.
    + intro H. discriminate H.
    + intros s n m H. discriminate H.
    + intros n ty H. discriminate H.
  - apply Forall_forall. intros r _ HS. subst o. discriminate HS.
  - apply Forall_forall. intros r _ _. subst o. cbn [o_json o_Json orb]. destruct r; try exact I; discriminate.
  - intros i Hi. split; [subst o; discriminate|]. subst o. unfold seconds, nanos, noclk. cbn [tv_sec tv_nsec o_timeout]. lia.
  - split; [|split; [|split]].
    + exists [L_www; L_ex; L_com]. split.
      * exists [str "WWW"; str "ex"; str "com"]. split; [apply name_okb_ok; reflexivity|]. split; [reflexivity|]. subst o. reflexivity.
      * change [L_www; L_ex; L_com] with ([L_www; L_ex; L_com]). apply fits_itself.
        { intros l ls Hl. injection Hl as <- _. intros [H|H]; discriminate H. }
        { intros ls l Hl. change ([L_www; L_ex; L_com]) with ([L_www; L_ex] ++ [L_com]) in Hl. apply app_inj_tail in Hl. destruct Hl as [_ <-].
          split; [intros [H|H]; discriminate H|]. intros a b Hab. destruct a as [|x [|y a]]; try discriminate Hab. destruct a as [|z a]; [discriminate Hab|]. destruct a; discriminate Hab. }
    + intros s Hs _. injection Hs as <-. reflexivity.
    + intros s Hs. discriminate Hs.
    + subst o. unfold time_wanted, within, at_least, at_most. cbn [o_strict o_tfa o_tla o_tfb o_tlb]. repeat split; left; reflexivity.
  - vm_compute. reflexivity.
Qed.

(** * C59: dnstable_dump *)

Lemma dump_reader_lists : forall lib o fuel b es texts n out, reader_calls fuel (S (length es)) b = listing es (S (length es)) ->
  Forall2 (fun e s => dump_print_entry lib o e = Ok s) es texts -> (S (length es) <= n)%nat ->
  dump_reader n fuel lib o b out = Ok (out ++ concat texts).
Proof.
  intros lib o fuel b es texts n out H F. revert n b out H. induction F as [|e s es texts E F IH]; intros n b out H L; (destruct n as [|n]; [cbn in L; lia|]).
  - unfold listing in H. cbn [length reader_calls] in H. cbn [dump_reader]. destruct (reader_next fuel b) as [r b']. injection H as ->. cbn [concat]. rewrite app_nil_r. reflexivity.
  - cbn [length] in H. cbn [dump_reader]. change (reader_calls fuel (S (S (length es))) b) with (let '(r, b') := reader_next fuel b in r :: reader_calls fuel (S (length es)) b') in H.
    destruct (reader_next fuel b) as [r b']. 
    assert (HL : listing (e :: es) (S (S (length es))) = QEntry e :: listing es (S (length es))).
    { unfold listing. set (n1 := S (length es)). cbn [map app]. rewrite firstn_cons. apply (f_equal (cons (QEntry e))).
      rewrite !firstn_app, !map_length. replace (n1 - length es)%nat with 1%nat by (unfold n1; lia). reflexivity. }
    rewrite HL in H. injection H as -> H. rewrite E. cbn [bind]. rewrite (IH n b' (out ++ s) H) by (cbn [length] in L; lia). cbn [concat]. rewrite app_assoc. reflexivity.
Qed.

(** It prints the entries stored under the chosen type, all of them, in order; it does
    nothing else.  Conversely, if it prints anything, one section was chosen and -R was
    allowed ([argv_process] sees to it that no two are chosen). *)
Theorem dump_prints : forall lib o t b l es texts, chosen o b -> raw_allowed o ->
  selects (key_starts [b]) t l -> decoded l es -> Forall2 (dumped lib o) es texts ->
  eventually (fun fuel => dnstable_dump fuel lib o (Some t) = Ok (concat texts)).
Proof.
  intros lib o t b l es texts HC HR HS HD HF.
  assert (IT : exists it, In (b, it) (typed_iterators t) /\ forall fuel, dnstable_dump fuel lib o (Some t) = dump_reader fuel fuel lib o it []).
  { assert (R1 : d_raw o && negb (d_rdata o || d_rrset o) = false).
    { unfold raw_allowed in HR. destruct (d_raw o); [|reflexivity]. destruct (HR eq_refl) as (_ & [-> | ->]); cbn; destruct (d_rdata o); reflexivity. }
    assert (R2 : d_raw o && negb (d_json o) = false).
    { unfold raw_allowed in HR. destruct (d_raw o); [|reflexivity]. destruct (HR eq_refl) as (-> & _). reflexivity. }
    unfold chosen, sections in HC. unfold dnstable_dump. rewrite R1, R2.
    destruct (d_rrset o), (d_rdata o), (d_rrset_names o), (d_rdata_names o), (d_time_range o), (d_version o), (d_source_info o); cbn in HC; try discriminate HC;
      injection HC as <-; eexists; (split; [|intro fuel; reflexivity]); cbn; tauto. }
  destruct IT as (it & HI & EQ). destruct (proj2 (reader_iterators t) b it l es HI HS HD) as (HL & HT).
  destruct (HL (S (length es))) as (F & HFuel). exists (Nat.max F (S (length es))). intros fuel Hf. rewrite EQ.
  assert (BT : In b [0; 1; 2; 3; 253; 254; 255]).
  { cbn in HI. repeat (destruct HI as [HI|HI]; [injection HI as <- _; cbn; tauto|]). destruct HI. }
  rewrite (dump_reader_lists lib o fuel it es texts fuel []); [reflexivity|apply HFuel; lia| |lia].
  clear - HF HT BT. induction HF as [|e s es texts H F IH]; [constructor|]. inversion HT as [|? ? T HT']; subst. constructor; [|apply IH; exact HT'].
  unfold dump_print_entry. assert (existsb (N.eqb (get_type e)) [ENTRY_TYPE_RRSET; ENTRY_TYPE_RRSET_NAME_FWD; ENTRY_TYPE_RDATA; ENTRY_TYPE_RDATA_NAME_REV;
       ENTRY_TYPE_TIME_RANGE; ENTRY_TYPE_SOURCE_INFO; ENTRY_TYPE_VERSION] = true) as ->.
  { apply existsb_exists. exists (get_type e). split; [|apply N.eqb_refl]. cbn in BT. cbn. repeat (destruct BT as [<- | BT]; [tauto|]). destruct BT. }
  unfold dumped in H. destruct (d_json o).
  - destruct H as (x & E & ->). change (set_raw_rdata (set_date_format (set_output_format dnstable_formatter_init OutJson) DateUnix) (d_raw o)) with (json_formatter DateUnix false (d_raw o)).
    rewrite E. reflexivity.
  - destruct H as (x & E & ->). rewrite E. cbn [bind negb andb]. destruct (get_type e =? ENTRY_TYPE_RDATA); reflexivity.
Qed.
Print Assumptions dump_prints.

(** For the RRsets or the RData of a database, in terms of the stored records. *)
Definition in_section (b : N) (r : record) : Prop :=
  match r with RRset _ _ _ _ _ => b = 0 | RData _ _ _ _ _ => b = 2 | _ => False end.

Lemma section_key : forall r k v b, b = 0 \/ b = 2 -> encodes r (k, v) -> (key_starts [b] (k, v) <-> in_section b r).
Proof.
  intros r k v b HB (HK & HE). unfold key_starts. cbn [fst snd] in *. destruct r as [ow ty bw rs o|ow ty hd tl o|n m|n m|k' v']; cbn [in_section].
  - destruct HE as (_ & _ & _ & _ & (x & rd & _ & _ & ->) & _). cbn [app]. split; [intros (rest & E); injection E as <- _; reflexivity|intros ->; eexists; reflexivity].
  - destruct HE as (_ & _ & _ & _ & (x & _ & ->) & _). cbn [app]. split; [intros (rest & E); injection E as <- _; reflexivity|intros ->; eexists; reflexivity].
  - destruct HE as (_ & HE). assert (exists r, k = 1 :: r) as (r & ->) by (injection HE; intros; subst; eexists; reflexivity).
    split; [intros (rest & E); injection E as E _; lia|contradiction].
  - destruct HE as (_ & HE). assert (exists r, k = 3 :: r) as (r & ->) by (injection HE; intros; subst; eexists; reflexivity).
    split; [intros (rest & E); injection E as E _; lia|contradiction].
  - destruct HE as (E0 & x & y & -> & Hx). injection E0 as -> _. split; [intros (rest & E); injection E as E _; lia|contradiction].
Qed.

Theorem dump_records : forall lib o t recs b sel, chosen o b -> b = 0 \/ b = 2 -> raw_allowed o -> c_strings lib ->
  database recs t -> selects (in_section b) recs sel -> Forall (dumpable lib o) recs ->
  exists texts, Forall2 (dump_output lib o) sel texts /\
  eventually (fun fuel => dnstable_dump fuel lib o (Some t) = Ok (concat texts)).
Proof.
  intros lib o t recs b sel HC HB HR HS [HF _] HX HD.
  assert (X : exists l, selects (key_starts [b]) t l /\ Forall2 encodes sel l).
  { clear HD. revert sel HX. induction HF as [|r [k v] recs t HE HF IH]; intros sel HX.
    - inversion HX; subst. exists []. split; constructor.
    - pose proof (section_key r k v b HB HE) as SK. inversion HX as [|? ? m P S|? ? m P S]; subst.
      + destruct (IH m S) as (l & A & B). exists ((k, v) :: l). split; [apply sel_yes; [apply SK; exact P|exact A]|constructor; [exact HE|exact B]].
      + destruct (IH sel S) as (l & A & B). exists l. split; [apply sel_no; [intro Q; apply P, SK, Q|exact A]|exact B]. }
  destruct X as (l & SL & EN).
  assert (SH : Forall shown sel).
  { apply Forall_forall. intros r Hr. destruct (SelectProofs.selects_in _ _ _ _ HX r Hr) as [_ Q]. destruct r; cbn in Q; try contradiction; exact I. }
  destruct (decode_all sel l EN SH) as (es & DE & SW).
  assert (DE' : decoded l es) by (clear - DE; induction DE; constructor; assumption).
  assert (DS : Forall (dumpable lib o) sel).
  { apply Forall_forall. intros r Hr. rewrite Forall_forall in HD. apply HD. apply (SelectProofs.selects_in _ _ _ _ HX r Hr). }
  destruct (dumps_of lib o sel es HS SW DS) as (texts & A & B). exists texts. split; [exact B|].
  exact (dump_prints lib o t b l es texts HC HR SL DE' A).
Qed.
Print Assumptions dump_records.

Theorem dump_only : forall fuel lib o file out, dnstable_dump fuel lib o file = Ok out ->
  raw_allowed o /\ (exists b, In b (map snd (filter fst (sections o)))) /\ exists t, file = Some t.
Proof.
  intros fuel lib o file out H. unfold dnstable_dump in H. unfold raw_allowed, sections.
  destruct (d_raw o) eqn:ER; cbn [andb] in H.
  - destruct (d_rdata o || d_rrset o) eqn:E1; [|discriminate H]. cbn in H. destruct (d_json o) eqn:E2; [|discriminate H]. cbn in H. destruct file as [t|]; [|discriminate H].
    split; [intros _; split; [reflexivity|]; destruct (d_rdata o), (d_rrset o); auto|]. split; [|eauto].
    destruct (d_rrset o); [eexists; left; reflexivity|]. destruct (d_rdata o); [eexists; left; reflexivity|]. discriminate E1.
  - destruct file as [t|]; [|discriminate H]. split; [discriminate|]. split; [|eauto].
    destruct (d_rrset o), (d_rdata o), (d_rrset_names o), (d_rdata_names o), (d_time_range o), (d_version o), (d_source_info o);
      cbn in H; try discriminate H; eexists; left; reflexivity.
Qed.
Print Assumptions dump_only.

Definition D59 : dump_opts := {| d_json := true; d_raw := false; d_rrset := true; d_rdata := false; d_rrset_names := false; d_rdata_names := false;
  d_time_range := false; d_version := false; d_source_info := false |}.
Definition recs59 : list record := [nth 2 demo (Other [] []); nth 3 demo (Other [] []); nth 5 demo (Other [] []); nth 18 demo (Other [] [])].
Example c59_case : chosen D59 0 /\ raw_allowed D59 /\ c_strings demo_lib /\ database recs59 (map put recs59) /\
  selects (in_section 0) recs59 (firstn 2 recs59) /\ Forall (dumpable demo_lib D59) recs59 /\
  dnstable_dump 100 demo_lib D59 (Some (map put recs59)) = Ok (line_A ++ line_AAAA).
Proof.
  split; [reflexivity|]. split; [discriminate|]. split; [apply demo_lib_ok|]. split; [apply demo_ok; vm_compute; reflexivity|]. split; [|split].
  - cbn. apply sel_yes; [reflexivity|]. apply sel_yes; [reflexivity|]. apply sel_no; [intros []|]. apply sel_no; [intros []|]. apply sel_nil.
  - apply Forall_forall. intros r _ H. discriminate H.
  - vm_compute. reflexivity.
Qed.

Example c60_case : exists o, understood demo_env (fun _ => 1700000000%Z) opts57 args57 V o cmd57 (dnstable_reader_init demo_table) /\
  database demo demo_table /\ findable demo_env o cmd57 demo /\
  wanted demo_env o cmd57 (RRset [L_www; L_ex; L_com] 1 [L_ex; L_com] [[10; 0; 0; 1]; [10; 0; 0; 3]] (ob 100 200 7)) /\
  match lookup_demo opts57 args57 with Ok (out, _) => out = line_A | _ => False end.
Proof. destruct c57_case as (o & A & _ & B & _ & C & _ & _ & _ & _ & D & E). exists o. auto. Qed.

(** -c with bounds 50 and 40: seen from 100 to 200 is completely within, seen from 45 or 30 on is not. *)
Example c51_case : exists o gd gi clk' q,
  options_mean (fun _ => 1700000000%Z) [(code "c", []); (code "a", str "50"); (code "A", str "40")] o /\
  command_means args57 cmd57 /\ clock_ok noclk /\ o_strict o = true /\
  build_query demo_env o cmd57 noclk = Ok (gd, gi, clk', q) /\
  completely_within o 100 200 /\ in_fence q (ob 100 200 7) /\ ~ completely_within o 45 200 /\ ~ in_fence q (ob 45 200 7).
Proof.
  assert (E : exists o, take_options (fun _ => 1700000000%Z) [(code "c", []); (code "a", str "50"); (code "A", str "40")] opts0 = Ok o) by (eexists; vm_compute; reflexivity). destruct E as (o & EO).
  assert (HO : options_mean (fun _ => 1700000000%Z) [(code "c", []); (code "a", str "50"); (code "A", str "40")] o) by (apply options_iff; exact EO).
  vm_compute in EO. injection EO as EO.
  assert (HB : exists gd gi clk' q, build_query demo_env o cmd57 noclk = Ok (gd, gi, clk', q)) by (subst o; repeat eexists; vm_compute; reflexivity).
  destruct HB as (gd & gi & clk' & q & HB). exists o, gd, gi, clk', q.
  assert (HC : command_means args57 cmd57) by (apply command_iff; reflexivity).
  assert (HK : clock_ok noclk) by (destruct c57_case as (? & _ & A & _); exact A).
  assert (HS : o_strict o = true) by (subst o; reflexivity).
  assert (HF : forall x, o_first x <= o_last x -> (in_fence q x <-> completely_within o (o_first x) (o_last x))).
  { intros x Hx. apply (complete_bounds_partial demo_env o args57 cmd57 noclk gd gi clk' q x); try assumption; try discriminate; [exact demo_env_ok|subst o; cbn; lia..]. }
  assert (Y : completely_within o 100 200) by (subst o; unfold completely_within, at_least, at_most; cbn; intuition lia).
  assert (X : ~ completely_within o 45 200) by (subst o; unfold completely_within, at_least, at_most; cbn; intuition lia).
  repeat (split; [assumption|]). split; [apply HF; [cbn; lia|exact Y]|]. split; [exact X|]. intro K. apply X. apply (HF (ob 45 200 7)) in K; [exact K|cbn; lia].
Qed.

(** C80: the programs' use of memory. *)
From Verif Require Import Base ModelMemory ModelToolMemory SpecToolMemory ToolMemoryProofs.
From Verif Require Str ModelVarint ModelEntry ModelNames ModelFormat ModelQuery ModelLookup ModelUnion PropsSound.
From Verif Require Import SpecEntry SpecDecode SpecSound.

(** ** What is printed is not empty *)

Section Printed.
Import Str ModelVarint ModelEntry ModelNames ModelFormat ModelUnion.

Definition starts (u : bytes) : Prop := match u with b :: _ => b <> 0 | [] => False end.
Lemma starts_app : forall u v, starts u -> starts (u ++ v).
Proof. intros [|b u] v H; [destruct H|exact H]. Qed.
Lemma starts_cstr : forall u, starts u -> cstr u <> [].
Proof. intros [|b u] H; [destruct H|]. cbn [starts] in H. cbn [cstr]. destruct (N.eqb_spec b 0); [contradiction|discriminate]. Qed.
Lemma starts_add : forall u s, starts u -> starts (add_cstr u s).
Proof.
  intros u s H. unfold add_cstr. apply starts_app. destruct (rev u) as [|x r] eqn:E; [exact H|]. destruct x; [|exact H].
  assert (Eu : u = rev r ++ [0]) by (rewrite <- (rev_involutive u), E; reflexivity). subst u. destruct (rev r) as [|b l]; [exfalso; apply H; reflexivity|exact H].
Qed.
Lemma starts_name : forall n v, starts v -> starts (add_cstr [] n ++ v).
Proof.
  intros n v H. unfold add_cstr. cbn [rev app]. induction n as [|b n IH]; [exact H|]. cbn [cstr]. destruct (N.eqb_spec b 0); [exact H|exact n0].
Qed.
Lemma starts_escape : forall s u p, starts u -> starts (escape_loop u p s).
Proof.
  induction s as [|c s IH]; intros u p H; cbn [escape_loop]; [apply starts_app; exact H|]. destruct (_ || _); [|apply IH; exact H]. apply IH.
  assert (H2 : starts (match p with [] => u | _ => u ++ p end)) by (destruct p; [exact H|apply starts_app; exact H]).
  destruct (0 <? json_esc c); apply starts_app; exact H2.
Qed.
Lemma starts_string : forall u s, starts u -> starts (append_json_value_string u s).
Proof. intros. unfold append_json_value_string, append_json_string_escaped. apply starts_app, starts_escape, starts_app. assumption. Qed.
Lemma starts_str : forall u s, starts u -> starts (json_str_append u s).
Proof. intros. unfold json_str_append. apply starts_string. assumption. Qed.
Lemma starts_decl : forall u s b, starts u -> starts (decl u s b).
Proof. intros. unfold decl, declare_json_value. apply starts_app. assumption. Qed.
Lemma starts_arr : forall u s b, starts u -> starts (arr b s u).
Proof. intros. unfold arr. destruct b; [apply starts_app|]; assumption. Qed.
Lemma starts_rrtype : forall lib u t, starts u -> starts (fmt_rrtype lib u t).
Proof. intros. unfold fmt_rrtype. destruct (wdns_rrtype_to_str _ _); [apply starts_add|apply starts_app]; assumption. Qed.
Lemma starts_rrtype_json : forall lib u t, starts u -> starts (fmt_rrtype_json lib u t).
Proof. intros. unfold fmt_rrtype_json. destruct (wdns_rrtype_to_str _ _); [apply starts_str|apply starts_string]; assumption. Qed.

(** A step that keeps the first byte. *)
Definition keeps (f : bytes -> res bytes) : Prop := forall u v, starts u -> f u = Ok v -> starts v.
Lemma keeps_int : forall n, keeps (fun u => append_json_value_int u n).
Proof. intros n u v H E. unfold append_json_value_int in E. destruct (vnum_to_str _ _); cbn [bind] in E; try discriminate. injection E as <-. apply starts_app. exact H. Qed.
Lemma keeps_rfc : forall n, keeps (fun u => fmt_rfc3339_time u n).
Proof. intros n u v H E. unfold fmt_rfc3339_time in E. destruct (rfc3339_ts n); cbn [bind] in E; try discriminate. injection E as <-. apply starts_app. exact H. Qed.
Lemma keeps_rfcj : forall n, keeps (fun u => fmt_rfc3339_time_json u n).
Proof. intros n u v H E. unfold fmt_rfc3339_time_json in E. destruct (rfc3339_ts n); cbn [bind] in E; try discriminate. injection E as <-. apply starts_string. exact H. Qed.
Lemma keeps_time : forall n, keeps (fun u => fmt_time u n).
Proof. intros n u v H E. unfold fmt_time in E. destruct (gmtime_r _); [destruct (_ <? _)%nat|]; injection E as <-; try apply starts_app; exact H. Qed.
Lemma keeps_uint : forall lib n, keeps (fun u => fmt_uint64 lib u n).
Proof.
  intros lib n u v H E. unfold fmt_uint64 in E. destruct (_ <=? 26)%nat; [injection E as <-; apply starts_app; exact H|].
  destruct (_ <=? 27)%nat; [injection E as <-; apply starts_app; exact H|discriminate].
Qed.
Lemma keeps_list : forall {A} d (f : bytes -> A -> res bytes) l, (forall a, keeps (fun u => f u a)) -> keeps (fun u => fmt_list d f u l).
Proof.
  intros A d f l Hf. induction l as [|a l IH]; intros u v H E; cbn [fmt_list] in E; [injection E as <-; exact H|].
  destruct (f u a) as [w| | | |] eqn:Ef; cbn [bind] in E; try discriminate. refine (IH _ _ _ E). pose proof (Hf a _ _ H Ef). destruct l; [assumption|apply starts_app; assumption].
Qed.
Lemma keeps_rr : forall lib n t d, keeps (fun u => text_rr lib n t u d).
Proof. intros lib n t d u v H E. unfold text_rr in E. injection E as <-. apply starts_app, starts_add, starts_app, starts_rrtype, starts_app, starts_add. exact H. Qed.
Lemma keeps_raw : forall t d, keeps (fun u => json_raw_typed t u d).
Proof. intros t d u v H E. unfold json_raw_typed in E. destruct (3 <? _)%nat; [discriminate|]. injection E as <-. apply starts_str. exact H. Qed.
Lemma keeps_ok : forall f, (forall u, starts u -> starts (f u)) -> keeps (fun u => Ok (f u)).
Proof. intros f Hf u v H E. injection E as <-. auto. Qed.

Lemma starts_union : forall lib n e v, fmt_rrtypes_union lib (add_cstr [] n) e = Ok v -> starts v.
Proof.
  intros lib n e v E. unfold fmt_rrtypes_union in E. set (u := add_cstr [] n ++ str " RRtypes=[") in E.
  assert (H : starts u) by (apply starts_name; discriminate). clearbody u. cbv zeta in E.
  destruct (e_rrtype_map e) as [m|]; cbn [bind] in E; [|injection E as <-; apply starts_app; exact H].
  destruct (rrtype_union_unpack m) as [[l|]| | | |]; cbn [bind] in E; try discriminate; [|injection E as <-; apply starts_app, starts_app; exact H].
  destruct (fmt_list _ _ u l) as [w| | | |] eqn:EL; cbn [bind] in E; try discriminate. injection E as <-. apply starts_app.
  refine (keeps_list _ _ l _ u w H EL). intro a. apply keeps_ok. intros. apply starts_rrtype. assumption.
Qed.
Lemma starts_union_json : forall lib e, keeps (fun u => fmt_rrtypes_union_json lib u e).
Proof.
  intros lib e u v H E. unfold fmt_rrtypes_union_json in E. cbv zeta in E. set (u2 := declare_json_value _ _ _ ++ _) in E.
  assert (H2 : starts u2) by (unfold u2, declare_json_value; apply starts_app, starts_app; exact H). clearbody u2.
  destruct (e_rrtype_map e) as [m|]; cbn [bind] in E; [|injection E as <-; apply starts_app; exact H2].
  destruct (rrtype_union_unpack m) as [[l|]| | | |]; cbn [bind] in E; try discriminate; [|injection E as <-; apply starts_app, starts_str; exact H2].
  destruct (fmt_list _ _ u2 l) as [w| | | |] eqn:EL; cbn [bind] in E; try discriminate. injection E as <-. apply starts_app.
  refine (keeps_list _ _ l _ u2 w H2 EL). intro a. apply keeps_ok. intros. apply starts_rrtype_json. assumption.
Qed.

Ltac go :=
  repeat first
  [ assumption
  | exact I
  | match goal with |- starts (_ ++ str _) => solve [cbn; discriminate] end
  | match goal with |- starts (add_cstr _ _) => apply starts_add end
  | match goal with |- starts (decl _ _ _) => apply starts_decl end
  | match goal with |- starts (_ ++ _) => apply starts_app end
  | apply starts_arr
  | apply starts_str
  | apply starts_string
  | apply starts_rrtype_json
  | match goal with |- starts (if ?b then _ else _) => destruct b end
  | (cbn; discriminate) ].
Ltac step E := match type of E with
  | bind ?x _ = Ok _ => let w := fresh "w" in let F := fresh "F" in destruct x as [w| | | |] eqn:F; cbn [bind] in E; try discriminate E
  end.

Theorem printed_text : forall lib e date s, known_type (e_type e) -> dnstable_entry_to_text_fmt lib e date = Ok (Some s) -> s <> [].
Proof.
  intros lib e date s HK E. unfold dnstable_entry_to_text_fmt in E. cbv zeta in E.
  set (time := match date with DateUnix => fmt_time | DateRfc3339 => fmt_rfc3339_time end) in E.
  assert (KT : forall n, keeps (fun u => time u n)) by (intro n; unfold time; destruct date; [apply keeps_time|apply keeps_rfc]). clearbody time.
  destruct (e_type e =? ENTRY_TYPE_RRSET) eqn:T0.
  { step E. step E. step E. step E. step E. step E. injection E as <-. apply starts_cstr.
    refine (keeps_list [] _ _ _ _ _ _ F4); [intro; apply keeps_rr|]. go. refine (KT _ _ _ _ F2). go. refine (KT _ _ _ _ F1). go. refine (keeps_uint _ _ _ _ _ F0). go. }
  destruct (e_type e =? ENTRY_TYPE_RDATA) eqn:T1.
  { destruct (e_rdatas e) as [|d [|]]; try discriminate. step E. unfold text_rr in E. cbn [bind] in E. injection E as <-. apply starts_cstr.
    apply starts_app, starts_add, starts_app, starts_rrtype. apply starts_name. discriminate. }
  destruct (e_type e =? ENTRY_TYPE_RRSET_NAME_FWD) eqn:T2.
  { step E. step E. injection E as <-. apply starts_cstr, starts_app. eapply starts_union; eassumption. }
  destruct (e_type e =? ENTRY_TYPE_RDATA_NAME_REV) eqn:T3.
  { step E. step E. injection E as <-. apply starts_cstr, starts_app. eapply starts_union; eassumption. }
  destruct (e_type e =? ENTRY_TYPE_TIME_RANGE) eqn:T4.
  { step E. step E. injection E as <-. apply starts_cstr. go. refine (KT _ _ _ _ F0). go. refine (KT _ _ _ _ F). go. }
  destruct (e_type e =? ENTRY_TYPE_SOURCE_INFO) eqn:T5.
  { injection E as <-. discriminate. }
  destruct (e_type e =? ENTRY_TYPE_VERSION) eqn:T6.
  { injection E as <-. discriminate. }
  exfalso. unfold known_type in HK. cbn [In] in HK. lia.
Qed.
Theorem printed_json : forall lib e date arr raw s, dnstable_entry_to_json_fmt lib e date arr raw = Ok (Some s) -> s <> [].
Proof.
  intros lib e date arr raw s E. unfold dnstable_entry_to_json_fmt in E. cbv zeta in E.
  set (time := match date with DateUnix => append_json_value_int | DateRfc3339 => fmt_rfc3339_time_json end) in E.
  assert (KT : forall n, keeps (fun u => time u n)) by (intro n; unfold time; destruct date; [apply keeps_int|apply keeps_rfcj]). clearbody time.
  match type of E with bind ?x _ = _ => assert (H : keeps (fun _ => x)) end.
  { intros _ v _ E1. destruct (_ || _); [|injection E1 as <-; discriminate]. step E1. step E1. step E1. step E1. injection E1 as <-. go. refine (KT _ _ _ _ F1). go. refine (KT _ _ _ _ F0). go. refine (keeps_int _ _ _ _ F). go. }
  step E. specialize (H [1] w ltac:(discriminate) eq_refl). clear F.
  destruct (e_type e =? ENTRY_TYPE_RRSET) eqn:T0.
  { step E. step E. assert (H2 : starts w1).
    { refine (keeps_list _ _ _ _ _ _ _ F0); [intro; apply keeps_ok; intros; apply starts_str; assumption|]. go. }
    destruct raw; cbn [bind] in E; [|injection E as <-; apply starts_cstr; go]. step E. step F1. injection F1 as <-. injection E as <-. apply starts_cstr. go.
    refine (keeps_list _ _ _ _ _ _ _ F2); [intro; apply keeps_raw|]. go. }
  destruct (e_type e =? ENTRY_TYPE_RDATA) eqn:T1.
  { destruct (e_rdatas e) as [|d [|]]; try discriminate. injection E as <-. apply starts_cstr. go. }
  destruct (e_type e =? ENTRY_TYPE_RRSET_NAME_FWD) eqn:T2.
  { step E. step E. injection E as <-. apply starts_cstr. go. refine (starts_union_json _ _ _ _ _ F0). go. }
  destruct (e_type e =? ENTRY_TYPE_RDATA_NAME_REV) eqn:T3.
  { step E. step E. injection E as <-. apply starts_cstr. go. refine (starts_union_json _ _ _ _ _ F0). go. }
  destruct (e_type e =? ENTRY_TYPE_TIME_RANGE) eqn:T4.
  { step E. step E. injection E as <-. apply starts_cstr. go. refine (KT _ _ _ _ F0). go. refine (KT _ _ _ _ F). go. }
  destruct (e_type e =? ENTRY_TYPE_SOURCE_INFO) eqn:T5.
  { injection E as <-. apply starts_cstr. go. }
  destruct (e_type e =? ENTRY_TYPE_VERSION) eqn:T6.
  { step E. injection E as <-. apply starts_cstr. go. refine (keeps_int _ _ _ _ F). go. }
  injection E as <-. apply starts_cstr. go.
Qed.

(** No text of an entry of a known type is empty: the programs' test of the length of what
    they print never keeps them from freeing it. *)
Theorem printed_not_empty : forall lib e f s, known_type (e_type e) ->
  dnstable_entry_to_text lib e = Ok (Some s) \/ dnstable_entry_format lib f e = Ok (Some s) -> s <> [].
Proof.
  intros lib e f s HK [E|E]; [exact (printed_text lib e _ s HK E)|]. unfold dnstable_entry_format in E.
  destruct (fm_output f); [exact (printed_json _ _ _ _ _ _ E)|exact (printed_text lib e _ s HK E)].
Qed.
End Printed.
Print Assumptions printed_not_empty.

(** ** No query returns an entry of a type the library does not know *)
Lemma asked_known : forall q k c e, asked q k c -> tells e c -> known_type (ModelEntry.get_type e).
Proof.
  intros q k c e HA HT. unfold known_type. unfold asked in HA. destruct c; cbn [tells] in HT; try (destruct HT as (-> & _); cbn [In]; tauto).
  destruct (ModelQuery.q_type q); destruct HA.
Qed.
Theorem answers_known : forall t q qi fuel ts w e, PropsSound.stored_bytes t -> well_posed q ->
  ModelQuery.dnstable_query_iter q t = Ok qi -> In (ModelQuery.QEntry e) (SpecQuery.timed_calls fuel ts qi w) -> known_type (ModelEntry.get_type e).
Proof. intros t q qi fuel ts w e HB HW E H. destruct (PropsSound.answers_stored_and_asked t q qi fuel ts w e HB HW E H) as (k & v & c & _ & _ & HT & HA). exact (asked_known q k c e HA HT). Qed.
Print Assumptions answers_known.

(** ** The programs *)

Lemma chosen_asked : forall o, chosen o = true <-> section_asked o.
Proof.
  intro o. unfold chosen, section_asked, SpecDump.sections. rewrite !orb_true_iff. split.
  - intros [[[[[[H|H]|H]|H]|H]|H]|H]; rewrite H; eexists; cbn [In]; eauto 9.
  - intros (b & H). cbn [In] in H. repeat (destruct H as [H|H]; [injection H as H _; tauto|]). destruct H.
Qed.

(** Every run of dnstable_dump ends, whatever the file and the command line, and no call it
    makes touches memory that is not its own.  When it succeeds it has destroyed all it was
    given and nothing is left allocated; so also when it refuses the command line or cannot
    open the file.  It aborts just when no section was chosen. *)
Theorem dump_memory : forall (o : dump_opts) (choices : list N), exists enough, forall fuel, (enough <= fuel)%nat ->
  exists x c m, dump_main fuel o (start choices) = Ok ((x, c), m) /\
    match x with
    | Success => c = [] /\ cells m = [] /\ section_asked o
    | Failure => c = [] /\ cells m = []
    | Aborted => ~ section_asked o
    | Unasked => False
    end.
Proof.
  intros o choices. destruct (dump_runs false o choices) as (n0 & [x c] & m & H & _ & HQ). exists n0. intros fuel Hf. exists x, c, m. split; [exact (H fuel Hf)|].
  destruct x; [| |rewrite <- chosen_asked, HQ; discriminate|exact HQ].
  - destruct HQ as (-> & HR & Hc). apply chosen_asked in Hc. apply ready_end in HR. destruct HR as [_ HR]. auto.
  - destruct HQ as (-> & HR). apply ready_end in HR. destruct HR as [_ HR]. auto.
Qed.
Print Assumptions dump_memory.

Lemma strict_bound_same : forall o, (ModelLookup.o_tfa (ModelLookup.strict_bounds o) <> 0 \/ ModelLookup.o_tlb (ModelLookup.strict_bounds o) <> 0) <->
  (ModelLookup.o_tfa o <> 0 \/ ModelLookup.o_tlb o <> 0 \/ ModelLookup.o_strict o = true /\ (ModelLookup.o_tla o <> 0 \/ ModelLookup.o_tfb o <> 0)).
Proof.
  intros [tfa tla tlb tfb strict ? ? ? ? ? ? ? ? ? ?]. unfold ModelLookup.strict_bounds, ModelLookup.with_o_tla, ModelLookup.with_o_tfa, ModelLookup.with_o_tfb, ModelLookup.with_o_tlb.
  cbn [ModelLookup.o_tfa ModelLookup.o_tlb ModelLookup.o_tla ModelLookup.o_tfb ModelLookup.o_strict]. destruct strict; [|intuition discriminate].
  pose proof (eq_refl true).   assert (H1 : forall x : N, (x =? 0) = true -> x = 0) by (intros; lia). assert (H2 : forall x : N, (x =? 0) = false -> x <> 0) by (intros; lia).
  destruct (tfa <? tla) eqn:E1; cbn [ModelLookup.o_tfa ModelLookup.o_tlb ModelLookup.o_tla ModelLookup.o_tfb ModelLookup.o_strict];
  (destruct ((0 <? tfb) && ((tlb =? 0) || (tfb <? tlb))) eqn:E2; cbn [ModelLookup.o_tfa ModelLookup.o_tlb ModelLookup.o_tla ModelLookup.o_tfb ModelLookup.o_strict]).
  - assert (tla <> 0) by lia. tauto.
  - assert (tla <> 0) by lia. tauto.
  - assert (tfb <> 0) by lia. tauto.
  - assert (tfa = 0 -> tla = 0) by lia. assert (tlb = 0 -> tfb = 0) by lia. destruct (tfa =? 0) eqn:Ea; [apply H1 in Ea|apply H2 in Ea]; (destruct (tlb =? 0) eqn:Eb; [apply H1 in Eb|apply H2 in Eb]); tauto.
Qed.
Lemma metadata_same : forall a, ModelLookup.metadata a = false <-> ModelLookup.c_type a <> ModelQuery.QVersion /\ ModelLookup.c_type a <> ModelQuery.QTimeRange.
Proof.
  intro a. unfold ModelLookup.metadata. destruct (ModelLookup.c_type a); split; try discriminate; try (intros _; split; discriminate); try reflexivity; intros [H1 H2]; contradiction.
Qed.
Lemma strict_same : forall o a setfile, strictly_bounded o a setfile = true <-> strict_lookup o a setfile.
Proof.
  intros o a setfile. unfold strictly_bounded, strict_lookup. rewrite !andb_true_iff, orb_true_iff, !negb_true_iff, !N.eqb_neq, strict_bound_same, metadata_same.
  generalize (ModelLookup.o_tfa o <> 0 \/ ModelLookup.o_tlb o <> 0 \/ ModelLookup.o_strict o = true /\ (ModelLookup.o_tla o <> 0 \/ ModelLookup.o_tfb o <> 0)). intro P. tauto.
Qed.

(** Every run of dnstable_lookup ends, whatever the files, the command line and the times
    at which limits expire, and no call it makes touches memory that is not its own.  When
    it succeeds it has destroyed all it was given, and nothing is left allocated but, when
    the lookup is a strict one over a set of files, strings. *)
Theorem lookup_memory : forall (o : opts) (a : command) (setfile : bool) (choices : list N), exists enough, forall fuel, (enough <= fuel)%nat ->
  exists x c m, lookup_main fuel o a setfile (start choices) = Ok ((x, c), m) /\
    (x = Success -> c = [] /\ Forall (fun b => snd b = OBytes) (cells m) /\ (~ strict_lookup o a setfile -> cells m = [])).
Proof.
  intros o a setfile choices.
  destruct (lookup_runs (strictly_bounded o a setfile) o a setfile choices (fun H => H)) as (n0 & [x c] & m & H & _ & HQ). exists n0. intros fuel Hf. exists x, c, m. split; [exact (H fuel Hf)|].
  intro Ex. destruct (HQ Ex) as [Ec HR]. apply ready_end in HR. destruct HR as [HR1 HR2]. split; [exact Ec|]. split; [exact HR1|]. intro NS. apply HR2.
  destruct (strictly_bounded o a setfile) eqn:E; [|reflexivity]. exfalso. apply NS, strict_same. exact E.
Qed.
Print Assumptions lookup_memory.

(** A dump of RRsets as JSON, a lookup with a timeout and an interval, and a strict lookup
    over a set file, in which two blocks are left: runs that allocate many blocks. *)
Definition D80 : dump_opts :=
  {| ModelLookup.d_json := true; ModelLookup.d_raw := false; ModelLookup.d_rrset := true; ModelLookup.d_rdata := false; ModelLookup.d_rrset_names := false;
     ModelLookup.d_rdata_names := false; ModelLookup.d_time_range := false; ModelLookup.d_version := false; ModelLookup.d_source_info := false |}.
Definition J80 : opts := ModelLookup.with_o_Json true (ModelLookup.with_o_interval 1 (ModelLookup.with_o_timeout 9 ModelLookup.opts0)).
Definition S80 : opts := ModelLookup.with_o_tfa 5 ModelLookup.opts0.
Definition A80 : command := ModelLookup.cmd ModelQuery.QRrset (Some [97]) (Some [65]) None.
Definition ended (p : M (ending * client)) (choices : list N) : option (ending * nat * nat * N) :=
  match p (start choices) with Ok ((x, c), m) => Some (x, length c, length (cells m), next m) | _ => None end.
Example c80_case :
  ended (dump_main 200 D80) [1; 1; 1; 1; 0; 1; 1; 1; 1; 1; 1; 1; 0; 1; 1; 0; 1; 1; 1; 1; 1; 1; 1; 1; 1; 1; 1; 1; 1; 1; 1; 1; 1; 0; 1; 1; 1; 1; 1; 1] = Some (Success, 0%nat, 0%nat, 48) /\
  ended (lookup_main 200 J80 A80 false) [1; 1; 1; 1; 1; 1; 1; 1; 1; 1; 0; 1; 1; 1; 0; 1; 1; 1; 1; 1; 1; 1; 1; 1; 1; 1; 1; 1; 1; 1; 1; 1; 0; 1; 1; 1; 1; 1; 0; 1; 1; 1; 1; 1; 1; 0; 1; 1; 0; 1; 1; 1; 1; 1] = Some (Success, 0%nat, 0%nat, 65) /\
  ended (lookup_main 200 S80 A80 true) [1; 1; 0; 1; 1; 1; 1; 1; 1; 1; 1; 1; 1; 1; 1; 1; 0; 1; 1; 1; 1; 1; 1; 1; 0; 0; 0; 1; 1; 1; 1; 1; 1; 1; 1; 1; 1; 1; 1; 1] = Some (Success, 0%nat, 2%nat, 86) /\
  strict_lookup S80 A80 true /\ ~ strict_lookup J80 A80 false /\ ~ strict_lookup S80 A80 false.
Proof.
  repeat split; try (vm_compute; reflexivity); try discriminate; try (left; discriminate); intros (H & _); discriminate H.
Qed.

(** Property C88: what dnstable_dump does with any file. *)
From Verif Require Import Str BaseFacts ModelEntry ModelIter ModelQuery SpecIter SpecMerge SpecName SpecEntry SpecQuery SpecReader ModelReader ModelFormat SpecFormat PropsReader SpecDeadline PropsFormat PropsText.
From Verif Require Import ModelLookup SpecDump PropsTools SpecDecode DecodeProofs PropsDecode SpecPrintable PropsPrintable PropsEntry PropsSound SpecDumpAny SpecJson SpecText Demo.

Lemma same_zone : forall e, set_iszone e (e_iszone e) = e.
Proof. intros []; reflexivity. Qed.

Section Any.
Variables (lib : fmtlib) (o : dump_opts) (b : N).
Hypothesis HC : c_strings lib.
Hypothesis HL : short_numbers lib.
Hypothesis HCh : chosen o b.
Hypothesis HRaw : raw_allowed o.

Lemma section_known : known_type b /\ (b = ENTRY_TYPE_RRSET <-> d_rrset o = true).
Proof using HCh.
  unfold chosen, sections in HCh. unfold known_type.
  destruct (d_rrset o), (d_rdata o), (d_rrset_names o), (d_rdata_names o), (d_time_range o), (d_version o), (d_source_info o); cbn in HCh; try discriminate HCh;
    injection HCh as <-; (split; [cbn; tauto|]); (split; [try reflexivity; discriminate|try reflexivity; discriminate]).
Qed.

Lemma printing : forall rest v e, bytes_ok (b :: rest) -> bytes_ok v -> entry_decode (b :: rest) v = Ok e ->
  (harmless o (b :: rest, v) -> exists s, dumped lib o e s) /\
  (~ harmless o (b :: rest, v) -> dump_print_entry lib o e = UB) /\
  (forall s, dumped lib o e s -> dump_print_entry lib o e = Ok s) /\
  (harmless o (b :: rest, v) \/ ~ harmless o (b :: rest, v)).
Proof using HC HL HCh HRaw.
  intros rest v e HB HV HD. destruct section_known as [HK HR].
  pose proof (decoded_type_partial b rest v e HK HD) as TK.
  assert (EX : existsb (N.eqb (get_type e)) [ENTRY_TYPE_RRSET; ENTRY_TYPE_RRSET_NAME_FWD; ENTRY_TYPE_RDATA; ENTRY_TYPE_RDATA_NAME_REV; ENTRY_TYPE_TIME_RANGE; ENTRY_TYPE_SOURCE_INFO; ENTRY_TYPE_VERSION] = true).
  { rewrite TK. apply existsb_exists. exists b. split; [|apply N.eqb_refl]. unfold known_type in HK. cbn in HK |- *. tauto. }
  assert (HT : text_printable lib DateUnix b e). { split; [exact HK|]. split; [discriminate|]. intro BT. apply HL. destruct (decoded_fields b rest v e HK HB HD) as [(_ & _ & X & _)|[(T & _)|[(key & nm & T & _)|[(T & _)|[T|(T & _)]]]]]; [exact X| | | | |]; exfalso; unfold get_type in TK; rewrite TK, BT in T; try discriminate T. destruct T as [(T & _)|(T & _)]; discriminate T. }
  destruct (text_printed lib DateUnix false false (e_iszone e) b rest v e HC (fun n => proj1 (HL n)) HB HD HT) as (ls & ET & _).
  rewrite same_zone in ET. change (dnstable_entry_format lib (text_formatter DateUnix false false) e) with (dnstable_entry_to_text lib e) in ET.
  assert (J : harmless o (b :: rest, v) -> json_printable DateUnix (d_raw o) b e).
  { intros (_ & _ & H). split; [exact HK|]. split; [discriminate|]. intros R1 R2. exact (H R1 (proj1 HR R2) e HD). }
  assert (NJ : json_printable DateUnix (d_raw o) b e -> harmless o (b :: rest, v)).
  { intros (_ & _ & H). unfold harmless. cbn [fst snd]. split; [|split].
    - intro X. assert (entry_decode (b :: rest) v = UB) as Y by (apply decode_overreads_iff; assumption). congruence.
    - intro X. rewrite (decode_unending _ v HB X) in HD. discriminate.
    - intros R1 R2 e' E'. rewrite HD in E'. injection E' as <-. exact (H R1 (proj2 HR R2)). }
  assert (DJ : json_printable DateUnix (d_raw o) b e \/ ~ json_printable DateUnix (d_raw o) b e).
  { destruct (d_raw o) eqn:R; [|left; split; [exact HK|]; split; discriminate]. destruct (N.eq_dec b ENTRY_TYPE_RRSET) as [B|B]; [|left; split; [exact HK|]; split; [discriminate|intros _ X; contradiction]].
    destruct (e_rdatas e) as [|d ds] eqn:D; [left; split; [exact HK|]; split; [discriminate|congruence]|].
    destruct (N.lt_ge_cases (e_rrtype e) (128 * 128 * 128)) as [L|L]; [left; split; [exact HK|]; split; [discriminate|intros; exact L]|].
    right. intros (_ & _ & H). assert (e_rrtype e < 128 * 128 * 128) by (apply H; [reflexivity|exact B|rewrite D; discriminate]). lia. }
  assert (RJ : d_json o = false -> d_raw o = false).
  { intro H. destruct (d_raw o) eqn:R; [|reflexivity]. destruct (HRaw R) as [X _]. congruence. }
  assert (FJ : forall x, dnstable_entry_format lib (set_raw_rdata (set_date_format (set_output_format dnstable_formatter_init OutJson) DateUnix) (d_raw o)) e = x <-> dnstable_entry_format lib (json_formatter DateUnix false (d_raw o)) e = x) by (intro x; reflexivity).
  split; [|split; [|split]].
  - intro H. unfold dumped. destruct (d_json o).
    + destruct (json_printed lib DateUnix false (d_raw o) (e_iszone e) b rest v e HC HB HD (J H)) as (s & m & E & _). rewrite same_zone in E. exists (s ++ [10]), s. split; [exact E|reflexivity].
    + eexists. eexists. split; [exact ET|reflexivity].
  - intro H. assert (NP : ~ json_printable DateUnix (d_raw o) b e) by (intro X; exact (H (NJ X))). unfold dump_print_entry. rewrite EX. destruct (d_json o) eqn:DJs.
    + destruct (json_not_printed lib DateUnix false (d_raw o) (e_iszone e) b rest v e HC HB HD NP) as [E|(_ & X & _)]; [|discriminate X]. rewrite same_zone in E.
      change (set_raw_rdata (set_date_format (set_output_format dnstable_formatter_init OutJson) DateUnix) (d_raw o)) with (json_formatter DateUnix false (d_raw o)). rewrite E. reflexivity.
    + exfalso. apply NP. rewrite (RJ eq_refl). split; [exact HK|]. split; discriminate.
  - intros s H. unfold dump_print_entry. rewrite EX. unfold dumped in H. destruct (d_json o).
    + destruct H as (x & E & ->). change (set_raw_rdata (set_date_format (set_output_format dnstable_formatter_init OutJson) DateUnix) (d_raw o)) with (json_formatter DateUnix false (d_raw o)). rewrite E. reflexivity.
    + destruct H as (x & E & ->). rewrite E. cbn [bind negb andb]. destruct (get_type e =? ENTRY_TYPE_RDATA); reflexivity.
  - destruct DJ as [D|D]; [left; exact (NJ D)|right; intro X; exact (D (J X))].
Qed.

(** The entries before the first harmful one. *)
Inductive goes_wrong (l : table) : Prop :=
| wrong_all : forall es texts, Forall (harmless o) l -> decoded l es -> Forall2 (dumped lib o) es texts -> Forall2 (fun e s => dump_print_entry lib o e = Ok s) es texts -> goes_wrong l
| wrong_at : forall before p after es texts, l = before ++ p :: after -> Forall (harmless o) before -> ~ harmless o p -> decoded before es -> Forall2 (fun e s => dump_print_entry lib o e = Ok s) es texts ->
    (unending (fst p) /\ entry_decode (fst p) (snd p) = Hang) \/
    (~ unending (fst p) /\ (entry_decode (fst p) (snd p) = UB \/ exists e, entry_decode (fst p) (snd p) = Ok e /\ dump_print_entry lib o e = UB)) -> goes_wrong l.

Lemma outcome : forall l, stored_bytes l -> Forall (fun p => key_starts [b] p) l -> goes_wrong l.
Proof using HC HL HCh HRaw.
  induction l as [|[k v] l IH]; intros HB HS.
  { apply (wrong_all [] [] []); constructor. }
  inversion HS as [|? ? HK HS']; subst. destruct (HB k v (or_introl eq_refl)) as [BK BV].
  destruct HK as (rest & EK). cbn [fst app] in EK. subst k.
  pose proof (decode_overreads_iff (b :: rest) v BK BV) as OV. pose proof (decode_outcome (b :: rest) v BK BV) as OC.
  assert (IH' : goes_wrong l) by (apply IH; [intros k' v' HI; apply HB; right; exact HI|exact HS']).
  destruct (entry_decode (b :: rest) v) as [e| | | |] eqn:D.
  - destruct (printing rest v e BK BV D) as (P1 & P2 & P3 & [P|P]).
    + destruct (P1 P) as (s & HSs). destruct IH' as [es texts A B C E|before p after es texts A B C E F G].
      * apply (wrong_all _ (e :: es) (s :: texts)); [constructor; assumption|apply dec_yes; assumption|constructor; assumption|constructor; [apply P3; exact HSs|assumption]].
      * subst l. apply (wrong_at _ ((b :: rest, v) :: before) p after (e :: es) (s :: texts)); [reflexivity|constructor; assumption|exact C|apply dec_yes; assumption|constructor; [apply P3; exact HSs|assumption]|exact G].
    + apply (wrong_at _ [] (b :: rest, v) l [] []); [reflexivity|constructor|exact P|constructor|constructor|]. right. cbn [fst snd]. split; [|right; exists e; split; [exact D|exact (P2 P)]].
      intro U. rewrite (decode_unending _ v BK U) in D. discriminate.
  - assert (P : harmless o (b :: rest, v)).
    { unfold harmless. cbn [fst snd]. split; [intro X; apply OV in X; discriminate|]. split; [intro U; rewrite (decode_unending _ v BK U) in D; discriminate|]. intros _ _ e X. rewrite D in X. discriminate. }
    destruct IH' as [es texts A B C E|before p after es texts A B C E F G].
    + apply (wrong_all _ es texts); [constructor; assumption|apply dec_no; assumption|assumption|assumption].
    + subst l. apply (wrong_at _ ((b :: rest, v) :: before) p after es texts); [reflexivity|constructor; assumption|exact C|apply dec_no; assumption|assumption|exact G].
  - exfalso. inversion OC.
  - apply (wrong_at _ [] (b :: rest, v) l [] []); [reflexivity|constructor|intros (X & _); apply X; apply OV; reflexivity|constructor|constructor|]. right. cbn [fst snd]. split; [|left; exact D].
    intro U. rewrite (decode_unending _ v BK U) in D. discriminate.
  - apply (wrong_at _ [] (b :: rest, v) l [] []); [reflexivity|constructor| |constructor|constructor|].
    + intros (_ & X & _). apply X. inversion OC; assumption.
    + left. cbn [fst snd]. split; [inversion OC; assumption|exact D].
Qed.

Lemma next_through : forall l es tail win fuel, decoded l es -> (length l < fuel)%nat ->
  match es with
  | [] => exists f, reader_next fuel {| b_win := win; b_rest := l ++ tail |} = reader_next (S f) {| b_win := win; b_rest := tail |}
  | e :: es' => exists l', decoded l' es' /\ (length l' < length l)%nat /\
      reader_next fuel {| b_win := win; b_rest := l ++ tail |} = (QEntry e, {| b_win := win; b_rest := l' ++ tail |})
  end.
Proof.
  intros l es tail win fuel H. revert fuel. induction H as [|[k v] en t es HE H IH|[k v] t es HE H IH]; intros fuel Hf.
  - destruct fuel; [cbn in Hf; lia|]. exists fuel. reflexivity.
  - destruct fuel; [cbn in Hf; lia|]. cbn [fst snd] in HE. exists t. split; [exact H|]. split; [cbn; lia|]. cbn [app reader_next base_next b_rest b_win]. rewrite HE. reflexivity.
  - destruct fuel; [cbn in Hf; lia|]. cbn [fst snd] in HE. cbn [length] in Hf. specialize (IH fuel ltac:(lia)).
    cbn [app reader_next base_next b_rest b_win]. rewrite HE. destruct es as [|e es']; [exact IH|].
    destruct IH as (l' & A & B & C). exists l'. split; [exact A|]. split; [cbn [length]; lia|exact C].
Qed.

Lemma dump_through : forall es texts l win fuel n p after out r, decoded l es -> Forall2 (fun e s => dump_print_entry lib o e = Ok s) es texts -> (length l < fuel)%nat -> (length l < n)%nat ->
  (entry_decode (fst p) (snd p) = Hang /\ r = Hang \/
   (entry_decode (fst p) (snd p) = UB \/ exists e, entry_decode (fst p) (snd p) = Ok e /\ dump_print_entry lib o e = UB) /\ r = UB) ->
  dump_reader n fuel lib o {| b_win := win; b_rest := l ++ p :: after |} out = r.
Proof.
  induction es as [|e es IH]; intros texts l win fuel n p after out r HD HF LF LN HP; (destruct n as [|n]; [lia|]); cbn [dump_reader].
  - destruct (next_through l [] (p :: after) win fuel HD LF) as (f & E). rewrite E. destruct p as [k v]. cbn [fst snd] in HP. cbn [reader_next base_next b_rest b_win].
    destruct HP as [[D ->]|[[D|(e & D & P)] ->]]; rewrite D; [reflexivity|reflexivity|]. rewrite P. reflexivity.
  - destruct (next_through l (e :: es) (p :: after) win fuel HD LF) as (l' & A & B & E). rewrite E. inversion HF as [|? s ? texts' P HF']; subst. rewrite P. cbn [bind].
    eapply IH; [exact A|exact HF'|lia|lia|exact HP].
Qed.
End Any.

(** ** C88 *)
(** For every file of bytes, every section and all options: if no entry of the section does
    harm, dnstable_dump ends and prints, in order, exactly the entries of the section that
    decode; otherwise the first one that does makes it behave as C leaves undefined, or
    keeps it busy for ever.  Entries of other sections make no difference. *)
Theorem dump_any_file : forall lib o t b l, c_strings lib -> short_numbers lib -> stored_bytes t -> chosen o b -> raw_allowed o ->
  selects (key_starts [b]) t l ->
  (Forall (harmless o) l /\ exists es texts, decoded l es /\ Forall2 (dumped lib o) es texts /\
     eventually (fun fuel => dnstable_dump fuel lib o (Some t) = Ok (concat texts))) \/
  (exists before p after, l = before ++ p :: after /\ Forall (harmless o) before /\ ~ harmless o p /\
     (unending (fst p) -> eventually (fun fuel => dnstable_dump fuel lib o (Some t) = Hang)) /\
     (~ unending (fst p) -> eventually (fun fuel => dnstable_dump fuel lib o (Some t) = UB))).
Proof.
  intros lib o t b l HC HL HB HCh HRaw HS.
  assert (SB : stored_bytes l /\ Forall (fun p => key_starts [b] p) l).
  { clear - HB HS. induction HS as [|x l t K H IH|x l t K H IH].
    - split; [intros k v []|constructor].
    - destruct IH as [A B]; [intros k v HI; apply HB; right; exact HI|]. split; [|constructor; assumption]. intros k v [->|HI]; [apply HB; left; reflexivity|apply A; exact HI].
    - apply IH. intros k v HI. apply HB. right. exact HI. }
  destruct SB as [SB SK].
  destruct (outcome lib o b HC HL HCh HRaw l SB SK) as [es texts A D F P|before p after es texts E A N D P G].
  - left. split; [exact A|]. exists es, texts. split; [exact D|]. split; [exact F|]. eapply dump_prints; eassumption.
  - right. exists before, p, after. split; [exact E|]. split; [exact A|]. split; [exact N|].
    assert (W : forall r, (entry_decode (fst p) (snd p) = Hang /\ r = Hang \/
      (entry_decode (fst p) (snd p) = UB \/ exists e, entry_decode (fst p) (snd p) = Ok e /\ dump_print_entry lib o e = UB) /\ r = UB) -> eventually (fun fuel => dnstable_dump fuel lib o (Some t) = r)).
    { intros r HP. exists (S (length before)). intros fuel Hf.
      assert (IT : dnstable_dump fuel lib o (Some t) = dump_reader fuel fuel lib o (reader_iter_prefix t b) []).
      { assert (R1 : d_raw o && negb (d_rdata o || d_rrset o) = false).
        { unfold raw_allowed in HRaw. destruct (d_raw o); [|reflexivity]. destruct (HRaw eq_refl) as (_ & [-> | ->]); cbn; destruct (d_rdata o); reflexivity. }
        assert (R2 : d_raw o && negb (d_json o) = false).
        { unfold raw_allowed in HRaw. destruct (d_raw o); [|reflexivity]. destruct (HRaw eq_refl) as (-> & _). reflexivity. }
        unfold chosen, sections in HCh. unfold dnstable_dump. rewrite R1, R2.
        destruct (d_rrset o), (d_rdata o), (d_rrset_names o), (d_rdata_names o), (d_time_range o), (d_version o), (d_source_info o); cbn in HCh; try discriminate HCh; injection HCh as <-; reflexivity. }
      rewrite IT. unfold reader_iter_prefix, base_open. rewrite (selects_window _ _ _ HS), E. eapply dump_through; [exact D|exact P|lia|lia|exact HP]. }
    destruct G as [[U H]|[U H]]; split; intro X; [apply W; left; split; [exact H|reflexivity]|contradiction|contradiction|apply W; right; split; [exact H|reflexivity]].
Qed.
Print Assumptions dump_any_file.

(** So it ends well exactly for the sections without a harmful entry. *)
Theorem dump_completes_iff : forall lib o t b l, c_strings lib -> short_numbers lib -> stored_bytes t -> chosen o b -> raw_allowed o ->
  selects (key_starts [b]) t l ->
  ((exists out, eventually (fun fuel => dnstable_dump fuel lib o (Some t) = Ok out)) <-> Forall (harmless o) l).
Proof.
  intros lib o t b l HC HL HB HCh HRaw HS. destruct (dump_any_file lib o t b l HC HL HB HCh HRaw HS) as [(A & es & texts & _ & _ & E)|(before & p & after & -> & _ & N & U1 & U2)].
  - split; intro H; [exact A|exists (concat texts); exact E].
  - split; intro H; [exfalso|exfalso; apply N; apply Forall_app in H; destruct H as [_ H]; inversion H; assumption].
    destruct H as (out & f & H). assert (NU : ~ unending (fst p)).
    { intro X. destruct (U1 X) as (f' & H'). specialize (H (Nat.max f f') ltac:(lia)). specialize (H' (Nat.max f f') ltac:(lia)). congruence. }
    destruct (U2 NU) as (f' & H'). specialize (H (Nat.max f f') ltac:(lia)). specialize (H' (Nat.max f f') ltac:(lia)). congruence.
Qed.
Print Assumptions dump_completes_iff.

Lemma digits_short : forall f m n, n < 10 ^ N.of_nat (S m) -> (length (printf_digits f n) <= S m)%nat.
Proof.
  induction f as [|f IH]; intros m n H; cbn [printf_digits]; [cbn; lia|]. rewrite app_length. cbn [length].
  destruct (n / 10 =? 0) eqn:E; [cbn [length]; lia|]. apply N.eqb_neq in E. destruct m as [|m].
  - exfalso. apply E. apply N.div_small. exact H.
  - assert (n / 10 < 10 ^ N.of_nat (S m)). { apply N.div_lt_upper_bound; [discriminate|]. replace (N.of_nat (S (S m))) with (N.succ (N.of_nat (S m))) in H by lia. rewrite N.pow_succ_r' in H. exact H. }
    specialize (IH m _ H0). lia.
Qed.
Lemma demo_short : short_numbers demo_lib.
Proof.
  intro n. split; [intro H; cbn in H; exact (LineProofs.digits_nz _ (proj1 (TextProofs.printf_u_decimal n)) H)|]. intro H.
  cbn [locale_uint64 demo_lib]. unfold printf_u. apply (digits_short _ 25). eapply N.lt_trans; [exact H|]. vm_compute. reflexivity.
Qed.

(** A file with an RRset, an entry that does not decode, and a time range that is cut off:
    its RRsets can be dumped, its time range cannot. *)
Definition R88 := RRset [[97]] 1 [] [[9; 9; 9; 9]] (ob 10 20 3).
Definition t88 : table := [put R88; ([0; 1; 97], []); ([254], [129; 1; 130])].
Definition D88 : dump_opts := {| d_json := true; d_raw := true; d_rrset := true; d_rdata := false; d_rrset_names := false; d_rdata_names := false; d_time_range := false; d_version := false; d_source_info := false |}.
Definition D88t : dump_opts := {| d_json := true; d_raw := false; d_rrset := false; d_rdata := false; d_rrset_names := false; d_rdata_names := false; d_time_range := true; d_version := false; d_source_info := false |}.
Example c88_case : c_strings demo_lib /\ short_numbers demo_lib /\ stored_bytes t88 /\ chosen D88 0 /\ raw_allowed D88 /\ chosen D88t 254 /\ raw_allowed D88t /\
  selects (key_starts [0]) t88 (firstn 2 t88) /\ selects (key_starts [254]) t88 (skipn 2 t88) /\
  match dnstable_dump 20 demo_lib D88 (Some t88) with Ok s => (10 < length s)%nat | _ => False end /\
  dnstable_dump 20 demo_lib D88t (Some t88) = UB.
Proof.
  split; [apply demo_lib_ok|]. split; [exact demo_short|]. split.
  { intros k v H. cbn [In t88] in H. repeat (destruct H as [H|H]; [injection H as <- <-; split; apply bytes_okb_ok; vm_compute; reflexivity|]). destruct H. }
  split; [reflexivity|]. split; [intros _; split; [reflexivity|left; reflexivity]|]. split; [reflexivity|]. split; [discriminate|].
  split; [|split; [|split; [vm_compute; lia|vm_compute; reflexivity]]].
  - apply sel_yes; [eexists; reflexivity|]. apply sel_yes; [eexists; reflexivity|]. apply sel_no; [intros (r & X); discriminate X|apply sel_nil].
  - apply sel_no; [intros (r & X); discriminate X|]. apply sel_no; [intros (r & X); discriminate X|]. apply sel_yes; [eexists; reflexivity|apply sel_nil].
Qed.

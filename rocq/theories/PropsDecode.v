(** C71: what dnstable_entry_decode makes of arbitrary bytes, exactly. *)
From Verif Require Import Base BaseFacts ModelVarint VarintProofs SpecMerge MergeProofs.
From Verif Require Import ModelWdns SpecName NameFacts ModelEntry SpecEntry EntryProofs PropsEntry SpecDecode DecodeProofs.

Inductive outcome (key val : bytes) : res entry -> Prop :=
| o_ok : forall c e, holds key val c -> tells e c -> outcome key val (Ok e)
| o_over : overread key val -> outcome key val UB
| o_unending : unending key -> outcome key val Hang
| o_fail : outcome key val Fail.

Lemma val_triplet : forall val, decode_val_triplet val = (let* r := triplet_unpack val in let '(tf, tl, c) := r in Ok (tf, (if tl =? 0 then tf else tl), (if c =? 0 then 1 else c))).
Proof. reflexivity. Qed.

Lemma rdatas_tell : forall e ds i d, is_type e [ENTRY_TYPE_RRSET; ENTRY_TYPE_RDATA] = true -> e_rdatas e = ds -> nth_error ds i = Some d -> get_rdata e (N.of_nat i) = Ok d.
Proof.
  intros e ds i d HT <- HN. unfold get_rdata. rewrite HT. assert (HL : (i < length (e_rdatas e))%nat) by (apply nth_error_Some; congruence).
  destruct (N.ltb_spec (N.of_nat (length (e_rdatas e))) (N.of_nat i)); [lia|]. rewrite Nnat.Nat2N.id, HN. reflexivity.
Qed.

(** What is decoded and how. *)
Theorem decode_content : forall key val c, bytes_ok key -> bytes_ok val -> holds key val c ->
  exists e, entry_decode key val = Ok e /\ tells e c.
Proof.
  intros key val c HK HV H. destruct H as [buf owner ty bw rest ds val f l c HF HI HN|buf val|buf owner ty data val f l c HP HN|ls val HL|buf val f l HN|buf val|t enc HE|k buf val HU]; cbn [entry_decode].
  - inversion HK as [|? ? _ HB]; subst. destruct (front_decodes buf owner ty bw rest HB HF) as (BR & LR & E). cbn [N.eqb ENTRY_TYPE_RRSET]. rewrite E, (rdatas_of (S (length buf)) _ _ HI BR ltac:(lia)). cbn [bind].
    rewrite val_triplet, (triplet_of _ _ _ _ HV HN). cbn [bind]. eexists. split; [reflexivity|]. repeat (split; [reflexivity|]). split; [|repeat split].
    intros i d Hd. eapply rdatas_tell; [reflexivity|reflexivity|exact Hd].
  - eexists. split; [reflexivity|]. repeat split.
  - inversion HK as [|? ? _ HB]; subst. change (ENTRY_TYPE_RDATA =? ENTRY_TYPE_RRSET) with false. change (ENTRY_TYPE_RDATA =? ENTRY_TYPE_RRSET_NAME_FWD) with false. change (ENTRY_TYPE_RDATA =? ENTRY_TYPE_RDATA) with true. cbn iota.
    rewrite (parts_decode buf owner ty data HB HP). cbn [bind]. rewrite val_triplet, (triplet_of _ _ _ _ HV HN). cbn [bind]. eexists. split; [reflexivity|]. repeat split.
  - change (ENTRY_TYPE_RDATA_NAME_REV =? ENTRY_TYPE_RRSET) with false. change (ENTRY_TYPE_RDATA_NAME_REV =? ENTRY_TYPE_RRSET_NAME_FWD) with false. change (ENTRY_TYPE_RDATA_NAME_REV =? ENTRY_TYPE_RDATA) with false. change (ENTRY_TYPE_RDATA_NAME_REV =? ENTRY_TYPE_RDATA_NAME_REV) with true. cbn iota.
    unfold rwire. pose proof (reverse_wire_gen (rev ls) [] (Forall_rev HL)) as R. rewrite app_nil_r in R. unfold blen. rewrite R, rev_involutive. cbn [bind]. eexists. split; [reflexivity|]. repeat split.
  - change (ENTRY_TYPE_TIME_RANGE =? ENTRY_TYPE_RRSET) with false. change (ENTRY_TYPE_TIME_RANGE =? ENTRY_TYPE_RRSET_NAME_FWD) with false. change (ENTRY_TYPE_TIME_RANGE =? ENTRY_TYPE_RDATA) with false. change (ENTRY_TYPE_TIME_RANGE =? ENTRY_TYPE_RDATA_NAME_REV) with false. change (ENTRY_TYPE_TIME_RANGE =? ENTRY_TYPE_TIME_RANGE) with true. cbn iota.
    rewrite (pair_of _ _ _ HV HN). cbn [bind fst snd]. eexists. split; [reflexivity|]. repeat split.
  - eexists. split; [reflexivity|]. repeat split.
  - change (ENTRY_TYPE_VERSION =? ENTRY_TYPE_RRSET) with false. change (ENTRY_TYPE_VERSION =? ENTRY_TYPE_RRSET_NAME_FWD) with false. change (ENTRY_TYPE_VERSION =? ENTRY_TYPE_RDATA) with false. change (ENTRY_TYPE_VERSION =? ENTRY_TYPE_RDATA_NAME_REV) with false. change (ENTRY_TYPE_VERSION =? ENTRY_TYPE_TIME_RANGE) with false. change (ENTRY_TYPE_VERSION =? ENTRY_TYPE_SOURCE_INFO) with false. change (ENTRY_TYPE_VERSION =? ENTRY_TYPE_VERSION) with true. cbn iota.
    pose proof (finished_nonempty _ _ HE) as HL. destruct enc as [|b enc'] eqn:EE; [cbn in HL; lia|]. rewrite <- EE in *. clear HL.
    pose proof (read32_finished enc [] HV HE) as R. rewrite app_nil_r in R. rewrite R. cbn [bind fst snd]. rewrite Nat.eqb_refl. eexists. split; [reflexivity|]. repeat split.
  - exists entry0. split; [|reflexivity]. cbn [In] in HU.
    repeat match goal with |- context [k =? ?t] => destruct (N.eqb_spec k t) as [?E|_]; [exfalso; apply HU; subst k; tauto|] end. reflexivity.
Qed.

Theorem decode_outcome : forall key val, bytes_ok key -> bytes_ok val -> outcome key val (entry_decode key val).
Proof.
  intros key val HK HV. destruct key as [|k buf]; [constructor|]. pose proof HK as HK0. inversion HK as [|? ? _ HB]; subst.
  assert (OK : forall c, holds (k :: buf) val c -> outcome (k :: buf) val (entry_decode (k :: buf) val)).
  { intros c Hc. destruct (decode_content _ _ _ HK0 HV Hc) as (e & -> & T). exact (o_ok _ _ c e Hc T). }
  destruct (N.eq_dec k ENTRY_TYPE_RRSET) as [->|N0].
  { cbn [entry_decode] in *. cbn [N.eqb ENTRY_TYPE_RRSET] in *. pose proof (decode_rrset_outcome buf HB) as HR.
    destruct HR as [owner ty bw rest ds HF HI|owner l E HO HC|owner ty bw rest ds l HF HI HN HC|owner ty bw rest ds l HF HI HE|]; cbn [bind] in *.
    - rewrite val_triplet in *. destruct (triplet_outcome val HV) as [(f & l & c & HN & E)|[(HS & E)|E]]; rewrite E in *; cbn [bind] in *.
      + apply (OK (CRrset owner ty bw ds f l c)). exact (holds_rrset buf owner ty bw rest ds val f l c HF HI HN).
      + apply o_over. exact (over_rrset_value buf owner ty bw rest ds val HF HI HS).
      + constructor.
    - apply o_over. subst buf. apply over_rrset_type; assumption.
    - apply o_over. exact (over_rrset_length buf owner ty bw rest ds l val HF HI HN HC).
    - apply o_unending. exact (unending_intro buf owner ty bw rest ds l HF HI HE).
    - constructor. }
  destruct (N.eq_dec k ENTRY_TYPE_RRSET_NAME_FWD) as [->|N1]; [apply (OK (CRrsetName buf val)); constructor|].
  destruct (N.eq_dec k ENTRY_TYPE_RDATA) as [->|N2].
  { cbn [entry_decode] in *. cbn [N.eqb ENTRY_TYPE_RRSET ENTRY_TYPE_RRSET_NAME_FWD ENTRY_TYPE_RDATA] in *. pose proof (decode_rdata_outcome buf HB) as HR.
    change (Pos.eqb 2 1) with false in *. change (Pos.eqb 2 2) with true in *. cbn iota in *.
    destruct HR as [owner ty data HP|tail l E HL HC|]; cbn [bind] in *.
    - rewrite val_triplet in *. destruct (triplet_outcome val HV) as [(f & l & c & HN & E)|[(HS & E)|E]]; rewrite E in *; cbn [bind] in *.
      + apply (OK (CRdata owner ty data f l c)). exact (holds_rdata buf owner ty data val f l c HP HN).
      + apply o_over. exact (over_rdata_value buf owner ty data val HP HS).
      + constructor.
    - apply o_over. subst buf. apply (over_rdata_type tail l val); assumption.
    - constructor. }
  destruct (N.eq_dec k ENTRY_TYPE_RDATA_NAME_REV) as [->|N3].
  { cbn [entry_decode] in *. change (ENTRY_TYPE_RDATA_NAME_REV =? ENTRY_TYPE_RRSET) with false in *. change (ENTRY_TYPE_RDATA_NAME_REV =? ENTRY_TYPE_RRSET_NAME_FWD) with false in *. change (ENTRY_TYPE_RDATA_NAME_REV =? ENTRY_TYPE_RDATA) with false in *. change (ENTRY_TYPE_RDATA_NAME_REV =? ENTRY_TYPE_RDATA_NAME_REV) with true in *. cbn iota in *.
    destruct buf as [|b buf']; [apply o_over; exact (over_name_open [] val ltac:(constructor))|]. set (buf := b :: buf') in *.
    assert (E : wdns_reverse_name buf (blen buf) = reverse_name_loop (S (length buf)) buf 0 (0 + blen buf) [0]) by reflexivity. rewrite E in *.
    pose proof (reverse_outcome (S (length buf)) buf 0 [0] ltac:(lia)) as HR. revert OK. destruct HR as [ls Em HL|ls Em HL|ls rest Em HN HL|]; cbn [bind]; intro OK.
    - apply (OK (CRdataName (rev ls) val)). replace buf with (rwire (rev ls)) by (unfold rwire; rewrite rev_involutive; congruence). apply holds_rdata_name. apply Forall_rev. exact HL.
    - apply o_over. rewrite Em. apply over_name_open. exact HL.
    - apply o_over. rewrite Em. apply over_name_early; assumption.
    - constructor. }
  destruct (N.eq_dec k ENTRY_TYPE_TIME_RANGE) as [->|N4].
  { cbn [entry_decode] in *. change (ENTRY_TYPE_TIME_RANGE =? ENTRY_TYPE_RRSET) with false in *. change (ENTRY_TYPE_TIME_RANGE =? ENTRY_TYPE_RRSET_NAME_FWD) with false in *. change (ENTRY_TYPE_TIME_RANGE =? ENTRY_TYPE_RDATA) with false in *. change (ENTRY_TYPE_TIME_RANGE =? ENTRY_TYPE_RDATA_NAME_REV) with false in *. change (ENTRY_TYPE_TIME_RANGE =? ENTRY_TYPE_TIME_RANGE) with true in *. cbn iota in *.
    destruct (pair_outcome val HV) as [(f & l & HN & E)|[(HS & E)|E]]; rewrite E in *; cbn [bind] in *.
    - apply (OK (CTimeRange f l)). constructor. exact HN.
    - apply o_over. constructor. exact HS.
    - constructor. }
  destruct (N.eq_dec k ENTRY_TYPE_SOURCE_INFO) as [->|N5]; [apply (OK (CSourceInfo buf)); constructor|].
  destruct (N.eq_dec k ENTRY_TYPE_VERSION) as [->|N6].
  { cbn [entry_decode] in *. change (ENTRY_TYPE_VERSION =? ENTRY_TYPE_RRSET) with false in *. change (ENTRY_TYPE_VERSION =? ENTRY_TYPE_RRSET_NAME_FWD) with false in *. change (ENTRY_TYPE_VERSION =? ENTRY_TYPE_RDATA) with false in *. change (ENTRY_TYPE_VERSION =? ENTRY_TYPE_RDATA_NAME_REV) with false in *. change (ENTRY_TYPE_VERSION =? ENTRY_TYPE_TIME_RANGE) with false in *. change (ENTRY_TYPE_VERSION =? ENTRY_TYPE_SOURCE_INFO) with false in *. change (ENTRY_TYPE_VERSION =? ENTRY_TYPE_VERSION) with true in *. cbn iota in *.
    destruct buf as [|t [|]]; [constructor| |constructor]. destruct val as [|v val']; [constructor|]. set (val := v :: val') in *.
    destruct (number_cases 5 val) as [(enc & rest & E & HE)|[O1|C1]].
    - assert (BV : bytes_ok enc /\ bytes_ok rest) by (apply bytes_ok_app; rewrite <- E; exact HV).
      assert (R : varint_decode32 val = Ok (length enc, base128 enc mod u32)) by (rewrite E; apply read32_finished; tauto). rewrite R in *. cbn [bind fst snd] in *.
      destruct rest as [|r rest].
      + rewrite app_nil_r in E. apply (OK (CVersion t (base128 enc mod u32))). rewrite E. constructor. exact HE.
      + destruct (Nat.eqb_spec (length enc) (length val)) as [C|C]; [exfalso; rewrite E, app_length in C; cbn in C; lia|constructor].
    - destruct (read32_overlong val HV O1) as [R _]. rewrite R in *. cbn [bind fst snd] in *. constructor.
    - rewrite (read32_cut val HV C1) in *. apply o_over. apply over_version; [discriminate|exact C1]. }
  apply (OK CUnknown). constructor. cbn [In]. intuition congruence.
Qed.

Theorem decode_overreads : forall key val, bytes_ok key -> bytes_ok val -> overread key val -> entry_decode key val = UB.
Proof.
  intros key val HK HV H. destruct H as [owner l val HO HC|buf owner ty bw rest ds l val HF HI HN HC|buf owner ty bw rest ds val HF HI HS|tail l val HC HL|buf owner ty data val HP HS|ls val HL|ls rest val HL HN|buf val HS|t val HN HC];
    inversion HK as [|? ? _ HB]; subst; cbn [entry_decode].
  - cbn [N.eqb ENTRY_TYPE_RRSET]. unfold decode_rrset, decode_rrset_fuel. rewrite (rev_name_of owner _ _ HO) by (rewrite app_length; lia). cbn [bind fst snd]. rewrite skipn_app_at.
    apply bytes_ok_app in HB. rewrite (read32_cut l (proj2 HB) HC). reflexivity.
  - cbn [N.eqb ENTRY_TYPE_RRSET]. destruct (front_decodes buf owner ty bw rest HB HF) as (BR & LR & E). rewrite E, (rdatas_cut (S (length buf)) _ _ _ HI HN HC BR ltac:(lia)). reflexivity.
  - cbn [N.eqb ENTRY_TYPE_RRSET]. destruct (front_decodes buf owner ty bw rest HB HF) as (BR & LR & E). rewrite E, (rdatas_of (S (length buf)) _ _ HI BR ltac:(lia)). cbn [bind]. rewrite val_triplet, (triplet_short _ HV HS). reflexivity.
  - change (ENTRY_TYPE_RDATA =? ENTRY_TYPE_RRSET) with false. change (ENTRY_TYPE_RDATA =? ENTRY_TYPE_RRSET_NAME_FWD) with false. change (ENTRY_TYPE_RDATA =? ENTRY_TYPE_RDATA) with true. cbn iota.
    apply bytes_ok_app in HB. rewrite (over_rdata_decode tail l (proj2 HB) HC HL). reflexivity.
  - change (ENTRY_TYPE_RDATA =? ENTRY_TYPE_RRSET) with false. change (ENTRY_TYPE_RDATA =? ENTRY_TYPE_RRSET_NAME_FWD) with false. change (ENTRY_TYPE_RDATA =? ENTRY_TYPE_RDATA) with true. cbn iota.
    rewrite (parts_decode buf owner ty data HB HP). cbn [bind]. rewrite val_triplet, (triplet_short _ HV HS). reflexivity.
  - change (ENTRY_TYPE_RDATA_NAME_REV =? ENTRY_TYPE_RRSET) with false. change (ENTRY_TYPE_RDATA_NAME_REV =? ENTRY_TYPE_RRSET_NAME_FWD) with false. change (ENTRY_TYPE_RDATA_NAME_REV =? ENTRY_TYPE_RDATA) with false. change (ENTRY_TYPE_RDATA_NAME_REV =? ENTRY_TYPE_RDATA_NAME_REV) with true. cbn iota.
    unfold wdns_reverse_name. destruct (_ =? 0); [reflexivity|]. pose proof (reverse_open ls (S (length (enc_labels ls))) 0 [0] HL ltac:(lia)) as R. rewrite N.add_0_l in R. rewrite R. reflexivity.
  - change (ENTRY_TYPE_RDATA_NAME_REV =? ENTRY_TYPE_RRSET) with false. change (ENTRY_TYPE_RDATA_NAME_REV =? ENTRY_TYPE_RRSET_NAME_FWD) with false. change (ENTRY_TYPE_RDATA_NAME_REV =? ENTRY_TYPE_RDATA) with false. change (ENTRY_TYPE_RDATA_NAME_REV =? ENTRY_TYPE_RDATA_NAME_REV) with true. cbn iota.
    unfold wdns_reverse_name. destruct (_ =? 0); [reflexivity|]. pose proof (reverse_early ls rest (S (length (wire ls ++ rest))) 0 [0] HL HN ltac:(lia)) as R. rewrite N.add_0_l in R. rewrite R. reflexivity.
  - change (ENTRY_TYPE_TIME_RANGE =? ENTRY_TYPE_RRSET) with false. change (ENTRY_TYPE_TIME_RANGE =? ENTRY_TYPE_RRSET_NAME_FWD) with false. change (ENTRY_TYPE_TIME_RANGE =? ENTRY_TYPE_RDATA) with false. change (ENTRY_TYPE_TIME_RANGE =? ENTRY_TYPE_RDATA_NAME_REV) with false. change (ENTRY_TYPE_TIME_RANGE =? ENTRY_TYPE_TIME_RANGE) with true. cbn iota.
    rewrite (pair_short _ HV HS). reflexivity.
  - change (ENTRY_TYPE_VERSION =? ENTRY_TYPE_RRSET) with false. change (ENTRY_TYPE_VERSION =? ENTRY_TYPE_RRSET_NAME_FWD) with false. change (ENTRY_TYPE_VERSION =? ENTRY_TYPE_RDATA) with false. change (ENTRY_TYPE_VERSION =? ENTRY_TYPE_RDATA_NAME_REV) with false. change (ENTRY_TYPE_VERSION =? ENTRY_TYPE_TIME_RANGE) with false. change (ENTRY_TYPE_VERSION =? ENTRY_TYPE_SOURCE_INFO) with false. change (ENTRY_TYPE_VERSION =? ENTRY_TYPE_VERSION) with true. cbn iota.
    destruct val as [|v val']; [congruence|]. rewrite (read32_cut _ HV HC). reflexivity.
Qed.

Theorem decode_unending : forall key val, bytes_ok key -> unending key -> entry_decode key val = Hang.
Proof.
  intros key val HK H. destruct H as [buf owner ty bw rest ds l HF HI HE]. inversion HK as [|? ? _ HB]; subst. cbn [entry_decode N.eqb ENTRY_TYPE_RRSET].
  destruct (front_decodes buf owner ty bw rest HB HF) as (BR & LR & E). rewrite E, (rdatas_endless (S (length buf)) _ _ _ HI HE BR ltac:(lia)). reflexivity.
Qed.

(** * C71 *)

Theorem decode_succeeds_iff : forall key val, bytes_ok key -> bytes_ok val ->
  (forall e, entry_decode key val = Ok e -> exists c, holds key val c /\ tells e c) /\
  (forall c, holds key val c -> exists e, entry_decode key val = Ok e /\ tells e c).
Proof.
  intros key val HK HV. split; [|intros c Hc; apply decode_content; assumption]. intros e E. pose proof (decode_outcome key val HK HV) as H. rewrite E in H.
  inversion H as [c e' Hc HT| | |]; subst. exists c. split; assumption.
Qed.

Theorem decode_overreads_iff : forall key val, bytes_ok key -> bytes_ok val -> (entry_decode key val = UB <-> overread key val).
Proof.
  intros key val HK HV. split; [|apply decode_overreads; assumption]. intro E. pose proof (decode_outcome key val HK HV) as H. rewrite E in H. inversion H; assumption.
Qed.

Theorem decode_unending_iff : forall key val, bytes_ok key -> bytes_ok val ->
  ((forall rounds, entry_decode_rounds rounds key val = Hang) <-> unending key).
Proof.
  intros key val HK HV. split.
  - intro E. destruct key as [|k buf]; [specialize (E O); discriminate E|].
    destruct (N.eq_dec k ENTRY_TYPE_RRSET) as [->|N0].
    + specialize (E (S (length buf))). change (ENTRY_TYPE_RRSET :: buf) with (0 :: buf) in E. rewrite <- entry_decode_rounds_default in E.
      pose proof (decode_outcome _ val HK HV) as H. change (ENTRY_TYPE_RRSET :: buf) with (0 :: buf) in H. rewrite E in H. inversion H; assumption.
    + specialize (E O). assert (E' : entry_decode (k :: buf) val = Hang) by (destruct k; [exfalso; apply N0; reflexivity|exact E]).
      pose proof (decode_outcome _ val HK HV) as H. rewrite E' in H. inversion H; assumption.
  - intros H rounds. pose proof (decode_unending key val HK H) as E. destruct H as [buf owner ty bw rest ds l HF HI HE]. apply decode_hang_is_endless. exact E.
Qed.

Theorem decode_never_aborts : forall key val, bytes_ok key -> bytes_ok val -> entry_decode key val <> Abort.
Proof. intros key val HK HV E. pose proof (decode_outcome key val HK HV) as H. rewrite E in H. inversion H. Qed.

(** A counted item, a length that does not end and is its own data, and the same with a
    digit less, which leaves an unfinished length; lengths of digit 0; unfinished values. *)
Lemma root_ok : name_ok []. Proof. split; [constructor|cbn; lia]. Qed.
Lemma one_digit : forall max t, (1 <= max)%nat -> t < 128 -> finished max [t].
Proof. intros max t Hm Ht. exists [], t. split; [reflexivity|]. split; [constructor|]. split; [exact Ht|cbn; lia]. Qed.
Lemma front_roots : forall t rest, t < 128 -> rrset_front ([0] ++ [t] ++ [0] ++ rest) [] (base128 [t] mod u32) [] rest.
Proof. intros t rest Ht. apply (front_intro [] [t] [] rest root_ok root_ok). apply one_digit; [lia|exact Ht]. Qed.
Ltac announced := repeat (constructor; [cbv; discriminate|]); constructor.
Lemma five_long : forall d r, 128 <= d -> overlong 5 (d :: 128 :: 128 :: 128 :: 128 :: r).
Proof. intros d r H. exists [d; 128; 128; 128; 128], r. split; [reflexivity|]. split; [reflexivity|]. constructor; [exact H|]. announced. Qed.
Lemma two_digits : finished 10 [129; 1].
Proof. exists [129], 1. split; [reflexivity|]. split; [announced|]. split; [lia|cbn; lia]. Qed.

Example c71_case :
  bytes_ok [0; 0; 1; 0; 2; 7; 8; 133; 128; 128; 128; 128] /\
  holds [0; 0; 1; 0; 2; 7; 8; 133; 128; 128; 128; 128] [129; 1; 2; 3] (CRrset [] 1 [] [[7; 8]; [133; 128; 128; 128; 128]] 129 2 3) /\
  overread [0; 0; 1; 0; 2; 7; 8; 132; 128; 128; 128; 128] [129; 1; 2; 3] /\
  unending [0; 0; 1; 0; 2; 7; 8; 128; 128; 128; 128; 128] /\
  overread [254] [129; 1; 130] /\ overread [3; 1; 97] [] /\ overread [2; 9; 1; 0; 1; 0] [1; 2; 131] /\
  entry_decode [0; 0; 1; 0; 2; 7; 8; 129] [1; 2; 3] = UB /\ entry_decode [0; 0; 1; 0; 3; 7; 8] [1; 2; 3] = Fail.
Proof.
  assert (IT : forall r, item (2 :: 7 :: 8 :: r) [7; 8] r).
  { intro r. apply (item_counted [2] [7; 8] r); [apply one_digit; lia|reflexivity|cbn; lia]. }
  split; [repeat (constructor; [unfold byte_ok; lia|]); constructor|]. split; [|split; [|split; [|split; [|split; [|split]]]]].
  - apply (holds_rrset ([0] ++ [1] ++ [0] ++ [2; 7; 8; 133; 128; 128; 128; 128]) [] 1 [] [2; 7; 8; 133; 128; 128; 128; 128]).
    + apply (front_roots 1). lia.
    + eapply items_more; [apply IT|]. eapply items_more; [|apply items_none]. apply (item_overlong [133; 128; 128; 128; 128] []); [apply five_long; lia|discriminate|reflexivity].
    + apply (numbers_more [129; 1] [2; 3] [2; 3] two_digits). apply (numbers_more [2] [3] [3]); [apply one_digit; lia|].
      apply (numbers_more [3] [] []); [apply one_digit; lia|constructor].
  - apply (over_rrset_length ([0] ++ [1] ++ [0] ++ [2; 7; 8; 132; 128; 128; 128; 128]) [] 1 [] [2; 7; 8; 132; 128; 128; 128; 128] [[7; 8]; [132; 128; 128; 128]] [128]).
    + apply (front_roots 1). lia.
    + eapply items_more; [apply IT|]. eapply items_more; [|apply items_none]. apply (item_overlong [132; 128; 128; 128] [128]); [apply five_long; lia|discriminate|reflexivity].
    + discriminate.
    + split; [announced|cbn; lia].
  - apply (unending_intro ([0] ++ [1] ++ [0] ++ [2; 7; 8; 128; 128; 128; 128; 128]) [] 1 [] [2; 7; 8; 128; 128; 128; 128; 128] [[7; 8]] [128; 128; 128; 128; 128]).
    + apply (front_roots 1). lia.
    + eapply items_more; [apply IT|]. apply items_none.
    + split; [apply five_long; lia|reflexivity].
  - apply over_time_range. apply (short_later 1 [129; 1] [130] two_digits). apply short_now. split; [announced|cbn; lia].
  - apply (over_name_open [[97]]). constructor; [cbn; lia|constructor].
  - apply (over_rdata_value [9; 1; 0; 1; 0] [] 1 [9]).
    + apply (parts_intro [9] [1] [] []); [apply one_digit; lia|apply root_ok|cbn; lia].
    + apply (short_later 2 [1] [2; 131]); [apply one_digit; lia|]. apply (short_later 1 [2] [131]); [apply one_digit; lia|]. apply short_now. split; [announced|cbn; lia].
  - split; vm_compute; reflexivity.
Qed.

Print Assumptions decode_succeeds_iff.
Print Assumptions decode_overreads_iff.
Print Assumptions decode_unending_iff.
Print Assumptions decode_never_aborts.

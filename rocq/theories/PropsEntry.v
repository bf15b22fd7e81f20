(** Properties C13-C20: decoding entries. *)
From Verif Require Import Base BaseFacts ModelVarint VarintProofs SpecMerge MergeProofs.
From Verif Require Import ModelWdns SpecName NameFacts ModelEntry SpecEntry EntryProofs.

(** What the accessors report of an observation: a count of 0 reads as 1, a
    last-seen time of 0 reads as the first-seen time. *)
Definition seen_last (o : obs) : N := if o_last o =? 0 then o_first o else o_last o.
Definition seen_count (o : obs) : N := if o_count o =? 0 then 1 else o_count o.

Definition reports_obs (e : entry) (o : obs) : Prop :=
  get_time_first e = Ok (o_first o) /\ get_time_last e = Ok (seen_last o) /\ get_count e = Ok (seen_count o).

(** The accessors hand out exactly the list [rs], by index. *)
Definition reports_rdatas (e : entry) (rs : list bytes) : Prop :=
  get_num_rdata e = Ok (N.of_nat (length rs)) /\
  forall i r, nth_error rs i = Some r -> get_rdata e (N.of_nat i) = Ok r.

Lemma reports_rdatas_intro : forall e rs, (e_type e = ENTRY_TYPE_RRSET \/ e_type e = ENTRY_TYPE_RDATA) ->
  e_rdatas e = rs -> reports_rdatas e rs.
Proof.
  intros e rs Ht <-. unfold reports_rdatas, get_num_rdata, get_rdata, is_type.
  assert (Hi : existsb (N.eqb (e_type e)) [ENTRY_TYPE_RRSET; ENTRY_TYPE_RDATA] = true) by (destruct Ht as [-> | ->]; reflexivity).
  rewrite Hi. split; [reflexivity|]. intros i r E.
  assert (Hlt : (i < length (e_rdatas e))%nat) by (apply nth_error_Some; congruence).
  destruct (N.ltb_spec (N.of_nat (length (e_rdatas e))) (N.of_nat i)); [lia|].
  rewrite Nnat.Nat2N.id, E. reflexivity.
Qed.

(** ** C13 *)

Theorem decode_rrset_entry : forall owner rrtype bw rdatas o key val,
  name_ok owner -> name_ok bw -> rrtype < 65536 -> obs_ok o ->
  rrset_key owner rrtype bw rdatas key -> obs_value o val ->
  exists e, entry_decode key val = Ok e /\
    get_type e = ENTRY_TYPE_RRSET /\
    get_rrname e = Ok (wire owner) /\ get_rrtype e = Ok rrtype /\ get_bailiwick e = Ok (wire bw) /\
    reports_rdatas e rdatas /\ reports_obs e o.
Proof.
  intros owner rrtype bw rdatas o key val Ho Hb Ht Hobs (t & rd & Hl & Hr & ->) Hv.
  unfold entry_decode. cbn [N.eqb ENTRY_TYPE_RRSET].
  rewrite (decode_rrset_ok owner rrtype bw rdatas t rd) by (assumption || (unfold u32; lia)).
  cbn [bind]. rewrite (decode_val_triplet_ok o val Hobs Hv). cbn [bind].
  eexists. split; [reflexivity|]. split; [reflexivity|]. split; [reflexivity|].
  split; [unfold get_rrtype; cbn; rewrite N.mod_small by (unfold u16; lia); reflexivity|].
  split; [reflexivity|]. split; [apply reports_rdatas_intro; [left|]; reflexivity|].
  split; [reflexivity|]. split; reflexivity.
Qed.
Print Assumptions decode_rrset_entry.

(** example.com NS, bailiwick com, two rdatas (one empty), count and last 0. *)
Definition ex_com : bytes := [99; 111; 109].
Definition ex_example : bytes := [101; 120; 97; 109; 112; 108; 101].
Example c13_case : exists key val,
  name_ok [ex_example; ex_com] /\ name_ok [ex_com] /\
  rrset_key [ex_example; ex_com] 257 [ex_com] [[7; 8; 200]; []] key /\
  obs_value {| o_first := 1000; o_last := 0; o_count := 0 |} val /\
  key = [0; 3;99;111;109; 7;101;120;97;109;112;108;101; 0; 129;2; 3;99;111;109;0; 3;7;8;200; 0].
Proof.
  exists [0; 3;99;111;109; 7;101;120;97;109;112;108;101; 0; 129;2; 3;99;111;109;0; 3;7;8;200; 0].
  exists [232; 7; 0; 0].
  assert (Hok : forall l, (1 <= length l <= 63)%nat -> forallb (fun b => b <? 256) l = true -> label_ok l).
  { intros l HL HF. split; [exact HL|]. apply Forall_forall. intros x Hx. rewrite forallb_forall in HF.
    apply HF in Hx. unfold byte_ok. lia. }
  split. { split; [repeat constructor; apply Hok; cbn; (reflexivity || lia)|vm_compute; lia]. }
  split. { split; [repeat constructor; apply Hok; cbn; (reflexivity || lia)|vm_compute; lia]. }
  split.
  - exists [129; 2], [3; 7; 8; 200; 0]. split; [|split].
    + apply (leb_more 257 [2]); [lia|]. apply (leb_last 2). lia.
    + apply (ra_cons [7;8;200] [[]] [3] [0]); [vm_compute; discriminate|apply (leb_last 3); lia|].
      apply (ra_cons [] [] [0] []); [vm_compute; discriminate|apply (leb_last 0); lia|constructor].
    + reflexivity.
  - split; [|reflexivity]. exists [232; 7], [0], [0]. split.
    + apply (leb_more 1000 [7]); [cbn; lia|]. apply (leb_last 7). lia.
    + split; [apply (leb_last 0); lia|]. split; [apply (leb_last 0); lia|reflexivity].
Qed.

(** ** C14 *)

Theorem decode_rdata_entry : forall owner rrtype head tail o key val,
  name_ok owner -> rrtype < 65536 -> obs_ok o -> blen head + blen tail <= 65535 ->
  rdata_key owner rrtype head tail key -> obs_value o val ->
  exists e, entry_decode key val = Ok e /\
    get_type e = ENTRY_TYPE_RDATA /\
    get_rrname e = Ok (wire owner) /\ get_rrtype e = Ok rrtype /\
    reports_rdatas e [head ++ tail] /\ reports_obs e o.
Proof.
  intros owner rrtype head tail o key val Ho Ht Hobs HL (t & Hl & ->) Hv.
  unfold entry_decode. cbn [N.eqb ENTRY_TYPE_RRSET ENTRY_TYPE_RRSET_NAME_FWD ENTRY_TYPE_RDATA Pos.eqb].
  rewrite (decode_rdata_ok owner rrtype head tail t) by (assumption || (unfold u32; lia)).
  cbn [bind]. rewrite (decode_val_triplet_ok o val Hobs Hv). cbn [bind].
  eexists. split; [reflexivity|]. split; [reflexivity|]. split; [reflexivity|].
  split; [unfold get_rrtype; cbn; rewrite N.mod_small by (unfold u16; lia); reflexivity|].
  split; [apply reports_rdatas_intro; [right|]; reflexivity|].
  split; [reflexivity|]. split; reflexivity.
Qed.
Print Assumptions decode_rdata_entry.

(** The un-sliced form: the slice is empty. *)
Corollary decode_rdata_entry_unsliced : forall owner rrtype rdata o t val,
  name_ok owner -> rrtype < 65536 -> obs_ok o -> blen rdata <= 65535 ->
  leb128 rrtype t -> obs_value o val ->
  exists e, entry_decode (ENTRY_TYPE_RDATA :: rdata ++ t ++ rwire owner ++ enc_le16 (blen rdata)) val = Ok e /\
    get_rrname e = Ok (wire owner) /\ get_rrtype e = Ok rrtype /\ reports_rdatas e [rdata] /\ reports_obs e o.
Proof.
  intros owner rrtype rdata o t val Ho Ht Hobs HL Hl Hv.
  destruct (decode_rdata_entry owner rrtype [] rdata o
              (ENTRY_TYPE_RDATA :: rdata ++ t ++ rwire owner ++ enc_le16 (blen rdata)) val)
    as (e & A & _ & B & C & D & E); try assumption.
  - exists t. split; [exact Hl|reflexivity].
  - exists e. repeat (split; [assumption|]). exact E.
Qed.

(** MX 10 a. owned by b., sliced after the preference. *)
Example c14_case : exists key, rdata_key [[98]] 15 [0; 10] [1; 97; 0] key /\
  key = [2; 1;97;0; 15; 1;98;0; 0;10; 3;0] /\
  match entry_decode key [5; 6; 7] with Ok e => get_rdata e 0 = Ok [0; 10; 1; 97; 0] | _ => False end.
Proof.
  exists [2; 1;97;0; 15; 1;98;0; 0;10; 3;0]. split.
  - exists [15]. split; [apply (leb_last 15); lia|reflexivity].
  - split; vm_compute; reflexivity.
Qed.

(** Re-joined data of 65536 bytes or more loses its length: a record whose
    slices add up to exactly 65536 bytes decodes to an empty rdata. *)
Theorem decode_rdata_long_slices_refuted : exists owner rrtype head tail key val e,
  name_ok owner /\ blen head <= 65535 /\ blen tail <= 65535 /\ rdata_key owner rrtype head tail key /\
  entry_decode key val = Ok e /\ get_rdata e 0 = Ok [] /\ head ++ tail <> [].
Proof.
  set (tail := repeat 1 (N.to_nat 65535)).
  assert (Lt : length tail = N.to_nat 65535) by apply repeat_length.
  exists [[98]], 15, [7], tail, (ENTRY_TYPE_RDATA :: tail ++ [15] ++ rwire [[98]] ++ [7] ++ enc_le16 (blen tail)), [5;6;7].
  assert (Hown : name_ok [[98]]).
  { split; [|vm_compute; lia]. constructor; [|constructor]. split; [cbn; lia|]. constructor; [unfold byte_ok; lia|constructor]. }
  assert (D : forall owner ty head tail t, name_ok owner -> ty < u32 -> leb128 ty t ->
    blen tail <= 65535 -> 
    decode_rdata (tail ++ t ++ rwire owner ++ head ++ enc_le16 (blen tail)) =
    Ok (wire owner, ty, firstn (N.to_nat (blen (head ++ tail) mod 65536)) (head ++ tail))) by apply decode_rdata_gen.
  eexists. split; [exact Hown|]. split; [vm_compute; discriminate|].
  split; [unfold blen; rewrite Lt; lia|]. split; [exists [15]; split; [apply (leb_last 15); lia|reflexivity]|].
  split.
  - unfold entry_decode. cbn [N.eqb ENTRY_TYPE_RRSET ENTRY_TYPE_RRSET_NAME_FWD ENTRY_TYPE_RDATA Pos.eqb].
    rewrite (D [[98]] 15 [7] tail [15] Hown); [|unfold u32; lia|apply (leb_last 15); lia|unfold blen; rewrite Lt; lia].
    cbn [bind]. reflexivity.
  - split; [|discriminate]. unfold get_rdata. cbn [e_type e_rdatas is_type existsb].
    assert (E0 : blen ([7] ++ tail) mod 65536 = 0).
    { unfold blen. cbn [app length]. rewrite Lt. reflexivity. }
    rewrite E0. reflexivity.
Qed.
Print Assumptions decode_rdata_long_slices_refuted.

(** ** C15 *)

Theorem decode_rrset_name_entry : forall owner val,
  exists e, entry_decode (rrset_name_key owner) val = Ok e /\
    get_type e = ENTRY_TYPE_RRSET_NAME_FWD /\ get_rrname e = Ok (wire owner) /\
    name_bytes (e_rrtype_map e) = val.
Proof.
  intros owner val. eexists. split; [reflexivity|]. split; [reflexivity|]. split; [reflexivity|].
  destruct val; reflexivity.
Qed.
Print Assumptions decode_rrset_name_entry.

Theorem decode_rdata_name_entry : forall name val, name_ok name ->
  exists e, entry_decode (rdata_name_key name) val = Ok e /\
    get_type e = ENTRY_TYPE_RDATA_NAME_REV /\ get_rdata_name e = Ok (wire name) /\
    name_bytes (e_rrtype_map e) = val.
Proof.
  intros name val H. unfold entry_decode, rdata_name_key.
  cbn [N.eqb ENTRY_TYPE_RRSET ENTRY_TYPE_RRSET_NAME_FWD ENTRY_TYPE_RDATA ENTRY_TYPE_RDATA_NAME_REV Pos.eqb].
  assert (E : wdns_reverse_name (rwire name) (blen (rwire name)) = Ok (wire name)).
  { unfold blen. rewrite length_rwire. rewrite <- (app_nil_r (rwire name)). apply reverse_rwire. apply H. }
  rewrite E. cbn [bind]. eexists. split; [reflexivity|]. split; [reflexivity|]. split; [reflexivity|].
  destruct val; reflexivity.
Qed.
Print Assumptions decode_rdata_name_entry.

Theorem decode_time_range_entry : forall f l val, f < u64 -> l < u64 -> pair_value (f, l) val ->
  exists e, entry_decode [ENTRY_TYPE_TIME_RANGE] val = Ok e /\
    get_type e = ENTRY_TYPE_TIME_RANGE /\ get_time_first e = Ok f /\ get_time_last e = Ok l.
Proof.
  intros f l val Hf Hl Hv. apply (pair_value_pack (f, l) val Hf Hl) in Hv. subst val. cbn [fst snd].
  cbn [entry_decode N.eqb ENTRY_TYPE_RRSET ENTRY_TYPE_RRSET_NAME_FWD ENTRY_TYPE_RDATA ENTRY_TYPE_RDATA_NAME_REV ENTRY_TYPE_TIME_RANGE Pos.eqb].
  rewrite pair_roundtrip by assumption. cbn [bind fst snd]. eexists. split; [reflexivity|].
  split; [reflexivity|]. split; reflexivity.
Qed.
Print Assumptions decode_time_range_entry.

Lemma cstr_no_nul : forall s, ~ In 0 s -> cstr s = s.
Proof.
  induction s as [|b s IH]; intro H; [reflexivity|]. cbn [cstr]. destruct (N.eqb_spec b 0) as [->|]; [exfalso; apply H; left; reflexivity|].
  rewrite IH; [reflexivity|]. intro Hin. apply H. right. exact Hin.
Qed.

(** A source string without NUL characters is returned as it is. *)
Theorem decode_source_info_entry : forall s val, ~ In 0 s ->
  exists e, entry_decode (ENTRY_TYPE_SOURCE_INFO :: s) val = Ok e /\
    get_type e = ENTRY_TYPE_SOURCE_INFO /\ get_source_info e = Ok s.
Proof.
  intros s val H. eexists. split; [reflexivity|]. split; [reflexivity|].
  unfold get_source_info. cbn. rewrite cstr_no_nul by exact H. reflexivity.
Qed.
Print Assumptions decode_source_info_entry.

Theorem decode_version_entry : forall t n val, n < u32 -> leb128 n val ->
  exists e, entry_decode [ENTRY_TYPE_VERSION; t] val = Ok e /\
    get_type e = ENTRY_TYPE_VERSION /\ get_version_type e = Ok t /\ get_version e = Ok n.
Proof.
  intros t n val Hn Hl. pose proof (leb128_decode32 n val [] Hn Hl) as D. rewrite app_nil_r in D.
  pose proof (leb128_nonempty n val Hl) as Hne. destruct val as [|v0 val]; [cbn in Hne; lia|].
  cbn [entry_decode N.eqb ENTRY_TYPE_RRSET ENTRY_TYPE_RRSET_NAME_FWD ENTRY_TYPE_RDATA ENTRY_TYPE_RDATA_NAME_REV
       ENTRY_TYPE_TIME_RANGE ENTRY_TYPE_SOURCE_INFO ENTRY_TYPE_VERSION Pos.eqb].
  rewrite D. cbn [bind fst snd]. rewrite Nat.eqb_refl. eexists. split; [reflexivity|]. split; [reflexivity|].
  split; reflexivity.
Qed.
Print Assumptions decode_version_entry.

Example c15_case : name_ok [[119;119;119]; ex_com] /\ pair_value (100, 1000) [100; 232; 7] /\
  ~ In 0 [115; 105; 101] /\ leb128 300 [172; 2].
Proof.
  split.
  - split; [|vm_compute; lia]. constructor; [|constructor; [|constructor]];
      (split; [cbn; lia|]; repeat (constructor; [unfold byte_ok; lia|]); constructor).
  - split; [|split].
    + exists [100], [232; 7]. split; [apply (leb_last 100); lia|]. split; [|reflexivity].
      apply (leb_more 1000 [7]); [cbn; lia|]. apply (leb_last 7). lia.
    + intros [H|[H|[H|[]]]]; discriminate.
    + apply (leb_more 300 [2]); [lia|]. apply (leb_last 2). lia.
Qed.

(** ** C16 *)

(** dnstable_entry_decode with [fuel] rounds for the rdata loop. *)
Definition entry_decode_rounds (fuel : nat) (key val : bytes) : res entry :=
  match key with
  | 0 :: buf =>
      let* r := decode_rrset_fuel fuel buf in
      let '(nm, ty, bw, rs) := r in
      let* v := decode_val_triplet val in
      let '(tf, tl, c) := v in
      Ok {| e_type := ENTRY_TYPE_RRSET; e_name := Some nm; e_bailiwick := Some bw;
            e_rrtype := ty; e_rdatas := rs; e_rrtype_map := None; e_source_info := None;
            e_time_first := tf; e_time_last := tl; e_count := c;
            e_v_type := 0; e_version := 0; e_iszone := false |}
  | _ => entry_decode key val
  end.

Lemma entry_decode_rounds_default : forall buf val,
  entry_decode (0 :: buf) val = entry_decode_rounds (S (length buf)) (0 :: buf) val.
Proof. reflexivity. Qed.

Lemma decode_rdatas_80 : forall fuel, decode_rdatas fuel [128; 128; 128; 128; 128] = Hang.
Proof. induction fuel as [|f IH]; [reflexivity|]. cbn [decode_rdatas]. cbn -[decode_rdatas]. rewrite IH. reflexivity. Qed.

(** False of the code: no number of loop rounds lets this key be decoded. *)
Theorem decode_terminates_refuted : exists key val, bytes_ok key /\
  forall fuel, entry_decode_rounds fuel key val = Hang.
Proof.
  exists [0; 0; 1; 0; 128; 128; 128; 128; 128], [1; 1; 1]. split.
  - repeat (constructor; [unfold byte_ok; lia|]). constructor.
  - intro fuel. cbn [entry_decode_rounds].
    assert (E : decode_rrset_fuel fuel [0; 1; 0; 128; 128; 128; 128; 128] =
                (let* rs := decode_rdatas fuel [128; 128; 128; 128; 128] in Ok ([0], 1, [0], rs))) by reflexivity.
    rewrite E, decode_rdatas_80. reflexivity.
Qed.
Print Assumptions decode_terminates_refuted.

Lemma varint32_no_hang : forall l, varint_decode32 l <> Hang.
Proof.
  intros l E. unfold varint_decode32, varint_length_packed in E.
  assert (G : forall n i d, varint_length_packed_from n i d <> Hang).
  { induction n as [|n IHn]; intros i [|b d]; cbn; try discriminate. destruct (N.land b 128 =? 0); [discriminate|apply IHn]. }
  assert (R : forall d i, rd d i <> Hang) by (intros d i; unfold rd; destruct (nth_error d i); discriminate).
  destruct (varint_length_packed_from 5 0 l) as [n| | | |] eqn:E1; try discriminate; [|apply (G 5%nat 0%nat l); exact E1].
  cbn [bind] in E.
  pose proof (R l 0%nat). pose proof (R l 1%nat). pose proof (R l 2%nat). pose proof (R l 3%nat). pose proof (R l 4%nat).
  destruct (rd l 0); cbn [bind] in E; try congruence. destruct (Nat.ltb 1 n); [|congruence].
  destruct (rd l 1); cbn [bind] in E; try congruence. destruct (Nat.ltb 2 n); [|congruence].
  destruct (rd l 2); cbn [bind] in E; try congruence. destruct (Nat.ltb 3 n); [|congruence].
  destruct (rd l 3); cbn [bind] in E; try congruence. destruct (Nat.ltb 4 n); [|congruence].
  destruct (rd l 4); cbn [bind] in E; congruence.
Qed.

Lemma varint64_no_hang : forall l, varint_decode64 l <> Hang.
Proof.
  intros l E. unfold varint_decode64, varint_length_packed in E.
  assert (G : forall n i d, varint_length_packed_from n i d <> Hang).
  { induction n as [|n IHn]; intros i [|b d]; cbn; try discriminate. destruct (N.land b 128 =? 0); [discriminate|apply IHn]. }
  assert (R : forall d i, rd d i <> Hang) by (intros d i; unfold rd; destruct (nth_error d i); discriminate).
  assert (L : forall k d s v, varint_decode64_loop k d s v <> Hang).
  { induction k as [|k IHk]; intros [|b d] s v; cbn; try discriminate. apply IHk. }
  destruct (varint_length_packed_from 10 0 l) as [n| | | |] eqn:E1; try discriminate; [|apply (G 10%nat 0%nat l); exact E1].
  cbn [bind] in E. destruct (Nat.ltb n 5); [apply (varint32_no_hang l); exact E|].
  pose proof (R l 0%nat). pose proof (R l 1%nat). pose proof (R l 2%nat). pose proof (R l 3%nat).
  destruct (rd l 0); cbn [bind] in E; try congruence. destruct (rd l 1); cbn [bind] in E; try congruence.
  destruct (rd l 2); cbn [bind] in E; try congruence. destruct (rd l 3); cbn [bind] in E; try congruence.
  match type of E with context [varint_decode64_loop ?a ?b ?c ?d] => pose proof (L a b c d); destruct (varint_decode64_loop a b c d) end;
    cbn [bind] in E; congruence.
Qed.

Lemma triplet_no_hang : forall v, decode_val_triplet v <> Hang.
Proof.
  intros v E. unfold decode_val_triplet, triplet_unpack in E.
  pose proof (varint64_no_hang v). destruct (varint_decode64 v) as [[n1 x1]| | | |]; cbn [bind fst snd] in E; try congruence.
  pose proof (varint64_no_hang (skipn n1 v)). destruct (varint_decode64 (skipn n1 v)) as [[n2 x2]| | | |]; cbn [bind fst snd] in E; try congruence.
  pose proof (varint64_no_hang (skipn (n1 + n2) v)). destruct (varint_decode64 (skipn (n1 + n2) v)) as [[n3 x3]| | | |]; cbn [bind fst snd] in E; try congruence.
  destruct (Nat.eqb (n1 + n2 + n3) (length v)); cbn [bind] in E; congruence.
Qed.

Lemma pair_no_hang : forall v, pair_unpack v <> Hang.
Proof.
  intros v E. unfold pair_unpack in E.
  pose proof (varint64_no_hang v). destruct (varint_decode64 v) as [[n1 x1]| | | |]; cbn [bind fst snd] in E; try congruence.
  pose proof (varint64_no_hang (skipn n1 v)). destruct (varint_decode64 (skipn n1 v)) as [[n2 x2]| | | |]; cbn [bind fst snd] in E; try congruence.
  destruct (Nat.eqb (n1 + n2) (length v)); congruence.
Qed.

Lemma reverse_no_hang : forall fuel mem total len acc, (length mem < fuel)%nat ->
  reverse_name_loop fuel mem total len acc <> Hang /\ reverse_name_loop fuel mem total len acc <> Abort.
Proof.
  induction fuel as [|f IH]; intros mem total len acc H; [lia|]. cbn [reverse_name_loop].
  destruct mem as [|c rest]; [split; discriminate|]. destruct (c =? 0); [destruct (_ =? _); split; discriminate|].
  destruct (_ <? _); [split; discriminate|]. destruct (_ =? _); [split; discriminate|].
  destruct (_ <? _); [split; discriminate|]. apply IH. rewrite skipn_length. cbn [length] in H. lia.
Qed.

(** A place in the key where a length field cannot be read: five continuation
    bytes, the first of them 0x80. *)
Definition stuck_at (b : bytes) : Prop :=
  exists c1 c2 c3 c4 rest, b = 128 :: c1 :: c2 :: c3 :: c4 :: rest /\
    128 <= c1 /\ 128 <= c2 /\ 128 <= c3 /\ 128 <= c4.

Lemma land128_ge : forall b, b < 256 -> N.land b 128 <> 0 -> 128 <= b.
Proof. intros b Hb H. destruct (N.lt_ge_cases b 128); [|assumption]. exfalso. apply H. apply N.eqb_eq. rewrite land_128_lt by exact Hb. lia. Qed.

Lemma land128_small : forall b, b < 128 -> N.land b 128 = 0.
Proof. intros b H. apply N.eqb_eq. rewrite land_128_lt by lia. lia. Qed.

Lemma decode32_zero : forall l v, bytes_ok l -> varint_decode32 l = Ok (0%nat, v) -> v = 0 -> stuck_at l.
Proof.
  intros l v Hl E ->. unfold varint_decode32, varint_length_packed in E.
  destruct (varint_length_packed_from 5 0 l) as [n| | | |] eqn:E1; try discriminate. cbn [bind] in E.
  assert (n = 0%nat).
  { destruct (rd l 0); try discriminate. cbn [bind] in E. destruct (Nat.ltb_spec 1 n); [|congruence].
    destruct (rd l 1); try discriminate. cbn [bind] in E. destruct (Nat.ltb_spec 2 n); [|congruence].
    destruct (rd l 2); try discriminate. cbn [bind] in E. destruct (Nat.ltb_spec 3 n); [|congruence].
    destruct (rd l 3); try discriminate. cbn [bind] in E. destruct (Nat.ltb_spec 4 n); [|congruence].
    destruct (rd l 4); try discriminate. cbn [bind] in E. congruence. }
  subst n. destruct l as [|c0 [|c1 [|c2 [|c3 [|c4 rest]]]]]; cbn in E1;
    repeat match type of E1 with context [if ?c then _ else _] => destruct c eqn:?; [discriminate E1|] end; try discriminate E1.
  cbn [rd nth_error bind Nat.ltb Nat.leb] in E. cbn in E. inversion E as [Ev].
  repeat match goal with H : (_ =? 0) = false |- _ => apply N.eqb_neq in H end.
  inversion Hl as [|? ? B0 Hl1]; subst. inversion Hl1 as [|? ? B1 Hl2]; subst. inversion Hl2 as [|? ? B2 Hl3]; subst.
  inversion Hl3 as [|? ? B3 Hl4]; subst. inversion Hl4 as [|? ? B4 Hl5]; subst. unfold byte_ok in *.
  assert (c0 = 128).
  { assert (128 <= c0) by (apply land128_ge; assumption). rewrite land_127 in Ev. lia. }
  subst c0. exists c1, c2, c3, c4, rest. split; [reflexivity|]. repeat split; apply land128_ge; assumption.
Qed.

Lemma decode_rdatas_no_hang : forall fuel l, bytes_ok l -> (forall a b, l = a ++ b -> ~ stuck_at b) ->
  (length l < fuel)%nat -> decode_rdatas fuel l <> Hang.
Proof.
  induction fuel as [|f IH]; intros l Hl Hs Hf; [lia|]. cbn [decode_rdatas].
  destruct l as [|x l']; [discriminate|]. set (l := x :: l') in *.
  pose proof (varint32_no_hang l). destruct (varint_decode32 l) as [[k v]| | | |] eqn:E; cbn [bind fst snd]; try congruence.
  destruct (65535 <? v); [discriminate|]. destruct (_ <? _); [discriminate|].
  rewrite skipn_skipn_add.
  assert (Hpos : (0 < k + N.to_nat v)%nat).
  { destruct (Nat.eq_dec (k + N.to_nat v) 0) as [Ez|]; [|lia]. exfalso.
    assert (k = 0%nat) by lia. subst k. apply (Hs [] l eq_refl). apply (decode32_zero l v Hl E). lia. }
  assert (IHl : decode_rdatas f (skipn (k + N.to_nat v) l) <> Hang).
  { apply IH.
    - apply bytes_ok_skipn. exact Hl.
    - intros a b Eb. apply (Hs (firstn (k + N.to_nat v) l ++ a) b). rewrite <- app_assoc, <- Eb. symmetry. apply firstn_skipn.
    - rewrite skipn_length. unfold l in *. cbn [length] in *. lia. }
  destruct (decode_rdatas f (skipn (k + N.to_nat v) l)); cbn [bind]; congruence.
Qed.

(** What is missing from C16: keys that contain such a place. *)
Theorem decode_terminates_partial : forall key val, bytes_ok key ->
  (forall a b, key = a ++ b -> ~ stuck_at b) -> entry_decode key val <> Hang.
Proof.
  intros key val Hk Hs. destruct key as [|k buf]; [discriminate|]. cbn [entry_decode].
  destruct (k =? ENTRY_TYPE_RRSET) eqn:E0.
  { assert (D : decode_rrset buf <> Hang).
    { unfold decode_rrset, decode_rrset_fuel. intro HD.
      destruct (decode_rev_name_total buf (length buf)) as [F|(ls & rest & E & F)]; rewrite F in HD; [discriminate|].
      cbn [bind fst snd] in HD. pose proof (varint32_no_hang (skipn (length (wire ls)) buf)).
      destruct (varint_decode32 (skipn (length (wire ls)) buf)) as [[n t]| | | |]; cbn [bind fst snd] in HD; try congruence.
      set (p2 := skipn n (skipn (length (wire ls)) buf)) in *.
      destruct (decode_rev_name_total p2 (length p2)) as [F2|(ls2 & rest2 & E2 & F2)]; rewrite F2 in HD; [discriminate|].
      cbn [bind fst snd] in HD.
      unfold p2 in HD. rewrite !skipn_skipn_add in HD.
      match type of HD with context [skipn ?x buf] => set (m := x) in * end.
      assert (G : decode_rdatas (S (length buf)) (skipn m buf) <> Hang).
      { apply decode_rdatas_no_hang.
        - apply bytes_ok_skipn. inversion Hk; assumption.
        - intros a b Eb. apply (Hs (k :: firstn m buf ++ a) b). rewrite <- app_comm_cons, <- app_assoc, <- Eb, firstn_skipn. reflexivity.
        - rewrite skipn_length. lia. }
      destruct (decode_rdatas (S (length buf)) (skipn m buf)); cbn [bind] in HD; congruence. }
    destruct (decode_rrset buf) as [[[[nm ty] bw] rs]| | | |]; cbn [bind]; try congruence.
    pose proof (triplet_no_hang val). destruct (decode_val_triplet val) as [[[a b] c]| | | |]; cbn [bind]; congruence. }
  destruct (k =? ENTRY_TYPE_RRSET_NAME_FWD); [discriminate|].
  destruct (k =? ENTRY_TYPE_RDATA).
  { assert (D : decode_rdata buf <> Hang).
    { unfold decode_rdata. intro HD. destruct (_ <? _); [discriminate|].
      assert (R : forall d i, rd d i <> Hang) by (intros d i; unfold rd; destruct (nth_error d i); discriminate).
      set (body := (length buf - 2)%nat) in *.
      pose proof (R buf body). destruct (rd buf body) as [lo| | | |]; cbn [bind] in HD; try congruence.
      pose proof (R buf (S body)). destruct (rd buf (S body)) as [hi| | | |]; cbn [bind] in HD; try congruence.
      destruct (_ <? _); [discriminate|].
      set (p1 := skipn _ buf) in *. pose proof (varint32_no_hang p1).
      destruct (varint_decode32 p1) as [[n t]| | | |]; cbn [bind fst snd] in HD; try congruence.
      destruct (Nat.ltb _ _); [discriminate|]. 
      match type of HD with context [decode_rev_name ?a ?b] =>
        destruct (decode_rev_name_total a b) as [F|(ls & rest & E & F)] end; rewrite F in HD; [discriminate|].
      cbn [bind] in HD. discriminate. }
    destruct (decode_rdata buf) as [[[nm ty] rs]| | | |]; cbn [bind]; try congruence.
    pose proof (triplet_no_hang val). destruct (decode_val_triplet val) as [[[a b] c]| | | |]; cbn [bind]; congruence. }
  destruct (k =? ENTRY_TYPE_RDATA_NAME_REV).
  { unfold wdns_reverse_name. destruct (blen buf =? 0); [discriminate|].
    destruct (reverse_no_hang (S (length buf)) buf 0 (blen buf) [0] (Nat.lt_succ_diag_r _)) as [A _].
    destruct (reverse_name_loop _ _ _ _ _); cbn [bind]; congruence. }
  destruct (k =? ENTRY_TYPE_TIME_RANGE).
  { pose proof (pair_no_hang val). destruct (pair_unpack val) as [[a b]| | | |]; cbn [bind]; congruence. }
  destruct (k =? ENTRY_TYPE_SOURCE_INFO); [discriminate|].
  destruct (k =? ENTRY_TYPE_VERSION); [|discriminate].
  destruct buf as [|vt [|]]; try discriminate. destruct val as [|v0 val]; [discriminate|].
  pose proof (varint32_no_hang (v0 :: val)). destruct (varint_decode32 (v0 :: val)) as [[n t]| | | |]; cbn [bind fst snd]; try congruence.
  destruct (Nat.eqb n _); congruence.
Qed.
Print Assumptions decode_terminates_partial.

(** [Hang] in the model means non-termination of the program: a key that is
    not decoded within the model's round limit is not decoded within any. *)
Theorem decode_hang_is_endless : forall buf val, entry_decode (ENTRY_TYPE_RRSET :: buf) val = Hang ->
  forall fuel, entry_decode_rounds fuel (ENTRY_TYPE_RRSET :: buf) val = Hang.
Proof.
  intros buf val H fuel. change (ENTRY_TYPE_RRSET :: buf) with (0 :: buf) in *.
  rewrite entry_decode_rounds_default in H. cbn [entry_decode_rounds] in *. unfold decode_rrset_fuel in *.
  destruct (decode_rev_name_total buf (length buf)) as [F|(ls & rest & E & F)]; rewrite F in *; [discriminate|].
  cbn [bind fst snd] in *. pose proof (varint32_no_hang (skipn (length (wire ls)) buf)).
  destruct (varint_decode32 (skipn (length (wire ls)) buf)) as [[n t]| | | |]; cbn [bind fst snd] in *; try congruence.
  set (p2 := skipn n (skipn (length (wire ls)) buf)) in *.
  destruct (decode_rev_name_total p2 (length p2)) as [F2|(ls2 & rest2 & E2 & F2)]; rewrite F2 in *; [discriminate|].
  cbn [bind fst snd] in *. set (p3 := skipn (length (wire ls2)) p2) in *.
  assert (D : decode_rdatas (S (length buf)) p3 = Hang).
  { destruct (decode_rdatas (S (length buf)) p3) as [rs| | | |]; cbn [bind] in H; try congruence.
    pose proof (triplet_no_hang val). destruct (decode_val_triplet val) as [[[a b] c]| | | |]; cbn [bind] in H; congruence. }
  rewrite (decode_rdatas_stuck (S (length buf)) p3); [reflexivity| |exact D].
  unfold p3, p2. rewrite !skipn_length. lia.
Qed.
Print Assumptions decode_hang_is_endless.

Example c16_case : (forall a b, [0; 1;97;0; 1; 0; 4;1;2;3;4] = a ++ b -> ~ stuck_at b) /\
  match entry_decode [0; 1;97;0; 1; 0; 4;1;2;3;4] [1;2;3] with Ok _ => True | _ => False end.
Proof.
  split; [|vm_compute; exact I]. intros a b E (c1 & c2 & c3 & c4 & r & -> & _).
  assert (H : In 128 [0; 1;97;0; 1; 0; 4;1;2;3;4]) by (rewrite E; apply in_or_app; right; left; reflexivity).
  cbn in H. repeat (destruct H as [H|H]; [discriminate|]). exact H.
Qed.

(** ** C17 *)

(** False of the code, for keys and for values. *)
Theorem decode_in_bounds_refuted : exists key val, entry_decode key val = UB /\ bytes_ok key /\ bytes_ok val.
Proof. exists [0; 0], [1; 1; 1]. split; [vm_compute; reflexivity|]. split; repeat (constructor; [unfold byte_ok; lia|]); constructor. Qed.
Print Assumptions decode_in_bounds_refuted.

(** A well-formed key with an empty value, such as a time range for which
    merging produced no value (C07). *)
Theorem decode_value_in_bounds_refuted :
  entry_decode [ENTRY_TYPE_TIME_RANGE] [] = UB /\
  (forall owner bw rdatas rrtype key, name_ok owner -> name_ok bw -> rrtype < 65536 ->
     rrset_key owner rrtype bw rdatas key -> entry_decode key [] = UB).
Proof.
  split; [reflexivity|]. intros owner bw rdatas rrtype key Ho Hb Ht (t & rd & Hl & Hr & ->).
  unfold entry_decode. cbn [N.eqb ENTRY_TYPE_RRSET].
  rewrite (decode_rrset_ok owner rrtype bw rdatas t rd) by (assumption || (unfold u32; lia)). reflexivity.
Qed.
Print Assumptions decode_value_in_bounds_refuted.

(** A reverse-name key without a name writes before its buffer. *)
Theorem decode_empty_rdata_name_refuted : forall val, entry_decode [ENTRY_TYPE_RDATA_NAME_REV] val = UB.
Proof. reflexivity. Qed.
Print Assumptions decode_empty_rdata_name_refuted.

(** The number of bytes below 0x80, each of which ends a variable-width integer. *)
Definition small_bytes (l : bytes) : nat := length (filter (fun b => b <? 128) l).

Lemma terms_small : forall l, bytes_ok l -> terms l = small_bytes l.
Proof.
  induction 1 as [|b l Hb Hl IH]; [reflexivity|]. unfold terms, small_bytes in *. cbn [filter].
  rewrite land_128_lt by exact Hb. destruct (b <? 128); cbn [length]; [f_equal|]; exact IH.
Qed.

(** What is missing from C17: keys and values outside this description. *)
Definition readable (key val : bytes) : Prop :=
  match key with
  | [] => True
  | k :: buf =>
      if (k =? ENTRY_TYPE_RRSET) || (k =? ENTRY_TYPE_RDATA) then
        (exists a b, buf = a ++ [b] /\ b < 128) /\ (3 <= small_bytes val)%nat /\
        (k = ENTRY_TYPE_RRSET -> forall ls, buf <> wire ls)
      else if k =? ENTRY_TYPE_RDATA_NAME_REV then exists ls, name_ok ls /\ buf = wire ls
      else if k =? ENTRY_TYPE_TIME_RANGE then (2 <= small_bytes val)%nat
      else if k =? ENTRY_TYPE_VERSION then (1 <= small_bytes val)%nat
      else True
  end.

Theorem decode_in_bounds_partial : forall key val, bytes_ok val -> readable key val ->
  entry_decode key val <> UB /\ entry_decode key val <> Abort.
Proof.
  intros key val Hv H. destruct key as [|k buf]; [split; discriminate|]. cbn [entry_decode]. unfold readable in H.
  destruct (k =? ENTRY_TYPE_RRSET) eqn:E0.
  { cbn [orb] in H. destruct H as ((a & b & -> & Hb) & Hval & Hne). apply N.eqb_eq in E0. specialize (Hne E0).
    rewrite <- (terms_small val Hv) in Hval.
    assert (He : ends_term (a ++ [b])) by (exists a, b; split; [reflexivity|apply land128_small; exact Hb]).
    set (buf := a ++ [b]) in *.
    assert (D : decode_rrset buf <> UB /\ decode_rrset buf <> Abort).
    { unfold decode_rrset, decode_rrset_fuel.
      destruct (decode_rev_name_total buf (length buf)) as [F|(ls & rest & E & F)]; rewrite F; [split; discriminate|].
      cbn [bind fst snd].
      destruct (ends_term_skipn buf (length (wire ls)) He) as [Hnil|He1].
      { exfalso. apply (Hne ls). rewrite firstn_all in E. rewrite E in Hnil. rewrite skipn_app_len in Hnil. rewrite E, Hnil, app_nil_r. reflexivity. }
      destruct (decode32_term _ (ends_has_term _ He1)) as (n & t & -> & _). cbn [bind fst snd].
      rewrite skipn_skipn_add. set (p2 := skipn (length (wire ls) + n) buf).
      destruct (decode_rev_name_total p2 (length p2)) as [F2|(ls2 & rest2 & E2 & F2)]; rewrite F2; [split; discriminate|].
      cbn [bind fst snd]. unfold p2. rewrite skipn_skipn_add.
      match goal with |- context [decode_rdatas ?f (skipn ?m buf)] =>
        destruct (decode_rdatas_in_bounds f (skipn m buf) (ends_term_skipn buf m He)); destruct (decode_rdatas f (skipn m buf)) end;
      cbn [bind]; split; congruence. }
    destruct D. destruct (decode_rrset buf) as [[[[nm ty] bw] rs]| | | |]; cbn [bind]; try (split; congruence).
    unfold decode_val_triplet. destruct (triplet_unpack_in_bounds val Hval) as [->|([[x y] z] & ->)]; cbn [bind]; split; congruence. }
  destruct (k =? ENTRY_TYPE_RRSET_NAME_FWD); [split; discriminate|].
  destruct (k =? ENTRY_TYPE_RDATA).
  { cbn [orb] in H. destruct H as ((a & b & -> & Hb) & Hval & _). 
    rewrite <- (terms_small val Hv) in Hval.
    assert (He : ends_term (a ++ [b])) by (exists a, b; split; [reflexivity|apply land128_small; exact Hb]).
    set (buf := a ++ [b]) in *.
    assert (D : decode_rdata buf <> UB /\ decode_rdata buf <> Abort).
    { unfold decode_rdata. destruct (N.ltb_spec (blen buf) 2) as [|HL]; [split; discriminate|].
      unfold blen in HL. set (body := (length buf - 2)%nat) in *.
      destruct (rd_lt buf body) as (lo & ->); [lia|]. destruct (rd_lt buf (S body)) as (hi & ->); [lia|]. cbn [bind].
      destruct (N.ltb_spec (N.of_nat body) (lo + 256 * hi)) as [|Hd]; [split; discriminate|].
      destruct (ends_term_skipn buf (N.to_nat (lo + 256 * hi)) He) as [Hnil|He1].
      { exfalso. apply (f_equal (@length N)) in Hnil. rewrite skipn_length in Hnil. cbn [length] in Hnil. lia. }
      destruct (decode32_term _ (ends_has_term _ He1)) as (n & t & -> & _). cbn [bind fst snd].
      destruct (Nat.ltb _ _); [split; discriminate|].
      match goal with |- context [decode_rev_name ?a ?b] =>
        destruct (decode_rev_name_total a b) as [F|(ls & rest & E & F)] end; rewrite F; split; discriminate. }
    destruct D. destruct (decode_rdata buf) as [[[nm ty] rs]| | | |]; cbn [bind]; try (split; congruence).
    unfold decode_val_triplet. destruct (triplet_unpack_in_bounds val Hval) as [->|([[x y] z] & ->)]; cbn [bind]; split; congruence. }
  cbn [orb] in H. destruct (k =? ENTRY_TYPE_RDATA_NAME_REV).
  { destruct H as (ls & Hls & ->).
    assert (E : wdns_reverse_name (wire ls) (blen (wire ls)) = Ok (rwire ls)).
    { unfold blen. rewrite <- (app_nil_r (wire ls)) at 1. apply reverse_wire. apply Hls. }
    rewrite E. cbn [bind]. split; discriminate. }
  destruct (k =? ENTRY_TYPE_TIME_RANGE).
  { rewrite <- (terms_small val Hv) in H. destruct (pair_unpack_in_bounds val H) as [->|([x y] & ->)]; cbn [bind]; split; congruence. }
  destruct (k =? ENTRY_TYPE_SOURCE_INFO); [split; discriminate|].
  destruct (k =? ENTRY_TYPE_VERSION); [|split; discriminate].
  rewrite <- (terms_small val Hv) in H. apply terms_has in H.
  destruct buf as [|vt [|]]; try (split; discriminate). destruct val as [|v0 val]; [split; discriminate|].
  destruct (decode32_term _ H) as (n & t & -> & _). cbn [bind fst snd]. destruct (Nat.eqb n _); split; congruence.
Qed.
Print Assumptions decode_in_bounds_partial.

Example c17_case : readable [0; 1;97;0; 1; 0; 4;1;2;3;4] [1;2;3] /\ readable [2; 4; 1; 0; 0; 1] [129;1;2;3] /\
  readable [255; 2] [130; 1] /\ readable [254] [128; 1; 0].
Proof.
  split; [|split; [|split; vm_compute; lia]].
  - split; [exists [1;97;0;1;0;4;1;2;3], 4; split; [reflexivity|lia]|]. split; [vm_compute; lia|].
    intros _ ls E. assert (Hok : exists l, ls = l \/ False) by (exists ls; left; reflexivity).
    apply (f_equal (@rev N)) in E. unfold wire in E. rewrite rev_app_distr in E. discriminate E.
  - split; [exists [4;1;0;0], 1; split; [reflexivity|lia]|]. split; [vm_compute; lia|]. intros E; discriminate E.
Qed.

(** ** C18 *)

Definition known_type (k : N) : Prop :=
  In k [ENTRY_TYPE_RRSET; ENTRY_TYPE_RRSET_NAME_FWD; ENTRY_TYPE_RDATA; ENTRY_TYPE_RDATA_NAME_REV;
        ENTRY_TYPE_SOURCE_INFO; ENTRY_TYPE_TIME_RANGE; ENTRY_TYPE_VERSION].

Theorem decoded_type_partial : forall k rest val e, known_type k ->
  entry_decode (k :: rest) val = Ok e -> get_type e = k.
Proof.
  intros k rest val e Hk H. cbn in Hk.
  repeat (destruct Hk as [<-|Hk]); [..|destruct Hk];
    cbn [entry_decode N.eqb Pos.eqb ENTRY_TYPE_RRSET ENTRY_TYPE_RRSET_NAME_FWD ENTRY_TYPE_RDATA ENTRY_TYPE_RDATA_NAME_REV
         ENTRY_TYPE_SOURCE_INFO ENTRY_TYPE_TIME_RANGE ENTRY_TYPE_VERSION] in H.
  - destruct (decode_rrset rest) as [[[[nm ty] bw] rs]| | | |]; try discriminate. cbn [bind] in H.
    destruct (decode_val_triplet val) as [[[a b] c]| | | |]; try discriminate. inversion H; reflexivity.
  - inversion H; reflexivity.
  - destruct (decode_rdata rest) as [[[nm ty] rs]| | | |]; try discriminate. cbn [bind] in H.
    destruct (decode_val_triplet val) as [[[a b] c]| | | |]; try discriminate. inversion H; reflexivity.
  - destruct (wdns_reverse_name rest (blen rest)); try discriminate. inversion H; reflexivity.
  - inversion H; reflexivity.
  - destruct (pair_unpack val); try discriminate. inversion H; reflexivity.
  - destruct rest as [|vt [|]]; try discriminate. destruct val as [|v0 val]; [discriminate|].
    destruct (varint_decode32 (v0 :: val)) as [[n t]| | | |]; try discriminate. cbn [bind fst snd] in H.
    destruct (Nat.eqb n _); [|discriminate]. inversion H; reflexivity.
Qed.
Print Assumptions decoded_type_partial.

(** Neither is the empty key decoded. *)
Theorem decode_empty_key : forall val, entry_decode [] val = Fail.
Proof. reflexivity. Qed.

(** False of the code: every other first byte is decoded, as an RRset without a name. *)
Theorem unknown_type_decoded_refuted : forall k rest val, ~ known_type k ->
  exists e, entry_decode (k :: rest) val = Ok e /\ get_type e = ENTRY_TYPE_RRSET /\ e_name e = None.
Proof.
  intros k rest val Hk. exists entry0. split; [|split; reflexivity]. cbn [entry_decode].
  assert (H : forall t, In t [ENTRY_TYPE_RRSET; ENTRY_TYPE_RRSET_NAME_FWD; ENTRY_TYPE_RDATA; ENTRY_TYPE_RDATA_NAME_REV;
        ENTRY_TYPE_SOURCE_INFO; ENTRY_TYPE_TIME_RANGE; ENTRY_TYPE_VERSION] -> (k =? t) = false).
  { intros t Ht. apply N.eqb_neq. intros ->. apply Hk. exact Ht. }
  rewrite !H by (cbn; tauto). reflexivity.
Qed.
Print Assumptions unknown_type_decoded_refuted.

Example c18_case : known_type 2 /\ ~ known_type 77.
Proof. split; [cbn; tauto|]. cbn. intuition discriminate. Qed.

(** ** C19 *)

Definition succeeds {A} (r : res A) : Prop := exists x, r = Ok x.

(** The accessor gives a value where [P] holds, and reports failure everywhere else. *)
Definition given_just {A} (r : res A) (P : Prop) : Prop := (P -> succeeds r) /\ (~ P -> r = Fail).

(** The entry types documented for each accessor, dnstable_entry(3). *)
Theorem accessors_by_type : forall k rest val e, known_type k -> entry_decode (k :: rest) val = Ok e ->
  given_just (get_rrname e) (k = ENTRY_TYPE_RRSET \/ k = ENTRY_TYPE_RRSET_NAME_FWD \/ k = ENTRY_TYPE_RDATA) /\
  given_just (get_rrtype e) (k = ENTRY_TYPE_RRSET \/ k = ENTRY_TYPE_RDATA) /\
  given_just (get_bailiwick e) (k = ENTRY_TYPE_RRSET) /\
  given_just (get_num_rdata e) (k = ENTRY_TYPE_RRSET \/ k = ENTRY_TYPE_RDATA) /\
  given_just (get_rdata_name e) (k = ENTRY_TYPE_RDATA_NAME_REV) /\
  given_just (get_time_first e) (k = ENTRY_TYPE_RRSET \/ k = ENTRY_TYPE_RDATA \/ k = ENTRY_TYPE_TIME_RANGE) /\
  given_just (get_time_last e) (k = ENTRY_TYPE_RRSET \/ k = ENTRY_TYPE_RDATA \/ k = ENTRY_TYPE_TIME_RANGE) /\
  given_just (get_count e) (k = ENTRY_TYPE_RRSET \/ k = ENTRY_TYPE_RDATA) /\
  given_just (get_source_info e) (k = ENTRY_TYPE_SOURCE_INFO) /\
  given_just (get_version e) (k = ENTRY_TYPE_VERSION) /\
  given_just (get_version_type e) (k = ENTRY_TYPE_VERSION).
Proof.
  intros k rest val e Hk H. apply (decoded_type_partial k rest val e Hk) in H. unfold get_type in H.
  unfold get_rrname, get_rrtype, get_bailiwick, get_num_rdata, get_rdata_name, get_time_first, get_time_last,
    get_count, get_source_info, get_version, get_version_type, is_type. rewrite H.
  assert (T : forall (A : Type) (x : A) (P : Prop), P -> given_just (Ok x) P).
  { intros A x P HP. split; [intros _; exists x; reflexivity|contradiction]. }
  assert (F : forall (A : Type) (P : Prop), ~ P -> given_just (@Fail A) P).
  { intros A P HP. split; [contradiction|reflexivity]. }
  cbn in Hk.
  repeat (destruct Hk as [<-|Hk]); [..|destruct Hk]; cbn;
    repeat (apply conj); first [apply T; tauto|apply F; intro X; repeat (destruct X as [X|X]; try discriminate X); discriminate X].
Qed.
Print Assumptions accessors_by_type.

(** Indexes below the reported number succeed and indexes above it fail. *)
Theorem get_rdata_index_partial : forall e i n, get_num_rdata e = Ok n ->
  (i < n -> succeeds (get_rdata e i)) /\ (n < i -> get_rdata e i = Fail).
Proof.
  intros e i n H. unfold get_num_rdata in H. destruct (is_type e [ENTRY_TYPE_RRSET; ENTRY_TYPE_RDATA]) eqn:E; [|discriminate].
  inversion H; subst n. unfold get_rdata. rewrite E. split; intro Hi.
  - destruct (N.ltb_spec (N.of_nat (length (e_rdatas e))) i); [lia|].
    destruct (nth_error (e_rdatas e) (N.to_nat i)) eqn:En; [eexists; reflexivity|]. apply nth_error_None in En. lia.
  - destruct (N.ltb_spec (N.of_nat (length (e_rdatas e))) i); [reflexivity|lia].
Qed.
Print Assumptions get_rdata_index_partial.

(** Entries without rdata: the accessor reports failure for every index. *)
Theorem get_rdata_other_types : forall e i, get_num_rdata e = Fail -> get_rdata e i = Fail.
Proof.
  intros e i H. unfold get_num_rdata in H. unfold get_rdata.
  destruct (is_type e [ENTRY_TYPE_RRSET; ENTRY_TYPE_RDATA]); [discriminate|reflexivity].
Qed.
Print Assumptions get_rdata_other_types.

(** False of the code: the index equal to the reported number aborts. *)
Theorem get_rdata_last_index_refuted : forall e n, get_num_rdata e = Ok n -> get_rdata e n = Abort.
Proof.
  intros e n H. unfold get_num_rdata in H. destruct (is_type e [ENTRY_TYPE_RRSET; ENTRY_TYPE_RDATA]) eqn:E; [|discriminate].
  inversion H; subst n. unfold get_rdata. rewrite E.
  destruct (N.ltb_spec (N.of_nat (length (e_rdatas e))) (N.of_nat (length (e_rdatas e)))); [lia|].
  destruct (nth_error (e_rdatas e) (N.to_nat (N.of_nat (length (e_rdatas e))))) eqn:En; [|reflexivity].
  assert (X : nth_error (e_rdatas e) (N.to_nat (N.of_nat (length (e_rdatas e)))) <> None) by congruence.
  apply nth_error_Some in X. lia.
Qed.
Print Assumptions get_rdata_last_index_refuted.

Example c19_case : exists e, entry_decode [0; 1;97;0; 1; 0; 4;1;2;3;4; 0] [1;2;3] = Ok e /\
  get_num_rdata e = Ok 2 /\ get_rdata e 0 = Ok [1;2;3;4] /\ get_rdata e 1 = Ok [] /\ get_rdata e 2 = Abort /\ get_rdata e 3 = Fail.
Proof. eexists. split; [vm_compute; reflexivity|]. vm_compute. repeat split; reflexivity. Qed.

(** ** C20 *)

Theorem rrset_keys_injective : forall owner rrtype bw rdatas owner' rrtype' bw' rdatas' key,
  name_ok owner -> name_ok bw -> rrtype < 65536 -> name_ok owner' -> name_ok bw' -> rrtype' < 65536 ->
  rrset_key owner rrtype bw rdatas key -> rrset_key owner' rrtype' bw' rdatas' key ->
  owner = owner' /\ rrtype = rrtype' /\ bw = bw' /\ rdatas = rdatas'.
Proof.
  intros owner rrtype bw rdatas owner' rrtype' bw' rdatas' key Ho Hb Ht Ho' Hb' Ht' (t & rd & Hl & Hr & ->) (t' & rd' & Hl' & Hr' & E).
  injection E as E. pose proof (decode_rrset_ok owner rrtype bw rdatas t rd Ho Hb ltac:(unfold u32; lia) Hl Hr) as D.
  pose proof (decode_rrset_ok owner' rrtype' bw' rdatas' t' rd' Ho' Hb' ltac:(unfold u32; lia) Hl' Hr') as D'.
  rewrite E, D' in D. inversion D.
  split; [apply wire_inj; [apply Ho|apply Ho'|congruence]|]. split; [congruence|].
  split; [apply wire_inj; [apply Hb|apply Hb'|congruence]|congruence].
Qed.
Print Assumptions rrset_keys_injective.

(** Whatever the slicing of either record. *)
Theorem rdata_keys_injective : forall owner rrtype head tail owner' rrtype' head' tail' key,
  name_ok owner -> rrtype < 65536 -> name_ok owner' -> rrtype' < 65536 ->
  blen head + blen tail <= 65535 -> blen head' + blen tail' <= 65535 ->
  rdata_key owner rrtype head tail key -> rdata_key owner' rrtype' head' tail' key ->
  owner = owner' /\ rrtype = rrtype' /\ head = head' /\ tail = tail'.
Proof.
  intros owner rrtype head tail owner' rrtype' head' tail' key Ho Ht Ho' Ht' HL HL' (t & Hl & ->) (t' & Hl' & E).
  injection E as E. pose proof (decode_rdata_ok owner rrtype head tail t Ho ltac:(unfold u32; lia) Hl HL) as D.
  pose proof (decode_rdata_ok owner' rrtype' head' tail' t' Ho' ltac:(unfold u32; lia) Hl' HL') as D'.
  rewrite E, D' in D. inversion D as [[E1 E2 E3]].
  split; [apply wire_inj; [apply Ho|apply Ho'|congruence]|]. split; [congruence|].
  assert (Hlen : enc_le16 (blen tail) = enc_le16 (blen tail')).
  { apply (f_equal (@rev N)) in E. rewrite !rev_app_distr in E. unfold enc_le16 in *.
    cbn [rev app] in E. injection E as A B. congruence. }
  unfold enc_le16 in Hlen. inversion Hlen as [[A B]].
  assert (HT : blen tail = blen tail') by lia.
  apply app_inj_len in E3; [destruct E3; split; congruence|].
  apply (f_equal (@length N)) in E3. rewrite !app_length in E3. unfold blen in HT. lia.
Qed.
Print Assumptions rdata_keys_injective.

Example c20_case : rdata_key [[98]] 15 [0; 10] [1; 97; 0] [2; 1;97;0; 15; 1;98;0; 0;10; 3;0] /\
  rdata_key [[98]] 15 [] [0; 10; 1; 97; 0] [2; 0;10;1;97;0; 15; 1;98;0; 5;0].
Proof. split; exists [15]; (split; [apply (leb_last 15); lia|reflexivity]). Qed.

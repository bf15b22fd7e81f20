(** Whatever the tables hold: what the keys and filters of a query say about an entry that
    can be decoded. *)
From Verif Require Import Base BaseFacts NameFacts ModelVarint VarintProofs ModelWdns ModelUnion ModelMerge ModelEntry ModelIter ModelQuery
  SpecName SpecMerge SpecEntry SpecDecode SpecQuery SpecLookup SpecReader SpecSound DecodeProofs FilterProofs SelectProofs SoundProofs.

(** ** Names at the start of keys *)

Lemma long_wire_inj : forall a b x y, long_labels a -> long_labels b -> wire a ++ x = wire b ++ y -> a = b /\ x = y.
Proof.
  induction a as [|l a IH]; intros [|m b] x y Ha Hb E.
  - cbn in E. inversion E. split; reflexivity.
  - rewrite wire_cons in E. cbn in E. inversion E as [[E1 E2]]. inversion Hb as [|? ? Hm _]; subst. unfold blen in E1. lia.
  - rewrite wire_cons in E. cbn in E. inversion E as [[E1 E2]]. inversion Ha as [|? ? Hm _]; subst. unfold blen in E1. lia.
  - rewrite !wire_cons in E. cbn [app] in E. inversion E as [[E1 E2]]. rewrite <- !app_assoc in E2. apply app_inj_len in E2; [|unfold blen in E1; lia].
    destruct E2 as [-> E2]. inversion Ha; inversion Hb; subst. destruct (IH b x y) as [-> ->]; auto.
Qed.
Lemma long_wire_start : forall a b x y, long_labels a -> long_labels b -> enc_labels a ++ x = wire b ++ y ->
  exists c, b = a ++ c /\ x = wire c ++ y.
Proof.
  induction a as [|l a IH]; intros b x y Ha Hb E.
  - exists b. split; [reflexivity|exact E].
  - destruct b as [|m b]; change (enc_labels (l :: a)) with (blen l :: l ++ enc_labels a) in E; inversion Ha as [|? ? Hl Ha']; subst.
    + cbn in E. inversion E as [[E1 E2]]. unfold blen in E1. lia.
    + rewrite wire_cons in E. cbn [app] in E. inversion E as [[E1 E2]]. rewrite <- !app_assoc in E2. apply app_inj_len in E2; [|unfold blen in E1; lia].
      destruct E2 as [-> E2]. inversion Hb; subst. destruct (IH b x y) as (c & -> & ->); auto. exists c. split; reflexivity.
Qed.
Lemma name_long : forall ls, name_ok ls -> long_labels ls.
Proof. intros ls [H _]. apply label_ok_nonempty. exact H. Qed.
Lemma long_rev : forall ls, long_labels ls -> long_labels (rev ls).
Proof. intros ls H. apply Forall_rev. exact H. Qed.

Lemma single_label_match : forall qks key, single_label_res qks key = FMatch ->
  exists l more, l <> [] /\ skipn qks key = wire [l] ++ more.
Proof.
  intros qks key H. unfold single_label_res in H. destruct (Nat.leb_spec (length key) qks) as [|HL]; [discriminate|].
  unfold rd in H. rewrite <- (firstn_skipn qks key) in H at 1. rewrite nth_error_app2 in H by (rewrite firstn_length; lia).
  replace (qks - length (firstn qks key))%nat with O in H by (rewrite firstn_length; lia).
  destruct (skipn qks key) as [|c r] eqn:ES; [assert (length (skipn qks key) = O) by (rewrite ES; reflexivity); rewrite skipn_length in *; lia|].
  cbn [nth_error] in H. destruct (N.eqb_spec c 0) as [->|Hc].
  { unfold seek_past in H. destruct (increment_key _ _) as [[? ?]| | | |]; discriminate. }
  assert (EL : length key = (qks + S (length r))%nat) by (pose proof (skipn_length qks key) as X; rewrite ES in X; cbn [length] in X; lia).
  destruct (Nat.leb_spec (length key) (qks + N.to_nat c + 1)) as [|HL2]; [discriminate|].
  rewrite <- (firstn_skipn qks key) in H at 1. rewrite nth_error_app2 in H by (rewrite firstn_length; lia).
  rewrite ES in H. replace (qks + N.to_nat c + 1 - length (firstn qks key))%nat with (S (N.to_nat c)) in H by (rewrite firstn_length; lia).
  cbn [nth_error] in H. assert (HR : (N.to_nat c < length r)%nat) by lia.
  destruct (nth_error r (N.to_nat c)) as [c'|] eqn:EN; [|discriminate].
  destruct (N.eqb_spec c' 0) as [->|Hc']; [|unfold seek_past in H; destruct (increment_key _ _) as [[? ?]| | | |]; discriminate].
  apply nth_error_split in EN. destruct EN as (l & more & -> & El). exists l, more. split.
  - intros ->. cbn in El. lia.
  - rewrite wire_cons. cbn [app]. f_equal; [unfold blen; lia|]. rewrite <- app_assoc. reflexivity.
Qed.

(** ** The filters *)

Section Rrset.
  Context (owner : list bytes) (t : bytes) (bw : list bytes) (rest : bytes).
  Hypothesis HO : name_ok owner.
  Hypothesis HB : name_ok bw.
  Hypothesis HT : finished 5 t.
  Hypothesis HX : bytes_ok t.
  Let key := ENTRY_TYPE_RRSET :: rwire owner ++ t ++ rwire bw ++ rest.

  Lemma rrset_owner_len : wdns_len_uname (skipn 1 key) = Ok (length (rwire owner)).
  Proof using HO. unfold key. cbn [skipn]. unfold rwire. rewrite len_uname_wire; [reflexivity|apply name_ok_rev; exact HO]. Qed.
  Lemma rrset_key_long : (length key <=? length (rwire owner) + 2)%nat = false.
  Proof using HT.
    apply Nat.leb_gt. unfold key. cbn [length]. rewrite !app_length. pose proof (finished_nonempty _ _ HT).
    assert (1 <= length (rwire bw))%nat by (unfold rwire; apply wire_nonempty). lia.
  Qed.
  Lemma rrset_after_owner : skipn (length (rwire owner) + 1) key = t ++ rwire bw ++ rest.
  Proof using. unfold key. rewrite Nat.add_1_r. cbn [skipn]. apply skipn_app_at. Qed.

  Lemma rrtype_rrset : forall want, rrtype_res want key = FMatch -> base128 t mod u32 = want.
  Proof using HO HT HX.
    intros want H. unfold rrtype_res, rrtype_pos in H.
    change (rd key 0) with (@Ok N ENTRY_TYPE_RRSET) in H. cbn [bind] in H. rewrite N.eqb_refl, rrset_owner_len in H. cbn [bind] in H.
    rewrite rrset_key_long in H. cbn [bind] in H. rewrite rrset_after_owner, (read32_finished t _ HX HT) in H. cbn [bind fst snd] in H.
    destruct (Nat.eqb_spec (length t) 0); [discriminate|]. destruct (N.eqb_spec (base128 t mod u32) want); [assumption|discriminate].
  Qed.
  Lemma bailiwick_rrset : forall b, name_ok b -> bailiwick_res (rwire b) key = FMatch -> bw = b.
  Proof using HO HB HT HX.
    intros b Hb H. unfold bailiwick_res in H. rewrite rrset_owner_len in H. cbn [bind] in H. rewrite rrset_key_long in H.
    rewrite rrset_after_owner, (read32_finished t _ HX HT) in H. cbn [bind fst snd] in H.
    assert (E : skipn (length (rwire owner) + 1 + length t) key = rwire bw ++ rest).
    { unfold key. replace (length (rwire owner) + 1 + length t)%nat with (S (length (rwire owner) + length t)) by lia. cbn [skipn]. rewrite skipn_plus, skipn_app_at. reflexivity. }
    rewrite E in H. destruct (Nat.leb_spec (length key) (length (rwire owner) + 1 + length t)); [discriminate|].
    unfold rwire at 1 in H. rewrite len_uname_wire in H by (apply name_ok_rev; exact HB). cbn [bind] in H. fold (rwire bw) in H.
    destruct (negb (length (rwire bw) =? length (rwire b))%nat); [discriminate|]. rewrite firstn_app_at in H.
    destruct (beq (rwire b) (rwire bw)) eqn:EB; [|discriminate]. apply beq_true in EB. unfold rwire in EB.
    apply wire_inj in EB; [|apply name_ok_rev; assumption|apply name_ok_rev; assumption]. rewrite <- (rev_involutive bw), <- EB, rev_involutive. reflexivity.
  Qed.

  (** A whole name in front. *)
  Lemma owner_named : forall ls more, long_labels ls -> wire ls ++ more = rwire owner ++ t ++ rwire bw ++ rest ->
    owner = rev ls /\ more = t ++ rwire bw ++ rest.
  Proof using HO.
    intros ls more HL E. unfold rwire at 1 in E. apply long_wire_inj in E; [|exact HL|apply long_rev, name_long; exact HO]. destruct E as [-> ->].
    rewrite rev_involutive. split; reflexivity.
  Qed.
  Lemma type_named : forall ty more, ty < 65536 -> varint_encode32 ty ++ more = t ++ rwire bw ++ rest -> base128 t mod u32 = ty /\ more = rwire bw ++ rest.
  Proof using HT HX.
    intros ty more Hty E. assert (H32 : ty < u32) by (unfold u32; lia).
    assert (R1 : varint_decode32 (varint_encode32 ty ++ more) = Ok (length (varint_encode32 ty), ty)) by (apply varint32_roundtrip; exact H32).
    rewrite E, (read32_finished t _ HX HT) in R1. injection R1 as R1 R2. split; [exact R2|].
    apply app_inj_len in E; [apply E|congruence].
  Qed.
End Rrset.

Section Rdata.
  Context (tail t : bytes) (owner : list bytes) (slice : bytes).
  Hypothesis HT : finished 5 t.
  Hypothesis HX : bytes_ok t.
  Hypothesis HL : blen tail < 65536.
  Let key := ENTRY_TYPE_RDATA :: tail ++ t ++ rwire owner ++ slice ++ enc_le16 (blen tail).

  Lemma rdata_key_length : rdata_len key = Ok (length tail).
  Proof using HL.
    unfold rdata_len. set (p := ENTRY_TYPE_RDATA :: tail ++ t ++ rwire owner ++ slice).
    assert (EK : key = p ++ enc_le16 (blen tail)) by (unfold key, p; cbn [app]; rewrite <- !app_assoc; reflexivity).
    assert (LK : length key = (length p + 2)%nat) by (rewrite EK, app_length; reflexivity). rewrite LK.
    destruct (Nat.ltb_spec (length p + 2) 2); [lia|]. unfold rd. rewrite EK.
    rewrite !nth_error_app2 by lia. replace (length p + 2 - 2 - length p)%nat with 0%nat by lia. replace (length p + 2 - 1 - length p)%nat with 1%nat by lia.
    cbn [enc_le16 nth_error bind].
    pose proof (N.div_mod (blen tail) 256 ltac:(discriminate)) as E.
    assert (E2 : blen tail / 256 < 256) by (apply N.div_lt_upper_bound; lia).
    match goal with |- context [?x + 256 * ?y] => replace (x + 256 * y) with (blen tail) by (rewrite ?(N.mod_small (blen tail / 256)) by exact E2; lia) end.
    assert (1 <= length (rwire owner))%nat by (unfold rwire; apply wire_nonempty).
    destruct (N.leb_spec (N.of_nat (length p + 2)) (blen tail + 2)) as [C|_]; [unfold p, blen in C; cbn [length] in C; rewrite !app_length in C; lia|].
    unfold blen. rewrite Nnat.Nat2N.id. reflexivity.
  Qed.
  Lemma rdata_after_tail : skipn (length tail + 1) key = t ++ rwire owner ++ slice ++ enc_le16 (blen tail).
  Proof using. unfold key. rewrite Nat.add_1_r. cbn [skipn]. apply skipn_app_at. Qed.
  Lemma rrtype_rdata : forall want, rrtype_res want key = FMatch -> base128 t mod u32 = want.
  Proof using HT HX HL.
    intros want H. unfold rrtype_res, rrtype_pos in H.
    change (rd key 0) with (@Ok N ENTRY_TYPE_RDATA) in H. cbn [bind] in H. change (ENTRY_TYPE_RDATA =? ENTRY_TYPE_RRSET) with false in H. rewrite N.eqb_refl in H. cbv iota in H.
    rewrite rdata_key_length in H. cbn [bind] in H. rewrite rdata_after_tail, (read32_finished t _ HX HT) in H. cbn [bind fst snd] in H.
    destruct (Nat.eqb_spec (length t) 0); [discriminate|]. destruct (N.eqb_spec (base128 t mod u32) want); [assumption|discriminate].
  Qed.
  Lemma names_rdata : rdata_name_res key = FMatch -> bears_name (base128 t mod u32).
  Proof using HT HX HL.
    intros H. unfold rdata_name_res in H. rewrite rdata_key_length in H. cbn [bind] in H. rewrite rdata_after_tail, (read32_finished t _ HX HT) in H. cbn [bind fst snd] in H.
    destruct (name_type_all (base128 t mod u32)) eqn:E; [|discriminate]. unfold name_type_all, name_type_standalone in E. unfold bears_name.
    apply orb_true_iff in E. destruct E as [E|E]; apply existsb_exists in E; destruct E as (x & Hx & Ex); apply N.eqb_eq in Ex; subst x; cbn in Hx |- *; tauto.
  Qed.
End Rdata.

(** ** Values *)

Lemma time_kept : forall q v f l c, bytes_ok v -> numbers [f; l; c] v ->
  (has_time_bound q = true -> time_res q false v = FMatch) -> bounds_kept q f l.
Proof.
  intros q v f l c HB HN H. unfold bounds_kept. destruct (has_time_bound q) eqn:EH.
  - specialize (H eq_refl). unfold time_res in H. rewrite (triplet_of f l c v HB HN) in H. cbn [bind] in H.
    destruct (q_do_tfa q), (q_do_tfb q), (q_do_tla q), (q_do_tlb q); cbn [andb] in H;
      repeat match type of H with context [?a <? ?b] => destruct (N.ltb_spec a b); try discriminate H end; repeat split; intro; try discriminate; assumption.
  - unfold has_time_bound in EH. destruct (q_do_tfa q), (q_do_tfb q), (q_do_tla q), (q_do_tlb q); try discriminate EH; repeat split; discriminate.
Qed.
Lemma short_unbounded : forall q v, bytes_ok v -> short 3 v -> (has_time_bound q = true -> time_res q false v = FMatch) -> no_bounds q.
Proof.
  intros q v HB HS H. destruct (has_time_bound q) eqn:EH.
  - specialize (H eq_refl). unfold time_res in H. rewrite (triplet_short v HB HS) in H. discriminate.
  - unfold has_time_bound in EH. unfold no_bounds. destruct (q_do_tfa q), (q_do_tfb q), (q_do_tla q), (q_do_tlb q); try discriminate EH; auto.
Qed.
Lemma cut_nil : forall n, cut (S n) [].
Proof. intro n. split; [constructor|cbn; lia]. Qed.

(** ** Entries of each kind *)

Lemma holds_rrset_inv : forall buf v c, holds (ENTRY_TYPE_RRSET :: buf) v c -> exists owner t bw rest ds f l n,
  buf = rwire owner ++ t ++ rwire bw ++ rest /\ name_ok owner /\ name_ok bw /\ finished 5 t /\
  c = CRrset owner (base128 t mod u32) bw ds f l n /\ numbers [f; l; n] v.
Proof.
  intros buf v c H. inversion H as [buf' owner ty bw rest ds val f l n HF HI HN| | | | | | |k' buf' val HU]; subst; try discriminate.
  - inversion HF; subst. do 8 eexists. split; [reflexivity|]. auto.
  - exfalso. apply HU. left. reflexivity.
Qed.
Lemma holds_rdata_inv : forall buf v c, holds (ENTRY_TYPE_RDATA :: buf) v c -> exists tail t owner slice d f l n,
  buf = tail ++ t ++ rwire owner ++ slice ++ enc_le16 (blen tail) /\ finished 5 t /\ blen tail < 65536 /\
  c = CRdata owner (base128 t mod u32) d f l n /\ numbers [f; l; n] v.
Proof.
  intros buf v c H. inversion H as [| |buf' owner ty d val f l n HF HN| | | | |k' buf' val HU]; subst; try discriminate.
  - inversion HF; subst. do 8 eexists. split; [reflexivity|]. auto.
  - exfalso. apply HU. do 2 right. left. reflexivity.
Qed.

Lemma sat_timed : forall (b : bool) h t k v, sat h (if b then STimeout (SBase t) else SBase t) k v -> In (k, v) t /\ in_window h k = true.
Proof. intros [|] h t k v H; exact H. Qed.
Lemma sat_cond : forall (b : bool) st ff h s k v, sat h (filter_set_cond b st ff s) k v -> sat h s k v /\ (b = true -> exists w w', ff w k v = (FMatch, w')).
Proof. intros [|] st ff h s k v H; [cbn in H|split; [exact H|discriminate]]. split; [apply H|intros _; apply H]. Qed.
Lemma sat_bailiwick : forall q h s k v, sat h (opt_filter_bailiwick q s) k v ->
  sat h s k v /\ forall b, q_bailiwick q = Some b -> bailiwick_res b k = FMatch.
Proof.
  intros q h s k v H. unfold opt_filter_bailiwick in H. destruct (q_bailiwick q) as [b|]; [|split; [exact H|discriminate]].
  destruct H as [H (w & w' & E)]. split; [exact H|]. intros b' Eb. injection Eb as <-. unfold filter_bailiwick in E. injection E as E _. exact E.
Qed.

Lemma asks_one : forall q a b, asks_name q a -> asks_name q b -> a = b.
Proof. intros q a b [E1 [H1 _]] [E2 [H2 _]]. apply wire_inj; [exact H1|exact H2|]. congruence. Qed.
Lemma asks_data : forall q n, asks_name q n -> name_data q = wire n.
Proof. intros q n [E _]. unfold name_data. rewrite E. reflexivity. Qed.
Lemma asks_reverse : forall n rest, name_ok n -> reverse_buf (wire n ++ rest) (N.of_nat (length (wire n))) = Ok (rwire n).
Proof.
  intros n rest H. unfold reverse_buf, WDNS_MAXLEN_NAME. destruct H as [H HL]. destruct (N.ltb_spec 255 (N.of_nat (length (wire n)))); [lia|].
  apply reverse_wire_gen, label_ok_nonempty. exact H.
Qed.
Lemma lookup_reverse : forall mem name, wdns_reverse_name mem (blen mem) = Ok name -> exists ls, mem = wire ls /\ long_labels ls /\ name = rwire ls.
Proof.
  intros mem name H. unfold wdns_reverse_name in H. destruct (N.eqb_spec (blen mem) 0); [discriminate|].
  pose proof (reverse_outcome (S (length mem)) mem 0 [0] ltac:(lia)) as R. rewrite N.add_0_l in R.
  match type of H with ?a = _ => match type of R with rev_outcome _ _ ?b => change a with b in H end end. rewrite H in R.
  inversion R as [ls E HL Er| | |]; subst. exists ls. split; [reflexivity|]. split; [exact HL|]. reflexivity.
Qed.

(** ** The plan of a query *)

(** Where the entries of the index come from. *)
Definition index_plus (q : query) : bool :=
  match (match q_type q with QRrset => is_right_wildcard (name_data q) | _ => is_left_wildcard (name_data q) end) with Some b => b | None => false end.
Definition index_source (q : query) (p : plan) (idx : source) : source :=
  filter_set_cond (index_plus q) StSingleLabel (filter_single_label (length (p_key p))) idx.
Definition placed (q : query) (p : plan) (idx : source) (k v : bytes) : Prop :=
  match p_index p with
  | None => sat (match p_key2 p with Some k2 => HRange (p_key p) k2 | None => HPrefix (p_key p) end) (p_source p) k v
  | Some (tb, _) => exists ki vi fk, sat (HPrefix (p_key p)) (index_source q p idx) ki vi /\ index_lookup_key q tb ki vi = Ok (Some fk) /\ sat (HPrefix fk) (p_source p) k v
  end.

Lemma plan_index : forall q src idx p, query_init q src idx = Ok p -> forall tb it, p_index p = Some (tb, it) ->
  over (HPrefix (p_key p)) (index_source q p idx) it.
Proof.
  intros q src idx p E tb it EI. unfold index_source, index_plus. unfold query_init, init_rrset, init_rdata_name, init_rdata_ip, init_rdata_raw, init_simple, init_version in E.
  destruct (q_type q).
  - destruct (is_left_wildcard (name_data q)).
    { unfold init_rrset_left_wildcard in E. destruct (reverse_buf _ _); cbn [bind] in E; try discriminate. injection E as <-. discriminate. }
    destruct (is_right_wildcard (name_data q)).
    { unfold init_rrset_right_wildcard in E. injection E as <-. cbn [p_index p_key] in *. injection EI as <- <-. apply open_over. }
    destruct (reverse_buf _ _); cbn [bind] in E; try discriminate. destruct (q_do_rrtype q); [|injection E as <-; discriminate].
    destruct (add_rrtype_to_key _ _); cbn [bind] in E; try discriminate. injection E as <-. discriminate.
  - destruct (is_right_wildcard (name_data q)).
    { unfold init_rdata_right_wildcard in E. injection E as <-. discriminate. }
    destruct (is_left_wildcard (name_data q)).
    { unfold init_rdata_left_wildcard in E. destruct (reverse_buf _ _); cbn [bind] in E; try discriminate. injection E as <-. cbn [p_index p_key] in *. injection EI as <- <-. apply open_over. }
    destruct (if q_do_rrtype q && name_type_standalone (q_rrtype q) then _ else _); cbn [bind] in E; try discriminate. injection E as <-. discriminate.
  - destruct (negb (q_do_rrtype q)); [discriminate|]. destruct (q_len_ip1 q =? 0); [discriminate|]. destruct (add_rrtype_to_key _ _); cbn [bind] in E; try discriminate.
    match type of E with (let* key2 := ?x in _) = _ => destruct x end; cbn [bind] in E; try discriminate. injection E as <-. discriminate.
  - destruct (_ <? _); [discriminate|]. injection E as <-. discriminate.
  - injection E as <-. discriminate.
  - injection E as <-. discriminate.
  - injection E as <-. discriminate.
Qed.

(** Everything planned comes from the source. *)
Lemma plan_stored : forall q (tm : bool) t idx p h k v0, query_init q (if tm then STimeout (SBase t) else SBase t) idx = Ok p ->
  sat h (p_source p) k v0 -> In (k, v0) t.
Proof.
  intros q tm t idx p h k v0 E H. unfold query_init, init_rrset, init_rdata_name, init_rdata_ip, init_rdata_raw, init_simple, init_version in E.
  destruct (q_type q).
  - destruct (is_left_wildcard (name_data q)).
    { unfold init_rrset_left_wildcard in E. destruct (reverse_buf _ _); cbn [bind] in E; try discriminate. injection E as <-. cbn [p_source] in H.
      apply sat_bailiwick in H. destruct H as [H _]. apply sat_cond in H. destruct H as [H _]. apply sat_cond in H. destruct H as [H _]. apply sat_timed in H. apply H. }
    destruct (is_right_wildcard (name_data q)).
    { unfold init_rrset_right_wildcard in E. injection E as <-. cbn [p_source] in H. apply sat_bailiwick in H. destruct H as [H _]. apply sat_cond in H. destruct H as [H _]. apply sat_timed in H. apply H. }
    destruct (reverse_buf _ _); cbn [bind] in E; try discriminate. destruct (q_do_rrtype q); [|injection E as <-; cbn [p_source] in H; apply sat_bailiwick in H; destruct H as [H _]; apply sat_timed in H; apply H].
    destruct (add_rrtype_to_key _ _); cbn [bind] in E; try discriminate. injection E as <-. cbn [p_source] in H. apply sat_timed in H. apply H.
  - destruct (is_right_wildcard (name_data q)).
    { unfold init_rdata_right_wildcard in E. injection E as <-. cbn [p_source] in H. apply sat_cond in H. destruct H as [[H _] _]. apply sat_timed in H. apply H. }
    destruct (is_left_wildcard (name_data q)).
    { unfold init_rdata_left_wildcard in E. destruct (reverse_buf _ _); cbn [bind] in E; try discriminate. injection E as <-. destruct H as [H _]. apply sat_timed in H. apply H. }
    destruct (if q_do_rrtype q && name_type_standalone (q_rrtype q) then _ else _); cbn [bind] in E; try discriminate. injection E as <-. destruct H as [H _]. apply sat_timed in H. apply H.
  - destruct (negb (q_do_rrtype q)); [discriminate|]. destruct (q_len_ip1 q =? 0); [discriminate|]. destruct (add_rrtype_to_key _ _); cbn [bind] in E; try discriminate.
    match type of E with (let* key2 := ?x in _) = _ => destruct x end; cbn [bind] in E; try discriminate. injection E as <-. destruct H as [H _]. apply sat_timed in H. apply H.
  - destruct (_ <? _); [discriminate|]. injection E as <-. cbn [p_source] in H. apply sat_cond in H. destruct H as [H _]. apply sat_timed in H. apply H.
  - injection E as <-. apply sat_timed in H. apply H.
  - injection E as <-. apply sat_timed in H. apply H.
  - injection E as <-. apply sat_timed in H. apply H.
Qed.

Lemma key_starts : forall (k : bytes) T K, is_prefix (T :: K) k = true -> exists buf, k = T :: K ++ buf.
Proof. intros k T K H. apply prefix_iff in H. destruct H as (buf & ->). exists buf. reflexivity. Qed.
Lemma front_bytes : forall k T a t0 r, bytes_ok k -> k = T :: a ++ t0 ++ r -> bytes_ok t0.
Proof. intros k T a t0 r HK ->. inversion HK as [|? ? _ HK']; subst. apply bytes_ok_app in HK'. destruct HK' as [_ HK']. apply bytes_ok_app in HK'. apply HK'. Qed.

Section Plan.
  Context (q : query) (tm : bool) (t ti : table) (p : plan) (k v0 v : bytes) (c : content).
  Let src := if tm then STimeout (SBase t) else SBase t.
  Let idx := if tm then STimeout (SBase ti) else SBase ti.
  Hypothesis HW : well_posed q.
  Hypothesis HP : query_init q src idx = Ok p.
  Hypothesis HD : placed q p idx k v0.
  Hypothesis HH : holds k v c.
  Hypothesis HK : bytes_ok k.
  Hypothesis HV : bytes_ok v.
  Hypothesis HT : has_time_bound q = true -> time_res q false v = FMatch.

  (** RRset queries: the four ways to say which entries have the type and bailiwick. *)
  Lemma rrset_asked : q_type q = QRrset -> forall buf name, k = ENTRY_TYPE_RRSET :: buf -> asks_name q name ->
    (forall owner t0 bw rest, buf = rwire owner ++ t0 ++ rwire bw ++ rest -> name_ok owner -> name_ok bw -> finished 5 t0 -> bytes_ok t0 ->
      fits name owner /\ type_ok q (base128 t0 mod u32) /\ forall b, asks_bailiwick q (Some b) -> bw = b) -> asked q k c.
  Proof using HH HK HV HT.
    intros EQ buf name EK HN H. pose proof HH as HH'. rewrite EK in HH'. apply holds_rrset_inv in HH'.
    destruct HH' as (owner & t0 & bw & rest & ds & f & l & n & E & HO & HB & HF & -> & HNum).
    assert (HX : bytes_ok t0) by (eapply front_bytes; [exact HK|]; rewrite EK, E; reflexivity).
    destruct (H _ _ _ _ E HO HB HF HX) as (H1 & H2 & H3). unfold asked. rewrite EQ. split; [|split; [exact H2|split; [exact H3|exact (time_kept q v f l n HV HNum HT)]]].
    intros name' HN' _. rewrite (asks_one _ _ _ HN' HN). exact H1.
  Qed.

  Lemma wild_conditions : forall h s buf, k = ENTRY_TYPE_RRSET :: buf ->
    sat h (opt_filter_bailiwick q (filter_set_cond (q_do_rrtype q) StRrtype (filter_rrtype q) s)) k v0 ->
    sat h s k v0 /\ forall owner t0 bw rest, buf = rwire owner ++ t0 ++ rwire bw ++ rest -> name_ok owner -> name_ok bw -> finished 5 t0 -> bytes_ok t0 ->
      type_ok q (base128 t0 mod u32) /\ forall b, asks_bailiwick q (Some b) -> bw = b.
  Proof using.
    intros h s buf EK H. apply sat_bailiwick in H. destruct H as [H HB]. apply sat_cond in H. destruct H as [H HR]. split; [exact H|].
    intros owner t0 bw rest -> HO HBw HF HX. split.
    - intro ED. destruct (HR ED) as (w & w' & E). unfold filter_rrtype in E. injection E as E _. rewrite EK in E. exact (rrtype_rrset owner t0 bw rest HO HF HX _ E).
    - intros b [Eb Hb]. specialize (HB _ Eb). rewrite EK in HB. exact (bailiwick_rrset owner t0 bw rest HO HBw HF HX b Hb HB).
  Qed.

  Lemma rrset_planned : q_type q = QRrset -> asked q k c.
  Proof using HW HP HD HH HK HV HT.
    intro EQ. destruct (wp_name q HW EQ) as (name & HN & HS). destruct (wp_bailiwick q HW EQ) as (obw & HBW).
    pose proof HP as E. unfold query_init in E. rewrite EQ in E. unfold init_rrset in E. rewrite (asks_data _ _ HN) in E.
    pose proof (proj2 HN) as HNK. unfold placed in HD. destruct HS as [name HL HR|ch x Hc HR|ch x Hc HL].
    - rewrite (left_wild_none _ HNK HL), (right_wild_none _ HNK HR) in E.
      pose proof (asks_reverse name [] HNK) as ER. rewrite app_nil_r in ER. change (blen (wire name)) with (N.of_nat (length (wire name))) in E. rewrite ER in E. cbn [bind] in E.
      destruct (q_do_rrtype q) eqn:ED.
      + unfold add_rrtype_to_key in E. destruct (q_rrtype q =? WDNS_TYPE_ANY); [discriminate|]. cbn [bind] in E. injection E as E. rewrite <- E in HD. cbn [p_index p_key p_key2 p_source] in HD.
        apply sat_timed in HD. destruct HD as [_ HW1]. cbn [in_window] in HW1.
        assert (HE : exists rest0, k = ENTRY_TYPE_RRSET :: rwire name ++ varint_encode32 (q_rrtype q) ++ (match q_bailiwick q with Some bw => bw | None => [] end) ++ rest0).
        { destruct (q_bailiwick q); cbn [app] in HW1; destruct (key_starts _ _ _ HW1) as (r & ->); exists r; rewrite <- ?app_assoc; reflexivity. }
        destruct HE as (rest0 & EK). eapply rrset_asked; [exact EQ|exact EK|exact HN|].
        intros owner t0 bw rest EB HO HBw HF HX. unfold rwire at 1 in EB. apply owner_named in EB; [|exact HO|apply long_rev, name_long; exact HNK].
        destruct EB as [-> EB]. rewrite rev_involutive. split; [constructor; assumption|].
        apply type_named in EB; [|exact HF|exact HX|apply (wp_type q HW); exact ED]. destruct EB as [ET EB]. split; [intros _; exact ET|].
        intros b [Eb Hb]. rewrite Eb in EB. cbn [option_map] in EB. unfold rwire in EB. apply long_wire_inj in EB; [|apply long_rev, name_long; exact Hb|apply long_rev, name_long; exact HBw].
        rewrite <- (rev_involutive bw), <- (proj1 EB), rev_involutive. reflexivity.
      + injection E as E. rewrite <- E in HD. cbn [p_index p_key p_key2 p_source] in HD. apply sat_bailiwick in HD. destruct HD as [HD1 HB1].
        apply sat_timed in HD1. destruct HD1 as [_ HW1]. cbn [in_window] in HW1. destruct (key_starts _ _ _ HW1) as (r & EK). eapply rrset_asked; [exact EQ|exact EK|exact HN|].
        intros owner t0 bw rest EB HO HBw HF HX. pose proof EB as EB'. unfold rwire at 1 in EB'. apply owner_named in EB'; [|exact HO|apply long_rev, name_long; exact HNK].
        destruct EB' as [-> _]. rewrite rev_involutive in *. split; [constructor; assumption|]. split; [intro C; congruence|].
        intros b [Eb Hb]. specialize (HB1 _ Eb). rewrite EK, EB in HB1. exact (bailiwick_rrset _ t0 bw rest HO HBw HF HX b Hb HB1).
    - rewrite (left_wild_some _ _ Hc) in E. unfold init_rrset_left_wildcard in E. rewrite (asks_data _ _ HN) in E.
      assert (HX : name_ok x) by (apply name_ok_cons in HNK; apply HNK).
      rewrite wire_cons in E. change (skipn 2 (blen [ch] :: [ch] ++ wire x)) with (wire x) in E. cbn [app length] in E.
      replace (S (S (length (wire x))) - 2)%nat with (length (wire x)) in E by lia.
      pose proof (asks_reverse x [] HX) as ER. rewrite app_nil_r in ER. rewrite ER in E. cbn [bind] in E.
      assert (EF : firstn (length (wire x) - 1) (rwire x) = enc_labels (rev x)).
      { rewrite <- length_rwire. unfold rwire, wire. rewrite app_length. cbn [length]. rewrite Nat.add_sub. apply firstn_app_at. }
      rewrite EF in E. injection E as E. rewrite <- E in HD. cbn [p_index p_key p_key2 p_source] in HD.
      assert (EK : exists r, k = ENTRY_TYPE_RRSET :: enc_labels (rev x) ++ r).
      { apply sat_bailiwick in HD. destruct HD as [HD1 _]. apply sat_cond in HD1. destruct HD1 as [HD1 _]. apply sat_cond in HD1. destruct HD1 as [HD1 _].
        apply sat_timed in HD1. destruct HD1 as [_ HW1]. apply key_starts. exact HW1. }
      destruct EK as (r & EK). destruct (wild_conditions _ _ _ EK HD) as [HD1 HC]. apply sat_cond in HD1. destruct HD1 as [_ HSL].
      eapply rrset_asked; [exact EQ|exact EK|exact HN|]. intros owner t0 bw rest EB HO HBw HF HX0. split; [|eapply HC; eassumption].
      unfold rwire at 1 in EB. pose proof EB as EB2. apply long_wire_start in EB; [|apply long_rev, name_long; exact HX|apply long_rev, name_long; exact HO].
      destruct EB as (y & EY & Er). assert (EO : owner = rev y ++ x) by (rewrite <- (rev_involutive owner), EY, rev_app_distr, rev_involutive; reflexivity).
      rewrite EO. constructor; [exact Hc|exact HR|]. intro Ep. destruct (HSL ltac:(rewrite Ep; reflexivity)) as (w & w' & EM). unfold filter_single_label in EM. injection EM as EM _.
      apply single_label_match in EM. destruct EM as (l & more & Hl & EM). rewrite EK in EM. cbn [length skipn] in EM. rewrite skipn_app_at, Er in EM.
      pose proof (long_rev owner (name_long owner HO)) as HLy. rewrite EY in HLy. apply Forall_app in HLy. destruct HLy as [_ HLy].
      apply long_wire_inj in EM; [|exact HLy|repeat constructor; destruct l; [congruence|cbn; lia]].
      rewrite rev_length, (proj1 EM). reflexivity.
    - rewrite (left_wild_none _ HNK HL), (right_wild_some _ _ Hc) in E. unfold init_rrset_right_wildcard in E. rewrite (asks_data _ _ HN) in E.
      assert (EF : firstn (length (wire (x ++ [[ch]])) - 3) (wire (x ++ [[ch]])) = enc_labels x).
      { rewrite wire_snoc. change (blen [ch] :: [ch] ++ [0]) with [1; ch; 0]. rewrite app_length. cbn [length]. rewrite Nat.add_sub. apply firstn_app_at. }
      rewrite EF in E. injection E as E. rewrite <- E in HD. cbn [p_index p_key p_key2 p_source] in HD. destruct HD as (ki & vi & fk & HI & HL1 & HS1).
      unfold index_source, index_plus in HI. rewrite EQ, (asks_data _ _ HN), (right_wild_some _ _ Hc) in HI. cbn [p_key] in HI. apply sat_cond in HI. destruct HI as [HI HSL].
      apply sat_timed in HI. destruct HI as [_ HWI]. cbn [in_window] in HWI. apply prefix_iff in HWI. destruct HWI as (ri & EKI). cbn [app] in EKI.
      unfold index_lookup_key in HL1. match type of HL1 with (let* t := ?a in _) = _ => destruct a as [ok| | | |]; cbn [bind] in HL1; try discriminate end.
      destruct ok; cbn [negb] in HL1; [|discriminate].
      assert (EBK : blen ki - 1 = blen (skipn 1 ki)) by (unfold blen; rewrite skipn_length; lia). rewrite EBK in HL1.
      destruct (wdns_reverse_name (skipn 1 ki) (blen (skipn 1 ki))) as [nm| | | |] eqn:ERN; cbn [bind] in HL1; try discriminate.
      apply lookup_reverse in ERN. destruct ERN as (ls & ES & HLs & ->).
      assert (EFK : exists m, fk = ENTRY_TYPE_RRSET :: rwire ls ++ m).
      { destruct (q_do_rrtype q && _); [|injection HL1 as <-; exists []; rewrite app_nil_r; reflexivity].
        unfold add_rrtype_to_key in HL1. destruct (_ =? WDNS_TYPE_ANY); cbn [bind] in HL1; [discriminate|]. injection HL1 as <-. cbn [app]. eexists. reflexivity. }
      destruct EFK as (m & ->).
      assert (EK : exists r, k = ENTRY_TYPE_RRSET :: rwire ls ++ r).
      { pose proof HS1 as HS2. apply sat_bailiwick in HS2. destruct HS2 as [HS2 _]. apply sat_cond in HS2. destruct HS2 as [HS2 _]. apply sat_timed in HS2. destruct HS2 as [_ HW1].
        destruct (key_starts _ _ _ HW1) as (r & ->). exists (m ++ r). rewrite <- app_assoc. reflexivity. }
      destruct EK as (r & EK). destruct (wild_conditions _ _ _ EK HS1) as [_ HC].
      eapply rrset_asked; [exact EQ|exact EK|exact HN|]. intros owner t0 bw rest EB HO HBw HF HX0. split; [|eapply HC; eassumption].
      unfold rwire at 1 in EB. apply owner_named in EB; [|exact HO|apply long_rev; exact HLs]. destruct EB as [EO _]. rewrite rev_involutive in EO. subst ls.
      rewrite EKI in ES. cbn [skipn] in ES. rewrite <- (app_nil_r (wire owner)) in ES.
      assert (HLx : long_labels x) by (apply name_long in HNK; apply Forall_app in HNK; apply HNK).
      apply long_wire_start in ES; [|exact HLx|exact HLs]. destruct ES as (y & EO & Er). rewrite EO. constructor; [exact Hc|exact HL|].
      intro Ep. destruct (HSL ltac:(rewrite Ep; reflexivity)) as (w & w' & EM). unfold filter_single_label in EM. injection EM as EM _.
      apply single_label_match in EM. destruct EM as (l & more & Hl & EM). rewrite EKI in EM. cbn [length skipn] in EM. rewrite skipn_app_at, Er in EM.
      apply long_wire_inj in EM; [rewrite (proj1 EM); reflexivity| |repeat constructor; destruct l; [congruence|cbn; lia]].
      rewrite EO in HLs. apply Forall_app in HLs. apply HLs.
  Qed.

  (** RData entries. *)
  Lemma rdata_read : forall buf, k = ENTRY_TYPE_RDATA :: buf -> exists owner t0 d f l n,
    c = CRdata owner (base128 t0 mod u32) d f l n /\ bounds_kept q f l /\
    (forall want, rrtype_res want k = FMatch -> base128 t0 mod u32 = want) /\ (rdata_name_res k = FMatch -> bears_name (base128 t0 mod u32)).
  Proof using HH HK HV HT.
    intros buf EK. pose proof HH as HH'. rewrite EK in HH'. apply holds_rdata_inv in HH'. destruct HH' as (tail & t0 & owner & slice & d & f & l & n & E & HF & HL & -> & HNum).
    assert (HX : bytes_ok t0) by (eapply front_bytes; [exact HK|]; rewrite EK, E; reflexivity).
    exists owner, t0, d, f, l, n. split; [reflexivity|]. split; [exact (time_kept q v f l n HV HNum HT)|]. rewrite EK, E. split.
    - intros want. apply rrtype_rdata; assumption.
    - apply names_rdata; assumption.
  Qed.

  Lemma named_filter : forall h s, sat h (SFilter StRrtype (if q_do_rrtype q then filter_rrtype q else filter_rrtype_rdata_name) s) k v0 ->
    sat h s k v0 /\ (q_do_rrtype q = true -> rrtype_res (q_rrtype q) k = FMatch) /\ (q_do_rrtype q = false -> rdata_name_res k = FMatch).
  Proof using.
    intros h s [H (w & w' & E)]. split; [exact H|]. destruct (q_do_rrtype q); split; intro; try discriminate; [unfold filter_rrtype in E|unfold filter_rrtype_rdata_name in E]; injection E as E _; exact E.
  Qed.

  Lemma rdata_name_asked : q_type q = QRdataName -> forall buf, k = ENTRY_TYPE_RDATA :: buf ->
    (q_do_rrtype q = true -> rrtype_res (q_rrtype q) k = FMatch) -> (q_do_rrtype q = false -> rdata_name_res k = FMatch) ->
    (forall name, asks_name q name -> one_sided name -> opens name buf) -> asked q k c.
  Proof using HH HK HV HT.
    intros EQ buf EK H1 H2 H3. destruct (rdata_read _ EK) as (owner & t0 & d & f & l & n & -> & HB & HA & HN). unfold asked. rewrite EQ.
    split; [intros name Hn Ho; exists buf; auto|]. split; [intro ED; auto|]. split; [intro ED; auto|exact HB].
  Qed.

  Lemma rdata_name_planned : q_type q = QRdataName -> asked q k c.
  Proof using HP HD HH HK HV HT.
    intro EQ. pose proof HP as E. unfold query_init in E. rewrite EQ in E. unfold init_rdata_name in E. unfold placed in HD.
    destruct (is_right_wildcard (name_data q)) as [wp|] eqn:ER.
    - unfold init_rdata_right_wildcard in E. injection E as E. rewrite <- E in HD. cbn [p_index p_key p_key2 p_source] in HD. apply sat_cond in HD. destruct HD as [HD1 HSL].
      apply named_filter in HD1. destruct HD1 as (HD1 & H1 & H2). apply sat_timed in HD1. destruct HD1 as [_ HW1]. destruct (key_starts _ _ _ HW1) as (r & EK).
      eapply rdata_name_asked; [exact EQ|exact EK|exact H1|exact H2|]. intros name Hn Ho. pose proof (asks_data _ _ Hn) as EN. pose proof (proj2 Hn) as HNK. rewrite EN in *.
      destruct Ho as [name HL HR|ch x Hc HR|ch x Hc HL]; [rewrite (right_wild_none _ HNK HR) in ER; discriminate|rewrite (right_wild_none _ HNK HR) in ER; discriminate|].
      rewrite (right_wild_some _ _ Hc) in ER. injection ER as <-.
      assert (EF : firstn (length (wire (x ++ [[ch]])) - 3) (wire (x ++ [[ch]])) = enc_labels x).
      { rewrite wire_snoc. change (blen [ch] :: [ch] ++ [0]) with [1; ch; 0]. rewrite app_length. cbn [length]. rewrite Nat.add_sub. apply firstn_app_at. }
      rewrite EF in *. constructor; [exact Hc|]. intro Ep. destruct (HSL ltac:(rewrite Ep; reflexivity)) as (w & w' & EM). unfold filter_single_label in EM. injection EM as EM _.
      apply single_label_match in EM. destruct EM as (l & more & Hl & EM). rewrite EK in EM. cbn [length skipn] in EM. rewrite skipn_app_at in EM. exists l, more. auto.
    - destruct (is_left_wildcard (name_data q)) as [wp|] eqn:EL.
      + unfold init_rdata_left_wildcard in E. destruct (reverse_buf (skipn 2 (name_data q)) (N.of_nat (length (name_data q) - 2))) as [rn| | | |] eqn:ERB; cbn [bind] in E; try discriminate.
        injection E as E. rewrite <- E in HD. cbn [p_index p_key p_key2 p_source] in HD. destruct HD as (ki & vi & fk & HI & HL1 & HS1).
        unfold index_source, index_plus in HI. rewrite EQ, EL in HI. cbn [p_key] in HI. apply sat_cond in HI. destruct HI as [HI HSL].
        apply sat_timed in HI. destruct HI as [_ HWI]. cbn [in_window] in HWI. apply prefix_iff in HWI. destruct HWI as (ri & EKI). cbn [app] in EKI.
        unfold index_lookup_key in HL1. match type of HL1 with (let* t := ?a in _) = _ => destruct a as [ok| | | |]; cbn [bind] in HL1; try discriminate end.
        destruct ok; cbn [negb] in HL1; [|discriminate].
        assert (EBK : blen ki - 1 = blen (skipn 1 ki)) by (unfold blen; rewrite skipn_length; lia). rewrite EBK in HL1.
        destruct (wdns_reverse_name (skipn 1 ki) (blen (skipn 1 ki))) as [nm| | | |] eqn:ERN; cbn [bind] in HL1; try discriminate.
        apply lookup_reverse in ERN. destruct ERN as (ls & ES & HLs & ->).
        assert (EFK : exists m, fk = ENTRY_TYPE_RDATA :: rwire ls ++ m).
        { match type of HL1 with (if ?b then _ else _) = _ => destruct b end; [|injection HL1 as <-; exists []; rewrite app_nil_r; reflexivity].
          unfold add_rrtype_to_key in HL1. destruct (_ =? WDNS_TYPE_ANY); cbn [bind] in HL1; [discriminate|]. injection HL1 as <-. cbn [app]. eexists. reflexivity. }
        destruct EFK as (m & ->). apply named_filter in HS1. destruct HS1 as (HS1 & H1 & H2). apply sat_timed in HS1. destruct HS1 as [_ HW1].
        destruct (key_starts _ _ _ HW1) as (r & EK). rewrite <- app_assoc in EK.
        eapply rdata_name_asked; [exact EQ|exact EK|exact H1|exact H2|]. intros name Hn Ho. pose proof (asks_data _ _ Hn) as EN. pose proof (proj2 Hn) as HNK. rewrite EN in *.
        destruct Ho as [name HL HR|ch x Hc HR|ch x Hc HL]; [rewrite (left_wild_none _ HNK HL) in EL; discriminate| |rewrite (left_wild_none _ HNK HL) in EL; discriminate].
        rewrite (left_wild_some _ _ Hc) in EL. injection EL as <-.
        assert (HX : name_ok x) by (apply name_ok_cons in HNK; apply HNK).
        rewrite wire_cons in *. change (skipn 2 (blen [ch] :: [ch] ++ wire x)) with (wire x) in *. cbn [app length] in *.
        replace (S (S (length (wire x))) - 2)%nat with (length (wire x)) in * by lia.
        pose proof (asks_reverse x [] HX) as ER2. rewrite app_nil_r, ERB in ER2. injection ER2 as ->.
        assert (EF : firstn (length (wire x) - 1) (rwire x) = enc_labels (rev x)).
        { rewrite <- length_rwire. unfold rwire, wire. rewrite app_length. cbn [length]. rewrite Nat.add_sub. apply firstn_app_at. }
        rewrite EF in *. rewrite EKI in ES. cbn [skipn] in ES. rewrite <- (app_nil_r (wire ls)) in ES.
        apply long_wire_start in ES; [|apply long_rev, name_long; exact HX|exact HLs]. destruct ES as (y & EO & Er).
        unfold rwire at 1. rewrite EO, rev_app_distr, rev_involutive. constructor; [exact Hc|exact HR|].
        intro Ep. destruct (HSL ltac:(rewrite Ep; reflexivity)) as (w & w' & EM). unfold filter_single_label in EM. injection EM as EM _.
        apply single_label_match in EM. destruct EM as (l & more & Hl & EM). rewrite EKI in EM. cbn [length skipn] in EM. rewrite skipn_app_at, Er in EM.
        rewrite EO in HLs. apply Forall_app in HLs. destruct HLs as [_ HLy].
        apply long_wire_inj in EM; [rewrite rev_length, (proj1 EM); reflexivity|exact HLy|repeat constructor; destruct l; [congruence|cbn; lia]].
      + assert (EK : exists r, k = ENTRY_TYPE_RDATA :: name_data q ++ r /\ sat (HPrefix (p_key p)) (SFilter StRrtype (if q_do_rrtype q then filter_rrtype q else filter_rrtype_rdata_name) src) k v0).
        { destruct (q_do_rrtype q && name_type_standalone (q_rrtype q)).
          - unfold add_rrtype_to_key in E. destruct (q_rrtype q =? WDNS_TYPE_ANY); cbn [bind] in E; [discriminate|]. injection E as E. rewrite <- E in HD |- *. cbn [p_index p_key p_key2 p_source] in HD |- *.
            destruct (sat_timed _ _ _ _ _ (proj1 HD)) as [_ HW1]. destruct (key_starts _ _ _ HW1) as (r & EK). rewrite <- app_assoc in EK. eauto.
          - cbn [bind] in E. injection E as E. rewrite <- E in HD |- *. cbn [p_index p_key p_key2 p_source] in HD |- *.
            destruct (sat_timed _ _ _ _ _ (proj1 HD)) as [_ HW1]. destruct (key_starts _ _ _ HW1) as (r & EK). eauto. }
        destruct EK as (r & EK & HS1). apply named_filter in HS1. destruct HS1 as (_ & H1 & H2).
        eapply rdata_name_asked; [exact EQ|exact EK|exact H1|exact H2|]. intros name Hn Ho. pose proof (asks_data _ _ Hn) as EN. pose proof (proj2 Hn) as HNK. rewrite EN in *.
        destruct Ho as [name HL HR|ch x Hc HR|ch x Hc HL]; [constructor; assumption|rewrite (left_wild_some _ _ Hc) in EL; discriminate|rewrite (right_wild_some _ _ Hc) in ER; discriminate].
  Qed.

  Lemma ip_planned : q_type q = QRdataIp -> asked q k c.
  Proof using HP HD HH HK HV HT.
    intro EQ. pose proof HP as E. unfold query_init in E. rewrite EQ in E. unfold init_rdata_ip in E. unfold placed in HD.
    destruct (q_do_rrtype q) eqn:ED; cbn [negb] in E; [|discriminate]. destruct (q_len_ip1 q =? 0); [discriminate|].
    unfold add_rrtype_to_key in E at 1. destruct (q_rrtype q =? WDNS_TYPE_ANY); cbn [bind] in E; [discriminate|].
    match type of E with (let* key2 := ?x in _) = _ => destruct x as [key2| | | |]; cbn [bind] in E; try discriminate end. injection E as E.
    rewrite <- E in HD. cbn [p_index p_key p_key2 p_source app] in HD. destruct HD as [HD1 (w & w' & EM)].
    unfold filter_rrtype_ip in EM. injection EM as EM _. apply sat_timed in HD1. destruct HD1 as [_ HW1].
    assert (EM' : rrtype_res (q_rrtype q) k = FMatch).
    { unfold rrtype_ip_res in EM. destruct (rrtype_res (q_rrtype q) k); try discriminate EM; [reflexivity|]. exfalso. revert EM.
      unfold ip_seek. destruct (Nat.ltb _ _); [destruct (add_rrtype_to_key _ _); discriminate|]. destruct (add_rrtype_to_key _ _) as [sk| | | |]; try discriminate.
      destruct (Nat.ltb _ _); [discriminate|]. assert (HIi : forall a b, ip_increment a b <> FMatch).
      { intros a b. unfold ip_increment. destruct (increment_key a (b - 1)) as [[[|] k']| | | |]; try discriminate. destruct (rd k' 0); try discriminate. destruct (_ =? _); discriminate. }
      assert (HIl : forall f r s, ip_labels f r k s <> FMatch).
      { induction f as [|f IH]; intros r s; [discriminate|]. cbn [ip_labels]. destruct (rd k (length s)) as [llen| | | |]; try discriminate. destruct (63 <? llen); [apply HIi|].
        destruct (llen =? 0); [|destruct (Nat.ltb _ _); [discriminate|apply IH]]. destruct (r =? WDNS_TYPE_A); [destruct (blt _ _); [discriminate|apply HIi]|].
        destruct (r =? WDNS_TYPE_AAAA); [destruct (blt _ _); [discriminate|apply HIi]|discriminate]. }
      destruct (bytes_compare _ _); [|apply HIi|discriminate]. destruct (Nat.leb _ _); [discriminate|]. destruct (rd k (length sk)); try discriminate.
      destruct (_ && _); [apply HIi|apply HIl]. }
    assert (EK : exists buf, k = ENTRY_TYPE_RDATA :: buf).
    { assert (HB : exists b buf, k = b :: buf /\ ENTRY_TYPE_RDATA <= b).
      { destruct key2 as [k2|]; cbn [in_window] in HW1.
        - apply andb_true_iff in HW1. destruct HW1 as [HW1 _]. destruct k as [|b buf]; [discriminate|]. exists b, buf. split; [reflexivity|].
          unfold ble in HW1. cbn [bytes_compare] in HW1. destruct (N.compare_spec ENTRY_TYPE_RDATA b); [lia|lia|discriminate].
        - destruct (key_starts _ _ _ HW1) as (r & ->). exists ENTRY_TYPE_RDATA. eexists. split; [reflexivity|lia]. }
      destruct HB as (b & buf & Eb & Hb). exists buf. revert EM'. rewrite Eb. unfold rrtype_res, rrtype_pos. cbn [rd nth_error]. change (rd (b :: buf) 0) with (@Ok N b). cbn [bind].
      destruct (N.eqb_spec b ENTRY_TYPE_RRSET) as [->|_]; [unfold ENTRY_TYPE_RRSET, ENTRY_TYPE_RDATA in Hb; lia|].
      destruct (N.eqb_spec b ENTRY_TYPE_RDATA) as [->|_]; [reflexivity|discriminate]. }
    destruct EK as (buf & EK). destruct (rdata_read _ EK) as (owner & t0 & d & f & l & n & -> & HB & HA & _). unfold asked. rewrite EQ. auto.
  Qed.

  Lemma raw_planned : q_type q = QRdataRaw -> asked q k c.
  Proof using HP HD HH HK HV HT.
    intro EQ. pose proof HP as E. unfold query_init in E. rewrite EQ in E. unfold init_rdata_raw in E. unfold placed in HD.
    destruct (_ <? _); [discriminate|]. injection E as E. rewrite <- E in HD. cbn [p_index p_key p_key2 p_source] in HD. apply sat_cond in HD. destruct HD as [HD1 HR].
    apply sat_timed in HD1. destruct HD1 as [_ HW1]. destruct (key_starts _ _ _ HW1) as (r & EK).
    destruct (rdata_read _ EK) as (owner & t0 & d & f & l & n & -> & HB & HA & _). unfold asked. rewrite EQ. split; [|split; [|exact HB]].
    - intros raw Er Elen. exists r. rewrite EK, Er, Elen. unfold blen. rewrite Nnat.Nat2N.id, firstn_all. reflexivity.
    - intro ED. destruct (HR ED) as (w & w' & EM). unfold filter_rrtype in EM. injection EM as EM _. apply HA. exact EM.
  Qed.

  Lemma metadata_planned : q_type q = QTimeRange \/ q_type q = QSourceInfo \/ q_type q = QVersion -> asked q k c.
  Proof using HP HD HH HK HV HT.
    intro EQ. pose proof HP as E. unfold query_init, init_simple, init_version in E. unfold placed in HD.
    assert (EK : exists r, k = match q_type q with QTimeRange => [ENTRY_TYPE_TIME_RANGE] | QSourceInfo => [ENTRY_TYPE_SOURCE_INFO] | _ => ENTRY_TYPE_VERSION :: (if q_has_v_type q then [q_v_type q] else []) end ++ r).
    { destruct EQ as [EQ|[EQ|EQ]]; rewrite EQ in E |- *; injection E as E; rewrite <- E in HD; cbn [p_index p_key p_key2 p_source] in HD; apply sat_timed in HD; destruct HD as [_ HW1]; apply prefix_iff; exact HW1. }
    destruct EK as (r & EK). pose proof HH as HH'. rewrite EK in HH'. unfold asked. destruct EQ as [EQ|[EQ|EQ]]; rewrite EQ in HH' |- *; cbn [app] in HH'.
    - inversion HH' as [| | | |buf val f l HN| | |k' buf val HU]; subst; try discriminate; [|exfalso; apply HU; do 4 right; left; reflexivity].
      apply (short_unbounded q v HV); [|exact HT]. inversion HN as [|e1 ? l1 F1 N1]; subst. inversion N1 as [|e2 ? l2 F2 N2]; subst. inversion N2; subst.
      apply short_later; [exact F1|]. apply short_later; [exact F2|]. apply short_now, cut_nil.
    - inversion HH' as [| | | | | | |k' buf val HU]; subst; try discriminate; [exact I|exfalso; apply HU; do 5 right; left; reflexivity].
    - inversion HH' as [| | | | | |ty enc HF|k' buf val HU]; subst; try discriminate; [|exfalso; apply HU; do 6 right; left; reflexivity]. split.
      + intro ED. rewrite ED in *. cbn [app] in *. congruence.
      + apply (short_unbounded q v HV); [|exact HT]. rewrite <- (app_nil_r v). apply short_later; [|apply short_now, cut_nil].
        destruct HF as (init & last & -> & HA & HL2 & Hn). exists init, last. split; [reflexivity|]. split; [exact HA|]. split; [exact HL2|lia].
  Qed.

  Lemma planned : asked q k c.
  Proof using HW HP HD HH HK HV HT.
    destruct (q_type q) eqn:EQ; [apply rrset_planned|apply rdata_name_planned|apply ip_planned|apply raw_planned|apply metadata_planned|apply metadata_planned|apply metadata_planned]; auto.
  Qed.
End Plan.

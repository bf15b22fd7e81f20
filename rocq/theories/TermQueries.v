(** The filters and stages of every query go forward. *)
From Verif Require Import Base BaseFacts ModelVarint VarintProofs MergeProofs ModelWdns SpecName SpecMerge ModelMerge ModelEntry SpecEntry EntryProofs PropsEntry ModelUnion ModelIter SpecIter IterProofs.
From Verif Require Import ModelQuery SpecQuery KeyProofs SelectProofs HiddenProofs SpecDecode PropsDecode SpecMergeAny PropsMergeAny TermProofs.
From Verif Require JsonProofs.

(** ** Merging and decoding *)

Lemma triplet_ends : forall v, triplet_unpack v <> Hang.
Proof. intros v E. apply (triplet_no_hang v). unfold decode_val_triplet. rewrite E. reflexivity. Qed.
Lemma assert_ends : forall A (r : res A), r <> Hang -> assert_ok r <> Hang.
Proof. intros A [| | | |] H; cbn; congruence. Qed.
Lemma vers_ends : forall v, decode_vers v <> Hang.
Proof.
  intro v. unfold decode_vers. pose proof (varint32_no_hang v). destruct (varint_decode32 v) as [[n x]| | | |]; cbn [bind]; try congruence.
  destruct (Nat.eqb _ _); discriminate.
Qed.
Lemma merge_ends : forall key v0 v1, merge_func key v0 v1 <> Hang.
Proof.
  intros [|k rest] v0 v1; [discriminate|].
  destruct ((k =? ENTRY_TYPE_RRSET_NAME_FWD) || (k =? ENTRY_TYPE_RDATA_NAME_REV)) eqn:EN.
  - apply merge_index_in_bounds. apply orb_true_iff in EN. destruct EN as [EN|EN]; apply N.eqb_eq in EN; [left|right]; exact EN.
  - cbn [merge_func]. rewrite EN. destruct ((k =? ENTRY_TYPE_RRSET) || (k =? ENTRY_TYPE_RDATA)).
    + unfold merge_triplets. destruct v0 as [|a v0]; [discriminate|]. destruct v1 as [|b v1]; [discriminate|].
      pose proof (assert_ends _ _ (triplet_ends (a :: v0))). destruct (assert_ok (triplet_unpack (a :: v0))) as [[[? ?] ?]| | | |]; cbn [bind]; try congruence. 
      pose proof (assert_ends _ _ (triplet_ends (b :: v1))). destruct (assert_ok (triplet_unpack (b :: v1))) as [[[? ?] ?]| | | |]; cbn [bind]; congruence.
    + destruct rest as [|vt [|]]; try discriminate.
      * destruct (k =? ENTRY_TYPE_TIME_RANGE); [|discriminate]. unfold merge_time_range. destruct v0 as [|a v0]; [discriminate|]. destruct v1 as [|b v1]; [discriminate|].
        pose proof (assert_ends _ _ (pair_no_hang (a :: v0))). destruct (assert_ok (pair_unpack (a :: v0))) as [[? ?]| | | |]; cbn [bind]; try congruence.
        pose proof (assert_ends _ _ (pair_no_hang (b :: v1))). destruct (assert_ok (pair_unpack (b :: v1))) as [[? ?]| | | |]; cbn [bind]; congruence.
      * destruct (k =? ENTRY_TYPE_VERSION); [|discriminate]. unfold merge_version. destruct v0 as [|a v0]; [discriminate|]. destruct v1 as [|b v1]; [discriminate|].
        match goal with |- (if ?c then _ else _) <> _ => destruct c end; [|discriminate].
        pose proof (vers_ends (a :: v0)). destruct (decode_vers (a :: v0)) as [?| | | |]; cbn [bind]; try congruence.
        pose proof (vers_ends (b :: v1)). destruct (decode_vers (b :: v1)) as [?| | | |]; cbn [bind]; congruence.
Qed.

(** Whether decoding ends is up to the key. *)
Lemma hang_of_key : forall key val, entry_decode key val = Hang -> entry_decode key [] = Hang.
Proof.
  intros [|k buf] val E; [discriminate|]. cbn [entry_decode] in *.
  destruct (k =? ENTRY_TYPE_RRSET).
  { destruct (decode_rrset buf) as [[[[nm ty] bw] rs]| | | |]; cbn [bind] in *; try congruence.
    pose proof (triplet_no_hang val). destruct (decode_val_triplet val) as [[[? ?] ?]| | | |]; cbn [bind] in E; congruence. }
  destruct (k =? ENTRY_TYPE_RRSET_NAME_FWD); [discriminate|].
  destruct (k =? ENTRY_TYPE_RDATA).
  { destruct (decode_rdata buf) as [[[nm ty] rs]| | | |]; cbn [bind] in *; try congruence.
    pose proof (triplet_no_hang val). destruct (decode_val_triplet val) as [[[? ?] ?]| | | |]; cbn [bind] in E; congruence. }
  destruct (k =? ENTRY_TYPE_RDATA_NAME_REV).
  { unfold wdns_reverse_name in *. destruct (blen buf =? 0); [discriminate|].
    destruct (reverse_no_hang (S (length buf)) buf 0 (blen buf) [0] (Nat.lt_succ_diag_r _)) as [A _].
    destruct (reverse_name_loop _ _ _ _ _); cbn [bind] in *; congruence. }
  destruct (k =? ENTRY_TYPE_TIME_RANGE).
  { pose proof (pair_no_hang val). destruct (pair_unpack val) as [[a b]| | | |]; cbn [bind] in E; congruence. }
  destruct (k =? ENTRY_TYPE_SOURCE_INFO); [discriminate|].
  destruct (k =? ENTRY_TYPE_VERSION); [|discriminate].
  destruct buf as [|vt [|]]; try discriminate. destruct val as [|v0 val]; [discriminate|].
  pose proof (varint32_no_hang (v0 :: val)). destruct (varint_decode32 (v0 :: val)) as [[n x]| | | |]; cbn [bind fst snd] in E; try congruence.
  destruct (Nat.eqb n _); congruence.
Qed.
Lemma decode_ends : forall key val, bytes_ok key -> ~ unending key -> entry_decode key val <> Hang.
Proof.
  intros key val HK HU E. apply HU. apply hang_of_key in E.
  pose proof (decode_outcome key [] HK ltac:(constructor)) as H. rewrite E in H. inversion H; assumption.
Qed.

(** ** The filters *)

Lemma incr_past : forall key kpl sk rest, bytes_ok key -> (1 <= kpl <= length sk)%nat -> firstn kpl sk = firstn kpl key -> (kpl <= length key)%nat ->
  bytes_ok sk -> forall ok k', increment_key sk (kpl - 1) = Ok (ok, k') -> ok = true -> blt key (k' ++ rest) = true.
Proof.
  intros key kpl sk rest HK [H1 H2] HE HL HO ok k' E ->.
  destruct (increment_key_spec sk (kpl - 1) HO ltac:(lia)) as [(S0 & HS & E2)|[_ E2]]; rewrite E2 in E; [|discriminate]. injection E as <-.
  replace (S (kpl - 1)) with kpl in * by lia. rewrite <- (firstn_skipn kpl key), <- HE, <- app_assoc. apply succ_gt. exact HS.
Qed.
Lemma blt_ext : forall k x r, blt k (k ++ x :: r) = true.
Proof. induction k as [|a k IH]; intros x r; unfold blt in *; cbn [app bytes_compare]; [reflexivity|]. rewrite N.compare_refl. apply IH. Qed.

Lemma ip_increment_fwd : forall key kpl sk k', bytes_ok key -> bytes_ok sk -> (1 <= kpl <= length sk)%nat -> firstn kpl sk = firstn kpl key -> (kpl <= length key)%nat ->
  ip_increment sk kpl = FSeek k' -> blt key k' = true.
Proof.
  intros key kpl sk k' HK HO HL HE HL2 E. unfold ip_increment in E.
  destruct (increment_key sk (kpl - 1)) as [[ok k]| | | |] eqn:EI; try discriminate. destruct ok; [|discriminate].
  destruct (rd k 0) as [c| | | |]; try discriminate. destruct (_ =? _); [|discriminate]. injection E as <-.
  rewrite <- (app_nil_r k). eapply incr_past; eauto.
Qed.

Lemma firstn_prefix : forall (p : bytes) r, firstn (length p) (p ++ r) = p.
Proof. intros p r. rewrite firstn_app, Nat.sub_diag, firstn_all, app_nil_r. reflexivity. Qed.

Lemma ip_labels_fwd : forall fuel ty key p r k', bytes_ok key -> key = p ++ r -> p <> [] -> ip_labels fuel ty key p = FSeek k' -> blt key k' = true.
Proof.
  induction fuel as [|f IH]; intros ty key p r k' HK HP HN E; [discriminate|]. cbn [ip_labels] in E.
  destruct (rd key (length p)) as [c| | | |] eqn:ER; try discriminate.
  assert (HR : exists r', r = c :: r').
  { rewrite HP, rd_app2, Nat.sub_diag in ER by lia. destruct r as [|y r']; [discriminate|]. cbn in ER. injection ER as ->. eauto. }
  destruct HR as [r' HR]. subst r. assert (LP : (1 <= length p)%nat) by (destruct p; [congruence|cbn; lia]).
  assert (HO : bytes_ok p /\ bytes_ok (p ++ [c])).
  { rewrite HP in HK. apply Forall_app in HK. destruct HK as [A B]. split; [exact A|]. apply Forall_app. split; [exact A|]. inversion B; subst. constructor; [assumption|constructor]. }
  destruct (63 <? c).
  { apply (ip_increment_fwd key (length p) p k' HK (proj1 HO)); [lia| |rewrite HP, app_length; lia|exact E]. rewrite firstn_all, HP, firstn_prefix. reflexivity. }
  destruct (c =? 0) eqn:EC.
  { destruct (if ty =? WDNS_TYPE_A then _ else _) as [rl|]; [|discriminate].
    destruct (blt key (p ++ [c] ++ rl)) eqn:EB; [injection E as <-; exact EB|].
    assert (LL : (length p + 1)%nat = length (p ++ [c])) by (rewrite app_length; reflexivity). rewrite LL in E.
    apply (ip_increment_fwd key (length (p ++ [c])) (p ++ [c]) k' HK (proj2 HO)); [rewrite app_length; lia| | |exact E].
    - rewrite firstn_all. replace key with ((p ++ [c]) ++ r') by (rewrite HP, <- app_assoc; reflexivity). rewrite firstn_prefix. reflexivity.
    - rewrite HP, !app_length. cbn [length]. lia. }
  destruct (Nat.ltb_spec (length key) (N.to_nat c + 1 + length p)) as [HL|HL].
  { injection E as <-. destruct (N.to_nat c + 1 + length p - length key)%nat as [|m] eqn:EM; [lia|]. cbn [repeat]. apply blt_ext. }
  eapply (IH ty key _ (skipn (N.to_nat c) r')); [exact HK| | |exact E].
  - rewrite HP at 2. rewrite skipn_app, skipn_all2 by lia. replace (length p + 1 - length p)%nat with 1%nat by lia. cbn [app skipn].
    rewrite <- app_assoc, <- app_comm_cons, firstn_skipn. exact HP.
  - destruct p; discriminate.
Qed.

Lemma blt_longer : forall a b r, (length b <= length a)%nat -> blt a b = true -> blt (a ++ r) b = true.
Proof.
  induction a as [|x a IH]; intros b r HL H; destruct b as [|y b]; try discriminate; [cbn in HL; lia|]. cbn [app]. apply blt_cons in H. apply blt_cons.
  destruct H as [H|[-> H]]; [left; exact H|right]. split; [reflexivity|]. apply IH; [cbn in HL; lia|exact H].
Qed.

Lemma ip_fwd : forall ksize ty key k', bytes_ok key -> (N.to_nat (varint_length ty) < ksize)%nat -> ip_seek ksize ty key = FSeek k' -> blt key k' = true.
Proof.
  intros ksize ty key k' HK HZ E. unfold ip_seek in E. set (kpl := (ksize - N.to_nat (varint_length ty))%nat) in *. cbv zeta in E.
  assert (HA : forall b sk, add_rrtype_to_key b ty = Ok sk -> sk = b ++ varint_encode32 ty) by (intros b sk; unfold add_rrtype_to_key; destruct (ty =? WDNS_TYPE_ANY); congruence).
  destruct (Nat.ltb_spec (length key) kpl) as [H|H].
  - destruct (add_rrtype_to_key _ ty) as [sk| | | |] eqn:EA; try discriminate. injection E as <-. rewrite (HA _ _ EA).
    destruct (kpl - length key)%nat as [|m] eqn:EM; [lia|]. cbn [repeat]. rewrite <- app_assoc. cbn [app]. apply blt_ext.
  - destruct (add_rrtype_to_key _ ty) as [sk| | | |] eqn:EA; try discriminate. apply HA in EA.
    destruct (Nat.ltb_spec (length key) (length sk)) as [|HL]; [discriminate|].
    assert (L1 : length (firstn kpl key) = kpl) by (rewrite firstn_length; lia).
    assert (FS : firstn kpl sk = firstn kpl key) by (rewrite EA, <- L1 at 1; apply firstn_prefix).
    assert (LS : (kpl <= length sk)%nat) by (rewrite EA, app_length; lia).
    assert (HO : bytes_ok sk) by (rewrite EA; apply Forall_app; split; [apply bytes_ok_firstn; exact HK|apply JsonProofs.encode32_bytes]).
    destruct (bytes_compare sk (firstn (length sk) key)) eqn:EC.
    + destruct (Nat.leb_spec (length key) (length sk)) as [|HL2]; [discriminate|].
      apply bytes_compare_eq in EC.
      destruct (rd key (length sk)) as [c| | | |]; try discriminate.
      destruct (_ && _).
      * apply (ip_increment_fwd key kpl (firstn kpl sk) k' HK); [apply bytes_ok_firstn; exact HO| | |exact H|exact E].
        -- rewrite firstn_length. lia.
        -- rewrite firstn_firstn, Nat.min_id. exact FS.
      * eapply (ip_labels_fwd _ ty key sk (skipn (length sk) key)); eauto.
        -- rewrite EC at 1. rewrite firstn_skipn. reflexivity.
        -- intro C. rewrite C in LS. cbn [length] in LS. lia.
    + eapply (ip_increment_fwd key kpl sk); eauto; lia.
    + injection E as <-. rewrite <- (firstn_skipn (length sk) key). apply blt_longer; [rewrite firstn_length; lia|].
      unfold blt. rewrite bytes_compare_antisym, EC. reflexivity.
Qed.

(** ** The stages of a query *)

Definition still (ff : filter_fn) : Prop := forall w k v, match fst (ff w k v) with FSeek _ | FStop => False | _ => True end.
Lemma still_fwd : forall h t ff, still ff -> fwd h t ff.
Proof. intros h t ff H w k v v0 k' _ E. specialize (H w k v). rewrite E in H. contradiction. Qed.
Lemma offset_still : still filter_offset.
Proof. intros w k v. unfold filter_offset. destruct (0 <? w_offset w); exact I. Qed.

Lemma label_fwd : forall K t, K <> [] -> hd 0 K < 255 -> byte_keys t -> fwd (HPrefix K) t (filter_single_label (length K)).
Proof.
  intros K t HK Hh HB w k v v0 k' HI E. unfold filter_single_label in E. cbn [fst] in E.
  assert (HW : forall e, In e (window (HPrefix K) t) -> is_prefix K (fst e) = true /\ bytes_ok (fst e)).
  { intros [k2 v2] H. unfold window in H. apply filter_In in H. destruct H as [H1 H2]. split; [exact H2|]. exact (HB k2 v2 H1). }
  pose proof (single_label_good K (window (HPrefix K) t) HK Hh HW w k v0 HI) as [_ H]. unfold filter_single_label in H. cbn [fst snd] in H.
  rewrite E in H. apply H.
Qed.

Lemma ip_size : forall q src idx p, q_type q = QRdataIp -> q_rrtype q < u32 -> query_init q src idx = Ok p ->
  (N.to_nat (varint_length (q_rrtype q)) < length (p_key p))%nat.
Proof.
  intros q src idx p HT HU E. unfold query_init in E. rewrite HT in E. unfold init_rdata_ip in E.
  destruct (negb (q_do_rrtype q)); [discriminate|]. destruct (q_len_ip1 q =? 0); [discriminate|].
  unfold add_rrtype_to_key at 1 in E. destruct (q_rrtype q =? WDNS_TYPE_ANY); [discriminate|]. cbn [bind] in E.
  match type of E with (let* key2 := ?x in _) = _ => destruct x as [key2| | | |]; cbn [bind] in E; try discriminate E end. injection E as <-. cbn [p_key].
  rewrite varint_length_encode32, Nnat.Nat2N.id by exact HU. cbn [app length]. rewrite app_length. lia.
Qed.

Definition plan_how' (p : plan) : how := match p_key2 p with Some k2 => HRange (p_key p) k2 | None => HPrefix (p_key p) end.

Lemma known_fwd : forall q src idx p t ff, q_rrtype q < u32 -> query_init q src idx = Ok p -> byte_keys t -> known_filter q p ff -> fwd (plan_how' p) t ff.
Proof.
  intros q src idx p t ff HU HP HB HK. destruct HK as [ff H|H2 HN HH|HT].
  - apply still_fwd. exact H.
  - unfold plan_how'. rewrite H2. apply label_fwd; assumption.
  - intros w k v v0 k' HI E. unfold filter_rrtype_ip, rrtype_ip_res in E. cbn [fst] in E.
    pose proof (still_rrtype (q_rrtype q) k) as S1. destruct (rrtype_res (q_rrtype q) k); try discriminate E; try contradiction.
    eapply ip_fwd; [|eapply ip_size; eassumption|exact E]. exact (HB k v0 (window_incl _ _ _ HI)).
Qed.

Lemma wrap_forward : forall h t fs s, forward h t s -> Forall (fun f => fwd h t (snd f)) fs -> forward h t (wrap fs s).
Proof. intros h t fs s HS HF. induction HF as [|f fs H1 H2 IH]; [exact HS|]. cbn [wrap fold_right forward]. auto. Qed.
Lemma stack_forward : forall h t q fc s, forward h t s -> forward h t (stack_filters q fc s).
Proof.
  intros h t q fc s H. unfold stack_filters. cbv zeta.
  destruct (has_time_bound q), (f_remove fc), (f_fill fc), (0 <? q_offset q); cbn [forward];
    repeat (first [exact H | split; [first [apply still_fwd; exact offset_still | apply still_fwd; intros w k v; apply still_time | apply merge_ends]|]]).
Qed.

(** What an indirect query does: never-seeking filters over its source, at most the
    single-label filter over its index. *)
Lemma init_indirect : forall q src idx p tb it, query_init q src idx = Ok p -> p_index p = Some (tb, it) ->
  (exists fs, p_source p = wrap fs src /\ Forall (fun f => still (snd f)) fs) /\
  p_key p <> [] /\ hd 0 (p_key p) < 255 /\
  exists b, it = open (HPrefix (p_key p)) (filter_set_cond b StSingleLabel (filter_single_label (length (p_key p))) idx).
Proof.
  intros q src idx p tb it E HI. unfold query_init in E. destruct (q_type q).
  - unfold init_rrset in E. destruct (is_left_wildcard (name_data q)) as [wp|].
    + unfold init_rrset_left_wildcard in E. destruct (reverse_buf _ _) as [nm| | | |]; cbn [bind] in E; try discriminate E. injection E as <-. discriminate HI.
    + destruct (is_right_wildcard (name_data q)) as [wp|].
      * unfold init_rrset_right_wildcard in E. injection E as <-. cbn [p_index] in HI. injection HI as <- <-. cbn [p_source p_key].
        split; [|split; [discriminate|split; [reflexivity|exists wp; reflexivity]]].
        unfold opt_filter_bailiwick, filter_set_cond. 
        destruct (q_bailiwick q) as [b|], (q_do_rrtype q);
          [exists [(StBailiwick, filter_bailiwick b); (StRrtype, filter_rrtype q)] | exists [(StBailiwick, filter_bailiwick b)] | exists [(StRrtype, filter_rrtype q)] | exists []];
          (split; [reflexivity|]); repeat (first [apply Forall_nil | apply Forall_cons; [cbn [snd]; intros w k v; first [apply still_bailiwick|apply still_rrtype]|]]).
      * destruct (reverse_buf _ _) as [nm| | | |]; cbn [bind] in E; try discriminate E. destruct (q_do_rrtype q).
        -- destruct (add_rrtype_to_key _ _); cbn [bind] in E; try discriminate E. injection E as <-. discriminate HI.
        -- injection E as <-. discriminate HI.
  - unfold init_rdata_name in E. destruct (is_right_wildcard (name_data q)) as [wp|]; [injection E as <-; discriminate HI|].
    destruct (is_left_wildcard (name_data q)) as [wp|].
    + unfold init_rdata_left_wildcard in E. destruct (reverse_buf _ _) as [nm| | | |]; cbn [bind] in E; try discriminate E. injection E as <-.
      cbn [p_index] in HI. injection HI as <- <-. cbn [p_source p_key]. split; [|split; [discriminate|split; [reflexivity|exists wp; reflexivity]]].
      exists [(StRrtype, if q_do_rrtype q then filter_rrtype q else filter_rrtype_rdata_name)]. split; [reflexivity|]. apply Forall_cons; [|apply Forall_nil].
      cbn [snd]. intros w k v. destruct (q_do_rrtype q); [apply still_rrtype|apply still_rdata_name].
    + destruct (if q_do_rrtype q && name_type_standalone (q_rrtype q) then _ else _) as [key1| | | |]; cbn [bind] in E; try discriminate E. injection E as <-. discriminate HI.
  - unfold init_rdata_ip in E. destruct (negb (q_do_rrtype q)); [discriminate|]. destruct (q_len_ip1 q =? 0); [discriminate|].
    destruct (add_rrtype_to_key _ _) as [key| | | |]; cbn [bind] in E; try discriminate E.
    match type of E with (let* key2 := ?x in _) = _ => destruct x as [key2| | | |]; cbn [bind] in E; try discriminate E end. injection E as <-. discriminate HI.
  - unfold init_rdata_raw in E. destruct (_ <? q_len_rdata q); [discriminate|]. injection E as <-. discriminate HI.
  - injection E as <-. discriminate HI.
  - injection E as <-. discriminate HI.
  - injection E as <-. discriminate HI.
Qed.

(** ** The calls on any iterator of a query *)

Definition reader_source (q : query) (t : table) : source := if is_timed q then STimeout (SBase t) else SBase t.

Lemma all_calls_end : forall q fc t ti qi, sorted t -> sorted ti -> byte_keys t -> byte_keys ti -> q_rrtype q < u32 ->
  (forall k v, In (k, v) t -> ~ unending k) -> query_iter_common q fc (SBase t) (SBase ti) = Ok qi ->
  exists rounds, forall fuel ts w, (rounds <= fuel)%nat ->
    ~ In QHang (timed_calls fuel ts qi w) /\
    (entries (timed_calls fuel ts qi w) <= match qi_kind qi with Direct _ => length t | Indirect _ _ _ => length ti * length t end)%nat.
Proof.
  intros q fc t ti qi HS HSi HB HBi HU HE E. unfold query_iter_common in E.
  set (src0 := if is_timed q then STimeout (SBase t) else SBase t) in *. set (idx0 := if is_timed q then STimeout (SBase ti) else SBase ti) in *.
  cbv zeta in E.
  assert (HD : forall k v0 v, In (k, v0) t -> entry_decode k v <> Hang).
  { intros k v0 v HI. apply decode_ends; [exact (HB k v0 HI)|exact (HE k v0 HI)]. }
  assert (F0 : forall h, forward h t src0) by (intro h; unfold src0; destruct (is_timed q); reflexivity).
  assert (F1 : forall h, forward h ti idx0) by (intro h; unfold idx0; destruct (is_timed q); reflexivity).
  destruct (query_init q src0 idx0) as [p| | | |] eqn:EP; cbn [bind] in E; try discriminate E. injection E as <-. cbn [qi_kind].
  destruct (p_index p) as [[tb it]|] eqn:EX.
  - destruct (init_indirect _ _ _ _ _ _ EP EX) as ((fs & PS & HF) & KN & KH & b & IT).
    set (s := stack_filters q fc (p_source p)). set (si := filter_set_cond b StSingleLabel (filter_single_label (length (p_key p))) idx0) in *.
    assert (FS : forall h, forward h t s).
    { intro h. unfold s. apply stack_forward. rewrite PS. apply wrap_forward; [apply F0|]. eapply Forall_impl; [|exact HF]. intros f Hf. apply still_fwd. exact Hf. }
    assert (FI : forward (HPrefix (p_key p)) ti si).
    { unfold si, filter_set_cond. destruct b; [|apply F1]. split; [apply label_fwd; assumption|apply F1]. }
    pose proof (window_length (HPrefix (p_key p)) ti) as WL.
    exists (length t + depth s + 3 + (length ti + depth si + 3) + S (rounds t (length ti) None))%nat. intros fuel ts w HL.
    set (wi := length (window (HPrefix (p_key p)) ti)) in *.
    pose proof (Nat.mul_le_mono_r _ _ (length t + 2) WL) as M1. pose proof (Nat.mul_le_mono_r _ _ (length t) WL) as M2.
    destruct (calls_indirect t ti (HPrefix (p_key p)) HS HSi HD s si FS FI fuel tb ts {| qi_query := q; qi_source := s; qi_kind := Indirect tb it None |} w wi None) as [A B].
    + lia.
    + lia.
    + unfold rounds in *. lia.
    + reflexivity.
    + exists it, None. split; [reflexivity|]. split; [|exact I]. exists (window (HPrefix (p_key p)) ti). split; [rewrite IT; apply place_open; exact FI|]. split; [reflexivity|exact WL].
    + split; [exact A|]. eapply Nat.le_trans; [exact B|]. unfold due. lia.
  - destruct (init_shape q src0 idx0 p EP EX) as (fs & HF & HP). specialize (HP src0 idx0). rewrite EP in HP. injection HP as HP.
    assert (PS : p_source p = wrap fs src0) by (rewrite HP at 1; reflexivity). clear HP.
    set (s := stack_filters q fc (p_source p)).
    assert (FS : forward (plan_how' p) t s).
    { unfold s. apply stack_forward. rewrite PS. apply wrap_forward; [apply F0|]. eapply Forall_impl; [|exact HF]. intros f Hf. eapply known_fwd; eassumption. }
    pose proof (window_length (plan_how' p) t) as WL.
    exists (length t + depth s + 3)%nat. intros fuel ts w HL.
    assert (K : (match p_key2 p with Some key2 => Direct (open (HRange (p_key p) key2) s) | None => Direct (open (HPrefix (p_key p)) s) end) = Direct (open (plan_how' p) s)).
    { unfold plan_how'. destruct (p_key2 p); reflexivity. }
    fold s. rewrite K.
    destruct (calls_direct t s (plan_how' p) HS HD FS fuel ts {| qi_query := q; qi_source := s; qi_kind := Direct (open (plan_how' p) s) |} w (window (plan_how' p) t) ltac:(lia) WL) as [A B].
    { exists (open (plan_how' p) s). split; [reflexivity|]. apply place_open. exact FS. }
    split; [exact A|]. lia.
Qed.

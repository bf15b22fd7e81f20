(** Rdata address queries. *)
From Verif Require Import Base BaseFacts ModelVarint VarintProofs SpecMerge MergeProofs ModelWdns SpecName NameFacts.
From Verif Require Import ModelEntry SpecEntry EntryProofs PropsEntry ModelUnion ModelIter SpecIter IterProofs ModelQuery SpecQuery KeyProofs FilterProofs QueryProofs SelectProofs RRsetQueries IpProofs.

(** ** Order of addresses *)

Lemma ip_value_from : forall a v, fold_left (fun v b => 256 * v + b) a v = v * 256 ^ N.of_nat (length a) + ip_value a.
Proof.
  unfold ip_value. induction a as [|x a IH]; intro v; cbn [fold_left length]; [rewrite N.mul_1_r; lia|].
  rewrite IH. rewrite (IH (256 * 0 + x)). rewrite Nat2N.inj_succ, N.pow_succ_r'. nia.
Qed.

Lemma ip_value_cons : forall x a, ip_value (x :: a) = x * 256 ^ N.of_nat (length a) + ip_value a.
Proof. intros x a. unfold ip_value at 1. cbn [fold_left]. rewrite ip_value_from. f_equal. Qed.

Lemma ip_value_bound : forall a, bytes_ok a -> ip_value a < 256 ^ N.of_nat (length a).
Proof.
  induction a as [|x a IH]; intro H; [reflexivity|]. inversion H as [|? ? Hx Ha]; subst. unfold byte_ok in Hx.
  rewrite ip_value_cons. cbn [length]. rewrite Nat2N.inj_succ, N.pow_succ_r'. specialize (IH Ha). nia.
Qed.

Lemma ip_order : forall a b, length a = length b -> bytes_ok a -> bytes_ok b -> (ble a b = true <-> ip_value a <= ip_value b).
Proof.
  induction a as [|x a IH]; intros [|y b] L Ha Hb; try discriminate; [split; [intros _; reflexivity|reflexivity]|].
  inversion Ha as [|? ? Hx Ha']; subst. inversion Hb as [|? ? Hy Hb']; subst. cbn [length] in L. injection L as L.
  rewrite !ip_value_cons, L, ble_cons, (IH b L Ha' Hb'). pose proof (ip_value_bound a Ha') as B1. pose proof (ip_value_bound b Hb') as B2.
  rewrite L in B1. split.
  - intros [H|[-> H]]; nia.
  - intro H. destruct (N.lt_trichotomy x y) as [C|[->|C]]; [auto|right; split; [auto|nia]|exfalso; nia].
Qed.

(** ** Keys of address records *)

Lemma kind_encode : forall n ty, ip_kind n ty -> varint_encode32 ty = [ty] /\ varint_length ty = 1 /\ leb128 ty [ty] /\ ty <> 255 /\ ty < 128.
Proof. intros n ty [[_ ->]|[_ ->]]; (split; [reflexivity|]; split; [reflexivity|]; split; [constructor; lia|lia]). Qed.

Lemma incr_last : forall (p : bytes) c, c < 255 -> increment_key (p ++ [c]) (length (p ++ [c]) - 1) = Ok (true, p ++ [c + 1]).
Proof.
  intros p c Hc. unfold increment_key. rewrite app_length. cbn [length].
  destruct (Nat.ltb_spec (length p + 1 - 1) (length p + 1)); [|lia].
  replace (S (length p + 1 - 1)) with (length (p ++ [c])) by (rewrite app_length; cbn [length]; lia).
  rewrite firstn_all, skipn_all, rev_app_distr. cbn [rev app incr_rev].
  destruct (N.eqb_spec ((c + 1) mod 256) 0); [lia|]. cbn [rev]. rewrite rev_involutive, N.mod_small by lia. rewrite app_nil_r. reflexivity.
Qed.

Lemma ble_app_same_len : forall a b x y, length a = length b -> (ble (a ++ x) (b ++ y) = true <-> blt a b = true \/ (a = b /\ ble x y = true)).
Proof.
  induction a as [|c a IH]; intros [|d b] x y L; try discriminate.
  - cbn [app]. split; [auto|]. intros [H|[_ H]]; [discriminate|exact H].
  - cbn [app]. rewrite ble_cons, blt_cons. rewrite (IH b x y) by (cbn in L; lia). split.
    + intros [H|[-> [H|[-> H]]]]; auto.
    + intros [[H|[-> H]]|[E H]]; auto. inversion E; subst. auto.
Qed.

Lemma ble_split : forall a b, ble a b = true <-> blt a b = true \/ a = b.
Proof.
  induction a as [|x a IH]; intros [|y b]; try (split; [auto; discriminate|intros [H|H]; discriminate]).
  - split; auto.
  - split; [auto|]. intros _. reflexivity.
  - rewrite ble_cons, blt_cons, IH. split; [intros [H|[-> [H| ->]]]; auto|].
    intros [[H|[-> H]]|E]; auto. inversion E; auto.
Qed.

Lemma range_window : forall n ty lo hi tail y, length lo = n -> length hi = n -> length tail = n ->
  in_window (HRange (ENTRY_TYPE_RDATA :: lo ++ [ty]) (ENTRY_TYPE_RDATA :: hi ++ [ty + 1])) (ENTRY_TYPE_RDATA :: tail ++ ty :: y) = true <->
  ble lo tail = true /\ ble tail hi = true.
Proof.
  intros n ty lo hi tail y L1 L2 L3. cbn [in_window]. rewrite andb_true_iff.
  assert (C : forall a b, ble (ENTRY_TYPE_RDATA :: a) (ENTRY_TYPE_RDATA :: b) = ble a b).
  { intros a b. apply eq_true_iff_eq. rewrite ble_cons. split; [intros [H|[_ H]]; [lia|exact H]|auto]. }
  rewrite !C, !ble_app_same_len, (ble_split lo tail), (ble_split tail hi) by congruence.
  assert (A : ble [ty] (ty :: y) = true) by (apply ble_cons; right; split; [auto|apply ble_nil]).
  assert (B : ble (ty :: y) [ty + 1] = true) by (apply ble_cons; left; lia). rewrite A, B. tauto.
Qed.

Lemma window_first : forall e K K2 h, (h = HPrefix (2 :: K) \/ h = HRange (2 :: K) (2 :: K2)) -> in_window h (fst e) = true -> first_byte e = 2.
Proof.
  intros e K K2 h [-> | ->] H; cbn [in_window] in H.
  - eapply prefix_first; eauto.
  - apply andb_prop in H. destruct H as [A B]. unfold first_byte. destruct (fst e) as [|x k]; [discriminate|].
    apply ble_cons in A. apply ble_cons in B. cbn [hd]. lia.
Qed.

Lemma no_overread_part : forall recs n ty lo hi, no_overread recs n ty -> no_overread_between recs n ty lo hi.
Proof. intros recs n ty lo hi H ow ty' head tail o k HI HN HK _ _. exact (H ow ty' head tail o k HI HN HK). Qed.

Lemma ble_blt_trans : forall a b c, ble a b = true -> blt b c = true -> blt a c = true.
Proof.
  intros a b c H1 H2. apply ble_split in H1. destruct H1 as [H1| ->]; [|exact H2]. eapply blt_trans; eauto.
Qed.
Lemma ble_blt_ble : forall a b c, ble a b = true -> ble b c = true -> ble a c = true.
Proof.
  intros a b c H1 H2. apply ble_split in H2. destruct H2 as [H2| <-]; [|exact H1].
  apply ble_split. left. eapply ble_blt_trans; eauto.
Qed.
Lemma prefix_ble : forall p k, is_prefix p k = true -> ble p k = true.
Proof.
  intros p k H. apply prefix_iff in H. destruct H as (s & ->). induction p as [|x p IH]; [apply ble_nil|].
  cbn [app]. apply ble_cons. right. auto.
Qed.
Lemma window_between : forall (b : bool) lo hi ty k, (b = true -> hi = lo) ->
  in_window (if b then HPrefix (ENTRY_TYPE_RDATA :: lo ++ [ty]) else HRange (ENTRY_TYPE_RDATA :: lo ++ [ty]) (ENTRY_TYPE_RDATA :: hi ++ [ty + 1])) k = true ->
  ble (ENTRY_TYPE_RDATA :: lo) k = true /\ ble k (ENTRY_TYPE_RDATA :: hi ++ [ty + 1]) = true.
Proof.
  intros b lo hi ty k HB H.
  assert (C : forall a, ble (ENTRY_TYPE_RDATA :: a) (ENTRY_TYPE_RDATA :: a ++ [ty]) = true).
  { intro a. apply prefix_ble, prefix_iff. exists [ty]. reflexivity. }
  assert (D : forall a s c d, c < d -> blt (ENTRY_TYPE_RDATA :: a ++ c :: s) (ENTRY_TYPE_RDATA :: a ++ [d]) = true).
  { intros a s c d L. apply blt_cons. right. split; [reflexivity|]. induction a as [|x a IH]; cbn [app]; apply blt_cons; auto. }
  destruct b; cbn [in_window] in H.
  - rewrite (HB eq_refl). split; [eapply ble_blt_ble; [apply C|apply prefix_ble; exact H]|].
    apply prefix_iff in H. destruct H as (s & ->). cbn [app]. rewrite <- app_assoc. cbn [app]. apply ble_split. left. apply D. lia.
  - apply andb_prop in H. destruct H as [H1 H2]. split; [eapply ble_blt_ble; [apply C|exact H1]|exact H2].
Qed.

Lemma ip_rdata_plan : forall q t recs n ty lo hi, database recs t -> q_type q = QRdataIp ->
  asks_range q n ty lo hi -> addresses_canonical recs n ty -> no_overread_between recs n ty lo hi ->
  direct_plan q t recs (ip_rdata q ty lo hi).
Proof.
  intros q t recs n ty lo hi HDb HQ (HK & ED & ET & EL1 & E1 & L1 & B1 & H2) HC HO. pose proof HDb as [HF HS].
  destruct (kind_encode n ty HK) as (EV & EVL & EVB & T1 & T2).
  assert (Hn : (0 < n)%nat) by (apply (kind_pos n ty HK)).
  set (h := if q_len_ip2 q =? 0 then HPrefix (ENTRY_TYPE_RDATA :: lo ++ [ty])
            else HRange (ENTRY_TYPE_RDATA :: lo ++ [ty]) (ENTRY_TYPE_RDATA :: hi ++ [ty + 1])).
  set (K2 := if q_len_ip2 q =? 0 then None else Some (ENTRY_TYPE_RDATA :: hi ++ [ty + 1])).
  assert (EI : forall src idx, query_init q src idx =
    Ok {| p_key := ENTRY_TYPE_RDATA :: lo ++ [ty]; p_key2 := K2;
          p_source := SFilter StRrtype (filter_rrtype_ip q (S (S n))) src; p_index := None |}).
  { intros src idx. unfold query_init, init_rdata_ip. rewrite HQ, ED, EL1. cbn [negb].
    destruct (N.eqb_spec (N.of_nat n) 0); [lia|]. rewrite Nat2N.id, E1, ET.
    unfold add_rrtype_to_key, WDNS_TYPE_ANY. destruct (N.eqb_spec ty 255); [lia|]. rewrite EV. cbn [bind].
    assert (EL : length ((ENTRY_TYPE_RDATA :: lo) ++ [ty]) = S (S n)) by (rewrite app_length; cbn [length]; lia).
    rewrite EL. unfold K2. destruct H2 as [[-> ->]|(-> & E2 & L2 & B2)].
    - reflexivity.
    - destruct (N.ltb_spec 0 (N.of_nat n)); [|lia]. destruct (N.eqb_spec (N.of_nat n) 0); [lia|].
      rewrite Nat2N.id, E2. rewrite (incr_last (ENTRY_TYPE_RDATA :: hi) ty) by lia. reflexivity. }
  assert (HL2 : length hi = n) by (destruct H2 as [[_ ->]|(_ & _ & L & _)]; auto).
  assert (HB2 : bytes_ok hi) by (destruct H2 as [[_ ->]|(_ & _ & _ & B)]; auto).
  assert (HFB : forall e, In e t -> in_window h (fst e) = true -> first_byte e = 2).
  { intros e _ Hw. unfold h in Hw. destruct (q_len_ip2 q =? 0); apply (window_first e (lo ++ [ty]) (hi ++ [ty + 1]) _) in Hw; auto. }
  (* what a wanted entry looks like *)
  assert (HW : forall e, In e t -> first_byte e = 2 -> matched (rrtype_res ty (fst e)) = true -> ip_form n ty (fst e)).
  { intros e He Hb Hm. destruct (rdata_of _ _ _ HF He Hb) as (ow & ty' & hd & tl & o & Hin & Hok & A & B & _ & D & E & _).
    rewrite (rrtype_res_rdata ty ow ty' hd tl) in Hm by (auto; lia). rewrite matched_yes_no in Hm. apply N.eqb_eq in Hm. subst ty'.
    destruct (HC ow hd tl o Hin) as [-> L]. destruct E as (t' & Ht' & Ek). rewrite (leb128_det _ _ _ Ht' EVB) in Ek.
    exists tl, (rev ow). split; [exact L|]. split; [apply Forall_rev; apply A|]. split; [exact Hok|]. rewrite Ek. cbn [app].
    unfold rwire. f_equal. f_equal. f_equal. f_equal. unfold enc_le16, blen. rewrite L.
    destruct HK as [[-> _]|[-> _]]; reflexivity. }
  pose proof (EI (if is_timed q then STimeout (SBase t) else SBase t) (if is_timed q then STimeout (SBase t) else SBase t)) as EI'.
  eapply (direct_planned q t recs _ (fun e => in_window h (fst e) && matched (rrtype_res ty (fst e))) _ (_, K2) h EI').
  - unfold h, K2. cbn [fst snd]. destruct (q_len_ip2 q =? 0); reflexivity.
  - cbn [src_timeout]. apply base_timeout.
  - apply picks_filter; [apply picks_base_t; exact HS|].
    intros w k v Hin. apply filter_In in Hin. destruct Hin as [Hin Hw]. cbn [fst] in Hw.
    unfold filter_rrtype_ip. cbn [fst snd]. split; [reflexivity|]. unfold rrtype_ip_res. rewrite ET.
    pose proof (HFB (k, v) Hin Hw) as Hb. pose proof (bytes_ok_in _ _ _ HF Hin) as Hok. cbn [fst] in Hok.
    destruct (rrtype_decided recs t ty (k, v) HF Hin) as [D|D]; [auto| |]; cbn [fst] in D; rewrite D; [reflexivity|].
    assert (Hne : k <> []) by (intros ->; cbn in Hb; discriminate).
    assert (Hh : hd 0 k = ENTRY_TYPE_RDATA) by (unfold first_byte in Hb; destruct k; [congruence|exact Hb]).
    assert (HOk : ~ ip_overread n ty k).
    { destruct (rdata_of _ _ _ HF Hin Hb) as (ow & ty' & hd & tl & o & Hr & _ & A & B & _ & C & E & _). cbn [fst] in E.
      assert (WB : ble (ENTRY_TYPE_RDATA :: lo) k = true /\ ble k (ENTRY_TYPE_RDATA :: hi ++ [ty + 1]) = true).
      { apply (window_between (q_len_ip2 q =? 0)); [|exact Hw]. intro Z. apply N.eqb_eq in Z. destruct H2 as [[_ ->]|(Z' & _)]; [reflexivity|lia]. }
      apply (HO ow ty' hd tl o k Hr); [|exact E|apply WB|apply WB]. intros ->.
      rewrite (rrtype_res_rdata ty ow ty hd tl) in D by (auto; lia). rewrite N.eqb_refl in D. discriminate. }
    pose proof (ip_seek_sound n ty HK k Hok Hh Hne HOk) as SS.
    assert (HP : forall e, In e (filter (fun e => in_window h (fst e)) t) -> ble k (fst e) = true -> matched (rrtype_res ty (fst e)) = true ->
              ip_form n ty (fst e) /\ blt k (fst e) = true).
    { intros e He Hge Hm. apply filter_In in He. destruct He as [He Hwe]. split; [apply HW; auto|].
      apply ble_split in Hge. destruct Hge as [Hlt|EK]; [exact Hlt|]. rewrite <- EK, D in Hm. discriminate. }
    destruct (ip_seek (S (S n)) ty k) as [| |k'| | |]; cbn [sound] in SS; try contradiction; [reflexivity| |].
    + destruct SS as [S1 S2]. split; [exact S1|]. intros e He Hge Hlt. destruct (matched (rrtype_res ty (fst e))) eqn:Hm; [|reflexivity].
      exfalso. destruct (HP e He Hge Hm) as [F1 F2]. specialize (S2 _ F1 F2). unfold ble, blt in *. rewrite bytes_compare_antisym in S2.
      destruct (bytes_compare (fst e) k'); cbn in S2; congruence.
    + intros e He Hge. destruct (matched (rrtype_res ty (fst e))) eqn:Hm; [|reflexivity].
      exfalso. destruct (HP e He Hge Hm) as [F1 F2]. rewrite (SS _ F1) in F2. discriminate.
  - intros e He Pe. apply andb_prop in Pe. destruct Pe as [Pe _]. apply (timed_rr recs t e HF He). right. apply HFB; auto.
  - intros r e Hr HE. destruct r as [|ow ty' hd tl o| | |]; cbn [ip_rdata].
    1,3,4,5: split; [|tauto]; intro H; exfalso; apply andb_prop in H; destruct H as [H _]; apply andb_prop in H; destruct H as [H _].
    1-4: assert (Hin : first_byte e = 2) by (unfold h in H; destruct (q_len_ip2 q =? 0); apply (window_first e (lo ++ [ty]) (hi ++ [ty + 1]) _) in H; auto).
    1-4: apply encodes_first in HE; destruct HE as [HE _]; rewrite Hin in HE; first [discriminate HE|vm_compute in HE; congruence].
    pose proof HE as (Hok & Ho & Hty & Hob & Hlen & HKy & HV). rewrite !andb_true_iff, (timep_spec q e o Hob HV).
    rewrite (rrtype_res_rdata ty ow ty' hd tl) by (auto; lia). rewrite matched_yes_no, N.eqb_eq.
    assert (G : ty' = ty -> (in_window h (fst e) = true <-> ip_value lo <= ip_value tl <= ip_value hi)).
    { intros ->. destruct (HC ow hd tl o Hr) as [-> L]. destruct HKy as (t' & Ht' & Ek). rewrite (leb128_det _ _ _ Ht' EVB) in Ek.
      assert (Hokt : bytes_ok tl).
      { rewrite Ek in Hok. inversion Hok as [|? ? _ Hok']; subst. apply Forall_app in Hok'. tauto. }
      unfold h. destruct (N.eqb_spec (q_len_ip2 q) 0) as [Z|Z].
      - destruct H2 as [[_ ->]|(C & _)]; [|lia]. cbn [in_window]. rewrite Ek. rewrite cons_prefix, prefix_iff. split.
        + intros (s & E). rewrite <- app_assoc in E. apply app_inj_len in E; [|lia]. destruct E as [-> _]. lia.
        + intro H. assert (E : tl = lo).
          { assert (A : ble tl lo = true) by (apply ip_order; auto; [congruence|lia]). assert (B : ble lo tl = true) by (apply ip_order; auto; [congruence|lia]).
            apply ble_split in A. apply ble_split in B. destruct A as [A|A]; [|auto]. destruct B as [B|B]; [|auto].
            exfalso. unfold blt in *. rewrite bytes_compare_antisym in B. destruct (bytes_compare tl lo); cbn in B; congruence. }
          subst tl. eexists. rewrite <- app_assoc. reflexivity.
      - rewrite Ek. cbn [app]. rewrite (range_window n) by auto. rewrite !ip_order by (auto; congruence). reflexivity. }
    split.
    + intros [[A B] C]. split; [exact B|]. split; [apply G; auto|exact C].
    + intros (A & B & C). split; [split; [apply G; auto|exact A]|exact C].
  - intros r _ HM. destruct r; cbn in *; tauto.
Qed.
Lemma ip_rdata_ok : forall q t recs n ty lo hi, database recs t -> q_type q = QRdataIp ->
  asks_range q n ty lo hi -> addresses_canonical recs n ty -> no_overread_between recs n ty lo hi ->
  returns q t recs (ip_rdata q ty lo hi).
Proof. intros. apply direct_returns; [assumption|]. eapply ip_rdata_plan; eauto. Qed.

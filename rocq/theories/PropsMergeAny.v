(** C74: what merging makes of arbitrary bytes. *)
From Coq Require Import Sorting.Sorted.
From Verif Require Import Base BaseFacts ModelVarint ModelUnion ModelMerge SpecMerge SpecUnion SpecEntry SpecDecode SpecMergeAny.
From Verif Require Import MergeProofs UnionProofs UnionBuild UnionMerge DecodeProofs PropsMerge.

Lemma numbers_cases : forall n val, (exists ns, length ns = n /\ numbers ns val) \/ short n val \/ broken n val.
Proof.
  induction n as [|n IH]; intro val.
  - destruct val as [|b val]; [left; exists []; split; [reflexivity|constructor]|]. right. right. constructor. discriminate.
  - destruct (number_cases 10 val) as [(enc & rest & -> & HF)|[HO|HC]].
    + destruct (IH rest) as [(ns & HL & HN)|[HS|HB]].
      * left. exists (base128 enc mod u64 :: ns). split; [cbn; now rewrite HL|]. constructor; assumption.
      * right. left. apply short_later; assumption.
      * right. right. apply broken_later; assumption.
    + right. right. apply broken_long. exact HO.
    + right. left. apply short_now. exact HC.
Qed.

Lemma broken_shift : forall n enc l, broken n l -> (length enc + 0 <> length (enc ++ l))%nat \/ l <> [].
Proof.
  intros n enc l H. right. destruct H as [l H|n l H|n e l H _]; [exact H| |].
  - intros ->. apply overlong_length in H. cbn in H. lia.
  - pose proof (finished_nonempty _ _ H). destruct e; [cbn in *; lia|discriminate].
Qed.

Lemma triplet_broken : forall val, bytes_ok val -> broken 3 val -> triplet_unpack val = Fail.
Proof.
  intros val HB H. unfold triplet_unpack. inversion H as [|n l O1|n e1 l1 F1 H1]; subst.
  { destruct (read64_overlong val HB O1) as [v E]. rewrite E. cbn [bind fst snd skipn Nat.add]. rewrite E. cbn [bind fst snd skipn Nat.add]. rewrite E. cbn [bind fst snd Nat.add].
    apply overlong_length in O1. destruct (Nat.eqb_spec 0 (length val)); [lia|reflexivity]. }
  apply bytes_ok_app in HB. destruct HB as [B1 HB]. rewrite (read64_finished e1 _ B1 F1). cbn [bind fst snd]. rewrite skipn_app_at.
  inversion H1 as [|n l O2|n e2 l2 F2 H2]; subst.
  { destruct (read64_overlong l1 HB O2) as [v E]. rewrite E. cbn [bind fst snd]. rewrite skipn_plus. cbn [skipn]. rewrite E. cbn [bind fst snd].
    apply overlong_length in O2. rewrite app_length. destruct (Nat.eqb_spec (length e1 + 0 + 0) (length e1 + length l1)); [lia|reflexivity]. }
  apply bytes_ok_app in HB. destruct HB as [B2 HB]. rewrite (read64_finished e2 _ B2 F2). cbn [bind fst snd]. rewrite skipn_plus, skipn_app_at.
  inversion H2 as [|n l O3|n e3 l3 F3 H3]; subst.
  { destruct (read64_overlong l2 HB O3) as [v E]. rewrite E. cbn [bind fst snd].
    apply overlong_length in O3. rewrite !app_length. destruct (Nat.eqb_spec (length e1 + length e2 + 0) (length e1 + (length e2 + length l2))); [lia|reflexivity]. }
  apply bytes_ok_app in HB. destruct HB as [B3 HB]. rewrite (read64_finished e3 _ B3 F3). cbn [bind fst snd].
  inversion H3 as [l HN| |]; subst. rewrite !app_length. destruct l3; [congruence|]. cbn [length].
  match goal with |- context [Nat.eqb ?a ?b] => destruct (Nat.eqb_spec a b); [lia|reflexivity] end.
Qed.

Lemma pair_broken : forall val, bytes_ok val -> broken 2 val -> pair_unpack val = Fail.
Proof.
  intros val HB H. unfold pair_unpack. inversion H as [|n l O1|n e1 l1 F1 H1]; subst.
  { destruct (read64_overlong val HB O1) as [v E]. rewrite E. cbn [bind fst snd skipn Nat.add]. rewrite E. cbn [bind fst snd Nat.add].
    apply overlong_length in O1. destruct (Nat.eqb_spec 0 (length val)); [lia|reflexivity]. }
  apply bytes_ok_app in HB. destruct HB as [B1 HB]. rewrite (read64_finished e1 _ B1 F1). cbn [bind fst snd]. rewrite skipn_app_at.
  inversion H1 as [|n l O2|n e2 l2 F2 H2]; subst.
  { destruct (read64_overlong l1 HB O2) as [v E]. rewrite E. cbn [bind fst snd].
    apply overlong_length in O2. rewrite app_length. destruct (Nat.eqb_spec (length e1 + 0) (length e1 + length l1)); [lia|reflexivity]. }
  apply bytes_ok_app in HB. destruct HB as [B2 HB]. rewrite (read64_finished e2 _ B2 F2). cbn [bind fst snd].
  inversion H2 as [l HN| |]; subst. rewrite !app_length. destruct l2; [congruence|]. cbn [length].
  match goal with |- context [Nat.eqb ?a ?b] => destruct (Nat.eqb_spec a b); [lia|reflexivity] end.
Qed.

Lemma version_cases : forall val, val = [] \/ finished 5 val \/ cut 5 val \/ broken_version val.
Proof.
  intro val. destruct (number_cases 5 val) as [(enc & rest & -> & HF)|[HO|HC]].
  - destruct rest as [|b rest]; [rewrite app_nil_r; auto|]. right. right. right. constructor; [exact HF|discriminate].
  - right. right. right. apply bv_long. exact HO.
  - auto.
Qed.
Lemma vers_finished : forall v, bytes_ok v -> finished 5 v -> decode_vers v = Ok (base128 v mod u32).
Proof.
  intros v HB HF. unfold decode_vers. pose proof (read32_finished v [] HB HF) as E. rewrite app_nil_r in E. rewrite E. cbn [bind fst snd]. rewrite Nat.eqb_refl. reflexivity.
Qed.
Lemma vers_cut : forall v, bytes_ok v -> cut 5 v -> decode_vers v = UB.
Proof. intros v HB HC. unfold decode_vers. rewrite (read32_cut v HB HC). reflexivity. Qed.
Lemma vers_broken : forall v, bytes_ok v -> broken_version v -> decode_vers v = Abort.
Proof.
  intros v HB H. unfold decode_vers. destruct H as [enc l HF HN|l HO].
  - apply bytes_ok_app in HB. destruct HB as [B1 _]. rewrite (read32_finished enc l B1 HF). cbn [bind fst snd]. rewrite app_length.
    destruct l; [congruence|]. cbn [length]. destruct (Nat.eqb_spec (length enc) (length enc + S (length l))); [lia|reflexivity].
  - destruct (read32_overlong l HB HO) as [E _]. rewrite E. cbn [bind fst snd]. apply overlong_length in HO. destruct (Nat.eqb_spec 0 (length l)); [lia|reflexivity].
Qed.

(** ** Index values *)

Lemma increasing_lenient : forall ws, bytes_ok (encode_windows ws) -> octets_ok (encode_windows ws) -> increasing ws -> windows_lenient ws.
Proof.
  intros ws HB HO [HN HS]. split; [|exact HS]. specialize (HO ws eq_refl). clear HS.
  induction ws as [|[w bm] ws IH]; [constructor|]. rewrite encode_windows_cons in HB. inversion HB; subst. inversion H2; subst.
  apply bytes_ok_app in H4. destruct H4. inversion HN; subst. inversion HO; subst. constructor; [|apply IH; assumption].
  split; cbn [fst snd] in *; [assumption|]. destruct bm; [congruence|]. cbn [length] in *. lia.
Qed.

(** What unpacking gives, as a list. *)
Lemma read_types : forall m P, bytes_ok m -> octets_ok m -> read_as m P ->
  m <> [] /\ exists l, rrtype_union_unpack m = Ok (Some l) /\ ssorted l /\ (forall t, In t l -> t < 65536) /\ (forall t, In t l <-> P t) /\
    (exists t, t < 65536 /\ ~ In t l).
Proof.
  intros m P HB HO H. destruct H as [b|lo hi|ws HN HI (t & Ht & HM)].
  - split; [discriminate|]. exists [b]. split; [reflexivity|]. split; [repeat constructor|]. inversion HB; subst. unfold byte_ok in *.
    split; [intros t [<-|[]]; lia|]. split; [intro t; cbn; intuition|]. exists (if b =? 0 then 1 else 0). cbn. destruct (N.eqb_spec b 0); lia.
  - split; [discriminate|]. exists [lo + 256 * hi]. split; [reflexivity|]. split; [repeat constructor|]. inversion HB; subst. inversion H2; subst. unfold byte_ok in *.
    split; [intros t [<-|[]]; lia|]. split; [intro t; cbn; intuition|]. exists (if lo + 256 * hi =? 0 then 1 else 0). cbn [In]. destruct (N.eqb_spec (lo + 256 * hi) 0); lia.
  - pose proof (increasing_lenient ws HB HO HI) as HL.
    split. { destruct (encode_windows_shape ws HN HL) as (a & b & c & r & E). rewrite E. discriminate. }
    exists (types_of ws). split; [apply (unpack_windows ws t HN HL Ht HM)|]. split; [apply ssorted_types_of; exact HL|].
    split; [intros x Hx; eapply types_of_bound; [apply HL|exact Hx]|]. split; [intro x; apply in_types_of; apply HL|].
    exists t. split; [exact Ht|]. rewrite in_types_of by apply HL. exact HM.
Qed.

Lemma unpack_blocks_some : forall fuel prev m l, unpack_blocks fuel prev m = Ok (Some l) ->
  exists ws, m = encode_windows ws /\ increasing ws /\ (forall p, prev = Some p -> Forall (fun w => p < w) (map fst ws)).
Proof.
  induction fuel as [|fuel IH]; intros prev m l E; [discriminate|]. cbn [unpack_blocks] in E.
  destruct m as [|w [|bl rest]]; [|discriminate|].
  - exists []. split; [reflexivity|]. split; [split; constructor|]. constructor.
  - destruct (match prev with Some p => w <=? p | None => false end) eqn:EP; [discriminate|].
    destruct ((bl <? 1) || (blen rest <? bl)) eqn:EB; [discriminate|]. apply Bool.orb_false_iff in EB. destruct EB as [E1 E2].
    apply N.ltb_ge in E1, E2. unfold blen in E2.
    destruct (unpack_blocks fuel (Some w) (skipn (N.to_nat bl) rest)) as [[l'|]| | | |] eqn:ER; try discriminate E.
    destruct (IH _ _ _ ER) as (ws & EM & [HN HS] & HP). exists ((w, firstn (N.to_nat bl) rest) :: ws).
    assert (EL : length (firstn (N.to_nat bl) rest) = N.to_nat bl) by (rewrite firstn_length; lia).
    split. { rewrite encode_windows_cons. unfold blen. rewrite EL, Nnat.N2Nat.id, <- EM, firstn_skipn. reflexivity. }
    split.
    + split; [constructor; [cbn [snd]; intro H; rewrite H in EL; cbn in EL; lia|exact HN]|]. cbn [map fst]. constructor; [exact HS|]. apply HP. reflexivity.
    + intros p ->. apply N.leb_gt in EP. cbn [map fst]. constructor; [exact EP|]. eapply Forall_impl; [|exact (HP w eq_refl)]. cbn. intros; lia.
Qed.
Lemma unpack_blocks_ends : forall fuel prev m, (length m < fuel)%nat -> exists o, unpack_blocks fuel prev m = Ok o.
Proof.
  induction fuel as [|fuel IH]; intros prev m HL; [lia|]. cbn [unpack_blocks].
  destruct m as [|w [|bl rest]]; [eauto|eauto|]. destruct (match prev with Some p => w <=? p | None => false end); [eauto|].
  destruct ((bl <? 1) || (blen rest <? bl)); [eauto|]. destruct (IH (Some w) (skipn (N.to_nat bl) rest)) as [o ->]; [rewrite skipn_length; cbn [length] in HL; lia|].
  cbn [bind]. destruct o; eauto.
Qed.
Lemma unpack_ends : forall m, exists o, rrtype_union_unpack m = Ok o.
Proof.
  intro m. unfold rrtype_union_unpack. destruct m as [|a [|b [|c m]]]; eauto.
  destruct (unpack_blocks_ends (S (length (a :: b :: c :: m))) None (a :: b :: c :: m)) as [o ->]; [lia|]. cbn [bind].
  destruct o as [l|]; eauto. destruct (_ <? _); eauto.
Qed.

Lemma corrupt_unpack : forall m, bytes_ok m -> octets_ok m -> corrupt m -> (3 <= length m)%nat /\ rrtype_union_unpack m = Ok None.
Proof.
  intros m HB HO H. destruct H as [m HL HN|ws HI HM].
  - split; [exact HL|]. destruct (unpack_ends m) as [[l|] E]; [|exact E]. exfalso. unfold rrtype_union_unpack in E.
    destruct m as [|a [|b [|c m]]]; cbn [length] in HL; try lia.
    destruct (unpack_blocks (S (length (a :: b :: c :: m))) None (a :: b :: c :: m)) as [[l'|]| | | |] eqn:EU; cbn [bind] in E; try discriminate E.
    destruct (unpack_blocks_some _ _ _ _ EU) as (ws & EM & HI & _). exact (HN ws HI EM).
  - pose proof (increasing_lenient ws HB HO HI) as HL.
    assert (HN : ws <> []) by (intros ->; destruct (HM 0 ltac:(lia)) as (bm & [] & _)).
    split; [|apply unpack_windows_full; assumption]. destruct (encode_windows_shape ws HN HL) as (a & b & c & r & E). rewrite E. cbn. lia.
Qed.

Lemma read_or_corrupt : forall m, m <> [] -> bytes_ok m -> octets_ok m -> (exists P, read_as m P) \/ corrupt m.
Proof.
  intros m HN HB HO. destruct m as [|a [|b [|c m]]]; [congruence|left; eexists; constructor|left; eexists; constructor|].
  destruct (unpack_blocks_ends (S (length (a :: b :: c :: m))) None (a :: b :: c :: m)) as [[l|] E]; [lia| |].
  - destruct (unpack_blocks_some _ _ _ _ E) as (ws & EM & HI & _). rewrite EM in *.
    pose proof (increasing_lenient ws HB HO HI) as HL. assert (HW : ws <> []) by (intros ->; discriminate EM).
    destruct (Nat.lt_ge_cases (length (types_of ws)) (N.to_nat 65536)) as [Hc|Hc].
    + left. exists (windows_mem ws). constructor; [assumption|assumption|]. destruct (missing_type _ Hc) as (t & Ht & Hn). exists t. split; [exact Ht|].
      rewrite <- in_types_of by apply HL. exact Hn.
    + right. apply corrupt_full; [exact HI|]. intros t Ht. apply in_types_of; [apply HL|].
      destruct (in_dec N.eq_dec t (types_of ws)) as [|Hn]; [assumption|].
      pose proof (types_not_full (types_of ws) t (ssorted_types_of ws HL) ltac:(intros x Hx; eapply types_of_bound; [apply HL|exact Hx]) Ht Hn) as HX.
      unfold MAX_RRTYPES_MAPPABLE in HX. lia.
  - right. apply corrupt_shape; [cbn; lia|]. intros ws HI EM. rewrite EM in *.
    pose proof (increasing_lenient ws HB HO HI) as HL. rewrite unpack_blocks_encode in E; [discriminate|exact HL|lia|discriminate].
Qed.

Lemma build_empty : build_bitmap [] = Ok [].
Proof. reflexivity. Qed.

Lemma build_any : forall l, ssorted l -> (forall t, In t l -> t < 65536) ->
  exists ws, windows_ok ws /\ (forall t, windows_mem ws t <-> In t l) /\
    build_bitmap l = if blen (encode_windows ws) <? 1024 then Ok (encode_windows ws) else Abort.
Proof.
  intros l HS HB. destruct l as [|x l].
  - exists []. split; [split; constructor|]. split; [|reflexivity]. intro t. split; [intros (bm & [] & _)|intros []].
  - destruct (build_bitmap_spec (x :: l) ltac:(discriminate) HS HB) as (ws & _ & HW & HM & E). exists ws. auto.
Qed.

Lemma windows_types_length : forall ws l, windows_ok ws -> ssorted l -> (forall t, windows_mem ws t <-> In t l) ->
  (length l <= 8 * length (encode_windows ws))%nat.
Proof.
  intros ws l HW HS HM. pose proof (windows_ok_lenient _ HW) as HL. rewrite (ssorted_same_length l (types_of ws)).
  - apply types_of_length. exact HL.
  - exact HS.
  - apply ssorted_types_of. exact HL.
  - intro t. rewrite in_types_of by apply HL. symmetry. apply HM.
Qed.

Lemma union_result : forall v0 v1 P0 P1 ws, bytes_ok v0 -> bytes_ok v1 -> octets_ok v0 -> octets_ok v1 -> v0 <> v1 ->
  read_as v0 P0 -> read_as v1 P1 -> windows_ok ws -> (forall t, windows_mem ws t <-> P0 t \/ P1 t) ->
  merge_rrtype_bitmaps v0 v1 = if blen (encode_windows ws) <? 1024 then Ok (encode_windows ws) else Abort.
Proof.
  intros v0 v1 P0 P1 ws B0 B1 O0 O1 HD R0 R1 HW HM.
  destruct (read_types v0 P0 B0 O0 R0) as (N0 & l0 & U0 & S0 & T0 & M0 & _).
  destruct (read_types v1 P1 B1 O1 R1) as (N1 & l1 & U1 & S1 & T1 & M1 & _).
  rewrite (merge_nonempty v0 v1 l0 l1 N0 N1 HD U0 U1).
  destruct (smd_big l0 l1 S0 S1) as (full & Ef & Sf & Mf).
  set (lim := N.to_nat MAX_RRTYPES_MAPPABLE) in *. set (l := sorted_merge_dedup lim l0 l1).
  assert (Sl : ssorted l) by (apply smd_sorted; assumption).
  assert (Bl : forall x, In x l -> x < 65536) by (intros x Hx; apply smd_in_sub in Hx; destruct Hx; auto).
  destruct (build_any l Sl Bl) as (ws' & HW' & HM' & ->).
  assert (HC : (forall x, In x l <-> In x l0 \/ In x l1) \/ length l = lim).
  { destruct (Nat.eq_dec (length l) lim) as [|Hn]; [right; assumption|left]. intro x. split; [apply smd_in_sub|]. intro Hx.
    destruct (smd_complete_gen lim l0 l1 x Hx) as [A|A]; [exact A|exfalso; apply Hn; exact A]. }
  destruct HC as [HC|HC].
  - assert (ws' = ws) as ->; [|reflexivity]. apply windows_unique; [assumption|assumption|]. intro t. rewrite HM', HC, HM, M0, M1. reflexivity.
  - assert (HF : (length l <= length full)%nat).
    { apply NoDup_incl_length; [apply ssorted_nodup; exact Sl|]. intros x Hx. apply Mf. eapply smd_in_sub. exact Hx. }
    pose proof (windows_types_length ws' l HW' Sl HM') as L1.
    assert (L2 : (length full <= 8 * length (encode_windows ws))%nat).
    { apply windows_types_length; [assumption|assumption|]. intro t. rewrite HM, Mf, M0, M1. reflexivity. }
    assert (HLim : lim = N.to_nat 65535) by reflexivity. unfold blen.
    destruct (N.ltb_spec (N.of_nat (length (encode_windows ws'))) 1024); [lia|].
    destruct (N.ltb_spec (N.of_nat (length (encode_windows ws))) 1024); [lia|]. reflexivity.
Qed.

Lemma union_windows : forall v0 v1 P0 P1, bytes_ok v0 -> bytes_ok v1 -> octets_ok v0 -> octets_ok v1 ->
  read_as v0 P0 -> read_as v1 P1 -> exists ws, windows_ok ws /\ (forall t, windows_mem ws t <-> P0 t \/ P1 t).
Proof.
  intros v0 v1 P0 P1 B0 B1 O0 O1 R0 R1.
  destruct (read_types v0 P0 B0 O0 R0) as (N0 & l0 & U0 & S0 & T0 & M0 & _).
  destruct (read_types v1 P1 B1 O1 R1) as (N1 & l1 & U1 & S1 & T1 & M1 & _).
  destruct (smd_big l0 l1 S0 S1) as (full & _ & Sf & Mf).
  destruct (build_any full Sf) as (ws & HW & HM & _).
  - intros t Ht. apply Mf in Ht. destruct Ht; auto.
  - exists ws. split; [exact HW|]. intro t. rewrite HM, Mf, M0, M1. reflexivity.
Qed.

Lemma union_corrupt : forall v0 v1, bytes_ok v0 -> bytes_ok v1 -> octets_ok v0 -> octets_ok v1 -> v0 <> [] -> v1 <> [] -> v0 <> v1 ->
  corrupt v0 \/ corrupt v1 -> merge_rrtype_bitmaps v0 v1 = Fail.
Proof.
  intros v0 v1 B0 B1 O0 O1 N0 N1 HD HC. unfold merge_rrtype_bitmaps.
  assert (HX : (3 <= length v0)%nat /\ rrtype_union_unpack v0 = Ok None \/ (3 <= length v1)%nat /\ rrtype_union_unpack v1 = Ok None)
    by (destruct HC as [HC|HC]; [left|right]; apply corrupt_unpack; assumption).
  destruct v0 as [|a0 v0]; [congruence|]. destruct v1 as [|a1 v1]; [congruence|].
  destruct (beq (a0 :: v0) (a1 :: v1)) eqn:E; [apply beq_true in E; congruence|].
  destruct HX as [[HL HU]|[HL HU]].
  - destruct v0 as [|b0 [|c0 v0]]; cbn [length] in HL; try lia. rewrite HU. destruct v1 as [|b1 [|c1 v1]]; reflexivity.
  - destruct v1 as [|b1 [|c1 v1]]; cbn [length] in HL; try lia. rewrite HU.
    destruct (unpack_ends (a0 :: v0)) as [o ->]. destruct v0 as [|b0 [|c0 v0]]; cbn [bind]; destruct o; reflexivity.
Qed.

(** ** The merge function *)

Definition result (o : merge_result) : res bytes :=
  match o with Value v => Ok v | NoValue => Fail | Assertion => Abort | Outside => UB end.
Lemma result_inj : forall a b, result a = result b -> a = b.
Proof. intros [v| | |] [w| | |] E; try discriminate; [inversion E; subst|..]; reflexivity. Qed.

Definition values_ok (key v0 v1 : bytes) : Prop :=
  bytes_ok v0 /\ bytes_ok v1 /\ forall k rest, key = k :: rest -> name_type k -> octets_ok v0 /\ octets_ok v1.

Lemma merge_obs : forall k rest v0 v1, obs_type k -> merge_func (k :: rest) v0 v1 = merge_triplets v0 v1.
Proof. intros k rest v0 v1 [-> | ->]; reflexivity. Qed.
Lemma merge_names : forall k rest v0 v1, name_type k -> merge_func (k :: rest) v0 v1 = merge_rrtype_bitmaps v0 v1.
Proof. intros k rest v0 v1 [-> | ->]; reflexivity. Qed.

Lemma vtype_in : forall vt, In vt [0; 1; 2; 3] <-> known_vtype vt.
Proof. intro vt. unfold known_vtype, ENTRY_TYPE_RRSET, ENTRY_TYPE_RDATA, ENTRY_TYPE_RRSET_NAME_FWD, ENTRY_TYPE_RDATA_NAME_REV. cbn [In]. lia. Qed.

Lemma numbers_bound : forall ns v, numbers ns v -> Forall (fun n => n < u64) ns.
Proof. induction 1; constructor; [apply N.mod_lt; discriminate|assumption]. Qed.

Lemma numbers_not_nil : forall n ns v, numbers (n :: ns) v -> v <> [].
Proof. intros n ns v H. inversion H as [|e ? l F ?]; subst. pose proof (finished_nonempty _ _ F). destruct e; [cbn in *; lia|discriminate]. Qed.
Lemma finished_not_nil : forall n v, finished n v -> v <> [].
Proof. intros n v F. pose proof (finished_nonempty _ _ F). destruct v; [cbn in *; lia|discriminate]. Qed.

Lemma merge_version_two : forall vt v0 v1, known_vtype vt -> v0 <> [] -> v1 <> [] ->
  merge_version vt v0 v1 = let* x0 := decode_vers v0 in let* x1 := decode_vers v1 in Ok (varint_encode32 (if x0 <? x1 then x0 else x1)).
Proof.
  intros vt v0 v1 HV N0 N1. destruct v0 as [|a v0]; [congruence|]. destruct v1 as [|b v1]; [congruence|]. unfold merge_version.
  destruct HV as [->|[->|[->| ->]]]; reflexivity.
Qed.
Lemma merge_triplets_two : forall v0 v1, v0 <> [] -> v1 <> [] ->
  merge_triplets v0 v1 = let* t0 := assert_ok (triplet_unpack v0) in let* t1 := assert_ok (triplet_unpack v1) in
    let '(f0, l0, c0) := t0 in let '(f1, l1, c1) := t1 in
    Ok (triplet_pack (if f0 <? f1 then f0 else f1) (if l1 <? l0 then l0 else l1) ((c0 + c1) mod u64)).
Proof. intros v0 v1 N0 N1. destruct v0; [congruence|]. destruct v1; [congruence|]. reflexivity. Qed.
Lemma merge_range_two : forall v0 v1, v0 <> [] -> v1 <> [] ->
  merge_time_range v0 v1 = let* p0 := assert_ok (pair_unpack v0) in let* p1 := assert_ok (pair_unpack v1) in
    let '(f0, l0) := p0 in let '(f1, l1) := p1 in Ok (pair_pack (if f0 <? f1 then f0 else f1) (if l1 <? l0 then l0 else l1)).
Proof. intros v0 v1 N0 N1. destruct v0; [congruence|]. destruct v1; [congruence|]. reflexivity. Qed.

Lemma merges_sound : forall key v0 v1 o, values_ok key v0 v1 -> merges_to key v0 v1 o -> merge_func key v0 v1 = result o.
Proof.
  intros key v0 v1 o (B0 & B1 & HO) H.
  destruct H as [k rest v0 v1 f0 l0 c0 f1 l1 c1 v HT H0 H1 HV|k rest v0 v1 HT HE|k rest v0 v1 HT N0 N1 HX|k rest v0 v1 HT N0 N1 HX
    |k rest v0 v1 HT HE|k rest v HT|k rest v0 v1 P0 P1 ws HT HD R0 R1 HW HM|k rest v0 v1 HT N0 N1 HD HC
    |v0 v1 f0 l0 f1 l1 v H0 H1 HV|v0 v1 HE|v0 v1 N0 N1 HX|v0 v1 N0 N1 HX
    |vt v0 v1 v HT F0 F1 HV|vt v0 v1 HE|vt v0 v1 HT N0 N1 HX|vt v0 v1 HT N0 N1 HX|key v0 v1 K1 K2 K3].
  - rewrite (merge_obs k rest v0 v1 HT), (merge_triplets_ok _ _ _ _ _ _ _ _ (triplet_of _ _ _ _ B0 H0) (triplet_of _ _ _ _ B1 H1)).
    apply obs_value_pack in HV; [cbn in HV; rewrite HV; reflexivity|].
    apply numbers_bound in H0, H1. repeat match goal with H : Forall _ (_ :: _) |- _ => inversion H; subst; clear H end.
    split; [cbn; lia|]. split; [cbn; lia|]. apply N.mod_lt. discriminate.
  - rewrite (merge_obs k rest v0 v1 HT). destruct HE as [-> | ->]; [reflexivity|]. destruct v0; reflexivity.
  - rewrite (merge_obs k rest v0 v1 HT), (merge_triplets_two v0 v1 N0 N1). destruct HX as [HX|[(f & l & c & HN) HX]].
    + rewrite (triplet_broken _ B0 HX). reflexivity.
    + rewrite (triplet_of _ _ _ _ B0 HN), (triplet_broken _ B1 HX). reflexivity.
  - rewrite (merge_obs k rest v0 v1 HT), (merge_triplets_two v0 v1 N0 N1). destruct HX as [HX|[(f & l & c & HN) HX]].
    + rewrite (triplet_short _ B0 HX). reflexivity.
    + rewrite (triplet_of _ _ _ _ B0 HN), (triplet_short _ B1 HX). reflexivity.
  - rewrite (merge_names k rest v0 v1 HT). destruct HE as [-> | ->]; apply merge_union_empty.
  - rewrite (merge_names k rest v v HT). apply merge_union_same.
  - destruct (HO k rest eq_refl HT) as [O0 O1]. rewrite (merge_names k rest v0 v1 HT), (union_result v0 v1 P0 P1 ws); try assumption.
    destruct (_ <? 1024); reflexivity.
  - destruct (HO k rest eq_refl HT) as [O0 O1]. rewrite (merge_names k rest v0 v1 HT). apply union_corrupt; assumption.
  - rewrite merge_func_time_range, (merge_time_range_ok _ _ _ _ _ _ (pair_of _ _ _ B0 H0) (pair_of _ _ _ B1 H1)).
    apply numbers_bound in H0, H1. repeat match goal with H : Forall _ (_ :: _) |- _ => inversion H; subst; clear H end.
    apply pair_value_pack in HV; [cbn [fst snd] in HV; rewrite HV; reflexivity|cbn; lia|cbn; lia].
  - rewrite merge_func_time_range. destruct HE as [-> | ->]; [reflexivity|]. destruct v0; reflexivity.
  - rewrite merge_func_time_range, (merge_range_two v0 v1 N0 N1). destruct HX as [HX|[(f & l & HN) HX]].
    + rewrite (pair_broken _ B0 HX). reflexivity.
    + rewrite (pair_of _ _ _ B0 HN), (pair_broken _ B1 HX). reflexivity.
  - rewrite merge_func_time_range, (merge_range_two v0 v1 N0 N1). destruct HX as [HX|[(f & l & HN) HX]].
    + rewrite (pair_short _ B0 HX). reflexivity.
    + rewrite (pair_of _ _ _ B0 HN), (pair_short _ B1 HX). reflexivity.
  - rewrite merge_func_version. apply vtype_in in HT.
    rewrite (merge_version_ok vt v0 v1 _ _ HT (finished_not_nil _ _ F0) (finished_not_nil _ _ F1) (vers_finished _ B0 F0) (vers_finished _ B1 F1)).
    apply version_value_encode in HV; [rewrite HV; reflexivity|].
    pose proof (N.mod_lt (base128 v0) u32 ltac:(discriminate)). lia.
  - rewrite merge_func_version. destruct HE as [-> | ->]; [reflexivity|]. destruct v0; reflexivity.
  - rewrite merge_func_version, merge_version_two by (assumption || (apply vtype_in; assumption)). destruct HX as [HX|[HF HX]].
    + rewrite (vers_broken _ B0 HX). reflexivity.
    + rewrite (vers_finished _ B0 HF), (vers_broken _ B1 HX). reflexivity.
  - rewrite merge_func_version, merge_version_two by (assumption || (apply vtype_in; assumption)). destruct HX as [HX|[HF HX]].
    + rewrite (vers_cut _ B0 HX). reflexivity.
    + rewrite (vers_finished _ B0 HF), (vers_cut _ B1 HX). reflexivity.
  - rewrite (merge_other_keys key v0 v1 K1); [reflexivity|exact K2|]. intros vt E HV. apply (K3 vt E). apply vtype_in, versioned_known, HV.
Qed.

Lemma bytes_nil_dec : forall v : bytes, v = [] \/ v <> [].
Proof. intros [|b v]; [left; reflexivity|right; discriminate]. Qed.
Lemma numbers3 : forall v, (exists ns, length ns = 3%nat /\ numbers ns v) -> exists f l c, numbers [f; l; c] v.
Proof. intros v (ns & HL & HN). destruct ns as [|a [|b [|c [|d ns]]]]; try discriminate HL. eauto. Qed.
Lemma numbers2 : forall v, (exists ns, length ns = 2%nat /\ numbers ns v) -> exists f l, numbers [f; l] v.
Proof. intros v (ns & HL & HN). destruct ns as [|a [|b [|c ns]]]; try discriminate HL. eauto. Qed.

Lemma merges_total : forall key v0 v1, values_ok key v0 v1 -> exists o, merges_to key v0 v1 o.
Proof.
  intros key v0 v1 (B0 & B1 & HO). destruct key as [|k rest].
  { eexists. apply m_other; [discriminate|discriminate|discriminate]. }
  assert (HK : obs_type k \/ name_type k \/ ~ In k [0; 1; 2; 3]).
  { unfold obs_type, name_type, ENTRY_TYPE_RRSET, ENTRY_TYPE_RDATA, ENTRY_TYPE_RRSET_NAME_FWD, ENTRY_TYPE_RDATA_NAME_REV. cbn [In]. lia. }
  destruct HK as [HT|[HT|HK]].
  - destruct (bytes_nil_dec v0) as [N0|N0]; [eexists; apply m_obs_empty; auto|].
    destruct (bytes_nil_dec v1) as [N1|N1]; [eexists; apply m_obs_empty; auto|].
    destruct (numbers_cases 3 v0) as [H0|[H0|H0]]; [apply numbers3 in H0|exists Outside; apply m_obs_short; auto|exists Assertion; apply m_obs_broken; auto].
    destruct (numbers_cases 3 v1) as [H1|[H1|H1]]; [apply numbers3 in H1|exists Outside; apply m_obs_short; auto|exists Assertion; apply m_obs_broken; auto].
    destruct H0 as (f0 & l0 & c0 & H0). destruct H1 as (f1 & l1 & c1 & H1).
    destruct (obs_value_exists {| o_first := N.min f0 f1; o_last := N.max l0 l1; o_count := (c0 + c1) mod u64 |}) as [v HV].
    { pose proof (numbers_bound _ _ H0) as X0. pose proof (numbers_bound _ _ H1) as X1. repeat match goal with H : Forall _ (_ :: _) |- _ => inversion H; subst; clear H end.
      split; [cbn; lia|]. split; [cbn; lia|]. apply N.mod_lt. discriminate. }
    exists (Value v). eapply m_obs; eassumption.
  - destruct (HO k rest eq_refl HT) as [O0 O1].
    destruct (bytes_nil_dec v0) as [N0|N0]; [eexists; apply m_idx_empty; auto|].
    destruct (bytes_nil_dec v1) as [N1|N1]; [eexists; apply m_idx_empty; auto|].
    destruct (list_eq_dec_bytes v0 v1) as [->|HD]; [eexists; apply m_idx_same; assumption|].
    destruct (read_or_corrupt v0 N0 B0 O0) as [[P0 R0]|C0]; [|exists NoValue; apply m_idx_corrupt; auto].
    destruct (read_or_corrupt v1 N1 B1 O1) as [[P1 R1]|C1]; [|exists NoValue; apply m_idx_corrupt; auto].
    destruct (union_windows v0 v1 P0 P1 B0 B1 O0 O1 R0 R1) as (ws & HW & HM). eexists. eapply m_idx_union; eassumption.
  - assert (HKr : forall k' rest', k :: rest = k' :: rest' -> ~ In k' [0; 1; 2; 3]) by (intros k' r' E; inversion E; subst; exact HK).
    destruct (list_eq_dec_bytes (k :: rest) [ENTRY_TYPE_TIME_RANGE]) as [E|HR].
    + rewrite E in *. destruct (bytes_nil_dec v0) as [N0|N0]; [eexists; apply m_range_empty; auto|].
      destruct (bytes_nil_dec v1) as [N1|N1]; [eexists; apply m_range_empty; auto|].
      destruct (numbers_cases 2 v0) as [H0|[H0|H0]]; [apply numbers2 in H0|exists Outside; apply m_range_short; auto|exists Assertion; apply m_range_broken; auto].
      destruct (numbers_cases 2 v1) as [H1|[H1|H1]]; [apply numbers2 in H1|exists Outside; apply m_range_short; auto|exists Assertion; apply m_range_broken; auto].
      destruct H0 as (f0 & l0 & H0). destruct H1 as (f1 & l1 & H1). exists (Value (pair_pack (N.min f0 f1) (N.max l0 l1))).
      eapply m_range; [eassumption|eassumption|]. apply pair_value_pack; [..|reflexivity];
        apply numbers_bound in H0, H1; repeat match goal with H : Forall _ (_ :: _) |- _ => inversion H; subst; clear H end; cbn; lia.
    + assert (HV : (exists vt, k :: rest = [ENTRY_TYPE_VERSION; vt] /\ In vt [0; 1; 2; 3]) \/ (forall vt, k :: rest = [ENTRY_TYPE_VERSION; vt] -> ~ In vt [0; 1; 2; 3])).
      { destruct rest as [|vt [|x rest]]; [right; intros vt E; discriminate| |right; intros vt' E; discriminate].
        destruct (N.eq_dec k ENTRY_TYPE_VERSION) as [->|Hk]; [|right; intros vt' E; congruence].
        destruct (in_dec N.eq_dec vt [0; 1; 2; 3]) as [Hi|Hi]; [left; eauto|right]. intros vt' E. inversion E; subst. exact Hi. }
      destruct HV as [(vt & E & HV)|HV]; [|eexists; apply m_other; assumption].
      rewrite E in *. destruct (version_cases v0) as [E0|[F0|[C0|X0]]]; [eexists; apply m_version_empty; auto| | |].
      * destruct (version_cases v1) as [E1|[F1|[C1|X1]]]; [eexists; apply m_version_empty; auto| | |].
        -- exists (Value (varint_encode64 (N.min (base128 v0 mod u32) (base128 v1 mod u32)))). apply m_version; [assumption|assumption|assumption|].
           apply leb128_encode64. pose proof (N.mod_lt (base128 v0) u32 ltac:(discriminate)). unfold u32, u64 in *. lia.
        -- destruct (bytes_nil_dec v1) as [N1|N1]; [eexists; apply m_version_empty; auto|]. exists Outside. apply m_version_cut; [assumption|eapply finished_not_nil; eassumption|assumption|auto].
        -- destruct (bytes_nil_dec v1) as [N1|N1]; [eexists; apply m_version_empty; auto|]. exists Assertion. apply m_version_broken; [assumption|eapply finished_not_nil; eassumption|assumption|auto].
      * destruct (bytes_nil_dec v0) as [N0|N0]; [eexists; apply m_version_empty; auto|]. destruct (bytes_nil_dec v1) as [N1|N1]; [eexists; apply m_version_empty; auto|].
        exists Outside. apply m_version_cut; auto.
      * destruct (bytes_nil_dec v0) as [N0|N0]; [eexists; apply m_version_empty; auto|]. destruct (bytes_nil_dec v1) as [N1|N1]; [eexists; apply m_version_empty; auto|].
        exists Assertion. apply m_version_broken; auto.
Qed.

(** C74: for every key and every two values the merge has exactly one of the
    results of [merges_to], the one described there. *)
Theorem merge_any_values : forall key v0 v1, bytes_ok v0 -> bytes_ok v1 ->
  (forall k rest, key = k :: rest -> name_type k -> octets_ok v0 /\ octets_ok v1) ->
  (exists o, merge_func key v0 v1 = result o) /\
  (forall o, merge_func key v0 v1 = result o <-> merges_to key v0 v1 o).
Proof.
  intros key v0 v1 B0 B1 HO. assert (HV : values_ok key v0 v1) by (split; [|split]; assumption).
  destruct (merges_total key v0 v1 HV) as [o Ho]. pose proof (merges_sound key v0 v1 o HV Ho) as E.
  split; [exists o; exact E|]. intro o'. split; [|apply merges_sound; exact HV].
  intro E'. rewrite E in E'. apply result_inj in E'. subst o'. exact Ho.
Qed.
Print Assumptions merge_any_values.

Lemma bm_loop_ends : forall l s, (exists s', bm_loop s l = Ok s') \/ bm_loop s l = Abort.
Proof.
  induction l as [|t l IH]; intro s; cbn [bm_loop]; [eauto|]. rewrite bm_step_pure. destruct (_ && _ && _); cbn [bind]; auto.
Qed.
Lemma build_ends : forall l, (exists v, build_bitmap l = Ok v) \/ build_bitmap l = Abort.
Proof.
  intro l. unfold build_bitmap. destruct (bm_loop_ends l bm_init) as [[s ->]| ->]; [|auto]. cbn [bind].
  destruct (negb _); [|eauto]. unfold bm_flush. destruct (_ <? _); eauto.
Qed.

(** Merging index values never reads behind a value and always ends, whatever
    they hold and however long their bitmaps are. *)
Theorem merge_index_in_bounds : forall k rest v0 v1, name_type k ->
  merge_func (k :: rest) v0 v1 <> UB /\ merge_func (k :: rest) v0 v1 <> Hang.
Proof.
  intros k rest v0 v1 HT. rewrite (merge_names k rest v0 v1 HT). unfold merge_rrtype_bitmaps.
  assert (HB : forall l, build_bitmap l <> UB /\ build_bitmap l <> Hang) by (intro l; destruct (build_ends l) as [[v ->]| ->]; split; discriminate).
  assert (HU : forall a b : bytes, (let* sets := (let* u0 := rrtype_union_unpack a in match u0 with None => Fail | Some s0 =>
      let* u1 := rrtype_union_unpack b in match u1 with None => Fail | Some s1 => Ok (s0, s1) end end) in
      build_bitmap (sorted_merge_dedup (N.to_nat MAX_RRTYPES_MAPPABLE) (fst sets) (snd sets))) <> UB /\
      (let* sets := (let* u0 := rrtype_union_unpack a in match u0 with None => Fail | Some s0 =>
      let* u1 := rrtype_union_unpack b in match u1 with None => Fail | Some s1 => Ok (s0, s1) end end) in
      build_bitmap (sorted_merge_dedup (N.to_nat MAX_RRTYPES_MAPPABLE) (fst sets) (snd sets))) <> Hang).
  { intros a b. destruct (unpack_ends a) as [[l|] ->]; cbn [bind]; [|split; discriminate].
    destruct (unpack_ends b) as [[l'|] ->]; cbn [bind]; [apply HB|split; discriminate]. }
  destruct v0 as [|a0 v0]; [split; discriminate|]. destruct v1 as [|a1 v1]; [split; discriminate|].
  destruct (beq (a0 :: v0) (a1 :: v1)); [split; discriminate|].
  destruct v0 as [|b0 [|c0 v0]]; destruct v1 as [|b1 [|c1 v1]]; try apply HU; cbn [bind]; apply HB.
Qed.
Print Assumptions merge_index_in_bounds.

(** Merging values of the other kinds reads behind a value only where a number is
    cut off by the end of the value. *)
Theorem merge_out_of_bounds_iff : forall key v0 v1, bytes_ok v0 -> bytes_ok v1 ->
  (forall k rest, key = k :: rest -> name_type k -> octets_ok v0 /\ octets_ok v1) ->
  (merge_func key v0 v1 = UB <->
   v0 <> [] /\ v1 <> [] /\
   ((exists k rest, key = k :: rest /\ obs_type k /\ (short 3 v0 \/ (three v0 /\ short 3 v1))) \/
    (key = [ENTRY_TYPE_TIME_RANGE] /\ (short 2 v0 \/ (two v0 /\ short 2 v1))) \/
    (exists vt, key = [ENTRY_TYPE_VERSION; vt] /\ In vt [0; 1; 2; 3] /\ (cut 5 v0 \/ (finished 5 v0 /\ cut 5 v1))))).
Proof.
  intros key v0 v1 B0 B1 HO. destruct (merge_any_values key v0 v1 B0 B1 HO) as [_ H]. specialize (H Outside). cbn [result] in H. rewrite H. split.
  - intro HM. inversion HM; subst.
    + split; [assumption|]. split; [assumption|]. left. eauto.
    + destruct (blen (encode_windows ws) <? 1024); discriminate.
    + split; [assumption|]. split; [assumption|]. right. left. auto.
    + split; [assumption|]. split; [assumption|]. right. right. eauto.
  - intros (N0 & N1 & [(k & rest & -> & HT & HX)|[[-> HX]|(vt & -> & HV & HX)]]).
    + apply m_obs_short; assumption.
    + apply m_range_short; assumption.
    + apply m_version_cut; assumption.
Qed.
Print Assumptions merge_out_of_bounds_iff.

(** Values that hold no type at all (bitmaps of zeros) merge to the empty value,
    which stands for every type. *)
Theorem merge_no_types_means_all_refuted : exists v0 v1 m,
  read_as v0 (windows_mem [(0, [0])]) /\ (forall t, ~ windows_mem [(0, [0])] t) /\
  read_as v1 (windows_mem [(1, [0])]) /\ (forall t, ~ windows_mem [(1, [0])] t) /\
  merge_func [ENTRY_TYPE_RRSET_NAME_FWD; 1; 97; 0] v0 v1 = Ok m /\ forall t, union_mem m t.
Proof.
  assert (HZ : forall w t, ~ windows_mem [(w, [0])] t).
  { intros w t (bm & [E|[]] & Hb). inversion E; subst. revert Hb. generalize (7 - t mod 8). intro n.
    destruct (N.to_nat (t mod 256 / 8)) as [|[|k]]; cbn [nth]; rewrite N.bits_0; discriminate. }
  assert (HR : forall w, read_as (encode_windows [(w, [0])]) (windows_mem [(w, [0])])).
  { intro w. constructor; [discriminate| |exists 0; split; [reflexivity|apply HZ]]. split; [repeat constructor; discriminate|repeat constructor]. }
  exists (encode_windows [(0, [0])]), (encode_windows [(1, [0])]), [].
  split; [apply HR|]. split; [apply HZ|]. split; [apply HR|]. split; [apply HZ|]. split; [reflexivity|]. intro t. exact I.
Qed.
Print Assumptions merge_no_types_means_all_refuted.

(** Case: two observations (one with a count of two bytes that would fit in
    one), one cut off, one with a byte too many; a map in disorder. *)
Example c74_case :
  merges_to [0; 9] [5; 9; 1] [4; 7; 131; 0] (Value [4; 9; 4]) /\
  merges_to [0; 9] [5; 9; 1] [4; 7; 131] Outside /\
  merges_to [0; 9] [5; 9; 1; 1] [4; 7; 131] Assertion /\
  merges_to [1; 9] [1; 1; 128; 0; 1; 64] [15] NoValue /\
  merges_to [255; 0] [133; 0] [7] (Value [5]) /\
  merge_func [0; 9] [5; 9; 1] [4; 7; 131; 0] = Ok [4; 9; 4] /\ merge_func [0; 9] [5; 9; 1; 1] [4; 7; 131] = Abort.
Proof.
  assert (HB : forall l, forallb (fun b => b <? 256) l = true -> bytes_ok l).
  { intros l H. apply Forall_forall. intros b Hb. rewrite forallb_forall in H. specialize (H b Hb). unfold byte_ok. lia. }
  assert (HT : forall key v0 v1 o, bytes_ok v0 -> bytes_ok v1 -> (forall k rest, key = k :: rest -> ~ name_type k) ->
     merge_func key v0 v1 = result o -> merges_to key v0 v1 o).
  { intros key v0 v1 o B0 B1 HN E. apply (merge_any_values key v0 v1 B0 B1); [|exact E]. intros k rest EK Hk. destruct (HN k rest EK Hk). }
  assert (HK : forall a key, a <> 1 -> a <> 3 -> forall k rest, a :: key = k :: rest -> ~ name_type k).
  { intros a key H1 H3 k rest E. inversion E; subst. unfold name_type, ENTRY_TYPE_RRSET_NAME_FWD, ENTRY_TYPE_RDATA_NAME_REV. lia. }
  split; [apply HT; [apply HB; reflexivity|apply HB; reflexivity|apply HK; lia|reflexivity]|].
  split; [apply HT; [apply HB; reflexivity|apply HB; reflexivity|apply HK; lia|reflexivity]|].
  split; [apply HT; [apply HB; reflexivity|apply HB; reflexivity|apply HK; lia|reflexivity]|].
  split.
  { apply m_idx_corrupt; [left; reflexivity|discriminate|discriminate|discriminate|]. left. apply corrupt_shape; [cbn; lia|].
    intros ws [_ HS] E. assert (EW : [1; 1; 128; 0; 1; 64] = encode_windows [(1, [128]); (0, [64])]) by reflexivity.
    rewrite EW in E. apply encode_windows_inj in E. subst ws. cbn in HS. inversion HS as [|? ? _ HF]; subst. inversion HF; subst. lia. }
  split; [apply HT; [apply HB; reflexivity|apply HB; reflexivity|apply HK; lia|reflexivity]|].
  split; reflexivity.
Qed.

(** Properties C01-C03, C07-C09: value encodings and merging. *)
From Coq Require Import Permutation.
From Verif Require Import Base BaseFacts ModelVarint VarintProofs ModelMerge SpecMerge MergeProofs.

(** ** C01 *)

Theorem triplet_encoding_roundtrip : forall o v, obs_ok o -> obs_value o v ->
  triplet_pack (o_first o) (o_last o) (o_count o) = v /\
  triplet_unpack v = Ok (o_first o, o_last o, o_count o) /\
  (3 <= length v <= 30)%nat /\ bytes_ok v /\
  (forall x rest, triplet_unpack (v ++ x :: rest) = Fail).
Proof.
  intros o v Ho Hv. apply (obs_value_pack o v Ho) in Hv. subst v. destruct Ho as (A & B & C).
  split; [reflexivity|]. split; [apply triplet_roundtrip; assumption|].
  split; [apply triplet_pack_length; assumption|]. split.
  - unfold triplet_pack. rewrite !bytes_ok_app. auto using encode64_bytes_ok.
  - intros. apply triplet_trailing; assumption.
Qed.
Print Assumptions triplet_encoding_roundtrip.

Theorem pair_encoding_roundtrip : forall f l v, f < u64 -> l < u64 -> pair_value (f, l) v ->
  pair_pack f l = v /\ pair_unpack v = Ok (f, l) /\ (2 <= length v <= 20)%nat /\ bytes_ok v /\
  (forall x rest, pair_unpack (v ++ x :: rest) = Fail).
Proof.
  intros f l v Hf Hl Hv. apply (pair_value_pack (f, l) v Hf Hl) in Hv. subst v. cbn [fst snd].
  split; [reflexivity|]. split; [apply pair_roundtrip; assumption|].
  split; [apply pair_pack_length; assumption|]. split.
  - unfold pair_pack. rewrite !bytes_ok_app. auto using encode64_bytes_ok.
  - intros. apply pair_trailing; assumption.
Qed.
Print Assumptions pair_encoding_roundtrip.

(** Every observation has an encoding, so the hypotheses above can always be met. *)
Theorem obs_value_exists : forall o, obs_ok o -> exists v, obs_value o v.
Proof.
  intros o Ho. exists (triplet_pack (o_first o) (o_last o) (o_count o)). apply obs_value_pack; [exact Ho|reflexivity].
Qed.
Print Assumptions obs_value_exists.

Example c01_case : obs_ok {| o_first := 1300000000; o_last := 18446744073709551615; o_count := 0 |} /\
  triplet_pack 1300000000 18446744073709551615 0 =
  [128;218;241;235;4; 255;255;255;255;255;255;255;255;255;1; 0].
Proof. split; [repeat split|vm_compute; reflexivity]. Qed.

(** ** C02 *)

Theorem merge_two_observations : forall k rest o0 o1 v0 v1,
  k = ENTRY_TYPE_RRSET \/ k = ENTRY_TYPE_RDATA ->
  obs_ok o0 -> obs_ok o1 -> obs_value o0 v0 -> obs_value o1 v1 ->
  exists v, merge_func (k :: rest) v0 v1 = Ok v /\
    obs_value {| o_first := N.min (o_first o0) (o_first o1);
                 o_last := N.max (o_last o0) (o_last o1);
                 o_count := (o_count o0 + o_count o1) mod u64 |} v.
Proof.
  intros k rest o0 o1 v0 v1 Hk H0 H1 V0 V1.
  destruct (triplet_encoding_roundtrip o0 v0 H0 V0) as (_ & U0 & _).
  destruct (triplet_encoding_roundtrip o1 v1 H1 V1) as (_ & U1 & _).
  eexists. split.
  - assert (E : merge_func (k :: rest) v0 v1 = merge_triplets v0 v1) by (destruct Hk as [->| ->]; reflexivity).
    rewrite E. apply (merge_triplets_ok _ _ _ _ _ _ _ _ U0 U1).
  - apply obs_value_pack; [|reflexivity]. destruct H0 as (? & ? & ?), H1 as (? & ? & ?).
    repeat split; cbn [o_first o_last o_count]; [lia|lia|]. apply N.mod_lt. discriminate.
Qed.
Print Assumptions merge_two_observations.

Example c02_case :
  merge_func [ENTRY_TYPE_RRSET; 0; 1] (triplet_pack 100 200 3) (triplet_pack 50 300 18446744073709551615)
  = Ok (triplet_pack 50 300 2).
Proof. vm_compute. reflexivity. Qed.

(** ** C03 *)

Theorem merge_any_grouping : forall k rest t os,
  k = ENTRY_TYPE_RRSET \/ k = ENTRY_TYPE_RDATA ->
  Forall obs_ok os -> Forall2 (fun v o => obs_value o v) (mleaves t) os ->
  exists f l v, meval (k :: rest) t = Ok v /\
    is_min f (map o_first os) /\ is_max l (map o_last os) /\
    obs_value {| o_first := f; o_last := l; o_count := nsum (map o_count os) mod u64 |} v.
Proof.
  intros k rest t os Hk Hok HF.
  set (tr := fun o => (o_first o, o_last o, o_count o)).
  assert (HF' : Forall2 triplet_of (mleaves t) (map tr os)).
  { clear - Hok HF. revert Hok. induction HF as [|v o vs os Hv HF IH]; intro Hok; cbn [map]; constructor.
    - inversion Hok; subst. apply (triplet_encoding_roundtrip o v); assumption.
    - apply IH. inversion Hok; assumption. }
  destruct (meval_triplets (k :: rest) k rest t _ eq_refl Hk HF') as (f & l & c & v & E & U & Mi & Ma & Hc & Hn).
  rewrite map_map in Mi, Ma, Hc. exists f, l, v. split; [exact E|]. split; [exact Mi|]. split; [exact Ma|].
  change (map o_count os) with (map (fun x => t3 (tr x)) os). rewrite <- Hc.
  pose proof (triplet_unpack_bound _ _ _ _ U) as (B1 & B2 & B3).
  apply obs_value_pack; [repeat split; assumption|]. cbn [o_first o_last o_count].
  destruct t as [v0|tl tr']; [|apply Hn; exact I].
  cbn [meval mleaves] in *. inversion E; subst v0. inversion HF as [|? o ? ? Hv HF2]; subst.
  inversion Hok; subst. apply (triplet_encoding_roundtrip o v) in Hv; [|assumption]. destruct Hv as (P & U' & _).
  rewrite U in U'. injection U'; intros; congruence.
Qed.
Print Assumptions merge_any_grouping.

Theorem merge_order_independent : forall k rest a b,
  k = ENTRY_TYPE_RRSET \/ k = ENTRY_TYPE_RDATA ->
  Permutation (mleaves a) (mleaves b) ->
  Forall (fun v => exists o, obs_ok o /\ obs_value o v) (mleaves a) ->
  meval (k :: rest) a = meval (k :: rest) b /\ exists v, meval (k :: rest) a = Ok v.
Proof.
  intros k rest a b Hk P HF. split.
  - apply (meval_triplets_perm _ k rest); auto. eapply Forall_impl; [|exact HF].
    intros v (o & Ho & Hv). exists (o_first o, o_last o, o_count o).
    apply (triplet_encoding_roundtrip o v); assumption.
  - assert (exists os, Forall obs_ok os /\ Forall2 (fun v o => obs_value o v) (mleaves a) os) as (os & H1 & H2).
    { clear P. induction HF as [|v l (o & Ho & Hv) HF (os & IH1 & IH2)]; [exists []; split; constructor|].
      exists (o :: os). split; constructor; assumption. }
    destruct (merge_any_grouping k rest a os Hk H1 H2) as (f & l & v & E & _). exists v. exact E.
Qed.
Print Assumptions merge_order_independent.

Example c03_case :
  let a := triplet_pack 5 9 1 in let b := triplet_pack 3 4 2 in let c := triplet_pack 7 70 40 in
  meval [ENTRY_TYPE_RDATA; 1] (MNode (MNode (MLeaf a) (MLeaf b)) (MLeaf c)) = Ok (triplet_pack 3 70 43) /\
  meval [ENTRY_TYPE_RDATA; 1] (MNode (MLeaf c) (MNode (MLeaf b) (MLeaf a))) = Ok (triplet_pack 3 70 43).
Proof. vm_compute. split; reflexivity. Qed.

(** ** C07 *)

(** A time-range value as documented: empty, or two numbers. *)
Definition time_range_value (v : bytes) (o : option (N * N)) : Prop :=
  match o with
  | None => v = []
  | Some p => fst p < u64 /\ snd p < u64 /\ pair_value p v
  end.

Lemma time_range_of : forall v o, time_range_value v o -> range_of v o.
Proof.
  intros v [[f l]|]; cbn; [|auto]. intros (A & B & C). apply (pair_encoding_roundtrip f l v A B C).
Qed.

Theorem merge_time_ranges : forall t os,
  Forall2 time_range_value (mleaves t) os ->
  (In None os -> meval [ENTRY_TYPE_TIME_RANGE] t = Ok []) /\
  (forall ps, os = map Some ps -> exists f l v, meval [ENTRY_TYPE_TIME_RANGE] t = Ok v /\
     is_min f (map fst ps) /\ is_max l (map snd ps) /\ time_range_value v (Some (f, l))).
Proof.
  intros t os HF.
  assert (HF' : Forall2 range_of (mleaves t) os).
  { clear - HF. induction HF; constructor; auto using time_range_of. }
  destruct (meval_ranges t os HF') as [A B]. split; [exact A|]. intros ps ->.
  destruct B as (f & l & v & E & U & Mi & Ma & Hn).
  { intro Hin. apply in_map_iff in Hin. destruct Hin as (p & Hp & _). discriminate. }
  assert (Es : forall ps : list (N * N), somes (map Some ps) = ps).
  { clear. induction ps as [|p ps IH]; cbn; congruence. }
  rewrite Es in Mi, Ma. exists f, l, v. split; [exact E|]. split; [exact Mi|]. split; [exact Ma|].
  pose proof (pair_unpack_bound _ _ _ U) as (B1 & B2).
  split; [exact B1|]. split; [exact B2|]. apply pair_value_pack; [exact B1|exact B2|]. cbn [fst snd].
  destruct t as [v0|tl tr]; [|apply Hn; exact I].
  cbn [meval mleaves] in *. inversion E; subst v0. inversion HF as [|? o ? ? Hv HF2]; subst.
  destruct o as [[f0 l0]|]; [|destruct ps; discriminate]. destruct Hv as (C1 & C2 & C3).
  destruct (pair_encoding_roundtrip f0 l0 v C1 C2 C3) as (P & U' & _). rewrite U in U'. injection U'; intros; congruence.
Qed.
Print Assumptions merge_time_ranges.

Theorem merge_time_ranges_order_independent : forall a b,
  Permutation (mleaves a) (mleaves b) ->
  Forall (fun v => exists o, time_range_value v o) (mleaves a) ->
  meval [ENTRY_TYPE_TIME_RANGE] a = meval [ENTRY_TYPE_TIME_RANGE] b.
Proof.
  intros a b P HF. apply meval_ranges_perm; [|exact P]. eapply Forall_impl; [|exact HF].
  intros v (o & Ho). exists o. apply time_range_of. exact Ho.
Qed.
Print Assumptions merge_time_ranges_order_independent.

Example c07_case :
  merge_func [ENTRY_TYPE_TIME_RANGE] (pair_pack 10 20) (pair_pack 5 300) = Ok (pair_pack 5 300) /\
  merge_func [ENTRY_TYPE_TIME_RANGE] (pair_pack 10 20) [] = Ok [] /\
  time_range_value (pair_pack 5 300) (Some (5, 300)).
Proof.
  split; [vm_compute; reflexivity|]. split; [vm_compute; reflexivity|].
  split; [reflexivity|]. split; [reflexivity|]. apply pair_value_pack; reflexivity.
Qed.

(** ** C08 *)

Definition version_value (v : bytes) (o : option N) : Prop :=
  match o with
  | None => v = []
  | Some n => n < u32 /\ leb128 n v
  end.

(** Entry types that carry a version. *)
Definition versioned_type (vt : N) : Prop := In vt [0; 1; 2; 3].

Lemma versioned_known : forall vt, versioned_type vt <-> known_vtype vt.
Proof.
  intro vt. unfold versioned_type, known_vtype. cbn.
  unfold ENTRY_TYPE_RRSET, ENTRY_TYPE_RRSET_NAME_FWD, ENTRY_TYPE_RDATA, ENTRY_TYPE_RDATA_NAME_REV.
  split; intuition congruence.
Qed.

Lemma version_value_encode : forall v n, n < u32 -> leb128 n v -> v = varint_encode32 n.
Proof.
  intros v n Hn Hl. apply leb128_is_encode64 in Hl; [|unfold u32, u64 in *; lia].
  rewrite encode32_eq_64 by exact Hn. exact Hl.
Qed.

Lemma version_value_of : forall v o, version_value v o -> version_of v o.
Proof.
  intros v [n|]; cbn; [|auto]. intros [Hn Hl]. rewrite (version_value_encode v n Hn Hl).
  split; [apply encode32_nonempty|apply decode_vers_encode; exact Hn].
Qed.

Theorem merge_versions_lowest : forall vt t os, versioned_type vt ->
  Forall2 version_value (mleaves t) os ->
  (In None os -> meval [ENTRY_TYPE_VERSION; vt] t = Ok []) /\
  (forall ns, os = map Some ns -> exists n v, meval [ENTRY_TYPE_VERSION; vt] t = Ok v /\
     is_min n ns /\ version_value v (Some n)).
Proof.
  intros vt t os Hvt HF. apply versioned_known in Hvt.
  assert (HF' : Forall2 version_of (mleaves t) os).
  { clear - HF. induction HF; constructor; auto using version_value_of. }
  destruct (meval_versions vt t os Hvt HF') as [A B]. split; [exact A|]. intros ns ->.
  destruct B as (n & v & E & Nv & U & Mi & Hn).
  { intro Hin. apply in_map_iff in Hin. destruct Hin as (p & Hp & _). discriminate. }
  assert (Es : forall ps : list N, somes (map Some ps) = ps).
  { clear. induction ps as [|p ps IH]; cbn; congruence. }
  rewrite Es in Mi. exists n, v. split; [exact E|]. split; [exact Mi|].
  pose proof (decode_vers_bound _ _ U) as Bn. split; [exact Bn|].
  assert (Ev : v = varint_encode32 n).
  { destruct t as [v0|tl tr]; [|apply Hn; exact I].
    cbn [meval mleaves] in *. inversion E; subst v0. inversion HF as [|? o ? ? Hv HF2]; subst.
    destruct o as [n0|]; [|destruct ns; discriminate]. destruct Hv as [C1 C2].
    apply version_value_encode in C2; [|exact C1]. rewrite C2 in U. rewrite decode_vers_encode in U by exact C1.
    congruence. }
  rewrite Ev, encode32_eq_64 by exact Bn. apply leb128_encode64. unfold u32, u64 in *; lia.
Qed.
Print Assumptions merge_versions_lowest.

Theorem merge_versions_order_independent : forall vt a b, versioned_type vt ->
  Permutation (mleaves a) (mleaves b) ->
  Forall (fun v => exists o, version_value v o) (mleaves a) ->
  meval [ENTRY_TYPE_VERSION; vt] a = meval [ENTRY_TYPE_VERSION; vt] b.
Proof.
  intros vt a b Hvt P HF. apply meval_versions_perm; [apply versioned_known; exact Hvt| |exact P].
  eapply Forall_impl; [|exact HF]. intros v (o & Ho). exists o. apply version_value_of. exact Ho.
Qed.
Print Assumptions merge_versions_order_independent.

Theorem merge_versions_unknown_type : forall vt v0 v1, ~ versioned_type vt ->
  merge_func [ENTRY_TYPE_VERSION; vt] v0 v1 = Ok [].
Proof.
  intros vt v0 v1 H. apply merge_version_unknown. intro K. apply H, versioned_known, K.
Qed.
Print Assumptions merge_versions_unknown_type.

Example c08_case :
  merge_func [255; 0] (varint_encode32 300) (varint_encode32 2) = Ok [2] /\
  merge_func [255; 0] (varint_encode32 300) [] = Ok [] /\
  merge_func [255; 9] [1] [1] = Ok [] /\ version_value [172; 2] (Some 300).
Proof.
  repeat split; try (vm_compute; reflexivity). apply (leb_more 300 [2]); [lia|].
  apply (leb_last 2). lia.
Qed.

(** ** C09 *)

Theorem merge_other_keys : forall key v0 v1,
  (forall k rest, key = k :: rest -> ~ In k [0; 1; 2; 3]) ->
  key <> [254] -> (forall vt, key = [255; vt] -> ~ versioned_type vt) ->
  merge_func key v0 v1 = Ok [].
Proof.
  intros key v0 v1 H1 H2 H3. apply merge_func_other. destruct key as [|k rest]; [exact I|].
  specialize (H1 k rest eq_refl). cbn in H1.
  unfold ENTRY_TYPE_RRSET, ENTRY_TYPE_RDATA, ENTRY_TYPE_RRSET_NAME_FWD, ENTRY_TYPE_RDATA_NAME_REV,
         ENTRY_TYPE_TIME_RANGE, ENTRY_TYPE_VERSION.
  repeat split; try (intro; apply H1; subst; tauto).
  - intros [-> ->]. apply H2. reflexivity.
  - intros [-> (vt & -> & K)]. apply (H3 vt eq_refl). apply versioned_known. exact K.
Qed.
Print Assumptions merge_other_keys.

Example c09_case : merge_func [253; 115; 105; 101] [1] [2; 3] = Ok [] /\ merge_func [77] [0] [128] = Ok [].
Proof. vm_compute. split; reflexivity. Qed.

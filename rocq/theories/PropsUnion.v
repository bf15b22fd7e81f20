(** Properties C04-C06, C10-C12: RRtype index values. *)
From Coq Require Import Sorting.Sorted Permutation.
From Verif Require Import Base BaseFacts ModelUnion SpecUnion UnionProofs UnionBuild ModelMerge MergeProofs UnionMerge.

(** ** C04 *)

Theorem merge_index_is_union : forall key v0 v1 m, union_key key ->
  union_valid v0 -> union_valid v1 -> v0 <> v1 ->
  rfc4034 m -> (forall t, union_mem m t <-> union_mem v0 t \/ union_mem v1 t) ->
  blen m < 1024 ->
  merge_func key v0 v1 = Ok m.
Proof. intros. rewrite merge_func_union by assumption. apply merge_union_fits; assumption. Qed.
Print Assumptions merge_index_is_union.

Theorem merge_index_same : forall key v, union_key key -> merge_func key v v = Ok v.
Proof. intros. rewrite merge_func_union by assumption. apply merge_union_same. Qed.
Print Assumptions merge_index_same.

(** "All types" absorbs. *)
Theorem merge_index_empty_absorbs : forall key v, union_key key ->
  merge_func key [] v = Ok [] /\ merge_func key v [] = Ok [].
Proof. intros. rewrite !merge_func_union by assumption. apply merge_union_empty. Qed.
Print Assumptions merge_index_empty_absorbs.

(** The [m] of [merge_index_is_union] always exists and is unique. *)
Theorem union_encoding_exists_unique : forall v0 v1, union_valid v0 -> union_valid v1 ->
  exists m, (rfc4034 m /\ forall t, union_mem m t <-> union_mem v0 t \/ union_mem v1 t) /\
    forall m', rfc4034 m' /\ (forall t, union_mem m' t <-> union_mem v0 t \/ union_mem v1 t) -> m' = m.
Proof.
  intros v0 v1 H0 H1. destruct (union_of_two_exists v0 v1 H0 H1) as (m & Hm & HM).
  exists m. split; [split; assumption|]. intros m' [Hm' HM'].
  apply rfc4034_unique; [exact Hm'|exact Hm|]. intro t. rewrite HM, HM'. reflexivity.
Qed.
Print Assumptions union_encoding_exists_unique.

Lemma ws_ok_example : windows_ok [(0, [64; 1]); (1, [128])].
Proof.
  split.
  - repeat constructor; cbn; try lia; discriminate.
  - repeat constructor.
Qed.

(** {A} and {TYPE15, CAA} merge to {A, MX, CAA}. *)
Example c04_case :
  union_valid [1] /\ union_valid (encode_windows [(0, [0; 1]); (1, [64])]) /\
  merge_func [1; 3; 97; 98; 99; 0] [1] (encode_windows [(0, [0; 1]); (1, [64])])
  = Ok (encode_windows [(0, [64; 1]); (1, [64])]) /\
  rfc4034 (encode_windows [(0, [64; 1]); (1, [64])]).
Proof.
  assert (W : forall a, windows_ok [(0, [a; 1]); (1, [64])] \/ ~ a < 256).
  { intro a. destruct (N.lt_ge_cases a 256) as [Ha|Ha]; [left|right; lia]. split.
    - repeat constructor; try exact Ha; cbn; try lia; try discriminate.
    - repeat constructor. }
  split; [constructor; lia|]. split; [|split; [vm_compute; reflexivity|]].
  - apply uv_map; [discriminate|]. destruct (W 0); [assumption|lia].
  - eexists. split; [|split; [|reflexivity]]; [discriminate|]. destruct (W 64); [assumption|lia].
Qed.

(** ** C05 *)

Theorem merge_index_any_grouping : forall key m t, union_key key ->
  (forall v, In v (mleaves t) -> v = [] \/ union_valid v) ->
  rfc4034 m -> (forall x, union_mem m x <-> exists v, In v (mleaves t) /\ v <> [] /\ union_mem v x) ->
  blen m < 1024 ->
  (In [] (mleaves t) -> meval key t = Ok []) /\
  (~ In [] (mleaves t) ->
     (forall v, (forall v', In v' (mleaves t) -> v' = v) -> meval key t = Ok v) /\
     ((exists v v', In v (mleaves t) /\ In v' (mleaves t) /\ v <> v') -> meval key t = Ok m)).
Proof. exact meval_union. Qed.
Print Assumptions merge_index_any_grouping.

Theorem merge_index_order_independent : forall key m a b, union_key key ->
  Permutation (mleaves a) (mleaves b) ->
  (forall v, In v (mleaves a) -> v = [] \/ union_valid v) ->
  rfc4034 m -> (forall x, union_mem m x <-> exists v, In v (mleaves a) /\ v <> [] /\ union_mem v x) ->
  blen m < 1024 ->
  meval key a = meval key b /\ exists r, meval key a = Ok r.
Proof. exact meval_union_perm. Qed.
Print Assumptions merge_index_order_independent.

Example c05_case :
  meval [1; 0] (MNode (MNode (MLeaf [1]) (MLeaf [28])) (MLeaf [1; 1])) = Ok [0;4;64;0;0;8;1;1;64] /\
  meval [1; 0] (MNode (MLeaf [1; 1]) (MNode (MLeaf [1]) (MLeaf [28]))) = Ok [0;4;64;0;0;8;1;1;64].
Proof. vm_compute. split; reflexivity. Qed.

(** ** C06 (refuted, with the exact condition) *)

(** Different valid values merge to a value exactly when the documented encoding
    of their union is shorter than 1024 bytes. *)
Theorem merge_index_completes_iff : forall key v0 v1 m, union_key key ->
  union_valid v0 -> union_valid v1 -> v0 <> v1 ->
  rfc4034 m -> (forall t, union_mem m t <-> union_mem v0 t \/ union_mem v1 t) ->
  ((exists v, merge_func key v0 v1 = Ok v) <-> blen m < 1024).
Proof.
  intros key v0 v1 m Hk H0 H1 Hne Hm HM. rewrite merge_func_union by assumption. split.
  - intros (v & Hv). destruct (N.lt_ge_cases (blen m) 1024) as [|Hc]; [assumption|].
    destruct (merge_union_overflow v0 v1 m H0 H1 Hne Hm HM Hc) as [E|E]; congruence.
  - intro Hlt. exists m. apply merge_union_fits; assumption.
Qed.
Print Assumptions merge_index_completes_iff.

Definition full_windows (n : nat) : list window := map (fun w => (N.of_nat w, repeat 255 32)) (seq 0 n).

Lemma full_windows_ok : forall n, (n <= 256)%nat -> windows_ok (full_windows n).
Proof.
  intros n Hn. split.
  - apply Forall_forall. intros wb Hin. apply in_map_iff in Hin. destruct Hin as (w & <- & Hw).
    apply in_seq in Hw. unfold window_ok. cbn [fst snd]. split; [lia|]. split; [cbn; lia|]. split.
    + apply Forall_forall. intros x Hx. apply repeat_spec in Hx. subst. unfold byte_ok. lia.
    + cbn. discriminate.
  - unfold full_windows. rewrite map_map. cbn [fst]. generalize 0%nat. clear.
    induction n as [|n IH]; intro s; [constructor|]. cbn [seq map]. constructor; [apply IH|].
    apply Forall_forall. intros x Hx. apply in_map_iff in Hx. destruct Hx as (k & <- & Hk). apply in_seq in Hk. lia.
Qed.

(** Two valid index values, 31 full windows and the single type A, abort the
    merge (failed assertion, merge.c:162-163). *)
Theorem merge_index_completes_refuted : exists v0 v1,
  union_valid v0 /\ union_valid v1 /\ merge_func [ENTRY_TYPE_RRSET_NAME_FWD; 0] v0 v1 = Abort.
Proof.
  exists (encode_windows (full_windows 31)), [1]. split; [|split].
  - apply uv_map; [discriminate|]. apply full_windows_ok. lia.
  - constructor. lia.
  - vm_compute. reflexivity.
Qed.
Print Assumptions merge_index_completes_refuted.

(** ... and the index value of all 65536 types cannot be merged with any other value. *)
Theorem merge_index_all_types_refuted : exists v0 v1,
  union_valid v0 /\ union_valid v1 /\ merge_func [ENTRY_TYPE_RRSET_NAME_FWD; 0] v0 v1 = Fail.
Proof.
  exists (encode_windows (full_windows 256)), [1]. split; [|split].
  - apply uv_map; [discriminate|]. apply full_windows_ok. lia.
  - constructor. lia.
  - vm_compute. reflexivity.
Qed.
Print Assumptions merge_index_all_types_refuted.

(** Both sides of the limit: two single types, and the witness above. *)
Example c06_case : union_key [1; 3; 97; 0] /\ union_valid [1] /\ union_valid [15] /\ rfc4034 [0; 2; 64; 1] /\
  (forall t, union_mem [0; 2; 64; 1] t <-> union_mem [1] t \/ union_mem [15] t) /\ blen [0; 2; 64; 1] < 1024 /\
  merge_func [1; 3; 97; 0] [1] [15] = Ok [0; 2; 64; 1].
Proof.
  assert (K : union_key [1; 3; 97; 0]) by (exists [3; 97; 0]; left; reflexivity).
  assert (V1 : union_valid [1]) by (constructor; lia). assert (V2 : union_valid [15]) by (constructor; lia).
  assert (E : merge_func [1; 3; 97; 0] [1] [15] = Ok [0; 2; 64; 1]) by (vm_compute; reflexivity).
  assert (R : rfc4034 [0; 2; 64; 1]).
  { exists [(0, [64; 1])]. split; [discriminate|]. split; [|reflexivity]. split; repeat constructor; cbn; try lia; discriminate. }
  destruct (union_of_two_exists [1] [15] V1 V2) as (m & Hm & HM).
  assert (m = [0; 2; 64; 1]) as ->; [|split; [exact K|]; split; [exact V1|]; split; [exact V2|]; split; [exact R|]; split; [exact HM|split; [reflexivity|exact E]]].
  assert (X : blen m < 1024) by (apply (merge_index_completes_iff [1; 3; 97; 0] [1] [15] m K V1 V2 ltac:(discriminate) Hm HM); eauto).
  pose proof (merge_index_is_union [1; 3; 97; 0] [1] [15] m K V1 V2 ltac:(discriminate) Hm HM X) as E'. congruence.
Qed.

(** ** C10 *)

Theorem index_test_no_false_negative : forall e_type m t, union_valid m -> t < 65536 -> union_mem m t ->
  rrtype_test e_type t m = Ok true.
Proof.
  intros e_type m t H Ht M. pose proof (union_valid_nonempty m H). unfold rrtype_test.
  destruct m as [|a m]; [congruence|]. apply union_check_no_false_negative; assumption.
Qed.
Print Assumptions index_test_no_false_negative.

(** An empty forward-name index value stands for every type, an empty
    reverse-name one for the types whose rdata names are indexed. *)
Theorem index_test_empty : forall t,
  rrtype_test ENTRY_TYPE_RRSET_NAME_FWD t [] = Ok true /\
  rrtype_test ENTRY_TYPE_RRSET t [] = Ok true /\
  (rrtype_test ENTRY_TYPE_RDATA_NAME_REV t [] = Ok true <-> In t [2; 5; 6; 12; 15; 33; 39; 64; 65]).
Proof.
  intro t. split; [reflexivity|]. split; [reflexivity|].
  assert (E : rrtype_test ENTRY_TYPE_RDATA_NAME_REV t [] = Ok (existsb (N.eqb t) all_rrtypes_for_RDATA_NAME_REV)) by reflexivity.
  rewrite E. split.
  - intro H. assert (Hx : existsb (N.eqb t) all_rrtypes_for_RDATA_NAME_REV = true) by congruence. clear H E. apply existsb_exists in Hx. destruct Hx as (x & Hin & Hx).
    apply N.eqb_eq in Hx. subst. exact Hin.
  - intro H. f_equal. apply existsb_exists. exists t. split; [exact H|apply N.eqb_refl].
Qed.
Print Assumptions index_test_empty.

(** A value that becomes corrupt by truncation, before the window of [t] was
    seen, tests true. *)
Theorem index_test_truncated_partial : forall e_type ws junk t,
  windows_lenient ws -> t < 65536 -> ~ In (t / 256) (map fst ws) ->
  ((exists a, junk = [a]) \/ exists w bl rest, junk = w :: bl :: rest /\ blen rest < bl) ->
  (3 <= length (encode_windows ws ++ junk))%nat ->
  rrtype_test e_type t (encode_windows ws ++ junk) = Ok true.
Proof.
  intros e_type ws junk t Hws Ht Hnot Hj Hlen.
  assert (E : rrtype_test e_type t (encode_windows ws ++ junk) =
    union_check_blocks (S (length (encode_windows ws ++ junk))) (t / 256) (t mod 256 / 8) (t mod 256 mod 8)
      (encode_windows ws ++ junk)).
  { destruct (encode_windows ws ++ junk) as [|a [|b [|c r]]]; cbn [length] in Hlen; try lia. reflexivity. }
  rewrite E. clear E Hlen.
  assert (G : forall fuel, (length (encode_windows ws ++ junk) < fuel)%nat ->
     union_check_blocks fuel (t / 256) (t mod 256 / 8) (t mod 256 mod 8) (encode_windows ws ++ junk) = Ok true).
  { induction ws as [|[w bm] ws IH]; intros fuel Hf; (destruct fuel as [|fuel]; [lia|]).
    - cbn [encode_windows flat_map app union_check_blocks]. destruct Hj as [(a & ->)|(w & bl & rest & -> & Hlt)]; [reflexivity|].
      apply N.ltb_lt in Hlt. rewrite Hlt. reflexivity.
    - rewrite encode_windows_cons. cbn [app union_check_blocks]. rewrite <- app_assoc.
      destruct (N.ltb_spec (blen (bm ++ encode_windows ws ++ junk)) (blen bm)) as [Hc|_]; [rewrite blen_app in Hc; lia|].
      destruct (N.eqb_spec w (t / 256)) as [Ew|Ew]; [exfalso; apply Hnot; left; exact Ew|]. cbn [negb].
      rewrite skipn_blen_app. apply IH.
      + destruct Hws as [HF S]. inversion HF; subst. apply StronglySorted_inv in S. destruct S. split; assumption.
      + intro Hin. apply Hnot. right. exact Hin.
      + rewrite encode_windows_cons in Hf. cbn [app length] in Hf. rewrite <- app_assoc, app_length in Hf. lia. }
  apply G. lia.
Qed.
Print Assumptions index_test_truncated_partial.

(** The other kind of corruption is not noticed: window numbers out of order.
    Unpacking rejects the value, testing says no. *)
Theorem index_test_corrupt_refuted : exists m t, t < 65536 /\
  rrtype_union_unpack m = Ok None /\ rrtype_test ENTRY_TYPE_RRSET_NAME_FWD t m = Ok false.
Proof. exists [1; 1; 128; 0; 1; 64], 5. split; [reflexivity|]. vm_compute. split; reflexivity. Qed.
Print Assumptions index_test_corrupt_refuted.

Example c10_case : union_valid (encode_windows [(0, [64; 1]); (1, [128])]) /\
  union_mem (encode_windows [(0, [64; 1]); (1, [128])]) 256 /\
  rrtype_test 1 256 (encode_windows [(0, [64; 1]); (1, [128])]) = Ok true.
Proof.
  split; [apply uv_map; [discriminate|apply ws_ok_example]|]. split; [|vm_compute; reflexivity].
  apply union_mem_windows; [discriminate|apply ws_ok_example|].
  exists [128]. split; [right; left; reflexivity|reflexivity].
Qed.

(** ** C11 *)

(** Exact answer, unless [t]'s octet is the one just past its window's bitmap. *)
Theorem index_test_exact_partial : forall e_type m t, union_valid m -> t < 65536 ->
  (forall ws bm, windows_ok ws -> m = encode_windows ws -> In (t / 256, bm) ws -> t mod 256 / 8 <> blen bm) ->
  exists b, rrtype_test e_type t m = Ok b /\ (b = true <-> union_mem m t).
Proof.
  intros e_type m t H Ht Hne. pose proof (union_valid_nonempty m H). unfold rrtype_test.
  destruct m as [|a m]; [congruence|]. apply union_check_exact; assumption.
Qed.
Print Assumptions index_test_exact_partial.

(** What happens there: a bit of the next window's number decides, or the read
    is out of bounds. *)
Theorem index_test_boundary : forall e_type ws1 w bm ws2 t,
  windows_ok (ws1 ++ (w, bm) :: ws2) -> t / 256 = w -> t mod 256 / 8 = blen bm ->
  rrtype_test e_type t (encode_windows (ws1 ++ (w, bm) :: ws2)) =
  match ws2 with
  | [] => UB
  | (w', _) :: _ => Ok (N.testbit w' (7 - t mod 8))
  end.
Proof.
  intros e_type ws1 w bm ws2 t Hok Hw Hb. pose proof (windows_ok_lenient _ Hok) as HL.
  assert (Hne : ws1 ++ (w, bm) :: ws2 <> []) by (destruct ws1; discriminate).
  destruct (encode_windows_shape _ Hne HL) as (a & b & c & r & E).
  unfold rrtype_test, rrtype_union_check. rewrite E. rewrite <- E.
  apply union_check_boundary; try assumption. lia.
Qed.
Print Assumptions index_test_boundary.

(** False positive: {A, MX, 256} is said to contain type 23 (window 0 has two
    octets; the third is the number of window 1). *)
Theorem index_test_exact_refuted : exists m t, union_valid m /\ t < 65536 /\
  ~ union_mem m t /\ rrtype_test ENTRY_TYPE_RRSET_NAME_FWD t m = Ok true.
Proof.
  exists (encode_windows [(0, [64; 1]); (1, [128])]), 23.
  split; [apply uv_map; [discriminate|apply ws_ok_example]|]. split; [reflexivity|]. split; [|vm_compute; reflexivity].
  rewrite union_mem_windows by (try discriminate; apply ws_ok_example).
  intros (bm & [E|[E|[]]] & Hb); inversion E; subst; vm_compute in Hb; discriminate.
Qed.
Print Assumptions index_test_exact_refuted.

(** Out-of-bounds read: {A, MX} tested for type 16 (TXT). *)
Theorem index_test_in_bounds_refuted : exists m t, union_valid m /\ t < 65536 /\
  rrtype_test ENTRY_TYPE_RRSET_NAME_FWD t m = UB.
Proof.
  exists (encode_windows [(0, [64; 1])]), 16. split; [|split; [reflexivity|vm_compute; reflexivity]].
  apply uv_map; [discriminate|]. split; repeat constructor; cbn; try lia; discriminate.
Qed.
Print Assumptions index_test_in_bounds_refuted.

Example c11_case : rrtype_test 1 28 (encode_windows [(0, [64; 1]); (1, [128])]) = Ok false.
Proof. vm_compute. reflexivity. Qed.

(** ** C12 *)

Theorem index_unpack_sorted_set : forall m, union_valid m ->
  (exists t, t < 65536 /\ ~ union_mem m t) ->
  exists l, rrtype_union_unpack m = Ok (Some l) /\ StronglySorted N.lt l /\ forall t, In t l <-> union_mem m t.
Proof.
  intros m H (t & Ht & Hn). destruct (union_types m H) as (l & S & _ & _ & M & U).
  exists l. split; [|split; assumption]. apply (U t Ht). rewrite M. exact Hn.
Qed.
Print Assumptions index_unpack_sorted_set.

(** The set of all 65536 types is the one exception: it is reported corrupt. *)
Theorem index_unpack_all_types : forall m, union_valid m -> (forall t, t < 65536 -> union_mem m t) ->
  rrtype_union_unpack m = Ok None.
Proof.
  intros m H Hall. inversion H; subst.
  - exfalso. pose proof (Hall 0 eq_refl). pose proof (Hall 1 eq_refl). cbn in *. lia.
  - exfalso. pose proof (Hall 0 eq_refl) as A. unfold union_mem in A. lia.
  - apply unpack_windows_full; [assumption|apply windows_ok_lenient; assumption|].
    intros t Ht. apply union_mem_windows; auto.
Qed.
Print Assumptions index_unpack_all_types.

(** Values with trailing zero octets in the bitmaps also decode to the set. *)
Theorem index_unpack_lenient : forall ws t, ws <> [] -> windows_lenient ws -> t < 65536 -> ~ windows_mem ws t ->
  exists l, rrtype_union_unpack (encode_windows ws) = Ok (Some l) /\ StronglySorted N.lt l /\
    forall x, In x l <-> windows_mem ws x.
Proof.
  intros ws t Hne HL Ht Hn. exists (types_of ws). split; [apply (unpack_windows ws t); assumption|].
  split; [apply ssorted_types_of; exact HL|]. intro x. apply in_types_of. apply HL.
Qed.
Print Assumptions index_unpack_lenient.

(** Any longer value that unpacks is a sequence of windows in increasing order. *)
Theorem index_unpack_accepts_only_windows : forall m l, (3 <= length m)%nat ->
  rrtype_union_unpack m = Ok (Some l) ->
  exists ws, m = encode_windows ws /\ StronglySorted N.lt (map fst ws) /\
    Forall (fun wb : window => (1 <= length (snd wb))%nat) ws.
Proof.
  intros m l HL H. destruct m as [|a [|b [|c r]]]; cbn [length] in HL; try lia.
  unfold rrtype_union_unpack in H.
  destruct (unpack_blocks (S (length (a :: b :: c :: r))) None (a :: b :: c :: r)) as [u| | | |] eqn:E; try discriminate.
  cbn [bind] in H. destruct u as [l'|]; [|discriminate].
  apply unpack_blocks_inv in E. destruct E as (ws & Em & HF & S & _). exists ws. repeat split; assumption.
Qed.
Print Assumptions index_unpack_accepts_only_windows.

(** A bitmap of more than 32 octets is accepted and its types are neither
    distinct nor sorted: window 1 with 33 octets. *)
Theorem index_unpack_long_bitmap_refuted : exists m l,
  rrtype_union_unpack m = Ok (Some l) /\ ~ StronglySorted N.lt l.
Proof.
  exists (1 :: 33 :: 128 :: repeat 0 31 ++ [128]), [256; 256].
  split; [vm_compute; reflexivity|]. intro S. apply StronglySorted_inv in S. destruct S as [_ HF].
  inversion HF; subst. lia.
Qed.
Print Assumptions index_unpack_long_bitmap_refuted.

Example c12_case : rrtype_union_unpack (encode_windows [(0, [64; 1]); (1, [128])]) = Ok (Some [1; 15; 256]).
Proof. vm_compute. reflexivity. Qed.

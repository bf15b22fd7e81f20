(** C21-C26, C28, C29, C32-C34, C42: what queries over one source return. *)
From Coq Require Import Permutation.
From Verif Require Import Base BaseFacts ModelVarint VarintProofs SpecMerge MergeProofs ModelWdns SpecName NameFacts.
From Verif Require Import ModelEntry SpecEntry EntryProofs PropsEntry ModelUnion SpecUnion ModelIter SpecIter IterProofs PropsIter.
From Verif Require Import UnionProofs UnionBuild UnionMerge PropsUnion ModelQuery SpecQuery KeyProofs FilterProofs QueryProofs SelectProofs RRsetQueries IndexProofs RightWildcard RdataQueries IpProofs IpQueries Demo.

(** * C21-C26, C28: which records a query returns *)

Theorem rrset_query_exact : forall q t recs name bw, database recs t -> q_type q = QRrset ->
  asks_name q name -> not_left_wild name -> not_right_wild name -> asks_bailiwick q bw -> type_param_ok q ->
  returns q t recs (exact_rrset q name bw).
Proof. exact exact_rrset_ok. Qed.

Theorem rrset_query_left_wildcard : forall q t recs c x bw, database recs t -> q_type q = QRrset ->
  c = star_sign \/ c = plus_sign -> asks_name q ([c] :: x) -> asks_bailiwick q bw ->
  returns q t recs (below_rrset q c x bw).
Proof. exact below_rrset_ok. Qed.

Theorem rrset_query_right_wildcard : forall q t recs c x bw, database recs t -> strict t -> q_type q = QRrset ->
  c = star_sign \/ c = plus_sign -> asks_name q (x ++ [[c]]) -> not_left_wild (x ++ [[c]]) -> asks_bailiwick q bw -> type_param_ok q ->
  owners_indexed recs -> owner_index_safe q recs ->
  returns_grouped q t recs (after_index c x) same_owner (after_rrset q c x bw).
Proof. exact after_rrset_ok. Qed.

Theorem rdata_name_query_exact : forall q t recs name, database recs t -> q_type q = QRdataName ->
  asks_name q name -> not_left_wild name -> not_right_wild name -> name_type_param_ok q -> names_canonical recs ->
  returns q t recs (named_rdata q name).
Proof. exact named_rdata_ok. Qed.

Theorem rdata_name_query_right_wildcard : forall q t recs c x, database recs t -> q_type q = QRdataName ->
  c = star_sign \/ c = plus_sign -> asks_name q (x ++ [[c]]) -> name_type_param_ok q -> names_canonical recs ->
  returns q t recs (name_after q c x).
Proof. exact name_after_ok. Qed.

Theorem rdata_name_query_left_wildcard : forall q t recs c x, database recs t -> strict t -> q_type q = QRdataName ->
  c = star_sign \/ c = plus_sign -> asks_name q ([c] :: x) -> not_right_wild ([c] :: x) -> name_type_param_ok q -> names_canonical recs ->
  rdata_names_indexed recs -> rdata_index_safe q recs ->
  returns_grouped q t recs (below_index c x) names_it (name_below q c x).
Proof. exact name_below_ok. Qed.

(** Missing for the full C26: the condition [no_overread_between], see [rdata_ip_query_refuted]. *)
Theorem rdata_ip_query_partial : forall q t recs n ty lo hi, database recs t -> q_type q = QRdataIp ->
  asks_range q n ty lo hi -> addresses_canonical recs n ty -> no_overread_between recs n ty lo hi ->
  returns q t recs (ip_rdata q ty lo hi).
Proof. exact ip_rdata_ok. Qed.

Theorem rdata_raw_query : forall q t recs raw, database recs t -> q_type q = QRdataRaw ->
  q_rdata q = Some raw -> q_len_rdata q = blen raw ->
  returns q t recs (raw_rdata q raw).
Proof. exact raw_rdata_ok. Qed.

(** For raw strings no longer than the sliced record data, "the key data begins with
    the bytes" is "the sliced record data begins with them". *)
Theorem raw_rdata_is_prefix : forall q raw ow ty head tail o, blen raw <= blen tail -> ty < 65536 ->
  (raw_rdata q raw (RData ow ty head tail o) <->
   (exists rest, tail = raw ++ rest) /\ type_ok q ty /\ in_fence q o).
Proof.
  intros q raw ow ty head tail o HL HT. cbn [raw_rdata]. split; intros (H & T); (split; [|exact T]).
  - destruct H as (rest & t & _ & E). injection E as E. exists (skipn (length raw) tail).
    assert (EF : firstn (length raw) tail = raw).
    { pose proof (f_equal (firstn (length raw)) E) as G. rewrite firstn_app_len in G. rewrite G at 2.
      rewrite firstn_app. replace (length raw - length tail)%nat with O by (unfold blen in HL; lia). rewrite firstn_O, app_nil_r. reflexivity. }
    rewrite <- EF at 1. symmetry. apply firstn_skipn.
  - destruct H as (rest & ->). pose proof (leb128_encode64 ty ltac:(unfold u64; lia)) as Ht. set (t := varint_encode64 ty) in Ht.
    exists (rest ++ t ++ rwire ow ++ head ++ enc_le16 (blen (raw ++ rest))). exists t. split; [exact Ht|]. rewrite !app_assoc. reflexivity.
Qed.

(** All kinds together. *)
Theorem query_returns : forall q t recs M, database recs t -> asks q recs M -> returns q t recs M.
Proof.
  intros q t recs M HD [name bw|c x bw|name|c x|raw|n ty lo hi].
  - eapply exact_rrset_ok; eauto.
  - eapply below_rrset_ok; eauto.
  - eapply named_rdata_ok; eauto.
  - eapply name_after_ok; eauto.
  - eapply raw_rdata_ok; eauto.
  - eapply ip_rdata_ok; eauto.
Qed.
Theorem query_returns_grouped : forall q t recs I B M, database recs t -> strict t -> asks_grouped q recs I B M ->
  returns_grouped q t recs I B M.
Proof.
  intros q t recs I B M HD HS [c x bw|c x].
  - eapply after_rrset_ok; eauto.
  - eapply name_below_ok; eauto.
Qed.

(** ** Examples *)

Definition ask (ty : qtype) (rr : option N) (name : option bytes) (bw : option bytes) (raw : option bytes)
  (ip1 ip2 : bytes) (off : N) (tfa tfb tla tlb : option N) : query :=
  let is {A} (x : option A) := match x with Some _ => true | None => false end in
  let val (x : option N) := match x with Some n => n | None => 0 end in
  {| q_type := ty; q_do_rrtype := is rr; q_rrtype := val rr;
     q_do_timeout := false; q_timeout := {| tv_sec := 0; tv_nsec := 0 |};
     q_do_deadline := false; q_deadline := {| tv_sec := 0; tv_nsec := 0 |};
     q_aggregated := true; q_case_sensitive := false;
     q_do_tfb := is tfb; q_tfb := val tfb; q_do_tfa := is tfa; q_tfa := val tfa;
     q_do_tlb := is tlb; q_tlb := val tlb; q_do_tla := is tla; q_tla := val tla;
     q_name := name; q_bailiwick := bw; q_len_ip1 := blen ip1; q_len_ip2 := blen ip2; q_ip1 := ip1; q_ip2 := ip2;
     q_len_rdata := match raw with Some r => blen r | None => 0 end; q_rdata := raw;
     q_offset := off; q_has_v_type := false; q_v_type := 0 |}.

(** What an example query answers: type byte, owner and type of each entry, and whether
    the end was reached. *)
Definition seen_by (n : nat) (q : query) (t : table) : list (option (N * res bytes * res N)) :=
  match dnstable_query_iter q t with
  | Ok qi => map (fun r => match r with QEntry e => Some (get_type e, get_rrname e, get_rrtype e) | _ => None end)
                 (calls 100 n qi (load_offset q world0))
  | _ => []
  end.

Ltac no_wild_left := intros l ls E; injection E as <- _; intros [C|C]; discriminate C.
Lemma last_is : forall (ls ls' : list bytes) l l', ls ++ [l] = ls' ++ [l'] -> l = l'.
Proof. intros ls ls' l l' E. apply app_inj_tail in E. tauto. Qed.
Lemma no_wild_right : forall init last, ~ wild_label last ->
  nth_error (rev last) 1 <> Some 1 -> not_right_wild (init ++ [last]).
Proof.
  intros init last HW HN ls l E. apply last_is in E. subst l. split; [exact HW|].
  intros a b ->. exfalso. apply HN. rewrite rev_app_distr. reflexivity.
Qed.

Definition Q21 := ask QRrset (Some 1) (Some (wire [L_www; L_ex; L_com])) (Some (rwire [L_ex; L_com])) None [] [] 0 None None None None.
Example c21_case : database demo demo_table /\ asks Q21 demo (exact_rrset Q21 [L_www; L_ex; L_com] (Some [L_ex; L_com])) /\
  seen_by 2 Q21 demo_table = [Some (0, Ok (wire [L_www; L_ex; L_com]), Ok 1); None] /\
  length (seen_by 4 (ask QRrset None (Some (wire [L_www; L_ex; L_com])) None None [] [] 0 None None None None) demo_table) = 4%nat /\
  seen_by 4 (ask QRrset None (Some (wire [L_www; L_ex; L_com])) None None [] [] 0 None None None None) demo_table =
    [Some (0, Ok (wire [L_www; L_ex; L_com]), Ok 1); Some (0, Ok (wire [L_www; L_ex; L_com]), Ok 28); None; None].
Proof.
  split; [apply demo_database|]. split.
  - apply asks_exact_rrset; try reflexivity.
    + split; [reflexivity|apply name_okb_ok; reflexivity].
    + no_wild_left.
    + apply (no_wild_right [L_www; L_ex] L_com); [intros [C|C]; discriminate C|discriminate].
    + split; [reflexivity|apply name_okb_ok; reflexivity].
    + intros _. vm_compute. split; congruence.
  - vm_compute. auto.
Qed.

Definition Q22 := ask QRrset None (Some (wire [[star_sign]; L_ex; L_com])) None None [] [] 0 None None None None.
Definition Q22p := ask QRrset None (Some (wire [[plus_sign]; L_com])) None None [] [] 0 None None None None.
Example c22_case : asks Q22 demo (below_rrset Q22 star_sign [L_ex; L_com] None) /\ asks Q22p demo (below_rrset Q22p plus_sign [L_com] None) /\
  seen_by 5 Q22 demo_table =
    [Some (0, Ok (wire [L_ex; L_com]), Ok 15); Some (0, Ok (wire [L_mx; L_ex; L_com]), Ok 1);
     Some (0, Ok (wire [L_www; L_ex; L_com]), Ok 1); Some (0, Ok (wire [L_www; L_ex; L_com]), Ok 28); None] /\
  seen_by 2 Q22p demo_table = [Some (0, Ok (wire [L_ex; L_com]), Ok 15); None].
Proof.
  split; [|split].
  - apply asks_below_rrset; auto; split; try reflexivity; apply name_okb_ok; reflexivity.
  - apply asks_below_rrset; auto; split; try reflexivity; apply name_okb_ok; reflexivity.
  - vm_compute. auto.
Qed.

(** Index values of one window, as in the example database. *)
Lemma one_window : forall w bm, window_ok (w, bm) -> windows_ok [(w, bm)].
Proof. intros w bm H. split; [constructor; [exact H|constructor]|repeat constructor]. Qed.

Lemma one_window_lists : forall w bm ty, window_ok (w, bm) -> ty / 256 = w ->
  N.testbit (nth (N.to_nat (ty mod 256 / 8)) bm 0) (7 - ty mod 8) = true -> lists_type (w :: blen bm :: bm) ty.
Proof.
  intros w bm ty H E T. right. pose proof (one_window w bm H) as HW.
  assert (EE : w :: blen bm :: bm = encode_windows [(w, bm)]) by (cbn; rewrite app_nil_r; reflexivity).
  rewrite EE. split; [apply uv_map; [discriminate|exact HW]|].
  apply union_mem_windows; [discriminate|exact HW|]. exists bm. rewrite E. split; [left; reflexivity|exact T].
Qed.

Lemma one_window_safe : forall w bm ty, window_ok (w, bm) -> ty mod 256 / 8 <> blen bm -> index_safe (w :: blen bm :: bm) ty.
Proof.
  intros w bm ty H E. right. pose proof (one_window w bm H) as HW.
  assert (EE : w :: blen bm :: bm = encode_windows [(w, bm)]) by (cbn; rewrite app_nil_r; reflexivity).
  rewrite EE. split; [apply uv_map; [discriminate|exact HW]|].
  intros ws w' bm' _ E2 _. apply encode_windows_inj in E2. destruct ws as [|x ws]; [injection E2 as <- <-; exact E|].
  destruct ws; discriminate E2.
Qed.

Ltac in_demo H := repeat (destruct H as [H|H]; [first [discriminate H | injection H; clear H; intros; subst]|]); try contradiction H.

Ltac window_here := split; [reflexivity|]; split; [cbn; lia|]; split; [repeat constructor; unfold byte_ok; lia|discriminate].

Lemma demo_owners_indexed : owners_indexed demo.
Proof.
  intros ow ty bw rs o H. unfold demo in H. in_demo H.
  - exists [0; 2; 0; 1]. split; [unfold demo; cbn; tauto|]. apply (one_window_lists 0 [0; 1]); [window_here|reflexivity|reflexivity].
  - exists [0; 1; 64]. split; [unfold demo; cbn; tauto|]. apply (one_window_lists 0 [64]); [window_here|reflexivity|reflexivity].
  - exists [0; 4; 64; 0; 0; 8]. split; [unfold demo; cbn; tauto|]. apply (one_window_lists 0 [64; 0; 0; 8]); [window_here|reflexivity|reflexivity].
  - exists [0; 4; 64; 0; 0; 8]. split; [unfold demo; cbn; tauto|]. apply (one_window_lists 0 [64; 0; 0; 8]); [window_here|reflexivity|reflexivity].
  - exists [0; 1; 4]. split; [unfold demo; cbn; tauto|]. apply (one_window_lists 0 [4]); [window_here|reflexivity|reflexivity].
Qed.

Lemma demo_owner_safe : forall ow m, In (OwnerIndex ow m) demo -> index_safe m 1.
Proof.
  intros ow m H. unfold demo in H. in_demo H.
  - apply (one_window_safe 0 [0; 1]); [window_here|discriminate].
  - apply (one_window_safe 0 [64]); [window_here|discriminate].
  - apply (one_window_safe 0 [64; 0; 0; 8]); [window_here|discriminate].
  - apply (one_window_safe 0 [4]); [window_here|discriminate].
Qed.

Definition Q23 := ask QRrset (Some 1) (Some (wire [L_www; [star_sign]])) None None [] [] 0 None None None None.
Example c23_case : strict demo_table /\ asks_grouped Q23 demo (after_index star_sign [L_www]) same_owner (after_rrset Q23 star_sign [L_www] None) /\
  seen_by 2 Q23 demo_table = [Some (0, Ok (wire [L_www; L_ex; L_com]), Ok 1); None] /\
  seen_by 4 (ask QRrset None (Some (wire [L_www; [star_sign]])) None None [] [] 0 None None None None) demo_table =
    [Some (0, Ok (wire [L_www; L_ex; L_com]), Ok 1); Some (0, Ok (wire [L_www; L_ex; L_com]), Ok 28);
     Some (0, Ok (wire [L_www; L_net]), Ok 5); None] /\
  seen_by 2 (ask QRrset None (Some (wire [L_www; [plus_sign]])) None None [] [] 0 None None None None) demo_table =
    [Some (0, Ok (wire [L_www; L_net]), Ok 5); None].
Proof.
  split; [apply demo_database|]. split; [|vm_compute; auto].
  apply (asks_after_rrset Q23 demo star_sign [L_www] None); auto.
  - split; [reflexivity|apply name_okb_ok; reflexivity].
  - no_wild_left.
  - split; [reflexivity|exact I].
  - intros _. vm_compute. split; congruence.
  - apply demo_owners_indexed.
  - intros _. exact demo_owner_safe.
Qed.

Lemma demo_names_canonical : names_canonical demo.
Proof.
  intros ow ty head tail o H HB. unfold demo in H. in_demo H;
    try (exfalso; cbn in HB; repeat (destruct HB as [HB|HB]; [discriminate HB|]); contradiction HB).
  - exists [L_mx; L_ex; L_com], []. split; [apply name_okb_ok; reflexivity|]. auto.
  - exists [L_www; L_ex; L_com], []. split; [apply name_okb_ok; reflexivity|]. auto.
Qed.

Definition Q24 := ask QRdataName (Some 15) (Some (wire [L_mx; L_ex; L_com])) None None [] [] 0 None None None None.
Example c24_case : asks Q24 demo (named_rdata Q24 [L_mx; L_ex; L_com]) /\
  seen_by 2 Q24 demo_table = [Some (2, Ok (wire [L_ex; L_com]), Ok 15); None] /\
  seen_by 2 (ask QRdataName None (Some (wire [L_www; L_ex; L_com])) None None [] [] 0 None None None None) demo_table =
    [Some (2, Ok (wire [L_www; L_net]), Ok 5); None].
Proof.
  split; [|vm_compute; auto]. apply asks_named_rdata; try reflexivity.
  - split; [reflexivity|apply name_okb_ok; reflexivity].
  - no_wild_left.
  - apply (no_wild_right [L_mx; L_ex] L_com); [intros [C|C]; discriminate C|discriminate].
  - intros _. cbn. tauto.
  - exact demo_names_canonical.
Qed.

Lemma wire_app_inj : forall n n' e e', name_ok n -> name_ok n' -> wire n ++ e = wire n' ++ e' -> n = n'.
Proof. intros n n' e e' [H _] [H' _] E. eapply wire_prefix_inj; eauto. Qed.

Lemma demo_rdata_indexed : rdata_names_indexed demo.
Proof.
  intros ow ty head n extra o H Hn HB. unfold demo in H. repeat (destruct H as [H|H]; [try discriminate H|]); try contradiction H;
    injection H; clear H; intros; subst;
    try (exfalso; cbn in HB; repeat (destruct HB as [HB|HB]; [discriminate HB|]); contradiction HB).
  - assert (E : wire [L_mx; L_ex; L_com] ++ [] = wire n ++ extra) by (rewrite app_nil_r; assumption).
    apply wire_app_inj in E; [|apply name_okb_ok; reflexivity|exact Hn]. subst n.
    exists [0; 2; 0; 1]. split; [unfold demo; cbn; tauto|]. apply (one_window_lists 0 [0; 1]); [window_here|reflexivity|reflexivity].
  - assert (E : wire [L_www; L_ex; L_com] ++ [] = wire n ++ extra) by (rewrite app_nil_r; assumption).
    apply wire_app_inj in E; [|apply name_okb_ok; reflexivity|exact Hn]. subst n.
    exists [5]. split; [unfold demo; cbn; tauto|]. right. split; [apply uv_one; reflexivity|reflexivity].
Qed.

Definition Q25r := ask QRdataName None (Some (wire [L_mx; [star_sign]])) None None [] [] 0 None None None None.
Definition Q25l := ask QRdataName (Some 15) (Some (wire [[star_sign]; L_ex; L_com])) None None [] [] 0 None None None None.
Example c25_case : asks Q25r demo (name_after Q25r star_sign [L_mx]) /\
  asks_grouped Q25l demo (below_index star_sign [L_ex; L_com]) names_it (name_below Q25l star_sign [L_ex; L_com]) /\
  seen_by 2 Q25r demo_table = [Some (2, Ok (wire [L_ex; L_com]), Ok 15); None] /\
  seen_by 2 Q25l demo_table = [Some (2, Ok (wire [L_ex; L_com]), Ok 15); None] /\
  seen_by 3 (ask QRdataName None (Some (wire [[plus_sign]; L_ex; L_com])) None None [] [] 0 None None None None) demo_table =
    [Some (2, Ok (wire [L_ex; L_com]), Ok 15); Some (2, Ok (wire [L_www; L_net]), Ok 5); None].
Proof.
  split; [|split; [|vm_compute; auto]].
  - apply asks_name_after; auto.
    + split; [reflexivity|apply name_okb_ok; reflexivity].
    + discriminate.
    + exact demo_names_canonical.
  - apply asks_name_below; auto.
    + split; [reflexivity|apply name_okb_ok; reflexivity].
    + apply (no_wild_right [[star_sign]; L_ex] L_com); [intros [C|C]; discriminate C|discriminate].
    + intros _. cbn. tauto.
    + exact demo_names_canonical.
    + exact demo_rdata_indexed.
    + intros _ n m H. unfold demo in H. in_demo H.
      * apply (one_window_safe 0 [0; 1]); [window_here|discriminate].
      * right. split; [apply uv_one; reflexivity|]. intros ws w bm _ E _. exfalso. apply (f_equal (@length N)) in E.
        rewrite encode_windows_app, app_length in E. cbn in E. lia.
Qed.

Definition Q28 := ask QRdataRaw (Some 1) None None (Some [10; 0; 0]) [] [] 0 None None None None.
Example c28_case : asks Q28 demo (raw_rdata Q28 [10; 0; 0]) /\
  seen_by 4 Q28 demo_table = [Some (2, Ok (wire [L_www; L_ex; L_com]), Ok 1); Some (2, Ok (wire [L_mx; L_ex; L_com]), Ok 1);
    Some (2, Ok (wire [L_www; L_ex; L_com]), Ok 1); None].
Proof. split; [|vm_compute; auto]. apply asks_raw_rdata; reflexivity. Qed.

(** ** C26 *)

Lemma put_rdata_key : forall ow ty head tail k, ty < 65536 -> rdata_key ow ty head tail k ->
  k = fst (put (RData ow ty head tail (ob 0 0 0))).
Proof.
  intros ow ty head tail k HT (t & Ht & ->). apply leb128_is_encode64 in Ht; [|unfold u64; lia]. subst t. reflexivity.
Qed.

Ltac not_over := intros [C|(a & ls & La & Hls & HF & E)]; [discriminate C|];
  destruct a as [|a0 [|a1 [|a2 [|a3 [|]]]]]; try discriminate La; cbn in E;
  destruct ls as [|l ls]; [congruence|]; cbn in E; injection E; clear E; intros; subst; try discriminate;
  inversion HF as [|? ? [HL _] _]; subst; unfold blen in *; lia.

Lemma demo_no_overread : no_overread demo 4 1.
Proof.
  intros ow ty head tail o k H HN HK. unfold demo in H. in_demo H; try (exfalso; apply HN; reflexivity);
    apply put_rdata_key in HK; try reflexivity; vm_compute in HK; subst k; not_over.
Qed.

Definition Q26 := ask QRdataIp (Some 1) None None None [10; 0; 0; 2] [10; 0; 0; 9] 0 None None None None.
Example c26_case : asks Q26 demo (ip_rdata Q26 1 [10; 0; 0; 2] [10; 0; 0; 9]) /\
  seen_by 3 Q26 demo_table = [Some (2, Ok (wire [L_mx; L_ex; L_com]), Ok 1); Some (2, Ok (wire [L_www; L_ex; L_com]), Ok 1); None].
Proof.
  split; [|vm_compute; auto]. apply (asks_ip_rdata Q26 demo 4); [reflexivity| | |apply no_overread_part; exact demo_no_overread].
  - split; [left; auto|]. repeat (split; [reflexivity|]).
    split; [apply bytes_okb_ok; reflexivity|]. right. repeat (split; [reflexivity|]). apply bytes_okb_ok; reflexivity.
  - intros ow head tail o H. unfold demo in H. in_demo H; auto.
Qed.

(** The property itself is false: on the address record abc.com A 32.1.13.184, a query
    for 2001:db8::/32 reads behind the end of the key. *)
Definition over_recs : list record := [RData [[97; 98; 99]; L_com] 1 [] [32; 1; 13; 184] (ob 1 2 3)].
Definition Q26o := ask QRdataIp (Some 28) None None None
  [32; 1; 13; 184; 0; 0; 0; 0; 0; 0; 0; 0; 0; 0; 0; 0] [32; 1; 13; 184; 255; 255; 255; 255; 255; 255; 255; 255; 255; 255; 255; 255]
  0 None None None None.
Theorem rdata_ip_query_refuted : exists q t recs n ty lo hi qi, database recs t /\ strict t /\ q_type q = QRdataIp /\
  asks_range q n ty lo hi /\ addresses_canonical recs n ty /\
  dnstable_query_iter q t = Ok qi /\ calls 100 1 qi world0 = [QUB].
Proof.
  exists Q26o, (map put over_recs), over_recs, 16%nat, 28. eexists. eexists. eexists.
  destruct (demo_ok over_recs eq_refl eq_refl) as [A B]. split; [exact A|]. split; [exact B|]. split; [reflexivity|].
  split; [|split; [|split; [reflexivity|vm_compute; reflexivity]]].
  - split; [right; auto|]. repeat (split; [reflexivity|]).
    split; [apply bytes_okb_ok; reflexivity|]. right. repeat (split; [reflexivity|]). apply bytes_okb_ok; reflexivity.
  - intros ow head tail o [H|[]]. discriminate H.
Qed.

(** * Queries that differ in time bounds, offset, timeout or deadline only *)

Definition fences (q : query) (M0 M : record -> Prop) : Prop := forall r, M r <-> M0 r /\ fenced_in q r.

Lemma asks_core : forall q recs M, asks q recs M ->
  exists M0, fences q M0 M /\ forall q', same_question q q' -> exists M', asks q' recs M' /\ fences q' M0 M'.
Proof.
  intros q recs M H.
  assert (EX : forall (f : query -> record -> Prop), (forall q' r, f q' r -> shown r) -> M = f q -> (forall q', same_question q q' -> asks q' recs (f q')) ->
    (forall q', same_question q q' -> forall r, f q' r <-> f (without_bounds q) r /\ fenced_in q' r) ->
    exists M0, fences q M0 M /\ forall q', same_question q q' -> exists M', asks q' recs M' /\ fences q' M0 M').
  { intros f _ -> HA HF. exists (f (without_bounds q)). split.
    - intro r. apply HF. repeat split; reflexivity.
    - intros q' HS. exists (f q'). split; [apply HA; exact HS|]. intro r. apply HF. exact HS. }
  assert (TO : forall q', same_question q q' -> forall ty, type_ok q' ty <-> type_ok (without_bounds q) ty).
  { intros q' HS ty. unfold type_ok. cbn [without_bounds q_do_rrtype q_rrtype]. destruct HS as (_ & E1 & E2 & _). rewrite E1, E2. tauto. }
  assert (NF : forall o, in_fence (without_bounds q) o).
  { intro o. unfold in_fence. cbn. repeat split; discriminate. }
  destruct H as [name bw A1 A2 A3 A4 A5 A6|c x bw A1 A2 A3 A4|name A1 A2 A3 A4 A5 A6|c x A1 A2 A3 A4 A5|raw A1 A2 A3|n ty lo hi A1 A2 A3 A4].
  - apply (EX (fun q => exact_rrset q name bw)); [intros ? [] ?; cbn in *; tauto|reflexivity| |].
    + intros q' HS. pose proof HS as (E1 & E2 & E3 & E4 & E5 & _). apply asks_exact_rrset; auto.
      * congruence.
      * split; [rewrite E4|]; apply A2.
      * split; [rewrite E5|]; apply A5.
      * unfold type_param_ok. rewrite E2, E3. exact A6.
    + intros q' HS r. destruct r; cbn [exact_rrset fenced_in]; try tauto. rewrite (TO q' HS). pose proof (NF o). tauto.
  - apply (EX (fun q => below_rrset q c x bw)); [intros ? [] ?; cbn in *; tauto|reflexivity| |].
    + intros q' HS. pose proof HS as (E1 & E2 & E3 & E4 & E5 & _). apply asks_below_rrset; auto.
      * congruence.
      * split; [rewrite E4|]; apply A3.
      * split; [rewrite E5|]; apply A4.
    + intros q' HS r. destruct r; cbn [below_rrset fenced_in]; try tauto. rewrite (TO q' HS). pose proof (NF o). tauto.
  - apply (EX (fun q => named_rdata q name)); [intros ? [] ?; cbn in *; tauto|reflexivity| |].
    + intros q' HS. pose proof HS as (E1 & E2 & E3 & E4 & E5 & _). apply asks_named_rdata; auto.
      * congruence.
      * split; [rewrite E4|]; apply A2.
      * unfold name_type_param_ok. rewrite E2, E3. exact A5.
    + intros q' HS r. destruct r; cbn [named_rdata fenced_in]; try tauto. rewrite (TO q' HS). pose proof (NF o). tauto.
  - apply (EX (fun q => name_after q c x)); [intros ? [] ?; cbn in *; tauto|reflexivity| |].
    + intros q' HS. pose proof HS as (E1 & E2 & E3 & E4 & E5 & _). apply asks_name_after; auto.
      * congruence.
      * split; [rewrite E4|]; apply A3.
      * unfold name_type_param_ok. rewrite E2, E3. exact A4.
    + intros q' HS r. destruct r; cbn [name_after fenced_in]; try tauto. rewrite (TO q' HS). pose proof (NF o). tauto.
  - apply (EX (fun q => raw_rdata q raw)); [intros ? [] ?; cbn in *; tauto|reflexivity| |].
    + intros q' HS. pose proof HS as (E1 & _ & _ & _ & _ & _ & _ & _ & _ & E10 & E11). apply asks_raw_rdata; congruence.
    + intros q' HS r. destruct r; cbn [raw_rdata fenced_in]; try tauto. rewrite (TO q' HS). pose proof (NF o). tauto.
  - apply (EX (fun q => ip_rdata q ty lo hi)); [intros ? [] ?; cbn in *; tauto|reflexivity| |].
    + intros q' HS. pose proof HS as (E1 & E2 & E3 & E4 & E5 & E6 & E7 & E8 & E9 & _). apply (asks_ip_rdata q' recs n ty lo hi); auto.
      * congruence.
      * unfold asks_range in *. rewrite E2, E3, E6, E7, E8, E9. exact A2.
    + intros q' HS r. destruct r; cbn [ip_rdata fenced_in]; try tauto. pose proof (NF o). tauto.
Qed.

Lemma asks_grouped_core : forall q recs I B M, asks_grouped q recs I B M ->
  exists M0, fences q M0 M /\ forall q', same_question q q' -> exists M', asks_grouped q' recs I B M' /\ fences q' M0 M'.
Proof.
  intros q recs I B M H.
  assert (TO : forall q', same_question q q' -> forall ty, type_ok q' ty <-> type_ok (without_bounds q) ty).
  { intros q' HS ty. unfold type_ok. cbn [without_bounds q_do_rrtype q_rrtype]. destruct HS as (_ & E1 & E2 & _). rewrite E1, E2. tauto. }
  assert (NF : forall o, in_fence (without_bounds q) o).
  { intro o. unfold in_fence. cbn. repeat split; discriminate. }
  assert (SQ : same_question q q) by (repeat split; reflexivity).
  destruct H as [c x bw A1 A2 A3 A4 A5 A6 A7 A8|c x A1 A2 A3 A4 A5 A6 A7 A8].
  - assert (HF : forall q', same_question q q' -> fences q' (after_rrset (without_bounds q) c x bw) (after_rrset q' c x bw)).
    { intros q' HS r. destruct r; cbn [after_rrset fenced_in]; try tauto. rewrite (TO q' HS). pose proof (NF o). tauto. }
    exists (after_rrset (without_bounds q) c x bw). split; [apply HF; exact SQ|]. intros q' HS. exists (after_rrset q' c x bw). split; [|apply HF; exact HS].
    pose proof HS as (E1 & E2 & E3 & E4 & E5 & _). apply asks_after_rrset; auto.
    + congruence.
    + split; [rewrite E4|]; apply A3.
    + split; [rewrite E5|]; apply A5.
    + unfold type_param_ok. rewrite E2, E3. exact A6.
    + unfold owner_index_safe. rewrite E2, E3. exact A8.
  - assert (HF : forall q', same_question q q' -> fences q' (name_below (without_bounds q) c x) (name_below q' c x)).
    { intros q' HS r. destruct r; cbn [name_below fenced_in]; try tauto. rewrite (TO q' HS). pose proof (NF o). tauto. }
    exists (name_below (without_bounds q) c x). split; [apply HF; exact SQ|]. intros q' HS. exists (name_below q' c x). split; [|apply HF; exact HS].
    pose proof HS as (E1 & E2 & E3 & E4 & E5 & _). apply asks_name_below; auto.
    + congruence.
    + split; [rewrite E4|]; apply A3.
    + unfold name_type_param_ok. rewrite E2, E3. exact A5.
    + unfold rdata_index_safe. rewrite E2, E3. exact A8.
Qed.

Lemma selects_fence : forall A (P P' P0 F : A -> Prop) l m m', (forall r, P r <-> P0 r /\ F r) -> (forall r, P' r <-> P0 r) ->
  selects P l m -> selects P' l m' -> selects F m' m.
Proof.
  intros A P P' P0 F l m m' HE HE' H. revert m'. induction H as [|a l m Ha _ IH|a l m Ha _ IH]; intros m' H'.
  - inversion H'; subst. constructor.
  - apply HE in Ha. inversion H' as [|? ? m1 H1 H2|? ? m1 H1 H2]; subst.
    + apply sel_yes; [tauto|]. apply IH. exact H2.
    + exfalso. apply H1. apply HE'. tauto.
  - inversion H' as [|? ? m1 H1 H2|? ? m1 H1 H2]; subst.
    + apply sel_no; [|apply IH; exact H2]. intro HF. apply Ha. apply HE. rewrite <- HE'. auto.
    + apply IH. exact H2.
Qed.

Lemma selects_app : forall A (P : A -> Prop) l m l' m', selects P l m -> selects P l' m' -> selects P (l ++ l') (m ++ m').
Proof. intros A P l m l' m' H H'. induction H; cbn; [exact H'| |]; constructor; auto. Qed.

Lemma selects_det : forall A (P : A -> Prop) l m m', selects P l m -> selects P l m' -> m = m'.
Proof.
  intros A P l m m' H. revert m'. induction H; intros m' H'; inversion H'; subst; try contradiction; auto.
  f_equal. auto.
Qed.

Lemma selects_every : forall A (P : A -> Prop) l m, (forall r, P r) -> selects P l m -> m = l.
Proof. intros A P l m HP H. induction H; [reflexivity|congruence|exfalso; auto]. Qed.

(** Queries whose results C21-C26 and C28 describe. *)
Definition answerable (q : query) (recs : list record) (t : table) : Prop :=
  database recs t /\
  ((exists M, asks q recs M) \/ (strict t /\ exists I B M, asks_grouped q recs I B M)).

(** The query lists entries for the records [out], in this order. *)
Definition gives (q : query) (t : table) (out : list record) : Prop :=
  exists es, Forall2 shows out es /\ lists q (dnstable_query_iter q t) es.

Lemma without_bounds_fence : forall q r, fenced_in (without_bounds q) r.
Proof. intros q r. destruct r; cbn; trivial; unfold in_fence; cbn; repeat split; discriminate. Qed.

Theorem query_fence : forall q recs t, answerable q recs t ->
  exists base, forall q', same_question q q' -> exists out, selects (fenced_in q') base out /\ gives q' t out.
Proof.
  intros q recs t (HD & [(M & HA)|(HS & I & B & M & HA)]).
  - destruct (asks_core q recs M HA) as (M0 & _ & HC).
    destruct (HC (without_bounds q)) as (Mw & HAw & HFw); [repeat split; reflexivity|].
    destruct (query_returns _ t recs _ HD HAw) as (base & _ & HB & _). exists base. intros q' HQ.
    destruct (HC q' HQ) as (M' & HA' & HF'). destruct (query_returns _ t recs _ HD HA') as (out & es & HO & HE & HL).
    exists out. split; [|exists es; auto]. apply (selects_fence _ M' Mw M0 (fenced_in q') recs); auto.
    intro r. rewrite (HFw r). pose proof (without_bounds_fence q r). tauto.
  - destruct (asks_grouped_core q recs I B M HA) as (M0 & _ & HC).
    destruct (HC (without_bounds q)) as (Mw & HAw & HFw); [repeat split; reflexivity|].
    destruct (query_returns_grouped _ t recs _ _ _ HD HS HAw) as (heads & bases & _ & _ & HH & HB & _). exists (concat bases). intros q' HQ.
    destruct (HC q' HQ) as (M' & HA' & HF').
    destruct (query_returns_grouped _ t recs _ _ _ HD HS HA') as (heads' & outs & es & _ & HH' & HO & _ & _ & HE & HL).
    assert (heads' = heads) by (eapply selects_det; eauto). subst heads'.
    exists (concat outs). split; [|exists es; auto]. clear HE HL HH HH'.
    revert outs HO. induction HB as [|h b heads bases Hb _ IH]; intros outs HO; inversion HO as [|? o ? outs' Ho HO']; subst; [constructor|].
    cbn [concat]. apply selects_app; [|apply IH; exact HO'].
    apply (selects_fence _ (fun r => B h r /\ M' r) (fun r => B h r /\ Mw r) (fun r => B h r /\ M0 r) (fenced_in q') recs); auto.
    + intro r. rewrite (HF' r). tauto.
    + intro r. rewrite (HFw r). pose proof (without_bounds_fence q r). tauto.
Qed.

(** * C29 *)

(** With time bounds, a query returns those of the records it returns without them
    whose stored times are within the bounds. *)
Theorem time_bounds_select : forall q recs t, answerable q recs t ->
  exists all within, gives (without_bounds q) t all /\ selects (fenced_in q) all within /\ gives q t within.
Proof.
  intros q recs t H. destruct (query_fence q recs t H) as (base & HB).
  destruct (HB (without_bounds q)) as (all & H1 & H2); [repeat split; reflexivity|].
  destruct (HB q) as (within & H3 & H4); [repeat split; reflexivity|].
  apply selects_every in H1; [|apply without_bounds_fence]. subst all. exists base, within. auto.
Qed.

Definition Q29 := ask QRrset None (Some (wire [[star_sign]; L_com])) None None [] [] 0 (Some 100) (Some 125) (Some 200) (Some 255).
Example c29_case : answerable Q29 demo demo_table /\
  seen_by 5 (without_bounds Q29) demo_table =
    [Some (0, Ok (wire [L_ex; L_com]), Ok 15); Some (0, Ok (wire [L_mx; L_ex; L_com]), Ok 1);
     Some (0, Ok (wire [L_www; L_ex; L_com]), Ok 1); Some (0, Ok (wire [L_www; L_ex; L_com]), Ok 28); None] /\
  seen_by 3 Q29 demo_table = [Some (0, Ok (wire [L_ex; L_com]), Ok 15); Some (0, Ok (wire [L_www; L_ex; L_com]), Ok 1); None].
Proof.
  split; [|vm_compute; auto]. split; [apply demo_database|]. left. exists (below_rrset Q29 star_sign [L_com] None).
  apply asks_below_rrset; auto; split; try reflexivity; apply name_okb_ok; reflexivity.
Qed.

(** The times compared are the stored ones.  An entry stored with last-seen time 0 is
    reported with its first-seen time as last-seen time, but compared with 0. *)
Definition Q29z := ask QRrset (Some 28) (Some (wire [L_www; L_ex; L_com])) None None [] [] 0 None None (Some 50) None.
Theorem time_bounds_reported_refuted : exists q recs t qi0 qi e last, answerable q recs t /\
  dnstable_query_iter (without_bounds q) t = Ok qi0 /\ calls 100 1 qi0 world0 = [QEntry e] /\
  get_time_last e = Ok last /\ q_do_tla q = true /\ q_tla q <= last /\
  q_do_tlb q = false /\ q_do_tfa q = false /\ q_do_tfb q = false /\
  dnstable_query_iter q t = Ok qi /\ calls 100 1 qi world0 = [QEnd].
Proof.
  exists Q29z, demo, demo_table. do 4 eexists. split; [|split; [reflexivity|split; [vm_compute; reflexivity|
    split; [reflexivity|repeat (split; [vm_compute; congruence|]); split; [reflexivity|vm_compute; reflexivity]]]]].
  split; [apply demo_database|]. left. exists (exact_rrset Q29z [L_www; L_ex; L_com] None).
  apply asks_exact_rrset; try reflexivity.
  - split; [reflexivity|apply name_okb_ok; reflexivity].
  - no_wild_left.
  - apply (no_wild_right [L_www; L_ex] L_com); [intros [C|C]; discriminate C|discriminate].
  - split; [reflexivity|exact I].
  - intros _. vm_compute. split; congruence.
Qed.

(** * C32 *)

(** With an offset of N, the iterator lists the results without their first N. *)
Theorem offset_skips_first : forall q recs t, answerable q recs t ->
  exists out qi es', gives (with_offset_of 0 q) t out /\
    dnstable_query_iter q t = Ok qi /\ Forall2 shows (skipn (N.to_nat (q_offset q)) out) es' /\
    forall w, w_offset w = q_offset q -> drains qi w es'.
Proof.
  intros q recs t H. destruct (query_fence q recs t H) as (base & HB).
  destruct (HB (with_offset_of 0 q)) as (out & H1 & H2); [repeat split; reflexivity|].
  destruct (HB q) as (out' & H3 & es & HE & qi & EQ & HL); [repeat split; reflexivity|].
  assert (out' = out) by (eapply selects_det; [exact H3|exact H1]). subst out'.
  exists out, qi, (skipn (N.to_nat (q_offset q)) es). split; [exact H2|]. split; [exact EQ|]. split.
  - clear -HE. revert out es HE. induction (N.to_nat (q_offset q)) as [|n IH]; intros out es HE; [exact HE|].
    inversion HE; subst; [constructor|]. cbn [skipn]. apply IH. assumption.
  - intros w HW n. destruct (HL w n) as (F & HF); [lia|]. exists F. intros fuel Hf. destruct (HF fuel Hf) as (A & _). rewrite <- HW. exact A.
Qed.

Definition Q32 := ask QRrset None (Some (wire [[star_sign]; L_ex; L_com])) None None [] [] 2 None None None None.
Example c32_case : answerable Q32 demo demo_table /\
  seen_by 3 Q32 demo_table = [Some (0, Ok (wire [L_www; L_ex; L_com]), Ok 1); Some (0, Ok (wire [L_www; L_ex; L_com]), Ok 28); None].
Proof.
  split; [|vm_compute; auto]. split; [apply demo_database|]. left. exists (below_rrset Q32 star_sign [L_ex; L_com] None).
  apply asks_below_rrset; auto; split; try reflexivity; apply name_okb_ok; reflexivity.
Qed.

(** * C33 *)

(** False of the code: iterators use up the offset of their query. *)
Theorem second_iterator_refuted : exists q recs t qi, answerable q recs t /\ dnstable_query_iter q t = Ok qi /\
  let w := load_offset q world0 in
  In QEnd (calls 100 5 qi w) /\
  calls 100 5 qi (after_calls 100 5 qi w) <> calls 100 5 qi w.
Proof.
  exists Q32, demo, demo_table. eexists. split; [apply c32_case|]. split; [reflexivity|]. cbv zeta. split.
  - vm_compute. tauto.
  - vm_compute. discriminate.
Qed.

(** What does hold: a second iterator, created or used after the first one has reached
    its end, leaves out what the first one did not use up of the offset.  So without
    an offset both list the same. *)
Theorem second_iterator_partial : forall q recs t, answerable q recs t ->
  exists qi es, dnstable_query_iter q t = Ok qi /\
    (forall w, w_offset w = q_offset q -> drains qi w (skipn (N.to_nat (q_offset q)) es)) /\
    forall w ts, w_offset w = q_offset q -> eventually (fun fuel => In QEnd (timed_calls fuel ts qi w) ->
      let w' := after_timed_calls fuel ts qi w in
      w_offset w' = q_offset q - N.of_nat (length es) /\ drains qi w' (skipn (N.to_nat (w_offset w')) es)) /\
      (q_offset q = 0 -> eventually (fun fuel => drains qi (after_timed_calls fuel ts qi w) es)).
Proof.
  intros q recs t H. destruct (query_fence q recs t H) as (base & HB).
  destruct (HB q) as (out & _ & es & _ & qi & EQ & HL); [repeat split; reflexivity|].
  exists qi, es. split; [exact EQ|].
  assert (DR : forall w, w_offset w <= q_offset q -> drains qi w (skipn (N.to_nat (w_offset w)) es)).
  { intros w HW ts. destruct (HL w ts HW) as (F & HF). exists F. intros fuel Hf. destruct (HF fuel Hf) as (A & _). exact A. }
  split; [intros w HW; rewrite <- HW; apply DR; lia|]. intros w ts HW. split.
  - destruct (HL w ts) as (F & HF); [lia|]. exists F. intros fuel Hf HE. destruct (HF fuel Hf) as (_ & _ & C & D).
    cbv zeta in *. specialize (D HE). split; [rewrite <- HW; exact D|]. apply DR. lia.
  - intro Z. destruct (HL w ts) as (F & HF); [lia|]. exists F. intros fuel Hf. destruct (HF fuel Hf) as (_ & _ & C & _).
    cbv zeta in C. pose proof (DR (after_timed_calls fuel ts qi w)) as G. rewrite HW, Z in C.
    assert (Z' : w_offset (after_timed_calls fuel ts qi w) = 0) by lia. rewrite Z' in G. apply G. lia.
Qed.

Example c33_case : answerable Q32 demo demo_table /\
  (let q := Q32 in match dnstable_query_iter q demo_table with
   | Ok qi => let w := load_offset q world0 in
       length (filter (fun r => match r with QEntry _ => true | _ => false end) (calls 100 5 qi w)) = 2%nat /\
       length (filter (fun r => match r with QEntry _ => true | _ => false end) (calls 100 5 qi (after_calls 100 5 qi w))) = 4%nat
   | _ => False end).
Proof. split; [apply c32_case|vm_compute; auto]. Qed.

(** * C34 *)

(** Whatever the clock does, the calls that do not time out answer the same
    sequence as those of the query without timeout and deadline. *)
Theorem timeouts_lose_nothing : forall q recs t, answerable q recs t ->
  exists out, gives (untimed q) t out /\ gives q t out.
Proof.
  intros q recs t H. destruct (query_fence q recs t H) as (base & HB).
  destruct (HB (untimed q)) as (out & H1 & H2); [repeat split; reflexivity|].
  destruct (HB q) as (out' & H3 & H4); [repeat split; reflexivity|].
  assert (out' = out) by (eapply selects_det; [exact H3|exact H1]). subst out'. exists out. auto.
Qed.

(** A clock that jumps past the deadline at every third reading. *)
Definition jumpy : world :=
  {| w_now := fun n => {| tv_sec := if Nat.eqb (Nat.modulo n 3) 2 then 9 else 0; tv_nsec := 0 |}; w_tick := 0;
     w_deadline := {| tv_sec := 0; tv_nsec := 0 |}; w_seek_end := fun _ _ => false; w_offset := 0;
     w_cnt := fun _ _ => 0; w_log := [] |}.
Definition Q34 : query :=
  let q := Q22 in
  {| q_type := q_type q; q_do_rrtype := q_do_rrtype q; q_rrtype := q_rrtype q;
     q_do_timeout := false; q_timeout := {| tv_sec := 0; tv_nsec := 0 |}; q_do_deadline := true; q_deadline := {| tv_sec := 5; tv_nsec := 0 |};
     q_aggregated := q_aggregated q; q_case_sensitive := q_case_sensitive q;
     q_do_tfb := q_do_tfb q; q_tfb := q_tfb q; q_do_tfa := q_do_tfa q; q_tfa := q_tfa q;
     q_do_tlb := q_do_tlb q; q_tlb := q_tlb q; q_do_tla := q_do_tla q; q_tla := q_tla q;
     q_name := q_name q; q_bailiwick := q_bailiwick q;
     q_len_ip1 := q_len_ip1 q; q_len_ip2 := q_len_ip2 q; q_ip1 := q_ip1 q; q_ip2 := q_ip2 q;
     q_len_rdata := q_len_rdata q; q_rdata := q_rdata q; q_offset := q_offset q;
     q_has_v_type := q_has_v_type q; q_v_type := q_v_type q |}.
Definition outline (r : qres) : N := match r with QEntry _ => 0 | QEnd => 1 | QTimeout => 2 | _ => 3 end.
Example c34_case : answerable Q34 demo demo_table /\
  match dnstable_query_iter Q34 demo_table with
  | Ok qi => map outline (calls 100 8 qi jumpy) = [0; 0; 2; 0; 0; 2; 1; 1]
  | _ => False
  end.
Proof.
  split; [|vm_compute; auto]. split; [apply demo_database|]. left. exists (below_rrset Q34 star_sign [L_ex; L_com] None).
  apply asks_below_rrset; auto; split; try reflexivity; apply name_okb_ok; reflexivity.
Qed.
(** The same with the deadline moved to 20 s after the first timeout. *)
Example c34_moved_case :
  match dnstable_query_iter Q34 demo_table with
  | Ok qi => map outline (timed_calls 100 [TKeep; TKeep; TKeep; TDeadline {| tv_sec := 20; tv_nsec := 0 |}; TKeep; TKeep; TKeep] qi jumpy)
             = [0; 0; 2; 0; 0; 1; 1]
  | _ => False
  end.
Proof. vm_compute. auto. Qed.

(** * C42 *)

(** Incrementing the first [pos + 1] bytes gives the least string of that length above
    them, and fails exactly if they are all 255. *)
Theorem increment_is_least : forall key pos, bytes_ok key -> (pos < length key)%nat ->
  let P := firstn (S pos) key in
  (exists X, increment_key key pos = Ok (true, X ++ skipn (S pos) key) /\ length X = S pos /\ bytes_ok X /\ blt P X = true /\
     (forall Y, bytes_ok Y -> length Y = S pos -> blt P Y = true -> ble X Y = true)) \/
  ((exists rest, increment_key key pos = Ok (false, rest)) /\ Forall (eq 255) P /\
     (forall Y, bytes_ok Y -> length Y = S pos -> blt P Y = false)).
Proof.
  intros key pos Hok Hp P. assert (LP : length P = S pos) by (unfold P; rewrite firstn_length; lia).
  assert (OP : bytes_ok P) by (unfold P, bytes_ok in *; rewrite <- (firstn_skipn (S pos) key) in Hok; apply Forall_app in Hok; tauto).
  destruct (increment_key_spec key pos Hok Hp) as [(X & HX & E)|(HF & E)].
  - left. exists X. split; [exact E|]. split; [rewrite (succ_length _ _ HX); exact LP|]. split; [|split].
    + destruct HX as (A & b & m & EP & Hb & ->). fold P in EP. rewrite EP in OP. unfold bytes_ok in *. apply Forall_app in OP. destruct OP as [O1 O2].
      apply Forall_app. split; [exact O1|]. constructor; [unfold byte_ok; lia|]. apply Forall_forall. intros x Hx. apply repeat_spec in Hx. subst. reflexivity.
    + pose proof (succ_gt P X [] [] HX) as G. rewrite !app_nil_r in G. exact G.
    + intros Y HY LY HL. destruct (ble X Y) eqn:EB; [reflexivity|exfalso].
      assert (G : blt Y X = true) by (rewrite blt_not_ble, EB; reflexivity).
      destruct (succ_between P X Y HX HY) as [G2|(A & b & m & j & EP & Hb & Hj & EY)]; auto.
      * unfold blt, ble in *. destruct (bytes_compare P Y); congruence.
      * apply is_prefix_spec in G2. destruct G2 as (r & ER). assert (r = []) by (destruct r; [reflexivity|apply (f_equal (@length N)) in ER; rewrite app_length in ER; cbn [length] in ER; lia]).
        subst r. rewrite app_nil_r in ER. subst Y. unfold blt in HL. rewrite bytes_compare_refl in HL. discriminate.
      * apply (f_equal (@length N)) in EP. apply (f_equal (@length N)) in EY. rewrite app_length in *. cbn [length] in *. rewrite repeat_length in *. lia.
  - right. split; [eexists; exact E|]. split; [exact HF|]. intros Y HY LY. fold P in HF. clear - HF HY LP LY. rewrite <- LP in LY. clear LP.
    revert Y HY LY. induction HF as [|x l <- _ IH]; intros [|y Y] HY LY; try discriminate; [reflexivity|].
    inversion HY as [|? ? H1 H2]; subst. unfold byte_ok in H1. destruct (blt (255 :: l) (y :: Y)) eqn:EB; [|reflexivity].
    apply blt_cons in EB. destruct EB as [EB|[EB1 EB2]]; [lia|]. rewrite IH in EB2; auto; discriminate.
Qed.

(** No key of at least that length is lost by seeking to the incremented key. *)
Theorem increment_jumps_nothing_partial : forall key pos X k, bytes_ok key -> (pos < length key)%nat ->
  increment_key key pos = Ok (true, X ++ skipn (S pos) key) -> length X = S pos ->
  bytes_ok k -> (S pos <= length k)%nat -> blt (firstn (S pos) key) k = true -> is_prefix (firstn (S pos) key) k = false ->
  ble X k = true.
Proof.
  intros key pos X k Hok Hp E LX Hk HL HB HN.
  destruct (increment_key_spec key pos Hok Hp) as [(X' & HX & E')|(_ & E')]; [|congruence].
  assert (X' = X).
  { rewrite E' in E. injection E as E. apply app_len_inj in E; [tauto|]. rewrite (succ_length _ _ HX), firstn_length. lia. }
  subst X'. destruct (ble X k) eqn:EB; [reflexivity|exfalso].
  assert (G : blt k X = true) by (rewrite blt_not_ble, EB; reflexivity).
  destruct (succ_between _ X k HX Hk) as [G2|(A & b & m & j & EP & Hb & Hj & EY)]; auto.
  - unfold blt, ble in *. destruct (bytes_compare (firstn (S pos) key) k); congruence.
  - congruence.
  - apply (f_equal (@length N)) in EP. apply (f_equal (@length N)) in EY. rewrite firstn_length in EP. rewrite app_length in *. cbn [length] in *. rewrite repeat_length in *. lia.
Qed.

(** A shorter key can be: after 0 255 comes 1 0, but the key 1 lies between them. *)
Theorem increment_jumps_nothing_refuted : exists key pos X k, bytes_ok key /\ (pos < length key)%nat /\
  increment_key key pos = Ok (true, X ++ skipn (S pos) key) /\ length X = S pos /\
  bytes_ok k /\ blt (firstn (S pos) key) k = true /\ is_prefix (firstn (S pos) key) k = false /\ blt k X = true.
Proof.
  exists [0; 255; 7], 1%nat, [1; 0], [1]. split; [apply bytes_okb_ok; reflexivity|]. split; [cbn; lia|].
  split; [reflexivity|]. split; [reflexivity|]. split; [apply bytes_okb_ok; reflexivity|]. repeat split.
Qed.

Example c42_case : bytes_ok [2; 10; 255; 255; 7] /\ increment_key [2; 10; 255; 255; 7] 3 = Ok (true, [2; 11; 0; 0; 7]) /\
  increment_key [255; 255; 1] 1 = Ok (false, [0; 0; 1]) /\
  blt [2; 10; 255; 255] [2; 11; 0; 0; 0] = true /\ is_prefix [2; 10; 255; 255] [2; 11; 0; 0; 0] = false.
Proof. split; [apply bytes_okb_ok; reflexivity|]. vm_compute. auto. Qed.

Print Assumptions rrset_query_exact.
Print Assumptions rrset_query_left_wildcard.
Print Assumptions rrset_query_right_wildcard.
Print Assumptions rdata_name_query_exact.
Print Assumptions rdata_name_query_right_wildcard.
Print Assumptions rdata_name_query_left_wildcard.
Print Assumptions rdata_ip_query_partial.
Print Assumptions rdata_ip_query_refuted.
Print Assumptions rdata_raw_query.
Print Assumptions raw_rdata_is_prefix.
Print Assumptions time_bounds_select.
Print Assumptions time_bounds_reported_refuted.
Print Assumptions offset_skips_first.
Print Assumptions second_iterator_refuted.
Print Assumptions second_iterator_partial.
Print Assumptions timeouts_lose_nothing.
Print Assumptions increment_is_least.
Print Assumptions increment_jumps_nothing_partial.
Print Assumptions increment_jumps_nothing_refuted.

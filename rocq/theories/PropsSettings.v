(** C27, C43, C44, C48, C52: query parameters. *)
From Verif Require Import Str BaseFacts ModelWdns SpecName NameFacts ModelEntry SpecEntry ModelIter SpecIter PropsIter.
From Verif Require Import SpecUnion UnionProofs UnionBuild ModelQuery SpecQuery SelectProofs PropsQuery Demo ModelNames ModelSetters SpecSettings CidrProofs SettingsProofs.

(** Text parsing for the examples. *)
Definition demo_env : env :=
  {| str_to_name s := if beq s (str "WWW.ex.com") then Some (3 :: str "WWW" ++ 2 :: str "ex" ++ 3 :: str "com" ++ [0])
                      else if beq s (str "ex.com") then Some (2 :: str "ex" ++ 3 :: str "com" ++ [0])
                      else None;
     str_to_rrtype s := if beq s (str "A") then 1 else if beq s (str "MX") then 15 else if beq s (str "TYPE0255") then 255 else 0;
     pton4 s := if beq s (str "192.0.2.77") then Some [192; 0; 2; 77] else if beq s (str "192.0.2.80") then Some [192; 0; 2; 80]
              else if beq s (str "10.0.0.2") then Some [10; 0; 0; 2] else None;
     pton6 s := if beq s (str "2001:db8::1") then Some [32; 1; 13; 184; 0; 0; 0; 0; 0; 0; 0; 0; 0; 0; 0; 1] else None |}.

Lemma demo_env_ok : env_ok demo_env.
Proof.
  split; [|split; [|split]].
  - intros s n. cbn. destruct (beq s _).
    + intro E. injection E as <-. exists [str "WWW"; str "ex"; str "com"]. split; [apply name_okb_ok; reflexivity|reflexivity].
    + destruct (beq s _); [|discriminate]. intro E. injection E as <-. exists [str "ex"; str "com"]. split; [apply name_okb_ok; reflexivity|reflexivity].
  - intro s. cbn. destruct (beq s _); [|destruct (beq s _); [|destruct (beq s _)]]; reflexivity.
  - intros s a. cbn. destruct (beq s _); [|destruct (beq s _); [|destruct (beq s _)]]; intro E; try discriminate E; injection E as <-; (split; [reflexivity|]); repeat constructor; unfold byte_ok; lia.
  - intros s a. cbn. destruct (beq s _); [|discriminate]. intro E. injection E as <-. split; [reflexivity|]. repeat constructor; unfold byte_ok; lia.
Qed.

(** * C27: CIDR prefixes *)

(** The prefix lengths the code handles. *)

(** Missing: lengths 0 and 1 for IPv4, 0 and 64 for IPv6, see [cidr_prefix_refuted]. *)
Theorem cidr_prefix_partial : forall ev q s ds n a p, env_ok ev -> q_type q = QRdataIp ->
  plain s -> address ev s n a -> decimal ds p -> handled_prefix n p ->
  exists q' lo hi, set_data ev (Some (s ++ slash :: ds)) q = Ok (true, q') /\ same_but_data q q' /\
    asks_range q' n (if Nat.eqb n 4 then 1 else 28) lo hi /\
    forall x, length x = n -> bytes_ok x ->
      (ip_value lo <= ip_value x <= ip_value hi <-> firstn (N.to_nat p) (bits x) = firstn (N.to_nat p) (bits a)).
Proof.
  intros ev q s ds n a p HE HT (HN & H45 & H47) HA HD HP.
  destruct HA as [a H|a H H6]; destruct HP as [[C HP]|[C HP]]; try discriminate C.
  - destruct (cidr4_ok ev q s ds p a HE HT HN H45 H47 H HD HP) as (q' & l & h & A & B & D & F).
    exists q', l, h. split; [exact A|]. split; [exact B|]. split; [exact D|]. apply F.
  - destruct (cidr6_ok ev q s ds p a HE HT HN H45 H47 H H6 HD (proj1 HP) (proj2 HP)) as (q' & l & h & A & B & D & F).
    exists q', l, h. split; [exact A|]. split; [exact B|]. split; [exact D|]. apply F.
Qed.

Lemma selects_ext : forall A (P Q : A -> Prop) l m, (forall a, In a l -> (P a <-> Q a)) -> selects P l m -> selects Q l m.
Proof.
  intros A P Q l m H S. induction S as [|a l m HP S IH|a l m HP S IH].
  - constructor.
  - apply sel_yes; [apply H; [left; reflexivity|exact HP]|]. apply IH. intros b Hb. apply H. right. exact Hb.
  - apply sel_no; [intro C; apply HP; apply H; [left; reflexivity|exact C]|]. apply IH. intros b Hb. apply H. right. exact Hb.
Qed.
Lemma returns_ext : forall q t recs P Q, (forall r, In r recs -> (P r <-> Q r)) -> returns q t recs P -> returns q t recs Q.
Proof. intros q t recs P Q H (out & es & S & R). exists out, es. split; [eapply selects_ext; eauto|exact R]. Qed.

(** Address records of the block. *)
Definition block_rdata (q : query) (ty : N) (p : N) (a : bytes) (r : record) : Prop :=
  match r with
  | RData ow ty' head tail o => ty' = ty /\ firstn (N.to_nat p) (bits tail) = firstn (N.to_nat p) (bits a) /\ in_fence q o
  | _ => False
  end.

Lemma bound_fence : forall q q' o, (forall p, bound_of p q' = bound_of p q) -> (in_fence q' o <-> in_fence q o).
Proof.
  assert (A : forall q q' o, (forall p, bound_of p q' = bound_of p q) -> in_fence q o -> in_fence q' o).
  { intros q q' o H (F1 & F2 & F3 & F4).
    pose proof (H 0) as B0. pose proof (H 1) as B1. pose proof (H 2) as B2. pose proof (H 3) as B3.
    unfold bound_of, opt in *. cbn in *.
    split; [|split; [|split]]; intro E; rewrite E in *.
    - destruct (q_do_tfa q); [|discriminate]. injection B1 as ->. auto.
    - destruct (q_do_tfb q); [|discriminate]. injection B0 as ->. auto.
    - destruct (q_do_tla q); [|discriminate]. injection B3 as ->. auto.
    - destruct (q_do_tlb q); [|discriminate]. injection B2 as ->. auto. }
  intros q q' o H. split; apply A; [|exact H]. intro p. symmetry. apply H.
Qed.

(** The query for a block returns the records of the block. *)
Theorem cidr_query_partial : forall ev q s ds n a p, env_ok ev -> q_type q = QRdataIp ->
  plain s -> address ev s n a -> decimal ds p -> handled_prefix n p ->
  let ty := if Nat.eqb n 4 then 1 else 28 in
  exists q', set_data ev (Some (s ++ slash :: ds)) q = Ok (true, q') /\
    forall t recs, database recs t -> addresses_canonical recs n ty -> no_overread recs n ty ->
      returns q' t recs (block_rdata q ty p a).
Proof.
  intros ev q s ds n a p HE HT HS HA HD HP ty.
  destruct (cidr_prefix_partial ev q s ds n a p HE HT HS HA HD HP) as (q' & lo & hi & E & (ET & _ & _ & _ & _ & _ & _ & EB) & R & B).
  exists q'. split; [exact E|]. intros t recs DB AC NO.
  eapply returns_ext; [|eapply rdata_ip_query_partial; [exact DB|congruence|exact R|exact AC|apply IpQueries.no_overread_part; exact NO]].
  intros [ow ty' bw rs o|ow ty' head tail o|ow m|m|k v] HIn; cbn; try tauto.
  rewrite (bound_fence q q' o EB).
  split; intros (E1 & E2 & E3); (split; [exact E1|]); subst ty'; (split; [|exact E3]).
  all: destruct (AC _ _ _ _ HIn) as [_ L].
  all: assert (BT : bytes_ok tail) by
    (destruct DB as [DB _]; apply In_nth_error in HIn; destruct HIn as [i Hi];
     assert (X : exists e, encodes (RData ow ty head tail o) e) by
       (clear - DB Hi; revert i Hi; induction DB as [|x e l l' Hx DB IH]; intros [|i] Hi; try discriminate Hi;
        [injection Hi as ->; eauto|eapply IH; exact Hi]);
     destruct X as (e & BO & _ & _ & _ & _ & (tt & _ & EK) & _); rewrite EK in BO; inversion BO as [|? ? _ BO']; subst;
     apply Forall_app in BO'; apply BO').
  all: apply (B tail L BT); assumption.
Qed.

(** Longer prefixes are refused. *)
Theorem cidr_too_long_refused : forall ev q s ds n a p, env_ok ev -> q_type q = QRdataIp ->
  plain s -> address ev s n a -> decimal ds p -> N.of_nat (8 * n) < p < 2 ^ 63 ->
  set_data ev (Some (s ++ slash :: ds)) q = Ok (false, q).
Proof.
  intros ev q s ds n a p HE HT (HN & H45 & H47) HA HD HP.
  destruct (set_data_prefix ev q s ds p HT HN H45 H47 HD) as [E TK]. unfold slash in *. rewrite E.
  unfold set_data_ip_prefix. rewrite TK, (strtol_decimal ds p HD) by lia.
  destruct (load_address ev s n a [] HE HA) as (b & -> & _ & _ & _ & K). cbn [negb].
  destruct K as [[-> _]|[-> _]].
  - assert ((((N.of_nat 4 =? 4) && (32 <? Z.of_N p)%Z) || ((N.of_nat 4 =? 16) && (128 <? Z.of_N p)%Z)) = true) as -> by (cbn in *; lia). reflexivity.
  - assert ((((N.of_nat 16 =? 4) && (32 <? Z.of_N p)%Z) || ((N.of_nat 16 =? 16) && (128 <? Z.of_N p)%Z)) = true) as -> by (cbn in *; lia). reflexivity.
Qed.

(** The remaining lengths are undefined behaviour: shifts by the width of the type,
    or into the sign bit. *)
Theorem cidr_undefined_lengths : forall ev q s ds n a p, env_ok ev -> q_type q = QRdataIp ->
  plain s -> address ev s n a -> decimal ds p -> (n = 4%nat /\ p < 2) \/ (n = 16%nat /\ (p = 0 \/ p = 64)) ->
  set_data ev (Some (s ++ slash :: ds)) q = UB.
Proof.
  intros ev q s ds n a p HE HT (HN & H45 & H47) HA HD HP.
  destruct (set_data_prefix ev q s ds p HT HN H45 H47 HD) as [E TK]. unfold slash in *. rewrite E.
  unfold set_data_ip_prefix. rewrite TK, (strtol_decimal ds p HD) by (destruct HP; lia).
  destruct (load_address ev s n a [] HE HA) as (b & -> & _ & _ & _ & K). cbn [negb].
  rewrite as_unsigned_small by lia.
  destruct HP as [[-> HP]|[-> HP]].
  - assert ((((N.of_nat 4 =? 4) && (32 <? Z.of_N p)%Z) || ((N.of_nat 4 =? 16) && (128 <? Z.of_N p)%Z)) = false) as -> by (cbn; lia).
    change (N.of_nat 4 =? 4) with true. cbn iota. assert (p = 0 \/ p = 1) as [->| ->] by lia; reflexivity.
  - assert ((((N.of_nat 16 =? 4) && (32 <? Z.of_N p)%Z) || ((N.of_nat 16 =? 16) && (128 <? Z.of_N p)%Z)) = false) as -> by (cbn; lia).
    change (N.of_nat 16 =? 4) with false. cbn iota. destruct HP as [->| ->]; reflexivity.
Qed.

(** Which texts are taken, and for what: exactly those of [denotes]; with the lengths
    above the behaviour is undefined, and everything else is refused. *)
Lemma has_char_false : forall d s, has_char d s = false -> no_char d s.
Proof.
  induction s as [|c s IH]; intro H; [constructor|]. unfold has_char in *. cbn [existsb] in H. apply orb_false_iff in H. destruct H as (H1 & H2).
  constructor; [apply N.eqb_neq in H1; congruence|apply IH; exact H2].
Qed.
Lemma mishandled_undefined : forall ev q s, env_ok ev -> q_type q = QRdataIp -> mishandled ev s -> set_data ev (Some s) q = UB.
Proof.
  intros ev q s HE HT (HC & s1 & s2 & n & a & p & TP & HA & PL & MP).
  destruct (prefix_parts ev q s s1 s2 p HT HC TP PL) as (ds & HD & PS & ->); [unfold mishandled_prefix in MP; cbn; lia|].
  apply (cidr_undefined_lengths ev q s1 ds n a p); assumption.
Qed.
Lemma address_dec : forall ev s, (exists n a, address ev s n a) \/ (forall buf, query_load_address ev s buf = (false, 0, buf)).
Proof.
  intros ev s. destruct (pton4 ev s) as [a|] eqn:E4; [left; exists 4%nat, a; apply addr4; exact E4|].
  destruct (pton6 ev s) as [a|] eqn:E6; [left; exists 16%nat, a; apply addr6; assumption|]. right. intro buf. unfold query_load_address. rewrite E4, E6. reflexivity.
Qed.
Lemma ip_text_cases : forall ev q s, env_ok ev -> q_type q = QRdataIp ->
  (exists n lo hi, denotes ev s n lo hi) \/ mishandled ev s \/ (exists q', set_data ev (Some s) q = Ok (false, q')).
Proof.
  intros ev q s HE HT.
  destruct (has_char 45 s) eqn:H45; [|apply has_char_false in H45; destruct (has_char 47 s) eqn:H47].
  - assert (E : set_data ev (Some s) q = Ok (set_data_ip_range ev s q)) by (unfold set_data, set_data_rdata_ip; rewrite HT, H45; reflexivity). rewrite E. unfold set_data_ip_range.
    destruct (strtok_all 45 s) as [|s1 [|s2 [|? ?]]] eqn:TK; try (right; right; eexists; reflexivity). apply two_parts_iff in TK.
    destruct (address_dec ev s1) as [(n1 & a1 & A1)|A1]; [|rewrite A1; right; right; eexists; reflexivity].
    destruct (load_address ev s1 n1 a1 (q_ip1 q) HE A1) as (b1 & -> & _ & _ & _ & K1).
    destruct (address_dec ev s2) as [(n2 & a2 & A2)|A2]; [|rewrite A2; right; right; eexists; reflexivity].
    destruct (load_address ev s2 n2 a2 (q_ip2 (with_ip1 (N.of_nat n1) b1 q)) HE A2) as (b2 & -> & _ & _ & _ & K2).
    destruct (N.eqb_spec (N.of_nat n1) (N.of_nat n2)) as [EN|NE]; [|right; right; eexists; reflexivity].
    left. assert (n1 = n2) by lia. subst n2. exists n1, a1, a2. eapply den_range; eassumption.
  - assert (E : set_data ev (Some s) q = set_data_ip_prefix ev s q) by (unfold set_data, set_data_rdata_ip; rewrite HT, (has_char_none _ _ H45), H47; reflexivity). rewrite E.
    unfold set_data_ip_prefix. destruct (strtok_all 47 s) as [|s1 [|s2 [|? ?]]] eqn:TK; try (right; right; eexists; reflexivity). apply two_parts_iff in TK.
    destruct (address_dec ev s1) as [(n & a & A)|A]; [|rewrite A; right; right; eexists; reflexivity].
    destruct (load_address ev s1 n a [] HE A) as (b & -> & _ & LA & BA & K). cbn [negb].
    destruct (strtol_all s2) as [z|] eqn:ST; [|right; right; eexists; reflexivity].
    assert (C2 : no_char 45 s2) by (destruct TK as (i & j & k & -> & _); clear - H45; do 3 (apply Forall_app in H45; destruct H45 as (_ & H45)); apply Forall_app in H45; apply H45).
    destruct (strtol_only s2 z C2 ST) as (p & PL & HP & ->).
    assert (C : handled_prefix n p \/ mishandled_prefix n p \/ (((N.of_nat n =? 4) && (32 <? Z.of_N p)%Z) || ((N.of_nat n =? 16) && (128 <? Z.of_N p)%Z)) = true).
    { unfold handled_prefix, mishandled_prefix. destruct K as [[-> _]|[-> _]]; cbn -[Z.ltb]; lia. }
    destruct C as [HH|[HM|C]]; [| |rewrite C; right; right; eexists; reflexivity].
    + left. destruct (prefix_parts ev q s s1 s2 p HT H45 TK PL HP) as (ds & HD & (N1 & D1 & C1) & _).
      assert (BL : exists lo hi, is_block n (N.to_nat p) a lo hi).
      { pose proof A as A'. destruct A' as [a H|a H H6]; destruct HH as [[HC HP']|[HC HP']]; try discriminate HC.
        - destruct (cidr4_ok ev q s1 ds p a HE HT N1 D1 C1 H HD HP') as (q' & l & h & _ & _ & _ & F). eauto.
        - destruct (cidr6_ok ev q s1 ds p a HE HT N1 D1 C1 H H6 HD (proj1 HP') (proj2 HP')) as (q' & l & h & _ & _ & _ & F). eauto. }
      destruct BL as (lo & hi & BL). exists n, lo, hi. eapply den_prefix; eassumption.
    + right. left. split; [exact H45|]. exists s1, s2, n, a, p. auto.
  - apply has_char_false in H47.
    assert (E : set_data ev (Some s) q = Ok (set_data_ip_address ev s q)) by (unfold set_data, set_data_rdata_ip; rewrite HT, (has_char_none _ _ H45), (has_char_none _ _ H47); reflexivity). rewrite E.
    unfold set_data_ip_address. destruct (address_dec ev s) as [(n & a & A)|A]; [left; exists n, a, a; apply den_address; assumption|]. rewrite A. right. right. eexists. reflexivity.
Qed.
Theorem address_texts : forall ev q s, env_ok ev -> q_type q = QRdataIp ->
  (forall n lo hi, denotes ev s n lo hi -> exists q', set_data ev (Some s) q = Ok (true, q') /\ same_but_data q q' /\
     asks_range q' n (if Nat.eqb n 4 then 1 else 28) lo hi) /\
  (mishandled ev s -> set_data ev (Some s) q = UB) /\
  ((forall n lo hi, ~ denotes ev s n lo hi) -> ~ mishandled ev s -> exists q', set_data ev (Some s) q = Ok (false, q')).
Proof.
  intros ev q s HE HT. split; [intros n lo hi H; apply denotes_ok; assumption|]. split; [apply mishandled_undefined; assumption|].
  intros ND NM. destruct (ip_text_cases ev q s HE HT) as [(n & lo & hi & H)|[H|H]]; [exfalso; eapply ND; exact H|contradiction|exact H].
Qed.
Print Assumptions address_texts.
(** So a text that is taken is one of these. *)
Lemma address_taken : forall ev q s b q', env_ok ev -> q_type q = QRdataIp -> set_data ev (Some s) q = Ok (b, q') ->
  (b = true <-> exists n lo hi, denotes ev s n lo hi).
Proof.
  intros ev q s b q' HE HT E. split.
  - intros ->. destruct (ip_text_cases ev q s HE HT) as [H|[H|(q2 & H)]]; [exact H| |congruence]. rewrite (mishandled_undefined ev q s HE HT H) in E. discriminate.
  - intros (n & lo & hi & H). destruct (denotes_ok ev q s n lo hi HE HT H) as (q2 & E2 & _). congruence.
Qed.

Definition query0 (t : qtype) : query := match dnstable_query_init t with Ok q => q | _ => Q21 end.

Theorem cidr_prefix_refuted : exists ev q s ds n a p, env_ok ev /\ dnstable_query_init QRdataIp = Ok q /\
  plain s /\ address ev s n a /\ decimal ds p /\ p <= N.of_nat (8 * n) /\ set_data ev (Some (s ++ slash :: ds)) q = UB.
Proof.
  exists demo_env, (query0 QRdataIp), (str "192.0.2.77"), (str "0"), 4%nat, [192; 0; 2; 77], 0.
  split; [apply demo_env_ok|]. split; [reflexivity|].
  split; [split; [discriminate|split; repeat constructor; discriminate]|].
  split; [apply addr4; reflexivity|]. split; [apply (dec_one 0); lia|]. split; [lia|]. vm_compute. reflexivity.
Qed.

Lemma decimal_28 : decimal (str "28") 28.
Proof. change (str "28") with ([48 + 2] ++ [48 + 8]). change 28 with (10 * 2 + 8). apply dec_more; [apply (dec_one 2); lia|lia]. Qed.

Example c27_case : env_ok demo_env /\ plain (str "192.0.2.77") /\ address demo_env (str "192.0.2.77") 4 [192; 0; 2; 77] /\
  decimal (str "28") 28 /\ handled_prefix 4 28 /\
  match set_data demo_env (Some (str "192.0.2.77/28")) (query0 QRdataIp) with
  | Ok (b, q) => (b, firstn 4 (q_ip1 q), firstn 4 (q_ip2 q)) = (true, [192; 0; 2; 64], [192; 0; 2; 79])
  | _ => False
  end /\
  plain (str "2001:db8::1") /\ address demo_env (str "2001:db8::1") 16 [32; 1; 13; 184; 0; 0; 0; 0; 0; 0; 0; 0; 0; 0; 0; 1] /\ handled_prefix 16 28.
Proof.
  split; [apply demo_env_ok|]. split; [split; [discriminate|split; repeat constructor; discriminate]|].
  split; [apply addr4; reflexivity|]. split; [exact decimal_28|]. split; [left; split; [reflexivity|lia]|]. split; [vm_compute; reflexivity|].
  split; [split; [discriminate|split; repeat constructor; discriminate]|]. split; [apply addr6; reflexivity|right; split; [reflexivity|lia]].
Qed.

(** * C43: the last setting wins *)

(** A new query has no restriction at all. *)
Theorem new_query : forall t q, dnstable_query_init t = Ok q ->
  q_type q = t /\ q_offset q = 0 /\ q_aggregated q = true /\ q_case_sensitive q = false /\ timeout_of q = None /\ deadline_of q = None /\
  rrtype_of q = None /\ (forall p, bound_of p q = None) /\ q_name q = None /\ q_bailiwick q = None /\ q_rdata q = None /\ q_has_v_type q = false.
Proof.
  intros t q E. destruct t; try discriminate E; injection E as <-; repeat (split; [reflexivity|]);
    (split; [intro p; unfold bound_of; repeat destruct (_ =? _); reflexivity|]); repeat (split; [reflexivity|]); reflexivity.
Qed.

(** After any sequence of calls [cs] on a new query, with answers [rs], the query
    carries for each of these parameters the value of the last successful call. *)
Theorem settings_last_wins : forall ev t q0 cs rs q, dnstable_query_init t = Ok q0 ->
  apply_settings ev cs q0 = Ok (rs, q) ->
  let h := combine cs rs in
  length rs = length cs /\ q_type q = t /\
  q_offset q = last_set sets_offset 0 h /\
  q_aggregated q = last_set sets_aggregated true h /\
  q_case_sensitive q = last_set sets_case false h /\
  timeout_of q = last_set sets_timeout None h /\
  deadline_of q = last_set sets_deadline None h /\
  (forall p, p < 4 -> bound_of p q = last_set (sets_bound p) None h) /\
  (env_ok ev -> t <> QRdataIp -> rrtype_of q = last_set (sets_rrtype ev) None h).
Proof.
  intros ev t q0 cs rs q E0 E h. destruct (new_query t q0 E0) as (T & O & A & C & TO & D & R & B & _).
  assert (ST := apply_one ev).
  split; [eapply apply_length; exact E|]. split; [rewrite (type_list _ _ _ _ _ E); exact T|].
  split; [rewrite <- O; eapply last_set_ok; [|exact E]; intros; apply (os_offset _ _ _ _ _ (ST _ _ _ _ H))|].
  split; [rewrite <- A; eapply last_set_ok; [|exact E]; intros; apply (os_aggregated _ _ _ _ _ (ST _ _ _ _ H))|].
  split; [rewrite <- C; eapply last_set_ok; [|exact E]; intros; apply (os_case _ _ _ _ _ (ST _ _ _ _ H))|].
  split; [rewrite <- TO; eapply last_set_ok; [|exact E]; intros; apply (os_timeout _ _ _ _ _ (ST _ _ _ _ H))|].
  split; [rewrite <- D; eapply last_set_ok; [|exact E]; intros; apply (os_deadline _ _ _ _ _ (ST _ _ _ _ H))|].
  split; [intros p Hp; rewrite <- (B p); eapply (last_set_ok _ ev (bound_of p)); [|exact E]; intros; apply (os_bound _ _ _ _ _ (ST _ _ _ _ H) p Hp)|].
  intros HE HT. rewrite <- R. eapply rrtype_list; eauto. congruence.
Qed.

Lemma reverse_lower : forall ls, name_ok ls ->
  wdns_reverse_name (wire (lower_name ls)) (blen (wire (lower_name ls))) = Ok (rwire (lower_name ls)).
Proof.
  intros ls H. rewrite <- (app_nil_r (wire (lower_name ls))) at 1. apply reverse_wire. apply lower_name_ok. exact H.
Qed.

(** Which calls succeed.  The parameters that apply to every kind of query can always
    be set; a type if its name is known; time bounds if the size is that of a 64-bit
    number. *)
Theorem settings_answers : forall ev q c b q', env_ok ev -> apply_setting ev c q = Ok (b, q') ->
  match c with
  | SetOffset _ | SetAggregated _ | SetCaseSensitive _ | SetTimeout _ | SetDeadline _ => b = true
  | SetFilterParameter p _ len => b = true <-> p < 4 /\ len = 8
  | SetRrtype None => b = true
  | SetRrtype (Some s) => b = true <-> any_type s = true \/ str_to_rrtype ev s <> 0
  | SetBailiwick s => b = true <-> q_type q = QRrset /\ forall x, s = Some x -> str_to_name ev x <> None
  | SetData s =>
      match q_type q with
      | QTimeRange | QSourceInfo => b = false
      | QRrset | QRdataName => b = true <-> forall x, s = Some x -> str_to_name ev x <> None
      | QRdataRaw => b = true <-> forall x, s = Some x -> x <> [] /\ exists l, hex_spells x l
      | QVersion => b = true <-> forall x, s = Some x -> In x [str "rrset"; str "rrset_name"; str "rdata"; str "rdata_name"]
      | QRdataIp => b = true <-> forall x, s = Some x -> exists n lo hi, denotes ev x n lo hi
      end
  end.
Proof.
  intros ev q c b q' HE E. destruct c as [s|s|s|n|x|x|t|t|p v len]; cbn [apply_setting] in E;
    try (injection E as <- <-; reflexivity).
  - unfold set_data in E. destruct (q_type q) eqn:ET; try exact I.
    + unfold set_data_name in E. destruct s as [s|]; cbn [query_load_name] in E.
      * destruct (str_to_name ev s) eqn:EN; injection E as <- <-; (split; [intros Hb x Hx; injection Hx as <-; congruence|]); auto.
        intro H. exfalso. apply (H s eq_refl). exact EN.
      * injection E as <- <-. split; [discriminate|auto].
    + unfold set_data_name in E. destruct s as [s|]; cbn [query_load_name] in E.
      * destruct (str_to_name ev s) eqn:EN; injection E as <- <-; (split; [intros Hb x Hx; injection Hx as <-; congruence|]); auto.
        intro H. exfalso. apply (H s eq_refl). exact EN.
      * injection E as <- <-. split; [discriminate|auto].
    + destruct s as [s|].
      * assert (ED : set_data ev (Some s) q = Ok (b, q')) by (unfold set_data; rewrite ET; exact E). rewrite (address_taken ev q s b q' HE ET ED). split.
        -- intros H x Hx. injection Hx as <-. exact H.
        -- intro H. apply H. reflexivity.
      * injection E as <- <-. split; [discriminate|auto].
    + unfold set_data_rdata_raw in E. destruct s as [s|]; [|injection E as <- <-; split; [discriminate|auto]].
      destruct (hex_decode s None (q_len_rdata q)) as [[ok raw] len] eqn:EH. injection E as <- <-. split.
      * intros -> x Hx. injection Hx as <-. destruct (hex_decode_success _ _ _ _ _ EH) as [l ->].
        destruct (proj1 (hex_decode_ok s l _ _ _ _) (conj EH eq_refl)) as (A & B & _). eauto.
      * intro H. destruct (H s eq_refl) as (HN & l & HS). 
        assert (X : hex_decode s None (q_len_rdata q) = (true, Some l, blen l)).
        { unfold hex_decode. pose proof (hex_spells_length s l HS) as HL.
          assert (Nat.eqb (length s) 0 = false) as -> by (apply Nat.eqb_neq; destruct s; [congruence|discriminate]).
          assert (Nat.modulo (length s) 2 = 0%nat) as HM by (rewrite HL, Nat.mul_comm; apply Nat.mod_mul; lia).
          rewrite HM. cbn [Nat.eqb negb orb]. rewrite (proj2 (hex_bytes_spells (length s) s l ltac:(lia) HM) HS).
          do 2 f_equal. unfold blen. rewrite HL, Nat.mul_comm, Nat.div_mul by lia. reflexivity. }
        rewrite X in EH. injection EH as <- _ _. reflexivity.
    + injection E as <- <-. reflexivity.
    + injection E as <- <-. reflexivity.
    + unfold set_version_type in E. destruct s as [s|]; [|injection E as <- <-; split; [discriminate|auto]].
      unfold entry_type_from_string in E. unfold entry_types in E. cbn [find fst snd] in E.
      assert (NB : forall x, beq s x = false -> x <> s) by (intros x Hx C; subst x; rewrite (proj2 (beq_iff s s) eq_refl) in Hx; discriminate Hx).
      destruct (beq s (str "rrset")) eqn:E1; [apply beq_iff in E1; injection E as <- <-; split; [intros _ x Hx; injection Hx as <-; rewrite E1; cbn; tauto|auto]|].
      destruct (beq s (str "rrset_name")) eqn:E2; [apply beq_iff in E2; injection E as <- <-; split; [intros _ x Hx; injection Hx as <-; rewrite E2; cbn; tauto|auto]|].
      destruct (beq s (str "rdata")) eqn:E3; [apply beq_iff in E3; injection E as <- <-; split; [intros _ x Hx; injection Hx as <-; rewrite E3; cbn; tauto|auto]|].
      destruct (beq s (str "rdata_name")) eqn:E4; [apply beq_iff in E4; injection E as <- <-; split; [intros _ x Hx; injection Hx as <-; rewrite E4; cbn; tauto|auto]|].
      assert (b = false) as ->.
      { repeat (match type of E with context [if beq s ?k then _ else _] => destruct (beq s k) end); injection E as <- <-; reflexivity. }
      split; [discriminate|]. intro H. exfalso. apply NB in E1, E2, E3, E4. specialize (H s eq_refl).
      destruct H as [H|[H|[H|[H|[]]]]]; congruence.
  - unfold set_rrtype in E. destruct s as [s|]; [|injection E as <- <-; reflexivity]. rewrite any_type_ok in E.
    destruct (any_type s); [injection E as <- <-; tauto|].
    destruct HE as (_ & HR & _). specialize (HR s). rewrite (N.mod_small (str_to_rrtype ev s) u16) in E by exact HR.
    destruct (str_to_rrtype ev s =? 0) eqn:EZ; injection E as <- <-.
    + apply N.eqb_eq in EZ. split; [discriminate|]. intros [C|C]; [discriminate C|congruence].
    + apply N.eqb_neq in EZ. tauto.
  - unfold set_bailiwick in E. destruct (q_type q); try (injection E as <- <-; split; [discriminate|intros [C _]; discriminate C]).
    destruct s as [s|]; cbn [query_load_name] in E; [|injection E as <- <-; split; [intros _; split; [reflexivity|discriminate]|reflexivity]].
    destruct (str_to_name ev s) as [n|] eqn:EN.
    + destruct HE as (HN & _). destruct (HN _ _ EN) as (ls & HL & ->). cbn iota in E. rewrite (downcase_wire ls HL) in E.
      rewrite (reverse_lower ls HL) in E. injection E as <- <-. split; [|reflexivity].
      intros _. split; [reflexivity|]. intros x Hx. injection Hx as <-. congruence.
    + injection E as <- <-. split; [discriminate|]. intros [_ H]. exfalso. apply (H s eq_refl). exact EN.
  - unfold set_filter_parameter in E. destruct (len =? 8) eqn:EL; cbn [negb] in E.
    + apply N.eqb_eq in EL. subst len.
      destruct (p =? 0) eqn:P0; [injection E as <- <-; split; [intros _|reflexivity]; lia|].
      destruct (p =? 1) eqn:P1; [injection E as <- <-; split; [intros _|reflexivity]; lia|].
      destruct (p =? 2) eqn:P2; [injection E as <- <-; split; [intros _|reflexivity]; lia|].
      destruct (p =? 3) eqn:P3; injection E as <- <-; (split; [intros Hb; try discriminate Hb|intros [H _]; try reflexivity]); lia.
    + injection E as <- <-. split; [discriminate|]. intros [_ H]. lia.
Qed.

(** The data asked for: what the last call of the data setter gave.  Missing for the
    whole of C43: after a call that failed the previous data is lost
    ([data_failure_refuted]). *)
Theorem data_last_wins_partial : forall ev t q0 h1 s h2 rs q, env_ok ev -> dnstable_query_init t = Ok q0 ->
  apply_settings ev (h1 ++ SetData (Some s) :: h2) q0 = Ok (rs, q) -> Forall (fun c => ~ is_data c) h2 ->
  let done := nth_error rs (length h1) = Some true in
  let case_kept := last_set sets_case false (combine h1 rs) in
  match t with
  | QRrset | QRdataName =>
      done -> exists ls, str_to_name ev s = Some (wire ls) /\ asks_name q (if case_kept then ls else lower_name ls)
  | QRdataRaw => done -> exists l, hex_spells s l /\ q_rdata q = Some l /\ q_len_rdata q = blen l
  | QVersion => done -> exists ty, In (s, ty) [(str "rrset", 0); (str "rrset_name", 1); (str "rdata", 2); (str "rdata_name", 3)] /\
      q_has_v_type q = true /\ q_v_type q = ty
  | QRdataIp => (done <-> exists n lo hi, denotes ev s n lo hi) /\
      forall n lo hi, denotes ev s n lo hi -> Forall (fun c => ~ is_type c) h2 -> asks_range q n (if Nat.eqb n 4 then 1 else 28) lo hi
  | QTimeRange | QSourceInfo => ~ done
  end.
Proof.
  intros ev t q0 h1 s h2 rs q HE E0 E F done case_kept.
  pose proof E as EALL. apply apply_app in E. destruct E as (r1 & r2 & q1 & -> & E1 & E2).
  apply apply_cons in E2. destruct E2 as (b & r2' & q2 & -> & ES & E2).
  assert (L1 : length r1 = length h1) by (eapply apply_length; exact E1).
  assert (DONE : done <-> b = true).
  { unfold done. rewrite nth_error_app2, L1, Nat.sub_diag by lia. cbn. split; congruence. }
  assert (CASE : case_kept = q_case_sensitive q1).
  { unfold case_kept. assert (combine h1 (r1 ++ b :: r2') = combine h1 r1) as ->.
    { clear - L1. revert r1 L1. induction h1 as [|c h1 IH]; intros [|x r1] L1; try discriminate L1; [reflexivity|]. cbn. f_equal. apply IH. cbn in L1. lia. }
    destruct (settings_last_wins ev t q0 h1 r1 q1 E0 E1) as (_ & _ & _ & _ & C & _). symmetry. exact C. }
  assert (T1 : q_type q1 = t). { rewrite (type_list _ _ _ _ _ E1). apply (new_query t q0 E0). }
  pose proof (not_data_list _ _ _ _ _ E2 F) as KEEP. unfold data_fields in KEEP.
  injection KEEP as K1 K2 K3 K4 K5 K6 K7 K8 K9.
  cbn [apply_setting] in ES. unfold set_data in ES. rewrite T1 in ES.
  assert (NAME : Ok (set_data_name ev (Some s) q1) = Ok (b, q2) -> done -> exists ls, str_to_name ev s = Some (wire ls) /\ asks_name q (if case_kept then ls else lower_name ls)).
  { intros EN D. apply DONE in D. subst b. unfold set_data_name, query_load_name in EN. destruct (str_to_name ev s) as [n|] eqn:SN; [|discriminate EN].
    destruct (proj1 HE _ _ SN) as (ls & HL & ->). exists ls. split; [reflexivity|]. rewrite CASE. injection EN as <-. cbn [with_name q_name] in K1.
    unfold asks_name. rewrite K1. destruct (q_case_sensitive q1).
    - split; [reflexivity|exact HL].
    - rewrite (downcase_wire ls HL). split; [reflexivity|]. apply lower_name_ok. exact HL. }
  destruct t.
  - apply NAME. exact ES.
  - apply NAME. exact ES.
  - split.
    { rewrite DONE. apply (address_taken ev q1 s b q2 HE T1). unfold set_data. rewrite T1. exact ES. }
    intros n lo hi HD FT. destruct (denotes_ok ev q1 s n lo hi HE T1 HD) as (q' & EQ & _ & AR).
    unfold set_data in EQ. rewrite T1 in EQ. rewrite EQ in ES. injection ES as <- <-.
    pose proof (not_type_list _ _ _ _ _ E2) as KT.
    assert (FF : Forall (fun c => ~ is_data c /\ ~ is_type c) h2) by (rewrite Forall_forall in *; auto).
    specialize (KT FF). destruct AR as (IK & A1 & A2 & A3 & A4 & A5 & A6 & A7).
    unfold rrtype_of, opt in KT. rewrite A1 in KT. destruct (q_do_rrtype q) eqn:DR; [|discriminate KT]. injection KT as KT.
    unfold asks_range. rewrite KT, K2, K3, K4, K5, DR. repeat (split; [first [assumption|reflexivity]|]). exact A7.
  - intro D. apply DONE in D. subst b. unfold set_data_rdata_raw in ES.
    destruct (hex_decode s None (q_len_rdata q1)) as [[ok raw] len] eqn:EH. injection ES as -> <-.
    destruct (hex_decode_success _ _ _ _ _ EH) as [l ->]. destruct (proj1 (hex_decode_ok s l _ _ _ _) (conj EH eq_refl)) as (_ & HS & _ & _ & ->).
    exists l. cbn in K6, K7. auto.
  - intro D. apply DONE in D. subst b. discriminate ES.
  - discriminate E0.
  - intro D. apply DONE in D. subst b.
    assert (A : apply_setting ev (SetData (Some s)) q1 = Ok (true, q2)) by (cbn [apply_setting]; unfold set_data; rewrite T1; exact ES).
    apply (settings_answers ev q1 _ _ _ HE) in A. cbn iota in A. rewrite T1 in A. apply proj1 in A. specialize (A eq_refl s eq_refl). unfold set_version_type in ES.
    destruct A as [<-|[<-|[<-|[<-|[]]]]]; cbn in ES; injection ES as <-; cbn in K8, K9; eexists; (split; [cbn; eauto 10|split; assumption]).
Qed.

(** The bailiwick asked for. *)
Theorem bailiwick_last_wins : forall ev q0 h1 s h2 rs q, env_ok ev -> dnstable_query_init QRrset = Ok q0 ->
  apply_settings ev (h1 ++ SetBailiwick s :: h2) q0 = Ok (rs, q) -> Forall (fun c => ~ is_bailiwick c) h2 ->
  nth_error rs (length h1) = Some true ->
  match s with
  | None => asks_bailiwick q None
  | Some x => exists ls, str_to_name ev x = Some (wire ls) /\ asks_bailiwick q (Some (lower_name ls))
  end.
Proof.
  intros ev q0 h1 s h2 rs q HE E0 E F D. apply apply_app in E. destruct E as (r1 & r2 & q1 & -> & E1 & E2).
  apply apply_cons in E2. destruct E2 as (b & r2' & q2 & -> & ES & E2).
  assert (L1 : length r1 = length h1) by (eapply apply_length; exact E1).
  rewrite nth_error_app2, L1, Nat.sub_diag in D by lia. cbn in D. injection D as ->.
  assert (T1 : q_type q1 = QRrset). { rewrite (type_list _ _ _ _ _ E1). apply (new_query _ q0 E0). }
  pose proof (bailiwick_list _ _ _ _ _ E2 F) as K. cbn [apply_setting] in ES. unfold set_bailiwick in ES. rewrite T1 in ES.
  destruct s as [x|]; cbn [query_load_name] in ES.
  - destruct (str_to_name ev x) as [n|] eqn:EN; [|discriminate ES]. destruct (proj1 HE _ _ EN) as (ls & HL & ->).
    cbn iota in ES. rewrite (downcase_wire ls HL), (reverse_lower ls HL) in ES. injection ES as <-.
    exists ls. split; [reflexivity|]. split; [exact K|]. apply lower_name_ok. exact HL.
  - injection ES as <-. split; [exact K|exact I].
Qed.

(** The part of C43 that is false: a failed call keeps the last good value.  The name
    is gone after a data call that failed, and half of the address range is replaced. *)
Theorem data_failure_refuted :
  (exists ev q0 q, env_ok ev /\ dnstable_query_init QRrset = Ok q0 /\
     apply_settings ev [SetData (Some (str "ex.com")); SetData (Some (str "..")) ] q0 = Ok ([true; false], q) /\ q_name q = None) /\
  (exists ev q0 q, env_ok ev /\ dnstable_query_init QRrset = Ok q0 /\
     apply_settings ev [SetBailiwick (Some (str "ex.com")); SetBailiwick (Some (str "..")) ] q0 = Ok ([true; false], q) /\ q_bailiwick q = None) /\
  (exists ev q0 q, env_ok ev /\ dnstable_query_init QRdataIp = Ok q0 /\
     apply_settings ev [SetData (Some (str "192.0.2.77")); SetData (Some (str "192.0.2.80-x"))] q0 = Ok ([true; false], q) /\
     asks_range q 4 1 [192; 0; 2; 80] [192; 0; 2; 80]).
Proof.
  split; [|split]; exists demo_env; eexists; eexists; (split; [apply demo_env_ok|]); (split; [reflexivity|]);
    (split; [vm_compute; reflexivity|]); try reflexivity.
  split; [left; auto|]. cbn. repeat (split; [reflexivity|]). split; [repeat constructor; unfold byte_ok; lia|]. left. auto.
Qed.

Example c43_case : exists q0 rs q, dnstable_query_init QRrset = Ok q0 /\
  apply_settings demo_env ([SetCaseSensitive true; SetOffset 4; SetRrtype (Some (str "A")); SetRrtype (Some (str "BOGUS"));
     SetFilterParameter 1 (Some 1000) 8; SetFilterParameter 1 (Some 7) 4] ++
     SetData (Some (str "WWW.ex.com")) :: [SetBailiwick (Some (str "WWW.ex.com")); SetCaseSensitive false; SetOffset 3]) q0 = Ok (rs, q) /\
  rs = [true; true; true; false; true; false; true; true; true; true] /\
  q_offset q = 3 /\ rrtype_of q = Some 1 /\ bound_of 1 q = Some 1000 /\
  asks_name q [str "WWW"; str "ex"; str "com"] /\ asks_bailiwick q (Some [str "www"; str "ex"; str "com"]).
Proof.
  do 3 eexists. split; [reflexivity|]. split; [vm_compute; reflexivity|]. repeat (split; [reflexivity|]).
  split; (split; [reflexivity|apply name_okb_ok; reflexivity]).
Qed.

(** * C44: raw data in hexadecimal *)
Theorem raw_hex : forall ev q s, q_type q = QRdataRaw ->
  exists b q', set_data ev (Some s) q = Ok (b, q') /\
    (b = true <-> s <> [] /\ exists l, hex_spells s l) /\
    (b = true -> exists l, hex_spells s l /\ q_rdata q' = Some l /\ q_len_rdata q' = blen l).
Proof.
  intros ev q s HT. unfold set_data. rewrite HT. unfold set_data_rdata_raw.
  destruct (hex_decode s None (q_len_rdata q)) as [[ok raw] len] eqn:EH. eexists _, _. split; [reflexivity|].
  assert (Z : ok = true -> s <> [] /\ exists l, hex_spells s l /\ raw = Some l /\ len = blen l).
  { intros ->. destruct (hex_decode_success _ _ _ _ _ EH) as [l ->].
    destruct (proj1 (hex_decode_ok s l _ _ _ _) (conj EH eq_refl)) as (A & B & _ & _ & C). eauto 10. }
  split; [split|].
  - intro H. destruct (Z H) as (A & l & B & _). eauto.
  - intros (HN & l & HS).
    assert (X : hex_decode s None (q_len_rdata q) = (true, Some l, blen l)).
    { unfold hex_decode. pose proof (hex_spells_length s l HS) as HL.
      assert (Nat.eqb (length s) 0 = false) as -> by (apply Nat.eqb_neq; destruct s; [congruence|discriminate]).
      assert (Nat.modulo (length s) 2 = 0%nat) as HM by (rewrite HL, Nat.mul_comm; apply Nat.mod_mul; lia).
      rewrite HM. cbn [Nat.eqb negb orb]. rewrite (proj2 (hex_bytes_spells (length s) s l ltac:(lia) HM) HS).
      do 2 f_equal. unfold blen. rewrite HL, Nat.mul_comm, Nat.div_mul by lia. reflexivity. }
    congruence.
  - intro H. destruct (Z H) as (_ & l & A & -> & ->). exists l. auto.
Qed.

Example c44_case : q_type (query0 QRdataRaw) = QRdataRaw /\ hex_spells (str "0aFf") [10; 255] /\
  match set_data demo_env (Some (str "0aFf")) (query0 QRdataRaw) with Ok (b, q) => b = true /\ q_rdata q = Some [10; 255] | _ => False end /\
  match set_data demo_env (Some (str "0aF")) (query0 QRdataRaw) with Ok (b, q) => b = false | _ => False end.
Proof.
  split; [reflexivity|]. split.
  - change [10; 255] with [16 * 0 + 10; 16 * 15 + 15]. change (str "0aFf") with [48; 97; 70; 102].
    constructor; [left; reflexivity|left; reflexivity|]. constructor; [right; reflexivity|left; reflexivity|]. constructor.
  - vm_compute. auto.
Qed.

(** * C48: names of entry types, statistics stages and categories *)
Theorem entry_type_names : forall s t, entry_type_from_string s = Some t <-> entry_type_to_string t = Some s.
Proof.
  intros s t. unfold entry_type_from_string, entry_types. cbn [find fst snd].
  assert (NB : forall x, beq s x = false -> x <> s) by (intros x Hx C; subst x; rewrite (proj2 (beq_iff s s) eq_refl) in Hx; discriminate Hx).
  split.
  - intro H. repeat (match type of H with context [if beq s ?k then _ else _] => let E := fresh in destruct (beq s k) eqn:E; [apply beq_iff in E; subst s; injection H as <-; reflexivity|] end).
    discriminate H.
  - unfold entry_type_to_string. intro H.
    repeat (match type of H with context [if t =? ?k then _ else _] => let E := fresh in destruct (t =? k) eqn:E;
      [apply N.eqb_eq in E; subst t; injection H as <-; vm_compute; reflexivity|] end).
    discriminate H.
Qed.

Lemma index_of_ok : forall tab s i r, index_of tab s i = Some r <->
  exists n x, r = (i + Z.of_nat n)%Z /\ nth_error tab n = Some x /\ caseless s x /\
    forall m y, (m < n)%nat -> nth_error tab m = Some y -> ~ caseless s y.
Proof.
  induction tab as [|x tab IH]; intros s i r.
  - cbn. split; [discriminate|]. intros (n & x & _ & H & _). destruct n; discriminate H.
  - cbn [index_of]. destruct (strcaseeq x s) eqn:E.
    + apply strcaseeq_ok in E. split.
      * intro H. injection H as <-. exists O, x. split; [lia|]. split; [reflexivity|]. split; [|intros; lia].
        clear - E. induction E; constructor; auto. unfold same_letter in *. intuition.
      * intros ([|n] & y & -> & H & HC & HM); [f_equal; lia|]. exfalso. apply (HM O x ltac:(lia) eq_refl).
        clear - E. induction E; constructor; auto. unfold same_letter in *. intuition.
    + assert (NE : ~ caseless s x).
      { intro C. assert (strcaseeq x s = true); [|congruence]. apply strcaseeq_ok. clear - C. induction C; constructor; auto. unfold same_letter in *. intuition. }
      rewrite IH. split.
      * intros (n & y & -> & H & HC & HM). exists (S n), y. split; [lia|]. split; [exact H|]. split; [exact HC|].
        intros [|m] z Hm Hz; [injection Hz as <-; exact NE|]. eapply HM; [|exact Hz]. lia.
      * intros ([|n] & y & -> & H & HC & HM); [injection H as <-; contradiction|]. exists n, y. split; [lia|]. split; [exact H|]. split; [exact HC|].
        intros m z Hm Hz. apply (HM (S m) z); [lia|exact Hz].
Qed.

Lemma caseless_inj : forall s x y, caseless s x -> caseless s y -> map lower_letter x = map lower_letter y.
Proof.
  intros s x y H. revert y. induction H as [|a b s x E H IH]; intros y H'; inversion H' as [|? c ? y' E' H'']; subst; [reflexivity|].
  cbn. rewrite (IH _ H''). f_equal. apply same_letter_tolower in E, E'. change lower_letter with tolower. congruence.
Qed.

Lemma table_names : forall tab s i, (forall n m x y, nth_error tab n = Some x -> nth_error tab m = Some y -> map lower_letter x = map lower_letter y -> n = m) ->
  (forall x, In x tab -> x <> []) ->
  (str_to tab s = Some i <-> exists x name, s = Some x /\ to_str tab i = Some name /\ caseless x name).
Proof.
  intros tab s i INJ NE. unfold str_to, to_str.
  assert (Z : forall s, s <> [] -> (index_of tab s 0 = Some i <->
    exists name, (if (i <? 0)%Z || (Z.of_nat (length tab) <=? i)%Z then None else nth_error tab (Z.to_nat i)) = Some name /\ caseless s name)).
  { intros s0 HS. rewrite index_of_ok. split.
    - intros (n & x & -> & H & HC & _). exists x. split; [|exact HC].
      assert (n < length tab)%nat by (apply nth_error_Some; intro X; pose proof (eq_trans (eq_sym X) H) as X2; discriminate X2).
      assert (((0 + Z.of_nat n <? 0)%Z || (Z.of_nat (length tab) <=? 0 + Z.of_nat n)%Z) = false) as -> by lia.
      replace (Z.to_nat (0 + Z.of_nat n)) with n by lia. exact H.
    - intros (x & H & HC). destruct ((i <? 0)%Z || (Z.of_nat (length tab) <=? i)%Z) eqn:R; [discriminate H|].
      exists (Z.to_nat i), x. split; [lia|]. split; [exact H|]. split; [exact HC|].
      intros m y Hm Hy HC'. pose proof (INJ _ _ _ _ H Hy (caseless_inj _ _ _ HC HC')). lia. }
  destruct s as [[|c s]|].
  - split; [discriminate|]. intros (x & name & E & H & HC). injection E as <-. inversion HC; subst. exfalso.
    destruct (_ || _); [discriminate H|]. apply nth_error_In in H. apply (NE [] H). reflexivity.
  - rewrite Z by discriminate. split; [intros (x & H); exists (c :: s), x; tauto|]. intros (x & name & E & H). injection E as <-. eauto.
  - split; [discriminate|]. intros (x & name & E & _). discriminate E.
Qed.

Lemma nodup_map_inj : forall A B (f : A -> B) l, NoDup (map f l) -> forall n m x y, nth_error l n = Some x -> nth_error l m = Some y -> f x = f y -> n = m.
Proof.
  intros A B f l ND n m x y Hn Hm E. rewrite NoDup_nth_error in ND. apply ND.
  - rewrite map_length. apply nth_error_Some. congruence.
  - rewrite !nth_error_map, Hn, Hm. cbn. congruence.
Qed.
Ltac distinct := repeat (apply NoDup_cons; [let C := fresh in cbn; intro C; repeat (destruct C as [C|C]; [discriminate C|]); exact C|]); apply NoDup_nil.

(** A string names a stage exactly if it is, up to the case of letters, the name the
    stage is printed with; likewise for categories. *)
Theorem stage_names : forall s i, stat_str_to_stage s = Some i <->
  exists x name, s = Some x /\ stat_stage_to_str i = Some name /\ caseless x name.
Proof.
  intros s i. apply table_names.
  - apply (nodup_map_inj _ _ (map lower_letter)). vm_compute. distinct.
  - intros x Hx. cbn in Hx. repeat (destruct Hx as [<-|Hx]; [discriminate|]). contradiction.
Qed.
Theorem category_names : forall s i, stat_str_to_category s = Some i <->
  exists x name, s = Some x /\ stat_category_to_str i = Some name /\ caseless x name.
Proof.
  intros s i. apply table_names.
  - apply (nodup_map_inj _ _ (map lower_letter)). vm_compute. distinct.
  - intros x Hx. cbn in Hx. repeat (destruct Hx as [<-|Hx]; [discriminate|]). contradiction.
Qed.

(** The names are those of the stages, categories and entry types they stand for, and
    no other number has one. *)
Theorem printed_names :
  (forall n s, stat_stage_to_str n = Some s <-> exists st, n = stage_number st /\ s = stage_label st) /\
  (forall n s, stat_category_to_str n = Some s <-> exists c, n = category_number c /\ s = category_label c) /\
  (forall n s, entry_type_to_string n = Some s <-> In (n, s) entry_labels).
Proof.
  assert (T : forall tab n s, to_str tab n = Some s <-> exists i, n = Z.of_nat i /\ nth_error tab i = Some s).
  { intros tab n s. unfold to_str. destruct ((n <? 0)%Z || (Z.of_nat (length tab) <=? n)%Z) eqn:E.
    - split; [discriminate|]. intros (i & -> & H). assert (i < length tab)%nat by (apply nth_error_Some; congruence). lia.
    - split; [intro H; exists (Z.to_nat n); split; [lia|exact H]|]. intros (i & -> & H). rewrite Nat2Z.id. exact H. }
  split; [|split].
  - intros n s. unfold stat_stage_to_str. rewrite T. split.
    + intros (i & -> & H). do 10 (destruct i as [|i]; [injection H as <-;
        first [exists StFileset; split; reflexivity|exists StSingleLabel; split; reflexivity|exists StRrtype; split; reflexivity
              |exists StBailiwick; split; reflexivity|exists StTimePrefilter; split; reflexivity|exists StRemoveStrict; split; reflexivity
              |exists StFillMerger; split; reflexivity|exists StLjoin; split; reflexivity|exists StTime; split; reflexivity|exists StOffset; split; reflexivity]|]).
      destruct i; discriminate H.
    + intros (st & -> & ->). exists (Z.to_nat (stage_number st)). destruct st; split; reflexivity.
  - intros n s. unfold stat_category_to_str. rewrite T. split.
    + intros (i & -> & H). do 4 (destruct i as [|i]; [injection H as <-;
        first [exists CFiltered; split; reflexivity|exists CMerged; split; reflexivity|exists CSeek; split; reflexivity|exists CFiles; split; reflexivity]|]).
      destruct i; discriminate H.
    + intros (c & -> & ->). exists (Z.to_nat (category_number c)). destruct c; split; reflexivity.
  - intros n s. split.
    + unfold entry_type_to_string. intro H.
      repeat (match type of H with context [if n =? ?k then _ else _] => let E := fresh in destruct (n =? k) eqn:E;
        [apply N.eqb_eq in E; subst n; injection H as <-; vm_compute; tauto|] end). discriminate H.
    + intro H. cbn [In entry_labels] in H. repeat (destruct H as [H|H]; [injection H as <- <-; reflexivity|]). destruct H.
Qed.
Print Assumptions printed_names.

Example c48_case : entry_type_from_string (str "rdata_name") = Some 3 /\ entry_type_to_string 3 = Some (str "rdata_name") /\
  stat_str_to_stage (Some (str "Time PREfilter")) = Some 4%Z /\ stat_stage_to_str 4 = Some (str "time prefilter") /\
  stat_str_to_category (Some (str "SEEK")) = Some 2%Z /\ stat_str_to_category (Some (str "seek ")) = None.
Proof. vm_compute. auto 10. Qed.

(** * C52: accepted parameters do not crash a query *)

(** Creating an iterator and calling it any number of times yields entries, the end
    or timeouts, even if timeout and deadline are changed in between: no failed assertion, no access outside buffers, no endless loop. *)
Definition runs (q : query) (t : table) : Prop :=
  exists qi, dnstable_query_iter q t = Ok qi /\
  forall w ts, w_offset w <= q_offset q -> eventually (fun fuel =>
    Forall (fun r => match r with QEntry _ | QEnd | QTimeout => True | _ => False end) (timed_calls fuel ts qi w)).

Lemma listing_fine : forall es n r, In r (listing es n) -> match r with QEntry _ | QEnd => True | _ => False end.
Proof.
  intros es n r H. unfold listing in H.
  assert (H2 : In r (map QEntry es ++ repeat QEnd n)) by (rewrite <- (firstn_skipn n); apply in_or_app; left; exact H).
  apply in_app_or in H2. destruct H2 as [H2|H2].
  - apply in_map_iff in H2. destruct H2 as (e & <- & _). exact I.
  - apply repeat_spec in H2. subst r. exact I.
Qed.
Lemma lists_runs : forall q t es, lists q (dnstable_query_iter q t) es -> runs q t.
Proof.
  intros q t es (qi & E & H). exists qi. split; [exact E|]. intros w ts HW. destruct (H w ts HW) as [f0 HF]. exists f0. intros f Hf. specialize (HF f Hf). cbv zeta in HF.
  destruct HF as (HA & _). apply Forall_forall. intros r Hr.
  destruct r; try exact I.
  - assert (X : In QAbort (answered (timed_calls f ts qi w))) by (apply filter_In; auto). rewrite HA in X. exact (listing_fine _ _ _ X).
  - assert (X : In QUB (answered (timed_calls f ts qi w))) by (apply filter_In; auto). rewrite HA in X. exact (listing_fine _ _ _ X).
  - assert (X : In QHang (answered (timed_calls f ts qi w))) by (apply filter_In; auto). rewrite HA in X. exact (listing_fine _ _ _ X).
Qed.

(** The bailiwick is always empty or a name. *)
Lemma bailiwick_step : forall ev c q b q', env_ok ev -> apply_setting ev c q = Ok (b, q') ->
  (exists bw, asks_bailiwick q bw) -> exists bw, asks_bailiwick q' bw.
Proof.
  intros ev c q b q' HE E (bw & HB).
  assert (K : ~ is_bailiwick c -> exists bw, asks_bailiwick q' bw).
  { intro H. exists bw. unfold asks_bailiwick. rewrite (bailiwick_keeps _ _ _ _ _ E H). exact HB. }
  destruct c; try (apply K; intro C; exact C). clear K. cbn [apply_setting] in E. unfold set_bailiwick in E.
  destruct (q_type q); try (injection E as <- <-; exists bw; exact HB).
  destruct s as [x|]; cbn [query_load_name] in E; [|injection E as <- <-; exists None; split; [reflexivity|exact I]].
  destruct (str_to_name ev x) as [n|] eqn:EN; [|injection E as <- <-; exists None; split; [reflexivity|exact I]].
  destruct (proj1 HE _ _ EN) as (ls & HL & ->). cbn iota in E. rewrite (downcase_wire ls HL), (reverse_lower ls HL) in E. injection E as <- <-.
  exists (Some (lower_name ls)). split; [reflexivity|]. apply lower_name_ok. exact HL.
Qed.
Lemma bailiwick_always : forall ev cs q rs q', env_ok ev -> apply_settings ev cs q = Ok (rs, q') ->
  (exists bw, asks_bailiwick q bw) -> exists bw, asks_bailiwick q' bw.
Proof.
  induction cs as [|c cs IH]; intros q rs q' HE E HB; [injection E as _ <-; exact HB|].
  apply apply_cons in E. destruct E as (b & rs' & q1 & -> & E1 & E2). eapply IH; eauto. eapply bailiwick_step; eauto.
Qed.
Lemma rrtype_small : forall ev cs rs, env_ok ev -> forall ty, last_set (sets_rrtype ev) None (combine cs rs) = Some ty -> ty < 65536.
Proof.
  intros ev cs rs HE. assert (G : forall h init, (forall ty, init = Some ty -> ty < 65536) -> forall ty, last_set (sets_rrtype ev) init h = Some ty -> ty < 65536).
  { induction h as [|[c b] h IH]; intros init HI ty E; [apply HI; exact E|]. unfold last_set in E. cbn [fold_left fst snd] in E. revert E. apply IH.
    intros ty'. destruct b; [|apply HI]. destruct c as [s|[s|]|s|n|x|x|t|t|p v len]; cbn [sets_rrtype]; try apply HI; try discriminate.
    destruct (any_type s); [discriminate|]. intro E. injection E as <-. destruct HE as (_ & HR & _). apply HR. }
  apply G. discriminate.
Qed.

Lemma wild_label_dec : forall l, {wild_label l} + {~ wild_label l}.
Proof.
  intro l. unfold wild_label. destruct (list_eq_dec N.eq_dec l [star_sign]); [left; auto|]. destruct (list_eq_dec N.eq_dec l [plus_sign]); [left; auto|]. right. tauto.
Qed.
Lemma left_dec : forall name, not_left_wild name \/ exists c x, (c = star_sign \/ c = plus_sign) /\ name = [c] :: x.
Proof.
  intros [|l ls]; [left; intros ? ? C; discriminate C|]. destruct (wild_label_dec l) as [H|H].
  - right. destruct H as [->| ->]; eauto.
  - left. intros a b E. injection E as <- _. exact H.
Qed.

(** Names whose last label ends in the bytes 1 '*' or 1 '+' but is longer: the library
    takes them for wildcards (see DESIGN.md). *)
Definition odd_last (name : list bytes) : Prop := exists ls a b, name = ls ++ [a ++ [1; b]] /\ (b = star_sign \/ b = plus_sign).

Lemma right_dec : forall name, ~ odd_last name -> not_right_wild name \/ exists c x, (c = star_sign \/ c = plus_sign) /\ name = x ++ [[c]].
Proof.
  intros name HO. destruct (rev name) as [|l r] eqn:E.
  - left. intros ls l E2. apply (f_equal (@rev _)) in E2. rewrite rev_app_distr in E2. cbn in E2. rewrite E in E2. discriminate E2.
  - apply (f_equal (@rev _)) in E. rewrite rev_involutive in E. cbn in E. destruct (wild_label_dec l) as [H|H].
    + right. destruct H as [->| ->]; eauto.
    + left. intros ls l' E2. rewrite E in E2. apply app_inj_tail in E2. destruct E2 as [<- <-]. split; [exact H|].
      intros a b ->. split; intros ->; apply HO; exists (rev r), a; eauto.
Qed.

(** What the database has to be like for the theorem below. *)
Record complete (q : query) (recs : list record) : Prop := {
  cp_names : names_canonical recs;
  cp_owners : owners_indexed recs;
  cp_rdatas : rdata_names_indexed recs;
  cp_owner_safe : owner_index_safe q recs;
  cp_rdata_safe : rdata_index_safe q recs;
  cp_addresses : forall n ty, q_type q = QRdataIp -> rrtype_of q = Some ty -> ip_kind n ty ->
    addresses_canonical recs n ty /\ no_overread recs n ty
}.

(** Missing for the whole of C52: see [accepted_query_refuted]. *)
Theorem accepted_query_partial : forall ev t q0 h1 s h2 rs q tb recs, env_ok ev -> dnstable_query_init t = Ok q0 ->
  apply_settings ev (h1 ++ SetData (Some s) :: h2) q0 = Ok (rs, q) -> Forall (fun c => ~ is_data c) h2 ->
  nth_error rs (length h1) = Some true ->
  database recs tb -> strict tb -> complete q recs ->
  match t with
  | QRrset => rrtype_of q <> Some 255 /\ forall name, asks_name q name -> ~ odd_last name
  | QRdataName => (forall ty, rrtype_of q = Some ty -> bears_name ty) /\ forall name, asks_name q name -> ~ odd_last name
  | QRdataIp => Forall (fun c => ~ is_type c) h2
  | QRdataRaw => True
  | _ => False
  end ->
  runs q tb /\ ((exists M, asks q recs M) \/ (exists I B M, asks_grouped q recs I B M)).
Proof.
  intros ev t q0 h1 s h2 rs q tb recs HE E0 E F HD DB SB CP HC.
  assert (RUN : (exists M, asks q recs M) \/ (exists I B M, asks_grouped q recs I B M) -> runs q tb).
  { intros [(M & A)|(I & B & M & A)].
    - destruct (query_returns q tb recs M DB A) as (out & es & _ & _ & L). eapply lists_runs. exact L.
    - destruct (query_returns_grouped q tb recs I B M DB SB A) as (hs & outs & es & all & _ & _ & _ & _ & _ & L). eapply lists_runs. exact L. }
  assert (G : (exists M, asks q recs M) \/ (exists I B M, asks_grouped q recs I B M)); [|split; [apply RUN; exact G|exact G]].
  pose proof (data_last_wins_partial ev t q0 h1 s h2 rs q HE E0 E F) as DL. cbv zeta in DL.
  destruct (settings_last_wins ev t q0 _ rs q E0 E) as (_ & QT & _ & _ & _ & _ & _ & _ & RT).
  assert (BW : exists bw, asks_bailiwick q bw).
  { eapply bailiwick_always; [exact HE|exact E|]. exists None. split; [|exact I]. apply (new_query t q0 E0). }
  destruct BW as (bw & BW). destruct CP as [C1 C2 C3 C4 C5 C6].
  destruct t; try contradiction HC.
  - destruct (DL HD) as (ls & _ & AN). destruct HC as (H255 & HO). specialize (HO _ AN).
    specialize (RT HE ltac:(discriminate)).
    assert (TP : type_param_ok q).
    { intro D. unfold rrtype_of, opt in *. rewrite D in *. split; [|congruence]. eapply rrtype_small; [exact HE|]. symmetry. exact RT. }
    set (name := if last_set sets_case false (combine h1 rs) then ls else lower_name ls) in *. clearbody name.
    destruct (left_dec name) as [NL|(c & x & Hc & ->)].
    + destruct (right_dec name HO) as [NR|(c & x & Hc & ->)].
      * left. eexists. eapply asks_exact_rrset; eauto.
      * right. do 3 eexists. eapply asks_after_rrset; eauto.
    + left. eexists. eapply asks_below_rrset; eauto.
  - destruct (DL HD) as (ls & _ & AN). destruct HC as (HB & HO). specialize (HO _ AN).
    assert (TP : name_type_param_ok q).
    { intro D. apply HB. unfold rrtype_of, opt. rewrite D. reflexivity. }
    set (name := if last_set sets_case false (combine h1 rs) then ls else lower_name ls) in *. clearbody name.
    destruct (right_dec name HO) as [NR|(c & x & Hc & ->)].
    + destruct (left_dec name) as [NL|(c & x & Hc & ->)].
      * left. eexists. eapply asks_named_rdata; eauto.
      * right. do 3 eexists. eapply asks_name_below; eauto.
    + left. eexists. eapply asks_name_after; eauto.
  - rename HC into HT. destruct DL as (DD & DL). destruct (proj1 DD HD) as (n & lo & hi & HN). pose proof (DL n lo hi HN HT) as AR.
    assert (AC : addresses_canonical recs n (if Nat.eqb n 4 then 1 else 28) /\ no_overread recs n (if Nat.eqb n 4 then 1 else 28)).
    { destruct AR as (IK & A1 & A2 & _). apply C6; [exact QT| |exact IK]. unfold rrtype_of, opt. rewrite A1, A2. reflexivity. }
    left. eexists. eapply asks_ip_rdata; [exact QT|exact AR| |apply IpQueries.no_overread_part]; apply AC.
  - destruct (DL HD) as (l & _ & H1 & H2). left. eexists. eapply asks_raw_rdata; eauto.
Qed.

(** C52 is false.  Each of these histories consists of calls that succeed, and then
    creating or using an iterator fails an assertion or leaves its buffers: *)
Definition odd_txt : list record := [RData [L_ex; L_com] 16 [] ([10; 0; 0; 2] ++ [15; 1; 97; 0; 7; 7; 7]) (ob 1 2 3)].
Definition crashes (tb : table) (t : qtype) (cs : list setting) : Prop :=
  exists q0 rs q, dnstable_query_init t = Ok q0 /\ apply_settings demo_env cs q0 = Ok (rs, q) /\ forallb (fun b => b) rs = true /\
  (dnstable_query_iter q tb = Abort \/ dnstable_query_iter q tb = UB \/
   exists qi, dnstable_query_iter q tb = Ok qi /\ calls 100 1 qi world0 = [QAbort]).
Ltac crash := do 3 eexists; (split; [reflexivity|]); (split; [vm_compute; reflexivity|]); (split; [reflexivity|]).
Theorem accepted_query_refuted : env_ok demo_env /\ database demo demo_table /\ database odd_txt (map put odd_txt) /\
  (* an rdata-ip query without data, without type, or with a type that is not an address type *)
  crashes demo_table QRdataIp [] /\
  crashes demo_table QRdataIp [SetData (Some (str "10.0.0.2")); SetRrtype None] /\
  crashes (map put odd_txt) QRdataIp [SetData (Some (str "10.0.0.2-192.0.2.80")); SetRrtype (Some (str "MX"))] /\
  (* an rrset query without name, or with type 255 *)
  crashes demo_table QRrset [] /\
  crashes demo_table QRrset [SetData (Some (str "ex.com")); SetRrtype (Some (str "TYPE0255"))] /\
  (* an rdata-raw query whose data is taken back *)
  crashes demo_table QRdataRaw [SetData (Some (str "0102")); SetData None].
Proof.
  split; [apply demo_env_ok|]. split; [apply demo_database|]. split; [apply (demo_ok odd_txt); vm_compute; reflexivity|].
  split; [crash; left; vm_compute; reflexivity|]. split; [crash; left; vm_compute; reflexivity|].
  split; [crash; right; right; eexists; split; [vm_compute; reflexivity|vm_compute; reflexivity]|].
  split; [crash; right; left; vm_compute; reflexivity|]. split; [crash; left; vm_compute; reflexivity|].
  crash; right; left; vm_compute; reflexivity.
Qed.

Example c52_case : exists q0 rs q, dnstable_query_init QRdataIp = Ok q0 /\
  apply_settings demo_env ([SetOffset 1] ++ SetData (Some (str "10.0.0.2-192.0.2.80")) :: [SetAggregated false]) q0 = Ok (rs, q) /\
  nth_error rs 1 = Some true /\ database demo demo_table /\ strict demo_table /\ complete q demo /\
  denotes demo_env (str "10.0.0.2-192.0.2.80") 4 [10; 0; 0; 2] [192; 0; 2; 80] /\
  map (fun r => match r with QEntry e => get_rrname e | _ => Fail end)
    (match dnstable_query_iter q demo_table with Ok qi => calls 100 2 qi (load_offset q world0) | _ => [] end) = [Ok (wire [L_www; L_ex; L_com]); Fail].
Proof.
  do 3 eexists. split; [reflexivity|]. split; [vm_compute; reflexivity|]. split; [reflexivity|]. split; [apply demo_database|]. split; [apply demo_database|].
  split; [|split; [|vm_compute; reflexivity]].
  - constructor.
    + exact demo_names_canonical.
    + exact demo_owners_indexed.
    + exact demo_rdata_indexed.
    + intros _. exact demo_owner_safe.
    + intros _ n m H. unfold demo in H. in_demo H.
      * apply (PropsQuery.one_window_safe 0 [0; 1]); [window_here|discriminate].
      * right. split; [apply uv_one; reflexivity|]. intros ws w bm _ E _. exfalso. apply (f_equal (@length N)) in E.
        rewrite encode_windows_app, app_length in E. cbn in E. lia.
    + intros n ty _ E K. injection E as <-. destruct K as [[-> _]|[_ C]]; [|discriminate C]. split; [|exact demo_no_overread].
      intros ow head tail o H. unfold demo in H. in_demo H; auto.
  - apply (den_range demo_env _ (str "10.0.0.2") (str "192.0.2.80")).
    + exists 0%nat, 0%nat, 0%nat. split; [reflexivity|]. split; [discriminate|]. split; [discriminate|]. split; repeat constructor; discriminate.
    + apply addr4. reflexivity.
    + apply addr4. reflexivity.
Qed.

Print Assumptions cidr_query_partial.
Print Assumptions cidr_too_long_refused.
Print Assumptions cidr_undefined_lengths.
Print Assumptions cidr_prefix_refuted.
Print Assumptions settings_last_wins.
Print Assumptions settings_answers.
Print Assumptions data_last_wins_partial.
Print Assumptions bailiwick_last_wins.
Print Assumptions data_failure_refuted.
Print Assumptions raw_hex.
Print Assumptions entry_type_names.
Print Assumptions stage_names.
Print Assumptions category_names.
Print Assumptions accepted_query_partial.
Print Assumptions accepted_query_refuted.

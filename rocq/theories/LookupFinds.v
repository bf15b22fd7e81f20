(** Proofs about dnstable_lookup: the records its query asks for. *)
From Coq Require Import Permutation.
From Verif Require Import Str BaseFacts NameFacts ModelEntry ModelIter ModelQuery SpecIter SpecMerge SpecName SpecEntry SpecQuery SpecReader ModelSetters ModelWdns ModelFormat ModelFileset.
From Verif Require Import SelectProofs PropsQuery SpecDeadline SpecSettings SettingsProofs PropsSettings PropsFormat ModelLookup SpecLookup LookupQuery LookupBuild.

Lemma name_of_unique : forall ev o d a b, name_of ev o d a -> name_of ev o d b -> a = b.
Proof.
  intros ev o d a b (x & Hx & Ex & ->) (y & Hy & Ey & ->). assert (x = y) as ->; [|reflexivity].
  apply wire_inj; [apply Hx|apply Hy|congruence].
Qed.

Lemma snoc_cases : forall (A : Type) (l : list A), l = [] \/ exists m x, l = m ++ [x].
Proof. intros A l. destruct l using rev_ind; [left; reflexivity|right; eauto]. Qed.

Lemma wild_first : forall c x, c = star_sign \/ c = plus_sign -> ~ not_left_wild ([c] :: x).
Proof. intros c x [->| ->] H; apply (H _ _ eq_refl); [left|right]; reflexivity. Qed.
Lemma wild_last : forall c x, c = star_sign \/ c = plus_sign -> ~ not_right_wild (x ++ [[c]]).
Proof. intros c x [->| ->] H; destruct (H _ _ eq_refl) as (C & _); apply C; [left|right]; reflexivity. Qed.

Lemma fits_plain : forall name n, not_left_wild name -> not_right_wild name -> (fits name n <-> n = name).
Proof.
  intros name n HL HR. split; [|intros ->; apply fits_itself; assumption]. intro H. destruct H as [m|c x y HC|c x y HC]; [reflexivity| |].
  - contradiction (wild_first c x HC).
  - contradiction (wild_last c x HC).
Qed.
Lemma fits_left : forall c x n, c = star_sign \/ c = plus_sign -> not_right_wild ([c] :: x) ->
  (fits ([c] :: x) n <-> exists y, n = y ++ x /\ (c = plus_sign -> length y = 1%nat)).
Proof.
  intros c x n HC HR. split.
  - intro H. inversion H as [m HL|c' x' y HC' HR' HY|c' x' y HC' HL HY]; subst.
    + contradiction (wild_first c x HC).
    + eauto.
    + exfalso. apply (wild_last c' x' HC'). match goal with E : _ ++ [[c']] = _ |- _ => rewrite E end. exact HR.
  - intros (y & -> & HY). apply fits_below; assumption.
Qed.
Lemma fits_right : forall c x n, c = star_sign \/ c = plus_sign -> not_left_wild (x ++ [[c]]) ->
  (fits (x ++ [[c]]) n <-> exists y, n = x ++ y /\ (c = plus_sign -> length y = 1%nat)).
Proof.
  intros c x n HC HL. split.
  - intro H. inversion H as [m HL' HR|c' x' y HC' HR' HY|c' x' y HC' HL' HY]; subst.
    + contradiction (wild_last c x HC).
    + exfalso. apply (wild_first c' x' HC'). match goal with E : _ :: _ = _ ++ _ |- _ => rewrite E end. exact HL.
    + match goal with E : x' ++ _ = x ++ _ |- _ => apply app_inj_tail in E; destruct E as [-> E2]; injection E2 as -> end. eauto.
  - intros (y & -> & HY). apply fits_after; assumption.
Qed.

(** The query's conditions are those of the command line. *)
Lemma type_same : forall ev o c clk q ty, question ev o c clk q -> c_type c <> QRdataIp -> (type_ok q ty <-> type_wanted ev c ty).
Proof.
  intros ev o c clk q ty HQ HN. pose proof (qs_rrtype _ _ _ _ _ HQ HN) as R. unfold type_ok, type_wanted, rrtype_of, opt in *.
  destruct (c_rrtype c) as [s|].
  - destruct (any_type s) eqn:EA.
    + destruct (q_do_rrtype q); [discriminate R|]. split; [intros _ x Hx; injection Hx as <-; congruence|intros _ C; discriminate C].
    + destruct (q_do_rrtype q); [|discriminate R]. injection R as R. rewrite R. split; [intros H x Hx _; injection Hx as <-; auto|]. intros H _. apply H; auto.
  - destruct (q_do_rrtype q); [discriminate R|]. split; [discriminate|intros _ C; discriminate C].
Qed.
Lemma lower_ok_inv : forall ls, name_ok (lower_name ls) -> name_ok ls.
Proof.
  intros ls (F & L). assert (E : length (wire ls) = length (wire (lower_name ls))).
  { clear. unfold wire, lower_name. rewrite !app_length. f_equal. induction ls as [|l ls IH]; [reflexivity|]. unfold enc_labels in *. cbn [map flat_map app length]. rewrite !app_length, map_length, IH. reflexivity. }
  split; [|rewrite E; exact L]. unfold lower_name in F. rewrite Forall_map in F. eapply Forall_impl; [|exact F]. cbv beta.
  intros l (A & B). split; [rewrite map_length in A; exact A|]. unfold bytes_ok in *. rewrite Forall_map in B. eapply Forall_impl; [|exact B].
  cbv beta. unfold byte_ok, lower_letter. intros c H. destruct ((65 <=? c) && (c <=? 90)) eqn:E2; lia.
Qed.

Lemma bailiwick_same : forall ev o c clk q, question ev o c clk q ->
  exists bw, asks_bailiwick q bw /\ forall b, bailiwick_ok bw b <-> bailiwick_wanted ev c b.
Proof.
  intros ev o c clk q HQ. pose proof (qs_bailiwick _ _ _ _ _ HQ) as B. unfold bailiwick_wanted. destruct (c_bailiwick c) as [s|].
  - destruct B as (ls & EN & A). exists (Some (lower_name ls)). split; [exact A|]. intro b. cbn.
    assert (OK : name_ok ls) by (apply lower_ok_inv; apply A). split.
    + intros -> x Hx. injection Hx as <-. eauto.
    + intro H. destruct (H s eq_refl) as (l2 & O2 & E2 & ->). f_equal. apply wire_inj; [apply O2|apply OK|congruence].
  - exists None. split; [exact B|]. intro b. cbn. split; [discriminate|auto].
Qed.
Lemma name_same : forall ev o c clk q d, question ev o c clk q -> c_data c = Some d -> c_type c = QRrset \/ c_type c = QRdataName ->
  exists name, name_of ev o d name /\ asks_name q name.
Proof.
  intros ev o c clk q d HQ ED HT. pose proof (qs_data _ _ _ _ _ HQ) as B. rewrite ED in B.
  assert (H : exists ls, str_to_name ev d = Some (wire ls) /\ asks_name q (if o_case o then ls else lower_name ls)) by (destruct HT as [E|E]; rewrite E in B; exact B).
  destruct H as (ls & E & A). exists (if o_case o then ls else lower_name ls). split; [|exact A]. exists ls. split; [|auto].
  destruct A as (_ & A). destruct (o_case o); [exact A|apply lower_ok_inv; exact A].
Qed.
Lemma fence_same : forall ev o c clk q ob, question ev o c clk q -> c_type c <> QVersion -> c_type c <> QTimeRange ->
  (o_strict o = true -> o_first ob <= o_last ob) -> (in_fence q ob <-> time_wanted o ob).
Proof.
  intros ev o c clk q ob HQ N1 N2 HF. pose proof (qs_bounds _ _ _ _ _ HQ N1 N2 ob) as B. unfold time_wanted. destruct (o_strict o); auto.
Qed.

Lemma hex_unique : forall s a b, hex_spells s a -> hex_spells s b -> a = b.
Proof.
  intros s a b HA. revert b. induction HA as [|x1 x2 x y s l D1 D2 H IH]; intros b HB; inversion HB; subst; [reflexivity|].
  match goal with E1 : hex_digit x1 ?u, E2 : hex_digit x2 ?v |- _ =>
    assert (x = u) as <- by (pose proof (proj2 (hex_to_int_digit x1 x) (conj D1 (hex_digit_lt _ _ D1))); pose proof (proj2 (hex_to_int_digit x1 u) (conj E1 (hex_digit_lt _ _ E1))); congruence);
    assert (y = v) as <- by (pose proof (proj2 (hex_to_int_digit x2 y) (conj D2 (hex_digit_lt _ _ D2))); pose proof (proj2 (hex_to_int_digit x2 v) (conj E2 (hex_digit_lt _ _ E2))); congruence) end.
  f_equal. apply IH. assumption.
Qed.
Lemma range_unique : forall q n ty lo hi n' ty' lo' hi', asks_range q n ty lo hi -> asks_range q n' ty' lo' hi' -> n = n' /\ ty = ty' /\ lo = lo' /\ hi = hi'.
Proof.
  intros q n ty lo hi n' ty' lo' hi' (K & _ & T & L & F & _ & _ & H) (K' & _ & T' & L' & F' & _ & _ & H').
  assert (n = n') as <- by lia. split; [reflexivity|]. split; [congruence|]. split; [congruence|].
  assert (0 < n)%nat by (destruct K as [[-> _]|[-> _]]; lia).
  destruct H as [(A & B)|(A & B & _)], H' as [(A' & B')|(A' & B' & _)]; try lia; congruence.
Qed.

(** The query of a command line, as a query for records. *)
Lemma asked : forall ev o args c clk q recs, env_ok ev -> command_means args c -> question ev o c clk q ->
  c_type c <> QVersion -> c_type c <> QTimeRange -> accepted ev c -> findable ev o c recs ->
  exists M, (forall r, timely o r -> (M r <-> wanted ev o c r)) /\
    (asks q recs M \/ (wildcard ev o c /\ (q_do_rrtype q = true -> exists s, c_rrtype c = Some s /\ q_rrtype q = str_to_rrtype ev s) /\
       exists I B, asks_grouped q recs I B M)).
Proof.
  intros ev o args c clk q recs HE HC HQ NV NT HA [FN FTy FO FOI FNm FNI FAd].
  pose proof (qs_type _ _ _ _ _ HQ) as QT. destruct (bailiwick_same _ _ _ _ _ HQ) as (bw & AB & BW).
  assert (FE : forall ob, (o_strict o = true -> o_first ob <= o_last ob) -> (in_fence q ob <-> time_wanted o ob)) by (intros; eapply fence_same; [exact HQ|exact NV|exact NT|assumption]).
  destruct (c_type c) eqn:TC; [| | | |contradiction NT; reflexivity| |contradiction NV; reflexivity].
  - (* rrset *) destruct (c_data c) as [d|] eqn:ED; [|exfalso; destruct HC; discriminate].
    destruct (name_same _ _ _ _ _ d HQ ED (or_introl TC)) as (name & NO & AN).
    pose proof (FN d name eq_refl (or_introl eq_refl) NO) as OS.
    assert (TS : forall ty, type_ok q ty <-> type_wanted ev c ty) by (intro; eapply type_same; [exact HQ|rewrite TC; discriminate]).
    assert (RT := qs_rrtype _ _ _ _ _ HQ ltac:(rewrite TC; discriminate)).
    assert (TP : type_param_ok q).
    { intro D. unfold rrtype_of, opt in RT. rewrite D in RT. destruct (c_rrtype c) as [s|] eqn:ER; [|discriminate RT]. destruct (any_type s) eqn:EA; [discriminate RT|].
      injection RT as ->. split; [apply HE|]. exact (FTy s eq_refl EA). }
    assert (NU : forall ow, (exists n, name_of ev o d n /\ fits n ow) <-> fits name ow).
    { intro ow. split; [intros (n & H & G); rewrite (name_of_unique _ _ _ _ _ NO H); exact G|eauto]. }
    destruct OS as [name HL HR|k x Hk HR|k x Hk HL].
    + exists (exact_rrset q name bw). split; [|left; apply asks_exact_rrset; auto]. intros r FR. unfold timely in FR. unfold wanted. rewrite TC, ED. destruct r; cbn [exact_rrset]; try tauto.
      rewrite NU, fits_plain, TS, BW, FE by auto. tauto.
    + exists (below_rrset q k x bw). split; [|left; apply asks_below_rrset; auto]. intros r FR. unfold timely in FR. unfold wanted. rewrite TC, ED. destruct r; cbn [below_rrset]; try tauto.
      rewrite NU, fits_left, TS, BW, FE by auto. tauto.
    + assert (AG : asks_grouped q recs (after_index k x) same_owner (after_rrset q k x bw)).
      { apply asks_after_rrset; auto. intros D ow m Hm. unfold rrtype_of, opt in RT. rewrite D in RT. destruct (c_rrtype c) as [s|] eqn:ER; [|discriminate RT].
        destruct (any_type s); [discriminate RT|]. injection RT as ->. eapply FOI; eauto. }
      exists (after_rrset q k x bw). split.
      * intros r FR. unfold timely in FR. unfold wanted. rewrite TC, ED. destruct r; cbn [after_rrset]; try tauto. rewrite NU, fits_right, TS, BW, FE by auto. tauto.
      * right. split; [|split; [|eauto]].
        -- exists d, (x ++ [[k]]). repeat split; auto. intros (_ & C). contradiction (wild_last k x Hk).
        -- intro D. unfold rrtype_of, opt in RT. rewrite D in RT. destruct (c_rrtype c) as [s|]; [|discriminate RT].
           destruct (any_type s); [discriminate RT|]. injection RT as RT. eauto.
  - (* rdata name *) destruct (c_data c) as [d|] eqn:ED; [|exfalso; destruct HC; discriminate].
    destruct (name_same _ _ _ _ _ d HQ ED (or_intror TC)) as (name & NO & AN).
    pose proof (FN d name eq_refl (or_intror eq_refl) NO) as OS.
    assert (TS : forall ty, type_ok q ty <-> type_wanted ev c ty) by (intro; eapply type_same; [exact HQ|rewrite TC; discriminate]).
    assert (RT := qs_rrtype _ _ _ _ _ HQ ltac:(rewrite TC; discriminate)).
    assert (TP : name_type_param_ok q).
    { intro D. unfold rrtype_of, opt in RT. rewrite D in RT. destruct (c_rrtype c) as [s|] eqn:ER; [|discriminate RT]. destruct (any_type s) eqn:EA; [discriminate RT|].
      injection RT as ->. exact (FTy s eq_refl EA). }
    destruct (FNm eq_refl) as (CN & IX).
    assert (NU : forall tail, (exists a n extra, name_of ev o d a /\ fits a n /\ name_ok n /\ tail = wire n ++ extra) <->
                              exists n extra, fits name n /\ name_ok n /\ tail = wire n ++ extra).
    { intro tail. split; [intros (a & n & extra & H & G); rewrite <- (name_of_unique _ _ _ _ _ NO H) in G; eauto|intros (n & extra & H); exists name; eauto]. }
    destruct OS as [name HL HR|k x Hk HR|k x Hk HL].
    + exists (named_rdata q name). split; [|left; apply asks_named_rdata; auto]. intros r FR. unfold timely in FR. unfold wanted. rewrite TC, ED. destruct r; cbn [named_rdata]; try tauto.
      rewrite NU, TS, FE by auto. setoid_rewrite (fits_plain name); auto. split; [intros ((extra & ->) & H)|intros ((n & extra & -> & _ & ->) & H)]; (split; [|exact H]); eauto.
      exists name, extra. split; [reflexivity|]. split; [apply AN|reflexivity].
    + assert (AG : asks_grouped q recs (below_index k x) names_it (name_below q k x)).
      { apply asks_name_below; auto. intros D ow m Hm. unfold rrtype_of, opt in RT. rewrite D in RT. destruct (c_rrtype c) as [s|] eqn:ER; [|discriminate RT].
        destruct (any_type s); [discriminate RT|]. injection RT as ->. eapply FNI; eauto. }
      exists (name_below q k x). split.
      * intros r FR. unfold timely in FR. unfold wanted. rewrite TC, ED. destruct r; cbn [name_below]; try tauto. rewrite NU, TS, FE by auto.
        split; [intros ((y & extra & A & B & C) & H)|intros ((n & extra & A & B & C) & H)]; (split; [|exact H]).
        -- exists (y ++ x), extra. split; [apply fits_left; eauto|]. auto.
        -- apply fits_left in A; auto. destruct A as (y & -> & A). eauto.
      * right. split; [|split; [|eauto]].
        -- exists d, ([k] :: x). repeat split; auto. intros (C & _). contradiction (wild_first k x Hk).
        -- intro D. unfold rrtype_of, opt in RT. rewrite D in RT. destruct (c_rrtype c) as [s|]; [|discriminate RT].
           destruct (any_type s); [discriminate RT|]. injection RT as RT. eauto.
    + exists (name_after q k x). split; [|left; apply asks_name_after; auto]. intros r FR. unfold timely in FR. unfold wanted. rewrite TC, ED. destruct r; cbn [name_after]; try tauto.
      rewrite NU, TS, FE by auto. split; [intros ((y & extra & A & B & C) & H)|intros ((n & extra & A & B & C) & H)]; (split; [|exact H]).
      * exists (x ++ y), extra. split; [apply fits_right; eauto|]. auto.
      * apply fits_right in A; auto. destruct A as (y & -> & A). eauto.
  - (* rdata ip *) destruct (c_data c) as [d|] eqn:ED; [|exfalso; destruct HC; discriminate].
    pose proof (qs_data _ _ _ _ _ HQ) as QD. rewrite TC, ED in QD. destruct HA as (_ & _ & HA). rewrite ED, TC in HA. destruct HA as (n & lo & hi & DN).
    pose proof (QD n lo hi DN) as AR. set (ty := if Nat.eqb n 4 then 1 else 28) in *.
    destruct (FAd n ty eq_refl (proj1 AR)) as (AC & AO).
    exists (ip_rdata q ty lo hi). split; [|left; eapply asks_ip_rdata; eauto using IpQueries.no_overread_part]. intros r FR. unfold timely in FR. unfold wanted. rewrite TC, ED. destruct r; cbn [ip_rdata]; try tauto.
    rewrite FE by auto. split.
    + intros (-> & A & B). split; [|exact B]. exists n, lo, hi. auto.
    + intros ((n' & lo' & hi' & D' & T' & V') & B). destruct (range_unique _ _ _ _ _ _ _ _ _ AR (QD _ _ _ D')) as (-> & ET & -> & ->). unfold ty. auto.
  - (* rdata raw *) destruct (c_data c) as [d|] eqn:ED; [|exfalso; destruct HC; discriminate].
    pose proof (qs_data _ _ _ _ _ HQ) as QD. rewrite TC, ED in QD. destruct QD as (raw & HS & Q1 & Q2).
    assert (TS : forall ty, type_ok q ty <-> type_wanted ev c ty) by (intro; eapply type_same; [exact HQ|rewrite TC; discriminate]).
    exists (raw_rdata q raw). split; [|left; apply asks_raw_rdata; auto]. intros r FR. unfold timely in FR. unfold wanted. rewrite TC, ED. destruct r; cbn [raw_rdata]; try tauto.
    rewrite TS, FE by auto. split.
    + intros ((rest & K) & H). split; [eauto|exact H].
    + intros ((raw' & rest & HS' & K) & H). rewrite (hex_unique _ _ _ HS' HS) in K. split; [eauto|exact H].
  - exfalso. destruct HC; discriminate.
Qed.

(** Proofs about dnstable_lookup: the query made of the options and the command. *)
From Verif Require Import Str BaseFacts ModelEntry ModelIter ModelQuery SpecIter SpecMerge SpecName SpecEntry SpecQuery SpecReader ModelSetters ModelWdns ModelFormat ModelFileset.
From Verif Require Import SpecDeadline DeadlineProofs SpecSettings SettingsProofs PropsSettings ModelLookup SpecLookup LookupQuery.

(** ** Calls of setters that all succeed *)

Definition does (ev : env) (h : list setting) (q q' : query) : Prop :=
  exists rs, apply_settings ev h q = Ok (rs, q') /\ Forall (eq true) rs.

Lemma does_nil : forall ev q, does ev [] q q.
Proof. intros. exists []. split; [reflexivity|constructor]. Qed.
Lemma does_cons : forall ev c h q q1 q', apply_setting ev c q = Ok (true, q1) -> does ev h q1 q' -> does ev (c :: h) q q'.
Proof.
  intros ev c h q q1 q' E (rs & E2 & F). exists (true :: rs). split; [|constructor; auto]. cbn [apply_settings]. rewrite E. cbn. rewrite E2. reflexivity.
Qed.
Lemma does_one : forall ev c q q1, apply_setting ev c q = Ok (true, q1) -> does ev [c] q q1.
Proof. intros. eapply does_cons; [eassumption|apply does_nil]. Qed.
Lemma does_app : forall ev h1 h2 q q1 q2, does ev h1 q q1 -> does ev h2 q1 q2 -> does ev (h1 ++ h2) q q2.
Proof.
  intros ev h1. induction h1 as [|c h1 IH]; intros h2 q q1 q2 (rs & E & F) D.
  - injection E as <- <-. exact D.
  - apply apply_cons in E. destruct E as (b & rs' & q' & -> & E1 & E2). assert (b = true) as -> by (inversion F; congruence).
    cbn [app]. eapply does_cons; [exact E1|]. eapply IH; [|exact D]. exists rs'. split; [exact E2|]. inversion F. assumption.
Qed.

(** The calls. *)
Definition data_settings (c : command) : list setting :=
  match c_type c with
  | QRrset => [SetData (c_data c); SetRrtype (c_rrtype c); SetBailiwick (c_bailiwick c)]
  | QRdataIp | QRdataName | QRdataRaw => SetData (c_data c) :: match c_rrtype c with Some t => [SetRrtype (Some t)] | None => [] end
  | QVersion => [SetData (c_data c)]
  | _ => []
  end.
Definition bound_setting (p v : N) : list setting := if v =? 0 then [] else [SetFilterParameter p (Some v) 8].
Definition bound_settings (o : opts) (c : command) : list setting :=
  if metadata c then []
  else let o := strict_bounds o in bound_setting 1 (o_tfa o) ++ bound_setting 0 (o_tfb o) ++ bound_setting 3 (o_tla o) ++ bound_setting 2 (o_tlb o).
Definition offset_settings (o : opts) : list setting := if (o_offset o =? 0)%Z then [] else [SetOffset (to_uint64 (o_offset o))].
Definition deadline_settings (o : opts) (clk : clock) : list setting :=
  if (o_timeout o =? 0)%Z then [] else [SetDeadline (Some {| tv_sec := (tv_sec (clk O) + o_timeout o)%Z; tv_nsec := tv_nsec (clk O) |})].
Definition interval_settings (o : opts) (gd : timespec) (clk : clock) : list setting :=
  if (o_interval o =? 0)%Z then []
  else
    let next := ts_add {| tv_sec := o_interval o; tv_nsec := 0 |} (clk O) in
    if (tv_sec gd =? 0)%Z || (match ts_cmp next gd with Lt => true | _ => false end) then [SetDeadline (Some next)] else [].
Definition clock_after (o : opts) (clk : clock) : clock := if (o_timeout o =? 0)%Z then clk else later 1 clk.
Definition deadline_at (o : opts) (clk : clock) : timespec := 
  if (o_timeout o =? 0)%Z then no_time else {| tv_sec := (tv_sec (clk O) + o_timeout o)%Z; tv_nsec := tv_nsec (clk O) |}.
Definition tail_settings (o : opts) (c : command) (clk : clock) : list setting :=
  bound_settings o c ++ offset_settings o ++ deadline_settings o clk ++ interval_settings o (deadline_at o clk) (clock_after o clk) ++ [SetAggregated (o_aggregate o)].

Lemma must_true : forall r q, must r = Ok q <-> r = Ok (true, q).
Proof.
  intros r q. unfold must. destruct r as [[b q']| | | |]; cbn; try (split; discriminate). destruct b; split; congruence.
Qed.
Lemma bind_ok : forall A B (r : res A) (f : A -> res B) y, bind r f = Ok y <-> exists x, r = Ok x /\ f x = Ok y.
Proof.
  intros A B r f y. destruct r; cbn; (split; [|intros (x & E & F); try discriminate E; injection E as <-; exact F]); try discriminate. eauto.
Qed.

Lemma data_does : forall ev c q q', query_data ev c q = Ok q' <-> does ev (data_settings c) q q'.
Proof.
  intros ev c q q'. unfold query_data, data_settings.
  assert (C1 : forall a h x y, does ev (a :: h) x y <-> exists z, apply_setting ev a x = Ok (true, z) /\ does ev h z y).
  { intros a h x y. split.
    - intros (rs & E & F). apply apply_cons in E. destruct E as (b & rs' & z & -> & E1 & E2). inversion F; subst. exists z. split; [exact E1|]. exists rs'. auto.
    - intros (z & E & D). eapply does_cons; eassumption. }
  assert (C0 : forall x y, does ev [] x y <-> Ok x = Ok y :> res query).
  { intros x y. split; [intros (rs & E & _); injection E as _ <-; reflexivity|]. intro H. injection H as <-. apply does_nil. }
  destruct (c_type c); rewrite ?bind_ok, ?C1, ?C0; try tauto.
  - split.
    + intros (x & Hx & H). apply must_true in Hx. exists x. split; [exact Hx|]. apply bind_ok in H. destruct H as (y & Hy & H).
      apply must_true in Hy, H. apply C1. exists y. split; [exact Hy|]. apply C1. exists q'. split; [exact H|]. apply C0. reflexivity.
    + intros (x & Hx & H). exists x. split; [apply must_true; exact Hx|]. apply C1 in H. destruct H as (y & Hy & H). apply bind_ok.
      exists y. split; [apply must_true; exact Hy|]. apply C1 in H. destruct H as (z & Hz & H). apply C0 in H. injection H as <-. apply must_true. exact Hz.
  - split; intros (x & Hx & H); exists x; (split; [apply must_true; exact Hx|]); destruct (c_rrtype c).
    + apply C1. exists q'. split; [apply must_true; exact H|apply C0; reflexivity].
    + apply C0. exact H.
    + apply C1 in H. destruct H as (z & Hz & H). apply C0 in H. injection H as <-. apply must_true. exact Hz.
    + apply C0. exact H.
  - split; intros (x & Hx & H); exists x; (split; [apply must_true; exact Hx|]); destruct (c_rrtype c).
    + apply C1. exists q'. split; [apply must_true; exact H|apply C0; reflexivity].
    + apply C0. exact H.
    + apply C1 in H. destruct H as (z & Hz & H). apply C0 in H. injection H as <-. apply must_true. exact Hz.
    + apply C0. exact H.
  - split; intros (x & Hx & H); exists x; (split; [apply must_true; exact Hx|]); destruct (c_rrtype c).
    + apply C1. exists q'. split; [apply must_true; exact H|apply C0; reflexivity].
    + apply C0. exact H.
    + apply C1 in H. destruct H as (z & Hz & H). apply C0 in H. injection H as <-. apply must_true. exact Hz.
    + apply C0. exact H.
  - rewrite must_true. split; [intro H; exists q'; split; [exact H|apply C0; reflexivity]|].
    intros (z & Hz & H). apply C0 in H. injection H as <-. exact Hz.
Qed.

Lemma bound_does : forall ev p v q, p < 4 -> does ev (bound_setting p v) q (set_bound p v q).
Proof.
  intros ev p v q HP. unfold bound_setting, set_bound. destruct (v =? 0); [apply does_nil|]. apply does_one. cbn [apply_setting].
  destruct (bound_cases p HP) as [->|[->|[->| ->]]]; reflexivity.
Qed.
Lemma bounds_do : forall ev o c q, does ev (bound_settings o c) q (query_bounds o c q).
Proof.
  intros ev o c q. unfold bound_settings, query_bounds. destruct (metadata c); [apply does_nil|]. cbv zeta.
  eapply does_app; [apply bound_does; lia|]. eapply does_app; [apply bound_does; lia|]. eapply does_app; apply bound_does; lia.
Qed.

Lemma build_does : forall ev o c clk gd gi clk' q, build_query ev o c clk = Ok (gd, gi, clk', q) ->
  exists q0, dnstable_query_init (c_type c) = Ok q0 /\
    does ev ([SetCaseSensitive (o_case o)] ++ data_settings c ++ tail_settings o c clk) q0 q /\
    gd = deadline_at o clk /\ gi = (if (o_interval o =? 0)%Z then no_time else {| tv_sec := o_interval o; tv_nsec := 0 |}) /\
    clk' = (if (o_interval o =? 0)%Z then clock_after o clk else later 1 (clock_after o clk)).
Proof.
  intros ev o c clk gd gi clk' q H. unfold build_query in H. apply bind_ok in H. destruct H as (q0 & E0 & H). exists q0. split; [exact E0|].
  apply bind_ok in H. destruct H as (q2 & E2 & H). apply data_does in E2.
  set (q3 := query_bounds o c q2) in *. set (q4 := if (o_offset o =? 0)%Z then q3 else snd (set_offset_to (to_uint64 (o_offset o)) q3)) in *.
  assert (D4 : does ev (bound_settings o c ++ offset_settings o) q2 q4).
  { eapply does_app; [apply bounds_do|]. subst q3 q4. unfold offset_settings. destruct (o_offset o =? 0)%Z; [apply does_nil|]. apply does_one. reflexivity. }
  destruct (query_deadline o clk q4) as [[gd1 clk1] q5] eqn:E5.
  assert (D5 : does ev (deadline_settings o clk) q4 q5 /\ gd1 = deadline_at o clk /\ clk1 = clock_after o clk).
  { unfold query_deadline in E5. unfold deadline_settings, deadline_at, clock_after. destruct (o_timeout o =? 0)%Z; injection E5 as <- <- <-;
      (split; [|auto]); [apply does_nil|]. apply does_one. reflexivity. }
  destruct D5 as (D5 & -> & ->).
  destruct (query_interval o (deadline_at o clk) (clock_after o clk) q5) as [[gi1 clk2] q6] eqn:E6.
  assert (D6 : does ev (interval_settings o (deadline_at o clk) (clock_after o clk)) q5 q6 /\
     gi1 = (if (o_interval o =? 0)%Z then no_time else {| tv_sec := o_interval o; tv_nsec := 0 |}) /\
     clk2 = (if (o_interval o =? 0)%Z then clock_after o clk else later 1 (clock_after o clk))).
  { unfold query_interval in E6. unfold interval_settings. destruct (o_interval o =? 0)%Z; injection E6 as <- <- <-; (split; [|auto]); [apply does_nil|].
    destruct (_ || _); [apply does_one; reflexivity|apply does_nil]. }
  destruct D6 as (D6 & -> & ->). injection H as <- <- <- <-. split; [|auto].
  eapply does_app; [apply does_one; reflexivity|]. eapply does_app; [exact E2|]. unfold tail_settings. rewrite app_assoc.
  eapply does_app; [exact D4|]. eapply does_app; [exact D5|]. eapply does_app; [exact D6|]. apply does_one. reflexivity.
Qed.

(** ** Success *)

Lemma init_ok : forall args c, command_means args c -> exists q0, dnstable_query_init (c_type c) = Ok q0.
Proof. intros args c H. destruct H; eexists; reflexivity. Qed.

Lemma data_total : forall ev s q, env_ok ev -> q_type q <> QRdataIp -> exists b q', set_data ev s q = Ok (b, q').
Proof.
  intros ev s q HE HT. unfold set_data. destruct (q_type q); try (contradiction HT; reflexivity); clear HT.
  - destruct (set_data_name ev s q) as [b r]. exists b, r. reflexivity.
  - destruct (set_data_name ev s q) as [b r]. exists b, r. reflexivity.
  - destruct (set_data_rdata_raw s q) as [b r]. exists b, r. reflexivity.
  - eauto.
  - eauto.
  - destruct (set_version_type s q) as [b r]. exists b, r. reflexivity.
Qed.
Lemma bailiwick_total : forall ev s q, env_ok ev -> exists b q', set_bailiwick ev s q = Ok (b, q').
Proof.
  intros ev s q HE. unfold set_bailiwick. destruct (q_type q); eauto. destruct s as [s|]; cbn [query_load_name]; eauto.
  destruct (str_to_name ev s) as [n|] eqn:EN; eauto. destruct (proj1 HE _ _ EN) as (ls & HL & ->). cbn iota.
  rewrite (downcase_wire ls HL), (reverse_lower ls HL). eauto.
Qed.

Lemma data_accepted : forall ev args c q, env_ok ev -> command_means args c -> q_type q = c_type c -> accepted ev c ->
  exists q', does ev (data_settings c) q q'.
Proof.
  intros ev args c q HE HC HT (AT & AB & AD). unfold data_settings.
  assert (DS : c_type c <> QTimeRange -> exists q1, apply_setting ev (SetData (c_data c)) q = Ok (true, q1) /\ q_type q1 = q_type q).
  { intro NT. destruct (c_type c) eqn:ET.
    3: { destruct (c_data c) as [d|] eqn:ED; [|inversion HC; subst; discriminate]. destruct AD as (n & lo & hi & HD).
         destruct (denotes_ok ev q d n lo hi HE HT HD) as (q1 & E1 & (S1 & _) & _). exists q1. split; [exact E1|]. congruence. }
    all: destruct (data_total ev (c_data c) q HE ltac:(rewrite HT; discriminate)) as (b & q1 & E1); exists q1;
         (split; [|apply (os_type _ _ _ _ _ (apply_one ev (SetData (c_data c)) q b q1 E1))]);
         pose proof (settings_answers ev q (SetData (c_data c)) b q1 HE E1) as SA; cbn iota in SA; rewrite HT in SA; cbn [apply_setting]; rewrite E1; do 2 f_equal.
    - apply SA. intros x Hx. rewrite Hx in AD. exact AD.
    - apply SA. intros x Hx. rewrite Hx in AD. exact AD.
    - apply SA. intros x Hx. rewrite Hx in AD. exact AD.
    - contradiction NT; reflexivity.
    - inversion HC; subst; discriminate ET.
    - apply SA. intros x Hx. rewrite Hx in AD. exact AD. }
  assert (TS : forall q1, exists q2, apply_setting ev (SetRrtype (c_rrtype c)) q1 = Ok (true, q2) /\ q_type q2 = q_type q1).
  { intro q1. cbn [apply_setting]. destruct (set_rrtype ev (c_rrtype c) q1) as [b q2] eqn:E2. exists q2.
    assert (E2' : apply_setting ev (SetRrtype (c_rrtype c)) q1 = Ok (b, q2)) by (cbn [apply_setting]; rewrite E2; reflexivity).
    split; [|apply (os_type _ _ _ _ _ (apply_one _ _ _ _ _ E2'))]. pose proof (settings_answers ev q1 _ b q2 HE E2') as SA. cbn iota in SA.
    do 2 f_equal. destruct (c_rrtype c) as [s|]; [apply SA; auto|exact SA]. }
  destruct (c_type c) eqn:ET; try (inversion HC; subst; discriminate ET).
  - destruct DS as (q1 & E1 & T1); [discriminate|]. destruct (TS q1) as (q2 & E2 & T2).
    destruct (bailiwick_total ev (c_bailiwick c) q2 HE) as (b & q3 & E3). exists q3. eapply does_cons; [exact E1|]. eapply does_cons; [exact E2|]. apply does_one.
    cbn [apply_setting]. rewrite E3. do 2 f_equal. apply (settings_answers ev q2 (SetBailiwick (c_bailiwick c)) b q3 HE E3). split; [congruence|]. exact AB.
  - destruct DS as (q1 & E1 & T1); [discriminate|]. destruct (TS q1) as (q2 & E2 & T2). destruct (c_rrtype c) as [s|]; eexists; (eapply does_cons; [exact E1|]).
    + apply does_one. exact E2.
    + apply does_nil.
  - destruct DS as (q1 & E1 & T1); [discriminate|]. destruct (TS q1) as (q2 & E2 & T2). destruct (c_rrtype c) as [s|]; eexists; (eapply does_cons; [exact E1|]).
    + apply does_one. exact E2.
    + apply does_nil.
  - destruct DS as (q1 & E1 & T1); [discriminate|]. destruct (TS q1) as (q2 & E2 & T2). destruct (c_rrtype c) as [s|]; eexists; (eapply does_cons; [exact E1|]).
    + apply does_one. exact E2.
    + apply does_nil.
  - eexists. apply does_nil.
  - destruct DS as (q1 & E1 & T1); [discriminate|]. exists q1. apply does_one. exact E1.
Qed.

Lemma build_accepted : forall ev o args c clk, env_ok ev -> command_means args c -> accepted ev c ->
  exists x, build_query ev o c clk = Ok x.
Proof.
  intros ev o args c clk HE HC HA. destruct (init_ok args c HC) as (q0 & E0). unfold build_query. rewrite E0. cbn [bind].
  destruct (data_accepted ev args c (snd (set_case_sensitive (o_case o) q0)) HE HC) as (q1 & D1); [|exact HA|].
  - destruct (new_query _ _ E0) as (T & _). rewrite <- T. reflexivity.
  - apply data_does in D1. rewrite D1. cbn [bind]. destruct (query_deadline o clk _) as [[gd clk1] q5]. destruct (query_interval o gd clk1 q5) as [[gi clk2] q6]. eexists. reflexivity.
Qed.

(** These conditions are necessary. *)
Lemma data_needs : forall ev args c q q', env_ok ev -> command_means args c -> q_type q = c_type c ->
  does ev (data_settings c) q q' -> accepted ev c.
Proof.
  intros ev args c q q' HE HC HT D. unfold data_settings in D.
  assert (C1 : forall a h x y, does ev (a :: h) x y -> exists z, apply_setting ev a x = Ok (true, z) /\ does ev h z y).
  { intros a h x y (rs & E & F). apply apply_cons in E. destruct E as (b & rs' & z & -> & E1 & E2). inversion F; subst. exists z. split; [exact E1|]. exists rs'. auto. }
  assert (TY : forall s q1 q2, apply_setting ev (SetRrtype (Some s)) q1 = Ok (true, q2) -> any_type s = true \/ str_to_rrtype ev s <> 0).
  { intros s q1 q2 E. apply (settings_answers ev q1 _ true q2 HE E); reflexivity. }
  unfold accepted. destruct HC; cbn [cmd c_type c_data c_rrtype c_bailiwick] in *.
  all: repeat match goal with C : (forall a h x y, does _ (a :: h) x y -> _), H : does _ (_ :: _) _ _ |- _ => apply C in H; destruct H as (? & ? & H) end.
  all: repeat match goal with T : (forall s a b, apply_setting _ _ _ = _ -> _ \/ _), H : apply_setting _ (SetRrtype (Some _)) _ = _ |- _ => apply T in H end.
  all: repeat match goal with E : env_ok _, H : apply_setting _ (SetData _) _ = _ |- _ =>
    let S := fresh "SA" in pose proof (settings_answers _ _ _ true _ E H) as S; clear H; cbn iota in S end.
  all: repeat match goal with E : env_ok _, H : apply_setting _ (SetBailiwick _) _ = _ |- _ =>
    let S := fresh "SB" in pose proof (settings_answers _ _ _ true _ E H) as S; clear H; cbn iota in S; apply proj1 in S; specialize (S eq_refl); destruct S as (_ & S) end.
  all: split; [intros s0 Hs; try discriminate Hs; try (injection Hs as <-; assumption)|].
  all: split; [intros s0 Hs; try discriminate Hs; try (injection Hs as <-; auto)|].
  all: try exact I; match goal with T : q_type _ = _, S : context [q_type _] |- _ => rewrite T in S; apply (proj1 S eq_refl); reflexivity end.
Qed.

(** ** What the query asks *)

Definition done (h : list setting) : history := map (fun c => (c, true)) h.
Lemma all_true : forall h rs, length rs = length h -> Forall (eq true) rs -> combine h rs = done h.
Proof.
  induction h as [|c h IH]; intros [|b rs] L F; try discriminate L; [reflexivity|]. inversion F; subst. cbn. f_equal. apply IH; [cbn in L; lia|assumption].
Qed.
Lemma last_app : forall A (f : setting -> option A) a h1 h2, last_set f a (done (h1 ++ h2)) = last_set f (last_set f a (done h1)) (done h2).
Proof. intros. unfold last_set, done. rewrite map_app, fold_left_app. reflexivity. Qed.
Lemma last_skip : forall A (f : setting -> option A) a h, Forall (fun c => f c = None) h -> last_set f a (done h) = a.
Proof. intros A f a h. revert a. induction h as [|c h IH]; intros a F; [reflexivity|]. inversion F; subst. unfold last_set, done. cbn. rewrite H1. apply IH. assumption. Qed.

(** The calls of each group set nothing else. *)
Definition sets_none {A} (f : setting -> option A) (h : list setting) : Prop := Forall (fun c => f c = None) h.
Lemma data_none : forall A (f : setting -> option A) c, (forall s, f (SetData s) = None) -> (forall s, f (SetRrtype s) = None) ->
  (forall s, f (SetBailiwick s) = None) -> sets_none f (data_settings c).
Proof. intros A f c H1 H2 H3. unfold data_settings, sets_none. destruct (c_type c), (c_rrtype c); auto 6. Qed.
Lemma bound_none : forall A (f : setting -> option A) p v, f (SetFilterParameter p (Some v) 8) = None -> sets_none f (bound_setting p v).
Proof. intros A f p v H. unfold bound_setting, sets_none. destruct (v =? 0); auto. Qed.
Lemma bounds_none : forall A (f : setting -> option A) o c, (forall p v n, f (SetFilterParameter p v n) = None) -> sets_none f (bound_settings o c).
Proof.
  intros A f o c H. unfold bound_settings, sets_none. destruct (metadata c); auto. cbv zeta. repeat (apply Forall_app; split); apply bound_none; apply H.
Qed.
Lemma offset_none : forall A (f : setting -> option A) o, (forall n, f (SetOffset n) = None) -> sets_none f (offset_settings o).
Proof. intros A f o H. unfold offset_settings, sets_none. destruct (o_offset o =? 0)%Z; auto. Qed.
Lemma deadline_none : forall A (f : setting -> option A) o clk, (forall n, f (SetDeadline n) = None) -> sets_none f (deadline_settings o clk).
Proof. intros A f o clk H. unfold deadline_settings, sets_none. destruct (o_timeout o =? 0)%Z; auto. Qed.
Lemma interval_none : forall A (f : setting -> option A) o gd clk, (forall n, f (SetDeadline n) = None) -> sets_none f (interval_settings o gd clk).
Proof. intros A f o gd clk H. unfold interval_settings, sets_none. destruct (o_interval o =? 0)%Z; auto. cbv zeta. destruct (_ || _); auto. Qed.

Ltac skip :=
  repeat first
    [ rewrite (last_skip _ _ _ (data_settings _)) by (apply data_none; reflexivity)
    | rewrite (last_skip _ _ _ (bound_settings _ _)) by (apply bounds_none; reflexivity)
    | rewrite (last_skip _ _ _ (offset_settings _)) by (apply offset_none; reflexivity)
    | rewrite (last_skip _ _ _ (deadline_settings _ _)) by (apply deadline_none; reflexivity)
    | rewrite (last_skip _ _ _ (interval_settings _ _ _)) by (apply interval_none; reflexivity)
    | rewrite (last_skip _ _ _ [_]) by (constructor; [reflexivity|constructor]) ].

Lemma data_not_data : forall c, exists h, Forall (fun x => ~ is_data x) h /\
  data_settings c = (if match c_type c with QTimeRange | QSourceInfo => true | _ => false end then [] else [SetData (c_data c)]) ++ h.
Proof.
  intro c. unfold data_settings.
  destruct (c_type c); [exists [SetRrtype (c_rrtype c); SetBailiwick (c_bailiwick c)]| | | |exists []|exists []|exists []];
    try (split; [|reflexivity]; repeat constructor; intros []; fail);
    (exists (match c_rrtype c with Some t => [SetRrtype (Some t)] | None => [] end); split; [|reflexivity]; destruct (c_rrtype c); repeat constructor; intros []).
Qed.
Lemma tail_not : forall (P : setting -> Prop) o c clk, (forall p v n, ~ P (SetFilterParameter p v n)) -> (forall n, ~ P (SetOffset n)) ->
  (forall d, ~ P (SetDeadline d)) -> (forall b, ~ P (SetAggregated b)) -> Forall (fun x => ~ P x) (tail_settings o c clk).
Proof.
  intros P o c clk H1 H2 H3 H4. unfold tail_settings, bound_settings, bound_setting, offset_settings, deadline_settings, interval_settings. cbv zeta.
  repeat (apply Forall_app; split); repeat (match goal with |- context [if ?b then _ else _] => destruct b end); repeat (apply Forall_app; split);
    repeat constructor; auto.
Qed.

Lemma nth_true : forall rs i, Forall (eq true) rs -> (i < length rs)%nat -> nth_error rs i = Some true.
Proof.
  induction rs as [|b rs IH]; intros i F L; [cbn in L; lia|]. inversion F; subst. destruct i; [reflexivity|]. apply IH; [assumption|cbn in L; lia].
Qed.
Lemma case_kept : forall o rs, last_set sets_case false (combine [SetCaseSensitive (o_case o)] (true :: rs)) = o_case o.
Proof. reflexivity. Qed.

Theorem build_question : forall ev o args c clk gd gi clk' q, env_ok ev -> command_means args c -> clock_ok clk ->
  (0 <= o_timeout o)%Z -> (0 <= o_interval o)%Z -> (0 <= o_offset o < 2147483648)%Z ->
  build_query ev o c clk = Ok (gd, gi, clk', q) -> question ev o c clk q.
Proof.
  intros ev o args c clk gd gi clk' q HE HC HK HT HI HO HB. apply build_does in HB. destruct HB as (q0 & E0 & (rs & E & F) & HG & _ & _).
  set (h := [SetCaseSensitive (o_case o)] ++ data_settings c ++ tail_settings o c clk) in *.
  assert (HL : combine h rs = done h) by (apply all_true; [eapply apply_length; exact E|exact F]).
  destruct (settings_last_wins ev (c_type c) q0 h rs q E0 E) as (_ & WT & WO & WA & _ & WM & WD & WB & WR). rewrite HL in *.
  assert (HH : h = [SetCaseSensitive (o_case o)] ++ data_settings c ++ bound_settings o c ++ offset_settings o ++ deadline_settings o clk ++
      interval_settings o (deadline_at o clk) (clock_after o clk) ++ [SetAggregated (o_aggregate o)]) by reflexivity.
  destruct (data_not_data c) as (hd & FD & ED).
  assert (DATA : forall d, c_data c = Some d -> c_type c <> QTimeRange -> c_type c <> QSourceInfo ->
    exists h2 rs', rs = true :: rs' /\ Forall (fun x => ~ is_data x) h2 /\ nth_error rs 1 = Some true /\
      apply_settings ev ([SetCaseSensitive (o_case o)] ++ SetData (Some d) :: h2) q0 = Ok (rs, q)).
  { intros d Hd N1 N2. exists (hd ++ tail_settings o c clk). subst h. rewrite ED, Hd in E, HL.
    assert (X : (if match c_type c with QTimeRange | QSourceInfo => true | _ => false end then [] else [SetData (Some d)]) = [SetData (Some d)])
      by (destruct (c_type c); congruence || reflexivity). rewrite X in *. cbn [app] in *.
    pose proof (apply_length _ _ _ _ _ E) as LE. cbn [length] in LE.
    destruct rs as [|b1 [|b2 rs]]; try discriminate LE. inversion F; subst. inversion H2; subst. exists (true :: rs). split; [reflexivity|].
    split; [apply Forall_app; split; [exact FD|apply tail_not; intros; intros []]|]. split; [reflexivity|exact E]. }
  split.
  - exact WT.
  - rewrite WO, HH, !last_app. skip. unfold offset_settings. destruct (Z.eqb_spec (o_offset o) 0) as [->|NZ]; [reflexivity|].
    cbn. unfold to_uint64. change (18446744073709551616)%Z with (2 ^ 64)%Z. rewrite Z.mod_small by lia. lia.
  - rewrite WA, HH, !last_app. reflexivity.
  - rewrite WM, HH, !last_app. skip. reflexivity.
  - rewrite WD, HH, !last_app. skip. unfold first_stop, deadline_settings, interval_settings, deadline_at, clock_after.
    destruct (Z.eqb_spec (o_timeout o) 0) as [T0|T0]; destruct (Z.eqb_spec (o_interval o) 0) as [I0|I0]; cbv zeta; try reflexivity.
    + cbn [no_time tv_sec Z.eqb orb]. change (later 0 clk) with clk. unfold last_set, done. cbn [map fold_left fst snd sets_deadline option_map]. f_equal.
      set (gi1 := {| tv_sec := o_interval o; tv_nsec := 0 |}). assert (NI : normal gi1) by (unfold normal; cbn [gi1 tv_nsec]; lia).
      rewrite (proj1 (ts_add_ok gi1 (clk O) NI (proj1 (HK O)))). unfold gi1, nanos, seconds. cbn [tv_sec tv_nsec]. lia.
    + unfold last_set, done. cbn [map fold_left fst snd sets_deadline option_map]. f_equal. unfold nanos, seconds. cbn [tv_sec tv_nsec]. lia.
    + set (gd1 := {| tv_sec := _; tv_nsec := _ |}). set (gi1 := {| tv_sec := o_interval o; tv_nsec := 0 |}).
      assert (NG : normal gd1) by (destruct (HK O) as (A & _); exact A). assert (NI : normal gi1) by (unfold normal; cbn [gi1 tv_nsec]; lia).
      destruct (ts_add_ok gi1 (later 1 clk O) NI (proj1 (HK 1%nat))) as (EN & NN).
      destruct (HK O) as (K1 & K2). assert (tv_sec gd1 =? 0 = false)%Z as -> by (apply Z.eqb_neq; cbn [gd1 tv_sec]; lia). cbn [orb].
      rewrite (ts_cmp_ok _ _ NN NG), EN. assert (GN : nanos gd1 = (nanos (clk O) + seconds (o_timeout o))%Z) by (unfold gd1, nanos, seconds; cbn [tv_sec tv_nsec]; lia).
      assert (IN : nanos gi1 = seconds (o_interval o)) by (unfold gi1, nanos, seconds; cbn [tv_sec tv_nsec]; lia). rewrite GN, IN. change (later 1 clk O) with (clk 1%nat).
      unfold last_set, done. destruct (Z.compare_spec (nanos (clk 1%nat) + seconds (o_interval o)) (nanos (clk O) + seconds (o_timeout o)));
        cbn [map fold_left fst snd sets_deadline option_map]; f_equal; change (later 1 clk O) with (clk 1%nat) in *; rewrite ?EN, ?GN, ?IN; lia.
  - intro NI. rewrite (WR HE NI), HH, !last_app.
    rewrite (last_skip _ _ _ (bound_settings _ _)) by (apply bounds_none; reflexivity).
    rewrite (last_skip _ _ _ (offset_settings _)) by (apply offset_none; reflexivity).
    rewrite (last_skip _ _ _ (deadline_settings _ _)) by (apply deadline_none; reflexivity).
    rewrite (last_skip _ _ _ (interval_settings _ _ _)) by (apply interval_none; reflexivity).
    rewrite !(last_skip _ _ _ [_]) by (constructor; [reflexivity|constructor]).
    unfold data_settings. destruct HC; try reflexivity; try contradiction NI; reflexivity.
  - destruct (c_bailiwick c) as [x|] eqn:EB.
    + assert (TC : c_type c = QRrset) by (destruct HC; try discriminate EB; reflexivity).
      assert (EE : h = ([SetCaseSensitive (o_case o)] ++ [SetData (c_data c); SetRrtype (c_rrtype c)]) ++ SetBailiwick (Some x) :: tail_settings o c clk)
        by (subst h; unfold data_settings; rewrite TC, EB; reflexivity).
      rewrite EE in E. rewrite TC in E0. apply (bailiwick_last_wins ev q0 _ (Some x) _ rs q HE E0 E); [apply tail_not; intros; intros []|].
      apply nth_true; [exact F|]. rewrite (apply_length _ _ _ _ _ E). cbn [app length]. lia.
    + assert (NB : q_bailiwick q = None).
      { destruct (c_type c) eqn:TC.
        1: { assert (EE : h = ([SetCaseSensitive (o_case o)] ++ [SetData (c_data c); SetRrtype (c_rrtype c)]) ++ SetBailiwick None :: tail_settings o c clk)
               by (subst h; unfold data_settings; rewrite TC, EB; reflexivity).
             rewrite EE in E. apply (bailiwick_last_wins ev q0 _ None _ rs q HE E0 E); [apply tail_not; intros; intros []|].
             apply nth_true; [exact F|]. rewrite (apply_length _ _ _ _ _ E). cbn [app length]. lia. }
        all: rewrite (bailiwick_list ev h q0 rs q E);
             [apply (new_query _ _ E0)|subst h; apply Forall_app; split; [repeat constructor; intros []|]; apply Forall_app; split;
               [unfold data_settings; rewrite TC; destruct (c_rrtype c); repeat constructor; intros []|apply tail_not; intros; intros []]]. }
      split; [exact NB|exact I].
  - destruct (c_data c) as [d|] eqn:Ed.
    + destruct (c_type c) eqn:TC; try (destruct HC; discriminate);
        destruct (DATA d eq_refl ltac:(discriminate) ltac:(discriminate)) as (h2 & rs' & -> & F2 & R1 & E2);
        pose proof (data_last_wins_partial ev _ q0 _ d h2 _ q HE E0 E2 F2) as DL; cbv zeta in DL; cbn [length] in DL.
      * destruct (DL R1) as (ls & A & B). rewrite case_kept in B. eauto.
      * destruct (DL R1) as (ls & A & B). rewrite case_kept in B. eauto.
      * intros n lo hi HD.
        assert (RN : c_rrtype c = None) by (destruct HC; try discriminate TC; reflexivity).
        assert (EE : h = [SetCaseSensitive (o_case o)] ++ SetData (Some d) :: tail_settings o c clk)
          by (subst h; unfold data_settings; rewrite TC, RN, Ed; reflexivity).
        rewrite EE in E. pose proof (data_last_wins_partial ev _ q0 _ d _ _ q HE E0 E) as DL2. cbv zeta in DL2.
        apply DL2; [apply tail_not; intros; intros []|exact HD|apply tail_not; intros; intros []].
      * exact (DL R1).
      * exact (DL R1).
    + destruct (c_type c) eqn:TC; try (destruct HC; discriminate); [exact I|].
      assert (EE : h = [SetCaseSensitive (o_case o)] ++ SetData None :: tail_settings o c clk)
        by (subst h; unfold data_settings; rewrite TC, Ed; reflexivity).
      rewrite EE in E. apply apply_cons in E. destruct E as (b1 & r1 & q1 & -> & E1 & E). apply apply_cons in E. destruct E as (b2 & r2 & q2 & -> & E2 & E).
      assert (FT : Forall (fun x => ~ is_data x) (tail_settings o c clk)) by (apply tail_not; intros; intros []).
      pose proof (not_data_list _ _ _ _ _ E FT) as K. unfold data_fields in K.
      assert (V0 : q_has_v_type q0 = false) by apply (new_query _ _ E0).
      injection E1 as <- <-. cbn [apply_setting] in E2. unfold set_data in E2. cbn [q_type set_case_sensitive with_flags snd] in E2.
      rewrite (proj1 (new_query _ _ E0)) in E2. injection E2 as <- <-. cbn in K. congruence.
  - intros TM.
    assert (NBS : bound_settings o c = []) by (unfold bound_settings, metadata; destruct TM as [-> | ->]; reflexivity).
    assert (BN : forall p, p < 4 -> bound_of p q = None).
    { intros p Hp. rewrite (WB p Hp), HH, NBS, !last_app.
      rewrite (last_skip _ _ _ (data_settings _)) by (apply data_none; reflexivity).
      rewrite (last_skip _ _ _ (offset_settings _)) by (apply offset_none; reflexivity).
      rewrite (last_skip _ _ _ (deadline_settings _ _)) by (apply deadline_none; reflexivity).
      rewrite (last_skip _ _ _ (interval_settings _ _ _)) by (apply interval_none; reflexivity). reflexivity. }
    pose proof (BN 0 ltac:(lia)) as B0. pose proof (BN 1 ltac:(lia)) as B1. pose proof (BN 2 ltac:(lia)) as B2. pose proof (BN 3 ltac:(lia)) as B3.
    unfold bound_of, opt in B0, B1, B2, B3. cbn in B0, B1, B2, B3. unfold no_bounds.
    destruct (q_do_tfa q), (q_do_tfb q), (q_do_tla q), (q_do_tlb q); try discriminate; auto.
  - intros NV NTR ob.
    assert (M : metadata c = false) by (unfold metadata; destruct (c_type c); congruence).
    assert (G : in_fence q ob <-> within (strict_bounds o) (o_first ob) (o_last ob)).
    { assert (BB : forall p, p < 4 -> bound_of p q = last_set (sets_bound p) None (done (bound_settings o c))).
      { intros p Hp. rewrite (WB p Hp), HH, !last_app.
        rewrite (last_skip _ _ _ (data_settings _)) by (apply data_none; reflexivity).
        rewrite (last_skip _ _ _ (offset_settings _)) by (apply offset_none; reflexivity).
        rewrite (last_skip _ _ _ (deadline_settings _ _)) by (apply deadline_none; reflexivity).
        rewrite (last_skip _ _ _ (interval_settings _ _ _)) by (apply interval_none; reflexivity). reflexivity. }
      pose proof (BB 0 ltac:(lia)) as B0. pose proof (BB 1 ltac:(lia)) as B1. pose proof (BB 2 ltac:(lia)) as B2. pose proof (BB 3 ltac:(lia)) as B3. clear BB.
      unfold bound_settings in *. rewrite M in *. cbv zeta in *. set (o' := strict_bounds o) in *. clearbody o'. rewrite !last_app in *. unfold bound_setting in *.
      unfold in_fence, within, at_least, at_most. unfold bound_of, opt in *. cbn [N.eqb Pos.eqb] in B0, B1, B2, B3.
      destruct (N.eqb_spec (o_tfa o') 0), (N.eqb_spec (o_tfb o') 0), (N.eqb_spec (o_tla o') 0), (N.eqb_spec (o_tlb o') 0);
        cbn in B0, B1, B2, B3; 
        destruct (q_do_tfa q), (q_do_tfb q), (q_do_tla q), (q_do_tlb q); try discriminate B0; try discriminate B1; try discriminate B2; try discriminate B3;
        repeat match goal with H : Some _ = Some _ |- _ => injection H as H; rewrite H in * end;
        (split; [intros (H1 & H2 & H3 & H4); repeat split; try (left; assumption); right; auto |
             intros (H1 & H2 & H3 & H4); repeat split; intro; try discriminate; intuition congruence]). }
    destruct (o_strict o) eqn:ES.
    + intro FL. rewrite G, strict_within by exact FL. rewrite ES. tauto.
    + rewrite G. unfold strict_bounds. rewrite ES. tauto.
Qed.

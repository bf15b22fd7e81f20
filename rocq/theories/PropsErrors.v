(** C73: the error text of a query. *)
From Verif Require Import Str SpecName ModelNames ModelQuery ModelSetters ModelErrors SpecSettings SpecErrors.
From Verif Require Import SettingsProofs LookupQuery PropsSettings.
From Coq Require Import Lia.

Lemma split_no : forall d w cur, no_char d w -> split_on d cur w = [cur ++ w].
Proof.
  induction w as [|c w IH]; intros cur H; cbn; [now rewrite app_nil_r|].
  inversion H; subst. destruct (N.eqb_spec c d); [contradiction|]. rewrite IH by assumption. now rewrite <- app_assoc.
Qed.
Lemma split_word : forall d w cur s, no_char d w -> split_on d cur (w ++ d :: s) = (cur ++ w) :: split_on d [] s.
Proof.
  induction w as [|c w IH]; intros cur s H; cbn; [rewrite N.eqb_refl; now rewrite app_nil_r|].
  inversion H; subst. destruct (N.eqb_spec c d); [contradiction|]. rewrite IH by assumption. now rewrite <- app_assoc.
Qed.

Lemma strtok_pieces : forall d s l, pieces d s l <-> strtok_all d s = l.
Proof.
  intros d s l. unfold strtok_all. split.
  - induction 1 as [|s l _ IH|w HW HN|w s l HW HN _ IH].
    + reflexivity.
    + cbn. rewrite N.eqb_refl. cbn. exact IH.
    + rewrite split_no by assumption. cbn. destruct w; [contradiction|reflexivity].
    + rewrite split_word by assumption. cbn. destruct w; [contradiction|]. cbn. now rewrite IH.
  - assert (G : forall s cur, no_char d cur -> pieces d (cur ++ s) (filter (fun t => negb (Nat.eqb (length t) 0)) (split_on d cur s))).
    { clear. induction s as [|c s IH]; intros cur HC; cbn.
      - rewrite app_nil_r. destruct cur; [constructor|]. cbn. constructor; [discriminate|assumption].
      - destruct (N.eqb_spec c d) as [->|E].
        + cbn. specialize (IH [] (Forall_nil _)). cbn in IH. destruct cur as [|x cur]; cbn.
          * constructor. exact IH.
          * apply (pc_word d (x :: cur)); [discriminate|assumption|exact IH].
        + specialize (IH (cur ++ [c])). rewrite <- app_assoc in IH. apply IH. apply Forall_app. split; [assumption|repeat constructor; assumption]. }
    intros <-. apply (G s []). constructor.
Qed.

Lemma load_address_cases : forall ev s buf, env_ok ev ->
  match query_load_address ev s buf with
  | (true, len, _) => exists n x, address ev s n x /\ len = N.of_nat n /\ forall e, err_load_address ev s e = e
  | (false, _, _) => not_address ev s /\ forall e, err_load_address ev s e = Some (str "inet_pton() failed")
  end.
Proof.
  intros ev s buf HE. unfold query_load_address, err_load_address.
  destruct (pton4 ev s) eqn:E4; [exists 4%nat; eexists; split; [constructor; exact E4|split; reflexivity]|].
  destruct (pton6 ev s) eqn:E6; [exists 16%nat; eexists; split; [constructor; eassumption|split; reflexivity]|].
  repeat split; assumption.
Qed.

Lemma no_in : forall d s, ~ In d s -> no_char d s.
Proof. intros d s H. apply Forall_forall. intros x HX ->. contradiction. Qed.
Lemma in_no : forall d s, no_char d s -> ~ In d s.
Proof. intros d s H HI. unfold no_char in H. rewrite Forall_forall in H. now apply (H d HI). Qed.

Lemma address_once : forall ev s, not_address ev s -> forall n x, ~ address ev s n x.
Proof. intros ev s [H4 H6] n x H. destruct H; congruence. Qed.
Lemma address_same : forall ev s n x m y, address ev s n x -> address ev s m y -> n = m.
Proof. intros ev s n x m y H1 H2. destruct H1, H2; congruence. Qed.

(** A failing call has at most one message, and none if it is unexplained. *)
Lemma message_once : forall ev t c m1 m2, message ev t c m1 -> message ev t c m2 -> m1 = m2.
Proof.
  intros ev t c m1 m2 H1 H2. inversion H1; subst; inversion H2; subst; try reflexivity; exfalso;
    repeat match goal with
    | H : _ \/ _ |- _ => destruct H
    | H : no_char ?d ?s, H' : In ?d ?s |- _ => exact (in_no _ _ H H')
    | H : pieces ?d ?s _, H' : pieces ?d ?s _ |- _ => rewrite strtok_pieces in H, H'
    end; try congruence.
  all: repeat match goal with H : strtok_all ?d ?s = ?l, H' : strtok_all ?d ?s = _ |- _ => rewrite H in H'; injection H' as ?; subst end.
  all: match goal with H : not_address ?ev ?s, H' : address ?ev ?s _ _ |- _ => exact (address_once _ _ H _ _ H') end.
Qed.
Lemma unexplained_message : forall ev t c m, unexplained t c -> ~ message ev t c m.
Proof.
  intros ev t c m H1 H2. inversion H2; subst; inversion H1; subst; 
    repeat match goal with
    | H : _ \/ _ |- _ => destruct H
    | H : no_char ?d ?s, H' : In ?d ?s |- _ => exact (in_no _ _ H H')
    | H : pieces ?d ?s _, H' : pieces ?d ?s _ |- _ => rewrite strtok_pieces in H, H'
    end; try congruence.
  all: match goal with H : strtok_all ?d ?s = ?l, H' : strtok_all ?d ?s = ?k, L : length ?k <> _ |- _ => rewrite H in H'; rewrite <- H' in L; now apply L end.
Qed.

Definition left_by (ev : env) (t : qtype) (c : setting) (b : bool) (e e' : err) : Prop :=
  (b = true /\ e' = e) \/
  (b = false /\ exists m, message ev t c m /\ e' = Some m) \/
  (b = false /\ unexplained t c /\ e' = e).

Lemma load_name_err : forall ev s cs e,
  (fst (query_load_name ev s cs) = true /\ err_load_name ev s e = e) \/
  (fst (query_load_name ev s cs) = false /\ (exists x, s = Some x /\ str_to_name ev x = None) /\
   err_load_name ev s e = Some (str "wdns_str_to_name() failed")).
Proof.
  intros ev s cs e. destruct s as [s|]; cbn; [|auto]. destruct (str_to_name ev s) eqn:E; cbn; [auto|]. right. eauto 6.
Qed.

Lemma rdata_ip_err : forall ev s q b q' e, env_ok ev -> q_type q = QRdataIp -> set_data_rdata_ip ev s q = Ok (b, q') ->
  left_by ev QRdataIp (SetData s) b e (err_rdata_ip ev s q e).
Proof.
  intros ev s q b q' e HE HT E. destruct s as [s|]; [|injection E as <- <-; left; auto].
  unfold set_data_rdata_ip in E. unfold err_rdata_ip.
  destruct (has_char 45 s) eqn:ED.
  - apply has_char_iff in ED. injection E as E. unfold set_data_ip_range in E. unfold err_ip_range.
    pose proof (proj2 (strtok_pieces 45 s _) eq_refl) as HP.
    assert (HU : length (strtok_all 45 s) <> 2%nat -> left_by ev QRdataIp (SetData (Some s)) false e e).
    { intro HL. right. right. split; [reflexivity|]. split; [|reflexivity]. apply (un_range _ s (strtok_all 45 s)); auto. }
    destruct (strtok_all 45 s) as [|a1 [|a2 [|a3 l]]]; try (injection E as <- <-; apply HU; cbn; lia).
    pose proof (load_address_cases ev a1 (q_ip1 q) HE) as L1. pose proof (load_address_cases ev a1 (repeat 0 16) HE) as L1'.
    destruct (query_load_address ev a1 (q_ip1 q)) as [[ok1 len1] ip1]. destruct (query_load_address ev a1 (repeat 0 16)) as [[ok1' len1'] ip1'].
    assert (ok1' = ok1) as -> by (destruct ok1, ok1'; try reflexivity; [destruct L1 as (n & x & A & _), L1' as [B _]|destruct L1' as (n & x & A & _), L1 as [B _]]; exfalso; exact (address_once _ _ B _ _ A)).
    destruct ok1.
    2:{ injection E as <- <-. right. left. split; [reflexivity|]. eexists. split; [|apply L1'].
        eapply msg_range; eauto. left. apply L1. }
    destruct L1 as (n1 & x1 & A1 & -> & _), L1' as (n1' & x1' & A1' & -> & Q1). rewrite Q1.
    rewrite <- (address_same _ _ _ _ _ _ A1 A1') in *. clear A1' n1'.
    set (q1 := with_ip1 _ ip1 q) in *.
    pose proof (load_address_cases ev a2 (q_ip2 q1) HE) as L2. pose proof (load_address_cases ev a2 (repeat 0 16) HE) as L2'.
    destruct (query_load_address ev a2 (q_ip2 q1)) as [[ok2 len2] ip2]. destruct (query_load_address ev a2 (repeat 0 16)) as [[ok2' len2'] ip2'].
    assert (ok2' = ok2) as -> by (destruct ok2, ok2'; try reflexivity; [destruct L2 as (n & x & A & _), L2' as [B _]|destruct L2' as (n & x & A & _), L2 as [B _]]; exfalso; exact (address_once _ _ B _ _ A)).
    destruct ok2.
    2:{ injection E as <- <-. right. left. split; [reflexivity|]. eexists. split; [|apply L2'].
        eapply msg_range; eauto. right. apply L2. }
    destruct L2 as (n2 & x2 & A2 & -> & _), L2' as (n2' & x2' & A2' & -> & Q2). rewrite Q2.
    rewrite <- (address_same _ _ _ _ _ _ A2 A2') in *. clear A2' n2'.
    destruct (N.eqb_spec (N.of_nat n1) (N.of_nat n2)) as [H|H]; injection E as <- <-; [left; auto|].
    right. left. split; [reflexivity|]. eexists. split; [|reflexivity]. eapply msg_families; eauto.
  - apply has_char_false in ED. destruct (has_char 47 s) eqn:ES.
    + apply has_char_iff in ES. unfold err_ip_prefix. rewrite E. destruct b.
      * left. split; [reflexivity|]. unfold set_data_ip_prefix in E.
        destruct (strtok_all 47 s) as [|a [|p [|x l]]]; try discriminate E.
        pose proof (load_address_cases ev a [] HE) as L. destruct (query_load_address ev a []) as [[ok len] ip].
        destruct ok; [|discriminate E]. destruct L as (n & x & _ & _ & Q). apply Q.
      * right. left. split; [reflexivity|]. eexists. split; [|reflexivity]. apply msg_prefix; auto using no_in.
    + apply has_char_false in ES. injection E as E. unfold set_data_ip_address in E.
      set (q0 := with_ip2 0 (q_ip2 q) q) in *.
      pose proof (load_address_cases ev s (q_ip1 q0) HE) as L. destruct (query_load_address ev s (q_ip1 q0)) as [[ok len] ip].
      destruct ok; injection E as <- <-.
      * destruct L as (n & x & _ & _ & Q). left. auto.
      * destruct L as [A Q]. right. left. split; [reflexivity|]. eexists. split; [|apply Q].
        apply msg_address; auto using no_in.
Qed.

Lemma setting_err : forall ev c q b q' e, env_ok ev -> apply_setting ev c q = Ok (b, q') ->
  left_by ev (q_type q) c b e (err_setting ev c q e).
Proof.
  intros ev c q b q' e HE E. destruct c; cbn [apply_setting err_setting] in *;
    try (injection E as <- <-; left; split; reflexivity).
  - unfold set_data in E. unfold err_data. destruct (q_type q) eqn:ET.
    1,2: injection E as E; unfold set_data_name in E; destruct (load_name_err ev s (q_case_sensitive q) e) as [[H1 H2]|(H1 & (x & -> & HX) & H2)];
      destruct (query_load_name _ _ _) as [ok n]; cbn in H1; subst ok; injection E as <- <-; rewrite H2;
      [left; auto|right; left; split; [reflexivity|]; eexists; split; [apply msg_name; auto|reflexivity]].
    + apply (rdata_ip_err ev s q b q' e HE ET E).
    + injection E as E. destruct s as [s|]; cbn in E; [|injection E as <- <-; left; auto].
      destruct b; [left; auto|right; right; repeat split; now constructor].
    + injection E as <- <-. right. right. repeat split. constructor. auto.
    + injection E as <- <-. right. right. repeat split. constructor. auto.
    + injection E as E. destruct s as [s|]; cbn in E; [|injection E as <- <-; left; auto].
      destruct b; [left; auto|right; right; repeat split; now constructor].
  - injection E as E. unfold set_rrtype in E. unfold err_rrtype. destruct s as [s|]; [|injection E as <- <-; left; auto].
    rewrite any_type_ok in *. destruct (any_type s) eqn:EA; [injection E as <- <-; left; auto|].
    rewrite N.mod_small in * by apply HE. destruct (N.eqb_spec (str_to_rrtype ev s) 0) as [H|H]; injection E as <- <-; [|left; auto].
    right. left. split; [reflexivity|]. eexists. split; [apply msg_rrtype; assumption|reflexivity].
  - unfold set_bailiwick in E. unfold err_bailiwick.
    destruct (q_type q) eqn:ET; try (injection E as <- <-; right; left; split; [reflexivity|]; eexists; split; [apply msg_no_bailiwick; discriminate|reflexivity]).
    destruct s as [s|]; cbn in E; [|injection E as <- <-; left; auto]. cbn.
    destruct (str_to_name ev s) eqn:EN.
    + destruct HE as (HN & _). destruct (HN _ _ EN) as (ls & HL & ->). cbn iota in E. rewrite (downcase_wire ls HL), (reverse_lower ls HL) in E.
      injection E as <- <-. left. auto.
    + injection E as <- <-. right. left. split; [reflexivity|]. eexists. split; [apply msg_bailiwick; auto|reflexivity].
  - injection E as E. destruct b; [left; auto|right; right; repeat split; constructor].
Qed.

Definition text (o : option bytes) : bytes := match o with Some m => m | None => str "unknown error" end.

Lemma calls_text : forall ev cs q e h o as_, env_ok ev -> last_message ev (q_type q) h o -> fst (query_get_error e) = text o ->
  make_calls ev (cs ++ [GetError]) q e = Ok as_ ->
  exists as' o', as_ = as' ++ [Text (text o')] /\ length as' = length cs /\ last_message ev (q_type q) (h ++ combine cs as') o'.
Proof.
  induction cs as [|c cs IH]; intros q e h o as_ HE HL HO E.
  - exists [], o. cbn in E. destruct (query_get_error e) as [m e']. cbn in *. injection E as <-. subst m.
    rewrite app_nil_r. auto.
  - destruct c as [c|].
    + cbn in E. destruct (apply_setting ev c q) as [[b q']| | | |] eqn:EA; try discriminate E. cbn in E.
      pose proof (os_type _ _ _ _ _ (apply_one _ _ _ _ _ EA)) as HT.
      pose proof (setting_err ev c q b q' e HE EA) as HS.
      destruct (make_calls ev (cs ++ [GetError]) q' (err_setting ev c q e)) as [l| | | |] eqn:EM; try discriminate E. injection E as <-.
      assert (G : exists o1, last_message ev (q_type q) (h ++ [(Set_ c, Answer b)]) o1 /\ fst (query_get_error (err_setting ev c q e)) = text o1).
      { destruct HS as [[-> ->]|[(-> & m & HM & ->)|(-> & HU & ->)]].
        - exists o. split; [eapply last_old; eauto|exact HO].
        - exists (Some m). split; [eapply last_new; eauto|reflexivity].
        - exists o. split; [eapply last_old; eauto|exact HO]. }
      destruct G as (o1 & HL1 & HO1). rewrite <- HT in HL1.
      destruct (IH _ _ _ _ _ HE HL1 HO1 EM) as (as' & o' & -> & HN & HL').
      exists (Answer b :: as'), o'. split; [reflexivity|]. split; [cbn; now rewrite HN|].
      rewrite HT, <- app_assoc in HL'. exact HL'.
    + cbn in E. destruct (query_get_error e) as [m e'] eqn:EQ.  cbn in E, HO.
      destruct (make_calls ev (cs ++ [GetError]) q e') as [l| | | |] eqn:EM; try discriminate E. injection E as <-.
      assert (HO1 : fst (query_get_error e') = text o) by (destruct e; injection EQ as <- <-; exact HO).
      destruct (IH _ _ _ _ _ HE (last_asked ev _ h o m HL) HO1 EM) as (as' & o' & -> & HN & HL').
      exists (Text m :: as'), o'. split; [reflexivity|]. split; [cbn; now rewrite HN|].
      rewrite <- app_assoc in HL'. exact HL'.
Qed.

(** C73: dnstable_query_get_error gives the message left last, "unknown error" if there was none. *)
Theorem error_text : forall ev t q0 cs answers, env_ok ev -> dnstable_query_init t = Ok q0 ->
  make_calls ev (cs ++ [GetError]) q0 None = Ok answers ->
  exists before o, answers = before ++ [Text (match o with Some m => m | None => str "unknown error" end)] /\
    length before = length cs /\ last_message ev t (combine cs before) o.
Proof.
  intros ev t q0 cs l HE HI E.
  assert (q_type q0 = t) as <- by (destruct t; try discriminate HI; injection HI as <-; reflexivity).
  exact (calls_text ev cs q0 None [] None l HE (last_none _ _) eq_refl E).
Qed.

Lemma combine_snoc : forall A B (l : list A) (k : list B) x y, length l = length k -> combine (l ++ [x]) (k ++ [y]) = combine l k ++ [(x, y)].
Proof.
  induction l as [|a l IH]; intros [|b k] x y H; try discriminate H; [reflexivity|]. cbn. rewrite IH by (now injection H). reflexivity.
Qed.

(** C73: the text after a failure says why the call failed, unless the failure is
    one of those without a message. *)
Theorem error_after_failure_partial : forall ev t q0 cs c answers m, env_ok ev -> dnstable_query_init t = Ok q0 ->
  make_calls ev (cs ++ [Set_ c; GetError]) q0 None = Ok (answers ++ [Answer false; Text m]) -> ~ unexplained t c ->
  message ev t c m /\ forall m', message ev t c m' -> m' = m.
Proof.
  intros ev t q0 cs c l m HE HI E HU.
  change [Set_ c; GetError] with ([Set_ c] ++ [GetError]) in E. rewrite app_assoc in E.
  destruct (error_text _ _ _ _ _ HE HI E) as (l' & o & EQ & HL & HM).
  change [Answer false; Text m] with ([Answer false] ++ [Text m]) in EQ. rewrite app_assoc in EQ.
  apply app_inj_tail in EQ. destruct EQ as [<- EQ]. rewrite !app_length in HL. cbn in HL.
  rewrite combine_snoc in HM by lia.
  assert (G : message ev t c m); [|split; [exact G|]; intros m' H; exact (message_once _ _ _ _ _ H G)].
  inversion HM as [H0|h o1 c1 m1 H1 H2 H0|h o1 c1 b1 H1 H2 H0|h o1 m1 H1 H0].
  - destruct (combine cs l); discriminate H0.
  - apply app_inj_tail in H0. destruct H0 as [_ H0]. injection H0 as ->. subst o. injection EQ as ->. exact H2.
  - apply app_inj_tail in H0. destruct H0 as [_ H0]. injection H0 as -> ->. destruct H2; [discriminate|contradiction].
  - apply app_inj_tail in H0. destruct H0 as [_ H0]. discriminate H0.
Qed.

(** C73 as a whole is false of the code: the text after a failure can be about an
    earlier call, or say nothing. *)
Theorem error_after_failure_refuted :
  (env_ok demo_env /\ exists q0 m, dnstable_query_init QRdataRaw = Ok q0 /\ message demo_env QRdataRaw (SetRrtype (Some (str "BOGUS"))) m /\
     make_calls demo_env [Set_ (SetRrtype (Some (str "BOGUS"))); Set_ (SetData (Some (str "0g"))); GetError] q0 None =
       Ok [Answer false; Answer false; Text m]) /\
  (forall t, t <> QSourceInfo -> exists q0 c, dnstable_query_init t = Ok q0 /\
     make_calls demo_env [Set_ c; GetError] q0 None = Ok [Answer false; Text (str "unknown error")]).
Proof.
  split.
  - split; [apply demo_env_ok|]. exists (query0 QRdataRaw), (str "unknown rrtype mnemonic"). split; [reflexivity|].
    split; [apply (msg_rrtype demo_env QRdataRaw (str "BOGUS")); reflexivity|vm_compute; reflexivity].
  - intros t HT. exists (query0 t), (SetFilterParameter 0 (Some 5) 4). split; [destruct t; try reflexivity; contradiction|].
    vm_compute. destruct t; reflexivity.
Qed.

Example c73_case : exists q0 answers, dnstable_query_init QRdataIp = Ok q0 /\
  make_calls demo_env ([GetError; Set_ (SetBailiwick (Some (str "com"))); Set_ (SetOffset 3); Set_ (SetData (Some (str "10.0.0.2-2001:db8::1"))); GetError;
    Set_ (SetData (Some (str "1-2-3")))] ++ [Set_ (SetData (Some (str "10.0.0.2/99"))); GetError]) q0 None
    = Ok (answers ++ [Answer false; Text (str "unable to parse IP prefix")]) /\
  answers = [Text (str "unknown error"); Answer false; Answer true; Answer false; Text (str "address family mismatch in IP range"); Answer false] /\
  ~ unexplained QRdataIp (SetData (Some (str "10.0.0.2/99"))) /\
  message demo_env QRdataIp (SetData (Some (str "10.0.0.2/99"))) (str "unable to parse IP prefix").
Proof.
  exists (query0 QRdataIp); eexists. split; [reflexivity|].
  assert (H : forall A B C D : Prop, B -> A -> C -> D -> A /\ B /\ C /\ D) by tauto. apply H; clear H; [reflexivity|..].
  - vm_compute. reflexivity.
  - intro H. inversion H; subst; try discriminate; try (match goal with H : _ \/ _ |- _ => destruct H; discriminate end).
    match goal with H : In dash _ |- _ => revert H; vm_compute; intuition discriminate end.
  - apply msg_prefix; [reflexivity|repeat constructor; discriminate|vm_compute; auto 20].
Qed.

Print Assumptions error_text.
Print Assumptions error_after_failure_partial.
Print Assumptions error_after_failure_refuted.

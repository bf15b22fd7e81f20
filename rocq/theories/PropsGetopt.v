(** Theorems about the command line of dnstable_lookup, word by word. *)
From Verif Require Import Str BaseFacts ModelIter ModelQuery ModelReader ModelSetters ModelFormat ModelFileset ModelLookup ModelGetopt SpecReader.
From Verif Require Import SpecDeadline SpecFormat SpecSettings SpecLookup LookupProofs LookupBuild PropsLookup PropsTools SpecGetopt LookupQuery.

Definition unknown (o : list (N * bytes)) : Prop := In question_mark o.

Lemma member_in : forall c l, member c l = true <-> In c l.
Proof. intros c l. unfold member. rewrite existsb_exists. split; [intros (x & I & E); apply N.eqb_eq in E; subst; exact I|intro I; exists c; split; [exact I|apply N.eqb_refl]]. Qed.
Lemma member_not : forall c l, member c l = false <-> ~ In c l.
Proof. intros c l. rewrite <- member_in. destruct (member c l); split; intro H; try discriminate; try reflexivity; try congruence. Qed.
Lemma flag_spec : forall c, flag c <-> (member c opt_letters = true /\ member c opt_with_arg = false).
Proof.
  intro c. unfold flag. rewrite member_in, member_not. unfold opt_letters, opt_with_arg. cbn [str In]. split.
  - intro H. split; [tauto|]. intro K. repeat (destruct H as [H|H]; [subst c; repeat (destruct K as [K|K]; [discriminate|]); contradiction|]). contradiction.
  - tauto.
Qed.
Lemma valued_spec : forall c, valued c <-> (member c opt_letters = true /\ member c opt_with_arg = true).
Proof. intro c. unfold valued. rewrite !member_in. unfold opt_letters, opt_with_arg. cbn [str In]. tauto. Qed.

Lemma letters_flags : forall fs s, Forall flag fs -> word_letters (fs ++ s) = (map (fun c => (c, [])) fs ++ fst (word_letters s), snd (word_letters s)).
Proof.
  induction fs as [|c fs IH]; intros s H; [cbn [app map]; apply surjective_pairing|]. inversion H as [|? ? F F']. apply flag_spec in F. destruct F as [F1 F2].
  cbn [app word_letters map]. rewrite F1, F2, (IH s F'). reflexivity.
Qed.
Lemma letters_value : forall c x, valued c -> word_letters (c :: x) = match x with [] => ([], Some c) | _ => ([(c, x)], None) end.
Proof. intros c x V. apply valued_spec in V. destruct V as [V1 V2]. cbn [word_letters]. rewrite V1, V2. reflexivity. Qed.

(** Without unknown letters a word is flags and perhaps a letter with a value. *)
Lemma letters_split : forall s l x, word_letters s = (l, x) -> ~ unknown l ->
  exists fs, Forall flag fs /\
    ((s = fs /\ x = None /\ l = map (fun c => (c, [])) fs) \/
     (exists c v, valued c /\ s = fs ++ c :: v /\ v <> [] /\ x = None /\ l = map (fun c => (c, [])) fs ++ [(c, v)]) \/
     (exists c, valued c /\ s = fs ++ [c] /\ x = Some c /\ l = map (fun c => (c, [])) fs)).
Proof.
  induction s as [|c s IH]; intros l x E U.
  - inversion E. subst. exists []. split; [constructor|]. left. auto.
  - cbn [word_letters] in E. destruct (member c opt_letters) eqn:M1; cbn [negb] in E.
    + destruct (member c opt_with_arg) eqn:M2.
      * assert (V : valued c) by (apply valued_spec; split; assumption). exists []. split; [constructor|]. right. destruct s; inversion E; subst.
        { right. exists c. auto. } { left. exists c, (n :: s). repeat (split; [assumption || reflexivity || discriminate|]). reflexivity. }
      * assert (V : flag c) by (apply flag_spec; split; assumption). destruct (word_letters s) as [l' x'] eqn:W. inversion E; subst.
        destruct (IH l' x eq_refl) as (fs & F & D). { intro K. apply U. right. exact K. }
        exists (c :: fs). split; [constructor; assumption|]. destruct D as [(-> & -> & ->)|[(c' & v & V' & -> & NV & -> & ->)|(c' & V' & -> & -> & ->)]].
        { left. auto. } { right. left. exists c', v. auto 6. } { right. right. exists c'. auto. }
    + destruct (word_letters s) as [l' x']. inversion E; subst. exfalso. apply U. left. reflexivity.
Qed.

Lemma beq_eq : forall a b, beq a b = true <-> a = b.
Proof. exact beq_true. Qed.

Lemma plain_word_spec : forall w, plain_word w <-> (beq w [45; 45] = false /\ has_options w = false).
Proof.
  intro w. split.
  - intros [->|[->|(c & r & N & ->)]]; [split; reflexivity|split; reflexivity|]. split.
    + destruct (beq (c :: r) [45; 45]) eqn:E; [|reflexivity]. apply beq_eq in E. inversion E. subst. exfalso. apply N. reflexivity.
    + cbn [has_options]. destruct c as [|p]; [reflexivity|]. destruct (N.eq_dec (N.pos p) 45) as [E|E]; [exfalso; apply N; exact E|].
      repeat (destruct p as [p|p|]; try reflexivity). exfalso. apply E. reflexivity.
  - intros [B H]. destruct w as [|c r]; [left; reflexivity|]. destruct (N.eq_dec c 45) as [->|N]; [|right; right; exists c, r; split; [exact N|reflexivity]].
    destruct r; [right; left; reflexivity|discriminate].
Qed.

Lemma flags_known : forall fs o, Forall flag fs -> ~ unknown o -> ~ unknown (map (fun c => (c, [])) fs ++ o).
Proof.
  intros fs o F U K. apply in_app_or in K. destruct K as [K|K]; [|exact (U K)]. apply in_map_iff in K. destruct K as (c & E & I). inversion E. subst c.
  rewrite Forall_forall in F. specialize (F _ I). apply flag_spec in F. destruct F as [F _]. discriminate.
Qed.
Lemma value_known : forall c x o, valued c -> ~ unknown o -> ~ unknown ((c, x) :: o).
Proof. intros c x o V U [K|K]; [|exact (U K)]. inversion K. subst c. apply valued_spec in V. destruct V as [V _]. discriminate. Qed.
Lemma flag_word : forall fs s, Forall flag fs -> fs ++ s <> [] -> (forall c x, s = c :: x -> valued c) ->
  beq (45 :: fs ++ s) [45; 45] = false /\ has_options (45 :: fs ++ s) = true.
Proof.
  intros fs s F N V. split.
  - destruct (beq (45 :: fs ++ s) [45; 45]) eqn:E; [|reflexivity]. apply beq_eq in E. inversion E as [E']. destruct fs as [|c fs].
    + cbn [app] in E'. subst s. specialize (V 45 [] eq_refl). apply valued_spec in V. destruct V as [V _]. discriminate.
    + inversion E'. subst c. inversion F as [|? ? F1 _]. apply flag_spec in F1. destruct F1 as [F1 _]. discriminate.
  - destruct (fs ++ s); [contradiction|reflexivity].
Qed.

Theorem getopt_spells : forall permute ws o a, (getopt_all permute ws = (o, a) /\ ~ unknown o) <-> spells permute ws o a.
Proof.
  intros permute ws o a. split.
  - intros [E U]. remember (length ws) as n eqn:Ln. assert (Le : (length ws <= n)%nat) by lia. clear Ln. revert ws o a Le E U.
    induction n as [|n IH]; intros ws o a L E U; (destruct ws as [|w rest]; [inversion E; apply sp_none|]); [cbn in L; lia|].
    cbn [length] in L. cbn [getopt_all] in E. destruct (beq w [45; 45]) eqn:B.
    { apply beq_eq in B. subst w. inversion E. apply sp_end. }
    destruct (has_options w) eqn:H.
    + assert (exists r, w = 45 :: r /\ r <> []) as (r & -> & NR).
      { destruct w as [|c r]; [discriminate|]. destruct (N.eq_dec c 45) as [->|N].
        - exists r. split; [reflexivity|]. intros ->. discriminate.
        - exfalso. assert (P : plain_word (c :: r)) by (right; right; exists c, r; split; [exact N|reflexivity]). apply plain_word_spec in P. destruct P as [_ P]. congruence. }
      cbn [skipn] in E. destruct (word_letters r) as [l [c|]] eqn:W.
      * destruct rest as [|x rest'].
        { inversion E. subst o. exfalso. apply U. apply in_or_app. right. left. reflexivity. }
        destruct (getopt_all permute rest') as [o' a'] eqn:G. inversion E. subst o a'.
        assert (U1 : ~ unknown l) by (intro K; apply U; apply in_or_app; left; exact K).
        assert (U2 : ~ unknown o') by (intro K; apply U; apply in_or_app; right; right; exact K).
        destruct (letters_split _ _ _ W U1) as (fs & F & [(_ & X & _)|[(? & ? & _ & _ & _ & X & _)|(c' & V & -> & X & ->)]]); try discriminate.
        inversion X. subst c'. apply sp_next; auto. apply IH; auto. cbn [length] in L. lia.
      * destruct (getopt_all permute rest) as [o' a'] eqn:G. inversion E. subst o a'.
        assert (U1 : ~ unknown l) by (intro K; apply U; apply in_or_app; left; exact K).
        assert (U2 : ~ unknown o') by (intro K; apply U; apply in_or_app; right; exact K).
        assert (S : spells permute rest o' a) by (apply IH; auto; lia).
        destruct (letters_split _ _ _ W U1) as (fs & F & [(-> & _ & ->)|[(c' & v & V & -> & NV & _ & ->)|(? & _ & _ & X & _)]]); try discriminate.
        { apply sp_flags; auto. }
        rewrite <- app_assoc. apply sp_value; auto.
    + assert (P : plain_word w) by (apply plain_word_spec; split; assumption). destruct permute eqn:EP.
      * destruct (getopt_all true rest) as [o' a'] eqn:G. inversion E. subst. apply sp_arg; auto. apply IH; auto. lia.
      * inversion E. apply sp_args; auto.
  - intro S. induction S as [|ws|w ws o a EP P S [IH U]|w ws EP P|fs ws o a N F S [IH U]|fs c x ws o a F V N S [IH U]|fs c x ws o a F V S [IH U]].
    + split; [reflexivity|intros []].
    + split; [reflexivity|intros []].
    + apply plain_word_spec in P. destruct P as [P1 P2]. cbn [getopt_all]. rewrite P1, P2, IH. rewrite EP. split; [reflexivity|exact U].
    + apply plain_word_spec in P. destruct P as [P1 P2]. cbn [getopt_all]. rewrite P1, P2, EP. split; [reflexivity|intros []].
    + destruct (flag_word fs [] F) as [W1 W2]; [rewrite app_nil_r; exact N|intros; discriminate|]. rewrite app_nil_r in W1, W2.
      change (str "-" ++ fs) with (45 :: fs). cbn [getopt_all]. rewrite W1, W2. cbn [skipn]. pose proof (letters_flags fs [] F) as L. rewrite app_nil_r in L. cbn [word_letters fst snd] in L. rewrite app_nil_r in L. rewrite L, IH.
      split; [reflexivity|apply flags_known; assumption].
    + destruct (flag_word fs (c :: x) F) as [W1 W2]; [intro K; apply app_eq_nil in K; destruct K; discriminate|intros ? ? K; inversion K; subst; exact V|].
      change (str "-" ++ fs ++ c :: x) with (45 :: fs ++ c :: x). cbn [getopt_all]. rewrite W1, W2. cbn [skipn]. rewrite (letters_flags fs (c :: x) F), (letters_value c x V).
      destruct x as [|y x]; [contradiction|]. cbn [fst snd]. rewrite IH, <- app_assoc. split; [reflexivity|]. apply flags_known; [exact F|apply value_known; assumption].
    + destruct (flag_word fs [c] F) as [W1 W2]; [intro K; apply app_eq_nil in K; destruct K; discriminate|intros ? ? K; inversion K; subst; exact V|].
      change (str "-" ++ fs ++ [c]) with (45 :: fs ++ [c]). cbn [getopt_all]. rewrite W1, W2. cbn [skipn]. rewrite (letters_flags fs [c] F), (letters_value c [] V).
      cbn [fst snd]. rewrite IH, app_nil_r. split; [reflexivity|]. apply flags_known; [exact F|apply value_known; assumption].
Qed.
Print Assumptions getopt_spells.

(** A command line that spells options and arguments does what the theorems of C57 to C61
    say of these; and a run that succeeds was given one. *)
Theorem lookup_command_line : forall permute rounds fuel lib ev ml v ws now clk w,
  (forall o a, spells permute ws o a -> lookup_main permute rounds fuel lib ev ml v ws now clk w = dnstable_lookup rounds fuel lib ev ml v o a now clk w) /\
  (forall out err, lookup_main permute rounds fuel lib ev ml v ws now clk w = Ok (out, err) ->
     exists o a, spells permute ws o a /\ dnstable_lookup rounds fuel lib ev ml v o a now clk w = Ok (out, err)).
Proof.
  intros permute rounds fuel lib ev ml v ws now clk w. unfold lookup_main. split.
  - intros o a S. apply getopt_spells in S. destruct S as [-> _]. reflexivity.
  - intros out err H. destruct (getopt_all permute ws) as [o a] eqn:G. exists o, a. split; [|exact H]. apply getopt_spells. split; [exact G|]. intro U.
    unfold dnstable_lookup in H. apply bind_ok in H. destruct H as (x & EO & _). apply options_iff in EO. pose proof (om_known _ _ _ EO) as K. rewrite Forall_forall in K.
    specialize (K _ U). cbn in K. repeat (destruct K as [K|K]; [discriminate|]). exact K.
Qed.
Print Assumptions lookup_command_line.

(** A command line with words in a different order, which the GNU library takes. *)
Definition words61 : list bytes := [str "rrset"; str "-jsA2020-02-29"; str "www.ex.com"; str "-cO"; str "-3"; str "--"; str "-x"].
Example c61_words : spells true words61 [(code "j", []); (code "s", []); (code "A", str "2020-02-29"); (code "c", []); (code "O", str "-3")] [str "rrset"; str "www.ex.com"; str "-x"] /\
  (forall o a, spells false words61 o a -> o = [] /\ a = words61) /\ (forall p o a, ~ spells p [str "-O"] o a) /\ (forall p o a, ~ spells p [str "-jx"; str "rrset"] o a).
Proof.
  split; [apply getopt_spells; split; [vm_compute; reflexivity|]|split; [|split]].
  - intro K. repeat (destruct K as [K|K]; [discriminate|]). exact K.
  - intros o a S. apply getopt_spells in S. destruct S as [S _]. vm_compute in S. inversion S. split; reflexivity.
  - intros p o a S. apply getopt_spells in S. destruct S as [S U]. vm_compute in S. inversion S. subst. apply U. left. reflexivity.
  - intros p o a S. apply getopt_spells in S. destruct S as [S U]. destruct p; vm_compute in S; inversion S; subst; apply U; right; left; reflexivity.
Qed.

(** Theorems about the command dnstable_merge: C76. *)
From Verif Require Import Str ModelScript SpecScript.

Lemma ifs_iff : forall c, ifs c = true <-> space c.
Proof. intro c. unfold ifs, space. rewrite !Bool.orb_true_iff, !N.eqb_eq. tauto. Qed.
Lemma ifs_no : forall c, ifs c = false <-> ~ space c.
Proof. intro c. rewrite <- ifs_iff. destruct (ifs c); split; congruence. Qed.

Lemma fields_words : forall s cur, Forall (fun c => ~ space c) cur -> words_of (rev cur ++ s) (split_fields s cur).
Proof.
  induction s as [|c s IH]; intros cur H; cbn [split_fields].
  - rewrite app_nil_r. destruct cur as [|x cur]; [constructor|]. apply wo_last. split; [|apply Forall_rev; exact H].
    cbn [rev]. intro K. apply app_eq_nil in K. destruct K; discriminate.
  - destruct (ifs c) eqn:E.
    + apply ifs_iff in E. destruct cur as [|x cur]; [exact (wo_space c s _ E (IH [] (Forall_nil _)))|].
      apply wo_word; [split; [cbn [rev]; intro K; apply app_eq_nil in K; destruct K; discriminate|apply Forall_rev; exact H]|exact E|exact (IH [] (Forall_nil _))].
    + apply ifs_no in E. specialize (IH (c :: cur) (@Forall_cons _ (fun c => ~ space c) _ _ E H)). cbn [rev] in IH. rewrite <- app_assoc in IH. exact IH.
Qed.

Lemma fields_pre : forall w s cur, Forall (fun c => ~ space c) w -> split_fields (w ++ s) cur = split_fields s (rev w ++ cur).
Proof.
  induction w as [|c w IH]; intros s cur H; [reflexivity|]. inversion H; subst. cbn [app split_fields rev].
  assert (E : ifs c = false) by (apply ifs_no; assumption). rewrite E, IH by assumption. rewrite <- app_assoc. reflexivity.
Qed.
Lemma fields_unique : forall s ws, words_of s ws -> split_fields s [] = ws.
Proof.
  intros s ws H. induction H as [|c s ws B _ IH|w [N F]|w c s ws [N F] B _ IH].
  - reflexivity.
  - cbn [split_fields]. apply ifs_iff in B. rewrite B. exact IH.
  - rewrite <- (app_nil_r w) at 1. rewrite fields_pre by exact F. rewrite app_nil_r. cbn [split_fields]. destruct (rev w) eqn:E.
    + apply (f_equal (@rev _)) in E. rewrite rev_involutive in E. contradiction.
    + rewrite <- E, rev_involutive. reflexivity.
  - rewrite fields_pre by exact F. rewrite app_nil_r. cbn [split_fields]. apply ifs_iff in B. rewrite B. destruct (rev w) eqn:E.
    + apply (f_equal (@rev _)) in E. rewrite rev_involutive in E. contradiction.
    + rewrite <- E, rev_involutive, IH. reflexivity.
Qed.
Lemma words_are : forall s ws, words_of s ws -> Forall a_word ws.
Proof. intros s ws H. induction H; repeat constructor; auto; try apply H; try apply H. Qed.
Lemma word_itself : forall w, a_word w -> split_fields w [] = [w].
Proof. intros w H. apply fields_unique, wo_last, H. Qed.

(** What the script does for every list of arguments: the words of all arguments, with
    their patterns expanded, go to mtbl_merge, unless one of the first two is missing or
    empty. *)
Theorem merge_command_exact : forall dlname glob args ws, Forall2 words_of args ws ->
  (nth 0 args [] <> [] /\ nth 1 args [] <> [] -> handed_on dlname (flat_map glob (concat ws)) (dnstable_merge_script dlname glob args)) /\
  (nth 0 args [] = [] \/ nth 1 args [] = [] -> dnstable_merge_script dlname glob args = Exit 1).
Proof.
  intros dlname glob args ws H. unfold dnstable_merge_script.
  assert (E : flat_map (fun a => split_fields a []) args = concat ws).
  { induction H as [|a w args ws HA H IH]; [reflexivity|]. cbn [flat_map concat]. rewrite (fields_unique _ _ HA), IH. reflexivity. }
  rewrite E. split.
  - intros [N0 N1]. destruct (nth 0 args []); [contradiction|]. destruct (nth 1 args []); [contradiction|]. cbn [empty orb].
    eexists. split; [reflexivity|]. exists (str "dnstable_merge"). split; [left; reflexivity|]. split; [right; left; reflexivity|]. split; [reflexivity|].
    cbn [map fst]. repeat constructor; cbn; intuition discriminate.
  - intros [-> | ->]; [reflexivity|]. destruct (nth 0 args []); reflexivity.
Qed.
Print Assumptions merge_command_exact.

(** Every argument has words, so that the theorem above covers every list of arguments. *)
Lemma words_exist : forall args, exists ws, Forall2 words_of args ws.
Proof.
  induction args as [|a args (ws & IH)]; [exists []; constructor|]. exists (split_fields a [] :: ws). constructor; [|exact IH].
  exact (fields_words a [] (Forall_nil _)).
Qed.

(** Arguments that are plain words are handed on as they are. *)
Theorem merge_command_hands_on_partial : forall dlname glob args, shell_glob glob -> (2 <= length args)%nat ->
  Forall (fun a => a_word a /\ Forall (fun c => ~ pattern_char c) a) args ->
  handed_on dlname args (dnstable_merge_script dlname glob args).
Proof.
  intros dlname glob args G L H.
  assert (E : flat_map glob (concat (map (fun a => [a]) args)) = args).
  { clear L. induction H as [|a args [_ P] H IH]; [reflexivity|]. cbn [map concat app flat_map]. rewrite (G a P). cbn [app]. f_equal. exact IH. }
  rewrite <- E at 1. apply merge_command_exact.
  - clear -H. induction H as [|a args [W _] H IH]; constructor; [apply wo_last; exact W|exact IH].
  - destruct args as [|a [|b args]]; cbn in L; try lia. inversion H as [|? ? [[N0 _] _] H']; subst. inversion H' as [|? ? [[N1 _] _] _]; subst. split; assumption.
Qed.
Print Assumptions merge_command_hands_on_partial.

(** And only words are: where no pattern is expanded, the arguments arrive unchanged just if
    each is a word. *)
Theorem merge_command_hands_on_iff : forall dlname args, (2 <= length args)%nat ->
  (handed_on dlname args (dnstable_merge_script dlname (fun w => [w]) args) <-> Forall a_word args).
Proof.
  intros dlname args L. assert (S : forall l : list bytes, flat_map (fun w => [w]) l = l) by (induction l as [|x l IH]; [reflexivity|cbn; f_equal; exact IH]). split.
  - destruct (words_exist args) as (ws & H). pose proof (merge_command_exact dlname (fun w => [w]) args ws H) as [A B]. rewrite S in A.
    assert (W : Forall a_word (concat ws)).
    { clear -H. induction H as [|a w args ws HA H IH]; [constructor|]. cbn [concat]. apply Forall_app. split; [exact (words_are _ _ HA)|exact IH]. }
    intros (e & E & _). destruct (list_eq_dec N.eq_dec (nth 0 args []) []) as [Z|Z]; [rewrite (B (or_introl Z)) in E; discriminate E|].
    destruct (list_eq_dec N.eq_dec (nth 1 args []) []) as [Y|Y]; [rewrite (B (or_intror Y)) in E; discriminate E|].
    destruct (A (conj Z Y)) as (e' & E' & _). rewrite E' in E. injection E as E _. rewrite <- E. exact W.
  - intro H. destruct (merge_command_exact dlname (fun w => [w]) args (map (fun a => [a]) args)) as [A _].
    + clear L. induction H as [|a args W H IH]; constructor; [apply wo_last; exact W|exact IH].
    + assert (E : concat (map (fun a => [a]) args) = args) by (clear; induction args as [|a l IH]; [reflexivity|cbn; f_equal; exact IH]).
      rewrite S, E in A. apply A. destruct args as [|a [|b args]]; cbn in L; try lia. inversion H as [|? ? [N0 _] H']; subst. inversion H' as [|? ? [N1 _] _]; subst. split; assumption.
Qed.
Print Assumptions merge_command_hands_on_iff.

(** False of other arguments: the file name "my data.mtbl" arrives as two, and an empty third
    argument is lost, so that mtbl_merge takes the second, an input, for the output file. *)
Theorem merge_command_hands_on_refuted : forall dlname,
  (exists args, (3 <= length args)%nat /\ ~ handed_on dlname args (dnstable_merge_script dlname (fun w => [w]) args) /\
     handed_on dlname [str "my"; str "data.mtbl"; str "b.mtbl"; str "out.mtbl"] (dnstable_merge_script dlname (fun w => [w]) args)) /\
  (exists args, nth 2 args (str "x") = [] /\ length args = 3%nat /\
     handed_on dlname [str "a.mtbl"; str "b.mtbl"] (dnstable_merge_script dlname (fun w => [w]) args)).
Proof.
  assert (M : forall d, merges_by_dnstable d [(str "MTBL_MERGE_DSO", d); (str "MTBL_MERGE_FUNC_PREFIX", str "dnstable_merge")]).
  { intro d. exists (str "dnstable_merge"). split; [left; reflexivity|]. split; [right; left; reflexivity|]. split; [reflexivity|]. cbn [map fst]. repeat constructor; cbn; intuition discriminate. }
  intro d. split.
  - exists [str "my data.mtbl"; str "b.mtbl"; str "out.mtbl"]. split; [cbn; lia|]. split.
    + intros (e & E & _). vm_compute in E. discriminate E.
    + eexists. split; [vm_compute; reflexivity|apply M].
  - exists [str "a.mtbl"; str "b.mtbl"; []]. split; [reflexivity|]. split; [reflexivity|]. eexists. split; [vm_compute; reflexivity|apply M].
Qed.
Print Assumptions merge_command_hands_on_refuted.

(** A command line as the manual page gives it. *)
Example c76_case : let args := [str "-c"; str "zstd"; str "dns.1.mtbl"; str "dns.2.mtbl"; str "dns.mtbl"] in
  (2 <= length args)%nat /\ Forall (fun a => a_word a /\ Forall (fun c => ~ pattern_char c) a) args /\ shell_glob (fun w => [w]) /\
  exists exported, dnstable_merge_script (str "libdnstable.so.0") (fun w => [w]) args = Exec (str "mtbl_merge") args exported.
Proof.
  cbv zeta. split; [cbn; lia|]. split; [|split; [intros w _; reflexivity|eexists; vm_compute; reflexivity]].
  assert (W : forall a, empty a = false /\ forallb (fun c => negb (ifs c)) a = true /\ forallb (fun c => negb (existsb (N.eqb c) (str "*?[\"))) a = true ->
    a_word a /\ Forall (fun c => ~ pattern_char c) a).
  { intros a (A & B & C). rewrite forallb_forall in B, C. split; [split; [intros ->; discriminate A|]|]; apply Forall_forall; intros c Hc.
    - apply ifs_no. specialize (B c Hc). destruct (ifs c); [discriminate B|reflexivity].
    - intro K. specialize (C c Hc). rewrite Bool.negb_true_iff in C. assert (D : existsb (N.eqb c) (str "*?[\") = true) by (apply existsb_exists; exists c; split; [exact K|apply N.eqb_refl]). congruence. }
  repeat (apply Forall_cons; [apply W; repeat split; reflexivity|]). apply Forall_nil.
Qed.

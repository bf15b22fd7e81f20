(** Theorems about the command line of dnstable_dump, word by word. *)
From Verif Require Import Str BaseFacts ModelIter ModelQuery ModelReader ModelSetters ModelFormat ModelFileset ModelLookup ModelArgv SpecLookup SpecDump SpecArgv ArgvProofs Demo PropsFormat PropsTools.

(** In which order the words are taken. *)
Definition in_order (y : ways) (env ws first second : list bytes) : Prop :=
  match environment y with Never => first = [] /\ second = ws | Before => first = env /\ second = ws | After => first = ws /\ second = env end.
(** What a command line, together with the environment and the files it names, says: the
    options, and one file.  The program has room for as many uses of "--argv-file" without
    "=" as there are words. *)
Definition says (y : ways) (files : bytes -> option bytes) (depth : nat) (own : option bytes) (sd : bytes) (ws : list bytes) (l : list (dopt * bool)) (file : bytes) : Prop :=
  exists env first second o1 a1 p sd1 k1 o2 a2 sd2 k2, environment_words own env /\ in_order y env ws first second /\
    reads y files depth false 0 sd first o1 a1 p sd1 k1 /\ reads y files depth false p sd1 second o2 a2 0 sd2 k2 /\
    k1 + k2 <= N.of_nat (S (length ws) + length env) /\ l = o1 ++ o2 /\ a1 ++ a2 = [file] /\ (repeats y = false -> NoDup (map fst l)).

Definition start (sd : bytes) : astate := ST (fun _ => false) (fun _ => false) None 0 0 true sd.

(** argv_process, once the words are split. *)
Lemma process_split : forall files depth global own sd ws env first second, environment_words own env -> in_order (way (process_env global)) env ws first second ->
  let cfg := process_env global in
  let cap := N.of_nat (S (length ws) + length env) in
  let list ws s := do_words cfg cap (FA cfg cap files depth) ws false s in
  argv_process files depth global own sd ws =
  (let* p := and_then (list first (start sd)) (list second) in
   match p with
   | Exit c => Ok (Exit c)
   | Go s =>
      let* xor := check_xor (S (length (a_grid s))) (a_grid s) 0 in
      if a_okay s && negb (check_mand (a_grid s)) && (match a_queue s with [] => true | _ => false end) && negb xor
      then Ok (Go (a_grid s)) else Ok (Exit 1)
   end).
Proof.
  intros files depth global own sd ws env first second H O cfg cap list. apply environment_fun in H. subst env. unfold argv_process. fold blanks cfg. unfold in_order in O. cbn [environment way] in O. fold cfg in O.
  fold cap. fold (FA cfg cap files depth). cbv zeta. change (dump_args) with (a_grid (start sd)). fold (start sd).
  change {| a_grid := a_grid (start sd); a_queue := []; a_head := 0; a_okay := true; a_stdin := sd |} with (start sd).
  destruct (s_env cfg); cbn [andb]; [|destruct O as [-> ->]; reflexivity]. destruct (s_after cfg); cbn [andb negb]; destruct O as [-> ->]; reflexivity.
Qed.

Lemma finish : forall u v f p h ok sd,
  (let s := ST u v f p h ok sd in
   let* xor := check_xor (S (length (a_grid s))) (a_grid s) 0 in
   if a_okay s && negb (check_mand (a_grid s)) && (match a_queue s with [] => true | _ => false end) && negb xor
   then Ok (Go (a_grid s)) else Ok (Exit 1)) =
  if ok && (match f with None => false | Some _ => true end) && (match p with O => true | _ => false end) && existsb u all_sections then Ok (Go (G u v f)) else Ok (Exit 1).
Proof.
  intros u v f p h ok sd. cbv zeta. cbn [a_grid a_okay a_queue ST]. rewrite check_xor_G, check_mand_G. cbn [bind]. rewrite negb_involutive.
  replace (negb match f with Some _ => false | None => true end) with (match f with Some _ => true | None => false end) by (destruct f; reflexivity). destruct p; reflexivity.
Qed.

Lemma process_words : forall files depth global own sd ws env first second o1 a1 p sd1 k1 o2 a2 sd2 k2 y, global_ways global y -> environment_words own env -> in_order y env ws first second ->
  reads y files depth false 0 sd first o1 a1 p sd1 k1 -> reads y files depth false p sd1 second o2 a2 0 sd2 k2 -> k1 + k2 <= N.of_nat (S (length ws) + length env) ->
  argv_process files depth global own sd ws =
  let l := o1 ++ o2 in let a := a1 ++ a2 in
  if fits (process_env global) (fun _ => false) l && room None a && (match names None a with None => false | Some _ => true end) && existsb (uses (fun _ => false) l) all_sections
  then Ok (Go (G (uses (fun _ => false) l) (sets (fun _ => false) l) (names None a))) else Ok (Exit 1).
Proof.
  intros files depth global own sd ws env first second o1 a1 p sd1 k1 o2 a2 sd2 k2 y GW HE IO D1 D2 L. apply global_spec in GW. subst y.
  rewrite (process_split files depth global own sd ws env first second HE IO). unfold start. cbv zeta. set (cfg := process_env global) in *.
  set (cap := N.of_nat (S (length ws) + length env)) in *.
  rewrite (words_good cfg (way cfg) eq_refl eq_refl cap files depth _ _ _ _ _ _ _ _ _ D1) by lia. unfold and_then at 1. cbn [bind]. rewrite (words_good cfg (way cfg) eq_refl eq_refl cap files depth _ _ _ _ _ _ _ _ _ D2) by lia. cbn [bind].
  rewrite finish. rewrite <- uses_app, <- sets_app, <- names_app, fits_app, room_app. cbn [andb].
  match goal with |- (if ?x then _ else _) = (if ?y then _ else _) => replace y with x; [reflexivity|] end. rewrite !andb_true_r.
  destruct (fits cfg (fun _ => false) o1), (room None a1), (fits cfg (uses (fun _ => false) o1) o2), (room (names None a1) a2); reflexivity.
Qed.

Lemma opts_unique : forall l o o', settings_of l o -> settings_of l o' -> o' = o.
Proof.
  intros l [j r a b c d e f g] [j' r' a' b' c' d' e' f' g'] H H'. unfold settings_of in *. cbn [d_json d_raw d_rrset d_rdata d_rrset_names d_rdata_names d_time_range d_version d_source_info] in *.
  destruct H as (H1 & H2 & H3 & H4 & H5 & H6 & H7 & H8 & H9). destruct H' as (K1 & K2 & K3 & K4 & K5 & K6 & K7 & K8 & K9).
  rewrite (setting_fun _ _ _ _ H1 K1), (setting_fun _ _ _ _ H2 K2), (setting_fun _ _ _ _ H3 K3), (setting_fun _ _ _ _ H4 K4), (setting_fun _ _ _ _ H5 K5), (setting_fun _ _ _ _ H6 K6),
    (setting_fun _ _ _ _ H7 K7), (setting_fun _ _ _ _ H8 K8), (setting_fun _ _ _ _ H9 K9). reflexivity.
Qed.
Lemma settings_exist : forall l f, settings_of l (grid_opts (G (uses (fun _ => false) l) (sets (fun _ => false) l) f)).
Proof. intros l f. repeat split; apply setting_sets. Qed.

(** A command line that chooses one section and one file dumps that section of that file:
    exactly what C59 says of its options. *)
Theorem dump_command_line : forall fuel lib db files depth global own sd ws l file o y,
  global_ways global y -> says y files depth own sd ws l file -> one_section l -> settings_of l o ->
  dump_main fuel lib db files depth global own sd ws = (let* out := dnstable_dump fuel lib o (db file) in Ok (Some out)).
Proof.
  intros fuel lib db files depth global own sd ws l file o y GW (env & first & second & o1 & a1 & p & sd1 & k1 & o2 & a2 & sd2 & k2 & HE & IO & D1 & D2 & LK & -> & EA & ND) OS SO.
  unfold dump_main. rewrite (process_words files depth global own sd ws env first second o1 a1 p sd1 k1 o2 a2 sd2 k2 y GW HE IO D1 D2 LK). cbv zeta. rewrite EA. cbn [room names andb].
  assert (OM : one_section (o1 ++ o2) /\ (s_multi (process_env global) = false -> NoDup (map fst (o1 ++ o2)))) by (apply global_spec in GW; subst y; split; [exact OS|exact ND]).
  apply one_section_spec in OM. destruct OM as [F X]. rewrite F, X. cbn [andb bind]. 
  pose proof (settings_exist (o1 ++ o2) (Some file)) as K. rewrite (opts_unique _ _ _ SO K). reflexivity.
Qed.
Print Assumptions dump_command_line.

Lemma tame_good : forall files sd ws, tame files sd ws -> exists num, Forall (good_word num) ws /\ good_text num sd /\ forall path text, files path = Some text -> good_text num text.
Proof.
  intros files sd ws (O & LO & LA & D).
  assert (T : forall num text, text = sd \/ (exists path, files path = Some text) -> (num = false -> Forall (fun w => ~ number_word w) (file_lines text)) -> good_text num text).
  { intros num text I N. unfold good_text. pose proof (LO text _ I (proj2 (text_lines text _) eq_refl)) as K1. pose proof (LA text _ I (proj2 (text_lines text _) eq_refl)) as K2.
    apply Forall_forall. intros w W. rewrite Forall_forall in K1, K2. split; [split; [exact (K1 w W)|]|exact (K2 w W)]. destruct num; [exact (K2 w W)|]. specialize (N eq_refl). rewrite Forall_forall in N. exact (N w W). }
  destruct D as [D|[D1 D2]].
  - exists true. split; [|split].
    + apply Forall_forall. intros w W. rewrite Forall_forall in O, D. split; [exact (O w W)|exact (D w W)].
    + apply T; [left; reflexivity|discriminate].
    + intros path text E. apply T; [right; exists path; exact E|discriminate].
  - exists false. assert (N : forall text, text = sd \/ (exists path, files path = Some text) -> false = false -> Forall (fun w => ~ number_word w) (file_lines text)) by (intros text I _; exact (D2 text _ I (proj2 (text_lines text _) eq_refl))).
    split; [|split].
    + apply Forall_forall. intros w W. rewrite Forall_forall in O, D1. split; [exact (O w W)|exact (D1 w W)].
    + apply T; [left; reflexivity|apply N; left; reflexivity].
    + intros path text E. apply T; [right; exists path; exact E|apply N; right; exists path; exact E].
Qed.

Lemma process_any : forall files depth global own sd ws env y, global_ways global y -> environment_words own env -> tame files sd (env ++ ws) ->
  argv_process files depth global own sd ws = Ok (Exit 0) \/ argv_process files depth global own sd ws = Ok (Exit 1) \/
  exists l file, says y files depth own sd ws l file /\ one_section l.
Proof.
  intros files depth global own sd ws env y GY HE TM. destruct (tame_good _ _ _ TM) as (num & GW & GS & GF). apply Forall_app in GW. destruct GW as [G1 G2].
  assert (IO : exists first second, in_order y env ws first second /\ Forall (good_word num) first /\ Forall (good_word num) second /\ (length first + length second <= S (length ws) + length env)%nat).
  { unfold in_order. destruct (environment y); [exists [], ws|exists env, ws|exists ws, env]; (split; [split; reflexivity|]); (split; [first [assumption|constructor]|]); (split; [assumption|cbn [length]; lia]). }
  destruct IO as (first & second & IO & F1 & F2 & LL). pose proof GY as GY'. apply global_spec in GY'. assert (EC : values y = s_close (process_env global)) by (rewrite GY'; reflexivity). assert (ET : resumes y = s_toggle (process_env global)) by (rewrite GY'; reflexivity).
  assert (ER : repeats y = s_multi (process_env global)) by (rewrite GY'; reflexivity).
  pose proof IO as IO'. rewrite GY' in IO'. pose proof (process_split files depth global own sd ws env first second HE IO') as P. clear IO'. cbv zeta in P. unfold start in P. 
  set (cap := N.of_nat (S (length ws) + length env)) in P.
  assert (L1 : 0 + N.of_nat (length first) <= cap) by (unfold cap; lia).
  destruct (words_any _ y EC ET num cap files GF depth first false O sd (fun _ => false) (fun _ => false) None 0 true (N.of_nat (length first)) GS (fun _ => eq_refl) L1 (or_intror (conj F1 (N.le_refl _))))
    as [E|[E|(u & v & f & p & h & ok & sd1 & E & E1 & E2 & E3 & E4)]]; rewrite E in P; [left; exact P|right; left; exact P|].
  unfold and_then in P. cbn [bind] in P. assert (L2 : h + N.of_nat (length second) <= cap) by (unfold cap; lia).
  destruct (words_any _ y EC ET num cap files GF depth second false p sd1 u v f h ok (N.of_nat (length second)) E1 E2 L2 (or_intror (conj F2 (N.le_refl _))))
    as [X|[X|(u' & v' & f' & p' & h' & ok' & sd2 & X & X1 & X2 & X3 & X4)]]; rewrite X in P; [left; exact P|right; left; exact P|].
  cbn [bind] in P. rewrite finish in P. destruct (ok' && _ && _ && _) eqn:T; [|right; left; exact P]. right.
  apply andb_true_iff in T. destruct T as [T _]. apply andb_true_iff in T. destruct T as [T Z]. apply andb_true_iff in T. destruct T as [T _].
  destruct p' as [|p']; [|discriminate Z]. destruct (X4 T) as [K1 (o2 & a2 & k2 & D2 & Hk2)]. destruct (E4 K1) as [_ (o1 & a1 & k1 & D1 & Hk1)].
  assert (LK : k1 + k2 <= N.of_nat (S (length ws) + length env)) by lia. clear P.
  rewrite (process_words files depth global own sd ws env first second o1 a1 p sd1 k1 o2 a2 sd2 k2 y GY HE IO D1 D2 LK) in *. cbv zeta in *.
  destruct (fits _ (fun _ => false) (o1 ++ o2) && room None (a1 ++ a2) && _ && _) eqn:Y; [right|left; reflexivity].
  apply andb_true_iff in Y. destruct Y as [Y Y4]. apply andb_true_iff in Y. destruct Y as [Y Y3]. apply andb_true_iff in Y. destruct Y as [Y1 Y2].
  assert (A : exists file, a1 ++ a2 = [file]) by (destruct (a1 ++ a2) as [|z [|? ?]]; [discriminate Y3|exists z; reflexivity|discriminate Y2]). destruct A as (fl & A).
  destruct (proj2 (one_section_spec _ _) (conj Y1 Y4)) as [OS ND]. rewrite <- ER in ND.
  exists (o1 ++ o2), fl. split; [exists env, first, second, o1, a1, p, sd1, k1, o2, a2, sd2, k2; auto 12|exact OS].
Qed.

(** All others are refused, without reading a database, except that some only print help. *)
Theorem dump_command_line_refused : forall fuel lib db files depth global own sd ws env y,
  global_ways global y -> environment_words own env -> tame files sd (env ++ ws) ->
  (forall l file, says y files depth own sd ws l file -> ~ one_section l) ->
  dump_main fuel lib db files depth global own sd ws = Fail \/ dump_main fuel lib db files depth global own sd ws = Ok None.
Proof.
  intros fuel lib db files depth global own sd ws env y GY HE TM NS. unfold dump_main.
  destruct (process_any files depth global own sd ws env y GY HE TM) as [-> |[-> |(l & fl & S & O)]]; [right; reflexivity|left; reflexivity|destruct (NS l fl S O)].
Qed.
Print Assumptions dump_command_line_refused.

(** Hence, of ordinary words, whatever is printed was asked for. *)
Theorem dump_command_line_only : forall fuel lib db files depth global own sd ws env out y,
  global_ways global y -> environment_words own env -> tame files sd (env ++ ws) ->
  dump_main fuel lib db files depth global own sd ws = Ok (Some out) ->
  exists l file o, says y files depth own sd ws l file /\ one_section l /\ settings_of l o /\ dnstable_dump fuel lib o (db file) = Ok out.
Proof.
  intros fuel lib db files depth global own sd ws env out y GY HE TM E.
  destruct (process_any files depth global own sd ws env y GY HE TM) as [K|[K|(l & fl & S & O)]]; [unfold dump_main in E; rewrite K in E; discriminate E|unfold dump_main in E; rewrite K in E; discriminate E|].
  exists l, fl. eexists. split; [exact S|]. split; [exact O|]. split; [apply (settings_exist l None)|].
  rewrite (dump_command_line fuel lib db files depth global own sd ws l fl _ y GY S O (settings_exist l None)) in E.
  destruct (dnstable_dump fuel lib _ (db fl)) eqn:Q; try discriminate E. inversion E. reflexivity.
Qed.
Print Assumptions dump_command_line_only.

(** The section that was chosen is switched on (not "-r=no"). *)
Definition switched_on (l : list (dopt * bool)) : Prop := forall s, is_section s -> used s l -> setting s l true.

Lemma one_chosen : forall l o, one_section l -> switched_on l -> settings_of l o -> exists b, chosen o b.
Proof.
  intros l o (s & S1 & S2 & S3) SW (_ & _ & H1 & H2 & H3 & H4 & H5 & H6 & H7).
  assert (OFF : forall s', is_section s' -> s' <> s -> forall b, setting s' l b -> b = false).
  { intros s' K D b [(x & y & E & _)|[_ E]]; [|exact E]. exfalso. apply D. apply S3; [exact K|]. exists b. rewrite E. apply in_or_app. right. left. reflexivity. }
  pose proof (SW s S1 S2) as ON.
  assert (ON' : forall b, setting s l b -> b = true) by (intros b K; exact (setting_fun _ _ _ _ ON K)).
  assert (V : forall x b, is_section x -> setting x l b -> b = deq x s).
  { intros x b K L. destruct (deq x s) eqn:D; [apply deq_spec in D; subst x; exact (ON' b L)|]. apply (OFF x K) with (2 := L). intros ->. rewrite deq_refl in D. discriminate D. }
  assert (I : forall x, x <> Json -> x <> Raw -> is_section x) by (intros x A B; split; assumption).
  apply V in H1; [|apply I; discriminate]. apply V in H2; [|apply I; discriminate]. apply V in H3; [|apply I; discriminate]. apply V in H4; [|apply I; discriminate].
  apply V in H5; [|apply I; discriminate]. apply V in H6; [|apply I; discriminate]. apply V in H7; [|apply I; discriminate].
  unfold chosen, sections. rewrite H1, H2, H3, H4, H5, H6, H7. clear - S1.
  destruct s; try (destruct S1 as [S1 S1']; contradiction); eexists; reflexivity.
Qed.

(** Ordinary words never make it crash before it reads the database, and then it dumps one
    section of it. *)
Theorem dump_words_no_crash_partial : forall fuel lib db files depth global own sd ws env y,
  global_ways global y -> environment_words own env -> tame files sd (env ++ ws) ->
  (forall l file, says y files depth own sd ws l file -> one_section l -> switched_on l) ->
  dump_main fuel lib db files depth global own sd ws = Fail \/ dump_main fuel lib db files depth global own sd ws = Ok None \/
  exists o b file, chosen o b /\ dump_main fuel lib db files depth global own sd ws = (let* out := dnstable_dump fuel lib o (db file) in Ok (Some out)).
Proof.
  intros fuel lib db files depth global own sd ws env y GY HE TM SW.
  destruct (process_any files depth global own sd ws env y GY HE TM) as [K|[K|(l & fl & S & O)]]; [right; left; unfold dump_main; rewrite K; reflexivity|left; unfold dump_main; rewrite K; reflexivity|].
  right. right. destruct (one_chosen l _ O (SW l fl S O) (settings_exist l None)) as (b & C). eexists _, b, fl. split; [exact C|].
  exact (dump_command_line fuel lib db files depth global own sd ws l fl _ y GY S O (settings_exist l None)).
Qed.
Print Assumptions dump_words_no_crash_partial.

Lemma section_on : forall l s, one_section l -> is_section s -> used s l -> setting s l true -> switched_on l.
Proof.
  intros l s (s0 & _ & _ & U) IS US ON s' IS' US'. rewrite (U s' IS' US'). rewrite (U s IS US) in ON. exact ON.
Qed.

Lemma all_off : forall l o s, one_section l -> is_section s -> used s l -> setting s l false -> settings_of l o -> map fst (sections o) = repeat false 7.
Proof.
  intros l o s (s0 & _ & _ & U) IS US OFF (_ & _ & H1 & H2 & H3 & H4 & H5 & H6 & H7).
  assert (V : forall x b, is_section x -> setting x l b -> b = false).
  { intros x b K L. destruct L as [(y & z & E & N)|[_ E]]; [|exact E].
    assert (UX : used x l) by (exists b; rewrite E; apply in_or_app; right; left; reflexivity).
    assert (E0 : x = s) by (rewrite (U x K UX), (U s IS US); reflexivity). subst x.
    apply (setting_fun l s false b); [exact OFF|]. left. exists y, z. split; assumption. }
  assert (I : forall x, x <> Json -> x <> Raw -> is_section x) by (intros x A B; split; assumption).
  apply V in H1; [|apply I; discriminate]. apply V in H2; [|apply I; discriminate]. apply V in H3; [|apply I; discriminate]. apply V in H4; [|apply I; discriminate].
  apply V in H5; [|apply I; discriminate]. apply V in H6; [|apply I; discriminate]. apply V in H7; [|apply I; discriminate].
  unfold sections. rewrite H1, H2, H3, H4, H5, H6, H7. reflexivity.
Qed.

(** A command line that asks for one section and switches it off again fails an assertion
    as soon as its file can be opened, unless -R is given. *)
Theorem dump_switched_off_aborts : forall fuel lib db files depth global own sd ws l file s y,
  global_ways global y -> says y files depth own sd ws l file -> one_section l -> is_section s -> used s l -> setting s l false ->
  dump_main fuel lib db files depth global own sd ws = (match db file with Some _ => Abort | None => Fail end) \/
  (setting Raw l true /\ dump_main fuel lib db files depth global own sd ws = Fail).
Proof.
  intros fuel lib db files depth global own sd ws l file s y GY S O IS US OFF.
  assert (EX : exists o, settings_of l o) by (eexists; exact (settings_exist l None)). destruct EX as (o & SO).
  rewrite (dump_command_line fuel lib db files depth global own sd ws l file o y GY S O SO).
  pose proof (all_off l o s O IS US OFF SO) as A. unfold sections in A. cbn [map fst repeat] in A. injection A as A1 A2 A3 A4 A5 A6 A7.
  destruct SO as (_ & SR & _). unfold dnstable_dump. rewrite A1, A2, A3, A4, A5, A6, A7. cbn [orb negb andb].
  destruct (d_raw o); [right; split; [exact SR|reflexivity]|left]. cbn [andb]. destruct (db file); reflexivity.
Qed.
Print Assumptions dump_switched_off_aborts.

(** All that ordinary words can do: this failed assertion is the only crash before the
    database is read. *)
Theorem dump_words_outcome : forall fuel lib db files depth global own sd ws env y,
  global_ways global y -> environment_words own env -> tame files sd (env ++ ws) ->
  dump_main fuel lib db files depth global own sd ws = Fail \/ dump_main fuel lib db files depth global own sd ws = Ok None \/
  (exists o b file, chosen o b /\ dump_main fuel lib db files depth global own sd ws = (let* out := dnstable_dump fuel lib o (db file) in Ok (Some out))) \/
  (dump_main fuel lib db files depth global own sd ws = Abort /\
   exists l file s, says y files depth own sd ws l file /\ one_section l /\ is_section s /\ used s l /\ setting s l false /\ db file <> None).
Proof.
  intros fuel lib db files depth global own sd ws env y GY HE TM.
  destruct (process_any files depth global own sd ws env y GY HE TM) as [K|[K|(l & fl & S & O)]]; [right; left; unfold dump_main; rewrite K; reflexivity|left; unfold dump_main; rewrite K; reflexivity|].
  pose proof O as (s & IS & US & _). pose proof (setting_sets l s) as SS. destruct (sets (fun _ => false) l s).
  - right. right. left. destruct (one_chosen l _ O (section_on l s O IS US SS) (settings_exist l None)) as (b & C). eexists _, b, fl. split; [exact C|].
    exact (dump_command_line fuel lib db files depth global own sd ws l fl _ y GY S O (settings_exist l None)).
  - destruct (dump_switched_off_aborts fuel lib db files depth global own sd ws l fl s y GY S O IS US SS) as [E|[_ E]]; [|left; exact E].
    destruct (db fl) eqn:ED; [|left; exact E]. right. right. right. split; [exact E|]. exists l, fl, s. rewrite ED.
    split; [exact S|]. split; [exact O|]. split; [exact IS|]. split; [exact US|]. split; [exact SS|discriminate].
Qed.
Print Assumptions dump_words_outcome.

(** "-r=no FILE" fails an assertion.  The byte 254 as an option letter makes check_or read
    behind the table; "--argv-file -5" reads through a null pointer; the byte 251 twice in the
    only word overflows the queue, and so does a file with three lines "--argv-file". *)
Definition nothing : bytes -> option bytes := fun _ => None.
Definition askers : bytes -> option bytes := fun f => if beq f (str "F") then Some (concat (repeat (str "--argv-file" ++ [10]) 3)) else None.
Lemma no_lines : forall text ls, text = [] \/ (exists path, nothing path = Some text) -> text_words text ls -> ls = [].
Proof. intros text ls [->|(path & E)] T; [|discriminate E]. apply text_lines in T. symmetry. exact T. Qed.
Lemma tame_alone : forall ws, Forall ordinary ws -> Forall (fun w => ~ asks_file w) ws -> tame nothing [] ws.
Proof.
  intros ws O A. split; [exact O|]. split; [intros text ls H T; rewrite (no_lines _ _ H T); constructor|]. split; [intros text ls H T; rewrite (no_lines _ _ H T); constructor|]. left. exact A.
Qed.
Lemma ordinary_check : forall w, forallb (fun c => (0 <? c) && (c <? 251)) w = true -> ordinary w.
Proof. intros w H. right. apply Forall_forall. intros c I. rewrite forallb_forall in H. specialize (H c I). cbn in H. lia. Qed.
Lemma not_asks : forall w, is_prefix (str "--a") w = false -> ~ asks_file w.
Proof.
  intros w H (name & [NE (rest & B)] & ->). destruct name as [|c r]; [contradiction|]. inversion B. subst c. discriminate H.
Qed.
Theorem dump_words_crash_refuted : 
  (exists ws, tame nothing [] ws /\ (forall fuel lib db, db (str "F") <> None -> dump_main fuel lib db nothing 10 None None [] ws = Abort)) /\
  (forall fuel lib db, dump_main fuel lib db nothing 10 None None [] [[45; 254]; str "F"] = UB) /\
  (forall fuel lib db, dump_main fuel lib db nothing 10 None None [] [str "--argv-file"; str "-5"] = UB) /\
  (forall fuel lib db, dump_main fuel lib db nothing 10 None None [] [[45; 251; 251; 251]] = UB) /\
  (forall fuel lib db, dump_main fuel lib db askers 10 None None [] [str "--argv-file=F"] = UB).
Proof.
  split; [|repeat split; intros; reflexivity]. exists [str "-r=no"; str "F"]. split.
  - apply tame_alone; (constructor; [|constructor; [|constructor]]); first [apply ordinary_check; reflexivity|apply not_asks; reflexivity].
  - intros fuel lib db N. unfold dump_main. change (argv_process nothing 10 None None [] [str "-r=no"; str "F"]) with (@Ok (progress (list argv_t)) (Go (G (upd (fun _ => false) Rrset true) (fun _ => false) (Some (str "F"))))).
    cbn [bind]. change (grid_file (G (upd (fun _ => false) Rrset true) (fun _ => false) (Some (str "F")))) with (Some (str "F")). cbv iota.
    destruct (db (str "F")); [reflexivity|contradiction].
Qed.
Print Assumptions dump_words_crash_refuted.

(** The two lines of the synopsis in dnstable_dump(1), "--rrset FILE" and "--rdata FILE", are
    refused as ambiguous. *)
Theorem synopsis_refuted : forall fuel lib db files depth global sd f, ordinary f -> argument_word f ->
  dump_main fuel lib db files depth global None sd [str "--rrset"; f] = Fail /\ dump_main fuel lib db files depth global None sd [str "--rdata"; f] = Fail.
Proof.
  intros fuel lib db files depth global sd f O A. unfold dump_main.
  assert (X : forall w, w = str "--rrset" \/ w = str "--rdata" -> argv_process files depth global None sd [w; f] = Ok (Exit 1)).
  { intros w W. set (cfg := process_env global).
    assert (IO : exists first second, in_order (way cfg) [] [w; f] first second /\ ((first = [] /\ second = [w; f]) \/ (first = [w; f] /\ second = []))).
    { unfold in_order. destruct (environment (way cfg)); [exists [], [w; f]|exists [], [w; f]|exists [w; f], []]; (split; [split; reflexivity|]); auto. }
    destruct IO as (first & second & IO & D). pose proof (process_split files depth global None sd [w; f] [] first second eq_refl IO) as P. cbv zeta in P. rewrite P. clear P. fold cfg. unfold start, and_then.
    assert (Y : forall cap, do_words cfg cap (FA cfg cap files depth) [w; f] false (ST (fun _ => false) (fun _ => false) None 0 0 true sd) = Ok (Go (ST (fun _ => false) (fun _ => false) (Some f) 0 0 false sd))).
    { intro cap. cbn [do_words].
      rewrite (long_word cfg (way cfg) eq_refl _ _ (skipn 2 w) None _ _ _ _ _ _ _ w) by (destruct W as [->| ->]; first [reflexivity|discriminate|intro K; destruct (K eq_refl)|intros [_ K]; cbn in K; intuition discriminate]).
      destruct W as [->| ->]; cbv [skipn str Ascii.N_of_ascii Ascii.N_of_digits];
      match goal with |- context [find_long ?g ?n ?i ?m] => change (find_long g n i m) with TwoMatches end; cbn [bind]; rewrite (word_arg cfg (way cfg) eq_refl) by (left; exact A); reflexivity. }
    destruct D as [[-> ->]|[-> ->]]; cbn [do_words bind] in Y |- *; rewrite Y; cbn [bind]; rewrite finish; reflexivity. }
  rewrite (X (str "--rrset")), (X (str "--rdata")) by tauto. split; reflexivity.
Qed.
Print Assumptions synopsis_refuted.

(** "--js -- -- -r --argv-file A" with "-j=no" in the environment, where the file A has the lines
    "--argv=-" and "F", and standard input the line "-j=1";
    GLOBAL_ARGV lets the second "--" take up options again. *)
Definition ws67 : list bytes := [str "--js"; str "--"; str "--"; str "-r"; str "--argv-file"; str "A"].
Definition files67 : bytes -> option bytes := fun f => if beq f (str "A") then Some (str "--argv=-" ++ [10; 10] ++ str "F") else None.
Definition sd67 : bytes := str "-j=1" ++ [10].
Definition l67 : list (dopt * bool) := [(Json, false); (Json, true); (Rrset, true); (Json, true)].
Definition db67 : bytes -> option table := fun f => if beq f (str "F") then Some (map put recs59) else None.
Definition y67 : ways := {| values := true; resumes := true; repeats := true; environment := Before |}.
Definition global67 : bytes := str "lasttog=1,env=none:env=before multi=no".
Lemma way67 : global_ways (Some global67) y67.
Proof. apply global_spec. reflexivity. Qed.
Lemma env67 : environment_words (Some (str " -j=no  ")) [str "-j=no"].
Proof.
  cbn [environment_words]. apply se_skip; [left; reflexivity|]. change (str "-j=no  ") with (str "-j=no" ++ 32 :: [32]).
  apply (se_word blank (str "-j=no") 32 [32] []); [discriminate|cbn; repeat (constructor; [intros [K|K]; discriminate K|]); constructor|left; reflexivity|].
  apply se_skip; [left; reflexivity|constructor].
Qed.
Lemma tame67 : tame files67 sd67 ([str "-j=no"] ++ ws67).
Proof.
  assert (L : forall text ls, text = sd67 \/ (exists path, files67 path = Some text) -> text_words text ls -> ls = [str "-j=1"] \/ ls = [str "--argv=-"; str "F"]).
  { intros text ls [->|(path & E)] T; apply text_lines in T; [left; symmetry; exact T|]. unfold files67 in E. destruct (beq path (str "A")); [|discriminate E]. injection E as <-. right. symmetry. exact T. }
  assert (NN : forall w, (forall c r, w = 45 :: c :: r -> existsb (N.eqb c) (str "0123456789+.") = false) -> ~ number_word w).
  { intros w H (c & r & rest & -> & I & _). specialize (H c (r ++ rest) eq_refl). assert (X : existsb (N.eqb c) (str "0123456789+.") = true) by (apply existsb_exists; exists c; split; [exact I|apply N.eqb_refl]). congruence. }
  split; [|split; [|split; [|right; split]]].
  - repeat (constructor; [apply ordinary_check; reflexivity|]). constructor.
  - intros text ls I T. destruct (L text ls I T) as [->| ->]; repeat (constructor; [apply ordinary_check; reflexivity|]); constructor.
  - intros text ls I T. destruct (L text ls I T) as [->| ->]; repeat (constructor; [|]); try (apply not_asks; reflexivity); try constructor.
    intros (name & [NE (rest & B)] & E). change (str "--argv=-") with (str "--" ++ str "argv=-") in E. apply app_inv_head in E. subst name. discriminate B.
  - repeat (constructor; [apply NN; intros c r E; inversion E; subst; reflexivity|]). constructor.
  - intros text ls I T. destruct (L text ls I T) as [->| ->]; repeat (constructor; [apply NN; intros c r E; inversion E; subst; reflexivity|]); constructor.
Qed.

Example c67_case : global_ways (Some global67) y67 /\ says y67 files67 10 (Some (str " -j=no  ")) sd67 ws67 l67 (str "F") /\ one_section l67 /\ settings_of l67 D59 /\
  environment_words (Some (str " -j=no  ")) [str "-j=no"] /\ tame files67 sd67 ([str "-j=no"] ++ ws67) /\
  dump_main 100 demo_lib db67 files67 10 (Some global67) (Some (str " -j=no  ")) sd67 ws67 = Ok (Some (line_A ++ line_AAAA)).
Proof.
  assert (S : says y67 files67 10 (Some (str " -j=no  ")) sd67 ws67 l67 (str "F")).
  { assert (JW : forall v b, switches v b -> option_word y67 (str "-j=" ++ v) [(Json, b)]) by (intros v b SW; apply (ow_letters_value y67 [Json] [106] v b); [reflexivity|discriminate|repeat constructor|exact SW]).
    exists [str "-j=no"], [str "-j=no"], ws67, [(Json, false)], [], O, sd67, 0, [(Json, true); (Rrset, true); (Json, true)], [str "F"], [], 1.
    split; [exact env67|]. split; [split; reflexivity|]. split; [|split; [|split; [cbn; lia|split; [reflexivity|split; [reflexivity|discriminate]]]]].
    - apply (rd_option _ _ _ _ _ _ [(Json, false)] [] []); [apply (JW (str "no")), switches_value; reflexivity|constructor].
    - unfold ws67. apply (rd_option _ _ _ _ _ _ [(Json, true)] _ [(Rrset, true); (Json, true)]); [apply (ow_name y67 Json (str "js"))|].
      + split; [discriminate|]. split; [exists (str "json"); split; [left; reflexivity|exists (str "on"); reflexivity]|]. intros o' n I (r & E). cbn in I.
        repeat (destruct I as [I|I]; [injection I as <- <-; first [reflexivity|discriminate E]|]). destruct I.
      + apply rd_end. apply rd_resume; [reflexivity|]. apply (rd_option _ _ _ _ _ _ [(Rrset, true)] _ [(Json, true)]); [apply (ow_letters y67 [Rrset] [114]); [discriminate|constructor; [right; right; left; reflexivity|constructor]]|].
        apply (rd_ask y67 files67 10 0 sd67 (str "argv-file") [str "A"] [(Json, true)] [str "F"] 0 [] 0); [split; [discriminate|exists []; reflexivity]|].
        apply (rd_asked y67 files67 9 false 0 sd67 (str "A") (str "--argv=-" ++ [10; 10] ++ str "F") sd67 [str "--argv=-"; str "F"] [(Json, true)] [str "F"] 0 [] 0 [] [] [] 0 [] 0).
        * left. right. right. exists 65, []. split; [discriminate|reflexivity].
        * right. split; [discriminate|]. split; reflexivity.
        * apply text_lines. reflexivity.
        * apply (rd_file y67 files67 8 0 sd67 (str "argv") (str "-") sd67 [] [str "-j=1"] [(Json, true)] [] 0 [] 0 [str "F"] [] [str "F"] 0 [] 0).
          -- reflexivity.
          -- split; [discriminate|exists (str "-file"); reflexivity].
          -- left. repeat split.
          -- apply text_lines. reflexivity.
          -- apply (rd_option _ _ _ _ _ _ [(Json, true)] [] []); [apply (JW (str "1")), switches_value; reflexivity|constructor].
          -- apply rd_arg; [left; right; right; exists 70, []; split; [discriminate|reflexivity]|constructor].
        * constructor. }
  assert (O : one_section l67).
  { exists Rrset. split; [split; discriminate|]. split; [exists true; cbn; tauto|]. intros s' [K1 K2] (b & I). cbn in I. repeat (destruct I as [I|I]; [inversion I; subst; first [reflexivity|contradiction]|]). destruct I. }
  assert (T : settings_of l67 D59) by exact (settings_exist l67 None).
  split; [exact way67|]. split; [exact S|]. split; [exact O|]. split; [exact T|]. split; [exact env67|]. split; [exact tame67|].
  rewrite (dump_command_line _ _ _ _ _ _ _ _ _ _ _ _ _ way67 S O T). vm_compute. reflexivity.
Qed.

(** The same words meet the hypotheses of C68: none of their readings switches the section off. *)
Example c68_case : global_ways (Some global67) y67 /\ environment_words (Some (str " -j=no  ")) [str "-j=no"] /\ tame files67 sd67 ([str "-j=no"] ++ ws67) /\
  (forall l file, says y67 files67 10 (Some (str " -j=no  ")) sd67 ws67 l file -> one_section l -> switched_on l).
Proof.
  destruct c67_case as (GY & S & O & T & EW & TM & E). split; [exact GY|]. split; [exact EW|]. split; [exact TM|].
  intros l file S' O'. pose proof O' as (s & IS & US & _). pose proof (setting_sets l s) as SS. destruct (sets (fun _ => false) l s); [exact (section_on l s O' IS US SS)|].
  exfalso. destruct (dump_switched_off_aborts 100 demo_lib db67 files67 10 (Some global67) (Some (str " -j=no  ")) sd67 ws67 l file s y67 GY S' O' IS US SS) as [K|[_ K]]; rewrite E in K; [|discriminate K].
  unfold db67 in K. destruct (beq file (str "F")); discriminate K.
Qed.

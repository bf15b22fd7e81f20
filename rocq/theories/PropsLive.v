(** C82, C83, C84: a query object used again while iterators made of it are in use. *)
From Verif Require Import Str Base BaseFacts ModelVarint ModelMerge ModelEntry SpecMerge SpecUnion SpecName SpecEntry SpecQuery SpecSettings SpecLive.
From Verif Require Import ModelIter ModelQuery ModelSetters ModelFileset ModelLive SoundProofs SettingsProofs LiveProofs CurrentProofs LiveOffset SpecDecode SpecLookup SpecReader SpecSound PropsSound PropsIter PropsQuery PropsSettings Demo FilesetDemo.

(** The answers of an iterator are those of an iterator nothing else is done to: whatever else
    the client does, with this iterator, with others of the same query, and to the query itself, as long as the settings
    leave the iterator alone.  Missing: settings that do not, see [reuse_refuted], and queries with an offset
    or a timeout. *)
Theorem reuse_partial : forall ev fuel lib r after s rs s' w, env_ok ev ->
  is_timed (s_query s) = false -> q_offset (s_query s) = 0 ->
  Forall (leaves_alone ev (s_query s)) after ->
  do_acts ev fuel (AMake lib r :: after) s = Ok (AMade true :: rs, s') ->
  w_seek_end w = w_seek_end (s_world s) ->
  exists qi, dnstable_reader_query lib r (s_query s) = Ok qi /\
    gave (length (s_handles s)) after rs = calls fuel (length (gave (length (s_handles s)) after rs)) qi w.
Proof.
  intros ev fuel lib r after s rs s' w HE HT HO HF ER Hw. cbn [do_acts do_act] in ER.
  destruct (dnstable_reader_query lib r (s_query s)) as [qi| | | |] eqn:EQ; cbn [bind fst snd] in ER; try discriminate.
  2: { destruct (do_acts ev fuel after s) as [[ys s2]| | | |]; cbn [bind fst snd] in ER; discriminate. }
  destruct (do_acts ev fuel after _) as [[ys s2]| | | |] eqn:E1 in ER; cbn [bind fst snd] in ER; try discriminate. injection ER as <- <-. exists qi. split; [reflexivity|].
  destruct (reader_calm lib r (s_query s) qi HT HO EQ) as (A & B & C & D).
  eapply (run_twin ev fuel (s_query s) _ after _ ys s2 _ qi w HE HF E1); [apply keep_refl| | |exact Hw].
  - cbn [s_handles]. rewrite nth_error_app2 by lia. rewrite Nat.sub_diag. reflexivity.
  - repeat split; cbn [h_made h_it]; auto.
Qed.
Print Assumptions reuse_partial.

(** Whatever was set in between, and whatever the file holds: an entry an iterator returns is a stored one, and it has the
    type, bailiwick and times that the query asks for at the time of the call, if the iterator was made to
    look at them. *)
Theorem entries_obey_settings : forall ev fuel lib t after s rs s1 e s2, stored_bytes t ->
  do_acts ev fuel (AMake lib (dnstable_reader_init t) :: after) s = Ok (AMade true :: rs, s1) ->
  do_act ev fuel (ANext (length (s_handles s))) s1 = Ok (AGave (QEntry e), s2) ->
  exists k v c, In (k, v) t /\ holds k v c /\ tells e c /\ obeys (s_query s) (s_query s1) c.
Proof.
  intros ev fuel lib t after s rs s1 e s2 HB E EN. cbn [do_acts do_act] in E. unfold dnstable_reader_query, dnstable_reader_init in E. cbn [r_fs r_source] in E. unfold dnstable_query_iter in E.
  destruct (query_iter_common (s_query s) no_fence (SBase t) (SBase t)) as [qi| | | |] eqn:EQ; cbn [bind fst snd] in E; try discriminate.
  2: { destruct (do_acts ev fuel after s) as [[ys s3]| | | |]; cbn [bind fst snd] in E; discriminate. }
  destruct (do_acts ev fuel after _) as [[ys s3]| | | |] eqn:E1 in E; cbn [bind fst snd] in E; try discriminate. injection E as <- <-.
  destruct (obeys_common ev fuel after s no_fence t t qi ys s3 e s2 _ HB ltac:(discriminate) EQ E1 EN) as (k & v0 & v & c & H1 & [->|(f & v1 & Ef & _)] & H3); [|discriminate Ef].
  exists k, v0, c. auto.
Qed.
Print Assumptions entries_obey_settings.

(** The same for a set file. *)
Theorem fileset_entries_obey_settings : forall ev fuel lib files after s rs s1 e s2,
  (forall l, incl l files -> stored_bytes (lib_merged lib l) /\ stored_bytes (lib_unmerged lib l)) ->
  do_acts ev fuel (AMake lib (dnstable_reader_init_setfile files) :: after) s = Ok (AMade true :: rs, s1) ->
  do_act ev fuel (ANext (length (s_handles s))) s1 = Ok (AGave (QEntry e), s2) ->
  exists kept filled k v0 v c, incl kept files /\ incl filled files /\
    In (k, v0) (if q_aggregated (s_query s) then lib_merged lib kept else lib_unmerged lib kept) /\
    (v = v0 \/ exists v1, q_aggregated (s_query s) = true /\ ~ no_bounds (s_query s) /\ In (k, v1) (lib_merged lib filled) /\ merge_func k v0 v1 = Ok v) /\
    holds k v c /\ tells e c /\ obeys (s_query s) (s_query s1) c.
Proof.
  intros ev fuel lib files after s rs s1 e s2 HL E EN. cbn [do_acts do_act] in E. unfold dnstable_reader_query, dnstable_reader_init_setfile in E. cbn [r_fs r_source] in E. unfold dnstable_query_iter_fileset in E.
  set (q := s_query s) in *.
  destruct (fates q files) as [l| | | |] eqn:EF; cbn [bind fst snd] in E; try discriminate; [|destruct (do_acts ev fuel after s) as [[ys s3]| | | |]; cbn [bind fst snd] in E; discriminate].
  assert (HI : forall x, incl (files_with x l) files) by (intro x; exact (files_with_incl q files l x EF)).
  set (fc := {| f_remove := _; f_fill := _ |}) in E.
  assert (HF : forall f, f_fill fc = Some f -> q_aggregated q = true /\ ~ no_bounds q /\ f = lib_merged lib (files_with Fill l)).
  { intros f Ef. unfold fc in Ef. cbn [f_fill] in Ef. destruct (q_aggregated q); [|discriminate]. cbn [andb] in Ef. destruct (has_time_bound q) eqn:EH; [|discriminate]. injection Ef as <-.
    split; [reflexivity|]. split; [|reflexivity]. intros (A1 & A2 & A3 & A4). unfold has_time_bound in EH. rewrite A1, A2, A3, A4 in EH. discriminate. }
  assert (HFB : forall f, f_fill fc = Some f -> stored_bytes f) by (intros f Ef; destruct (HF f Ef) as (_ & _ & ->); apply HL, HI).
  set (t := if q_aggregated q then lib_merged lib (files_with Keep l) else lib_unmerged lib (files_with Keep l)).
  set (ti := lib_merged lib (files_with Keep l)) in *.
  assert (EC : (if q_aggregated q then query_iter_common q fc (SBase ti) (SBase ti) else query_iter_common q fc (SBase (lib_unmerged lib (files_with Keep l))) (SBase ti)) = query_iter_common q fc (SBase t) (SBase ti)) by (unfold t; destruct (q_aggregated q); reflexivity).
  rewrite EC in E. destruct (query_iter_common q fc (SBase t) (SBase ti)) as [qi| | | |] eqn:EQ; cbn [bind fst snd] in E; try discriminate.
  2: { destruct (do_acts ev fuel after s) as [[ys s3]| | | |]; cbn [bind fst snd] in E; discriminate. }
  destruct (do_acts ev fuel after _) as [[ys s3]| | | |] eqn:E1 in E; cbn [bind fst snd] in E; try discriminate. injection E as <- <-.
  assert (HB : stored_bytes t) by (unfold t; destruct (q_aggregated q); apply HL, HI).
  destruct (obeys_common ev fuel after s fc t ti qi ys s3 e s2 _ HB HFB EQ E1 EN) as (k & v0 & v & c & H1 & H2 & H3).
  exists (files_with Keep l), (files_with Fill l), k, v0, v, c. split; [apply HI|]. split; [apply HI|]. split; [exact H1|]. split; [|exact H3].
  destruct H2 as [->|(f & v1 & Ef & Hf & Em)]; [left; reflexivity|]. right. exists v1. destruct (HF f Ef) as (A & B & ->). auto.
Qed.
Print Assumptions fileset_entries_obey_settings.

(** Calls change nothing of a query but its offset, which can only get smaller, and not even this if the iterator
    was made without one; and no other iterator. *)
Theorem calls_keep_settings : forall ev fuel l q w rs s i h x s',
  do_acts ev fuel l {| s_query := q; s_handles := []; s_world := w |} = Ok (rs, s) ->
  nth_error (s_handles s) i = Some h -> do_act ev fuel (ANext i) s = Ok (x, s') ->
  with_offset_of (q_offset (s_query s)) (s_query s') = s_query s /\ q_offset (s_query s') <= q_offset (s_query s) /\
  (q_offset (h_made h) = 0 -> s_query s' = s_query s) /\
  length (s_handles s') = length (s_handles s) /\ (forall j, j <> i -> nth_error (s_handles s') j = nth_error (s_handles s) j).
Proof.
  intros ev fuel l q w rs s i h x s' E Hi EN. assert (HT : Forall tame_handle (s_handles s)) by (refine (acts_tame ev fuel l _ rs s _ E); constructor).
  cbn [do_act] in EN. rewrite Hi in EN. destruct (live_next fuel (s_query s) h (s_world s)) as [[[r h'] q'] w'] eqn:EL. injection EN as <- <-. cbn [s_query s_handles].
  rewrite Forall_forall in HT. destruct (live_next_tame _ _ _ _ _ _ _ _ (HT h (nth_error_In _ _ Hi)) EL) as (_ & A & B & C).
  split; [exact B|]. split; [exact A|]. split; [exact C|]. split; [apply replace_length|]. intros j Hj. apply replace_other. exact Hj.
Qed.
Print Assumptions calls_keep_settings.

(** Two iterators of one query, with the query changed in between: the first is of the addresses below ex.com,
    the second of www.ex.com. *)
Definition star_ex : query := ask QRrset None (Some (wire [[star_sign]; L_ex; L_com])) None None [] [] 0 None None None None.
Definition session0 (q : query) : session := {| s_query := q; s_handles := []; s_world := world0 |}.
Definition demo_reader : reader := dnstable_reader_init demo_table.
Definition between : list act :=
  [ ANext 0; ASet (SetData (Some (str "WWW.ex.com"))); ASet (SetRrtype (Some (str "A"))); ASet (SetFilterParameter 0 (Some 150) 8);
    ASet (SetBailiwick (Some (str "ex.com"))); ASet (SetTimeout (Some {| tv_sec := 5; tv_nsec := 0 |}));
    AMake lib0 demo_reader; ANext 1; ANext 0; ASet (SetOffset 1); ASet (SetAggregated false); ASet (SetCaseSensitive true); ASet (SetDeadline None); ANext 0; ANext 1; ANext 0; ANext 0 ].
Definition answers (x : res (list answer * session)) : list answer := match x with Ok y => fst y | _ => [] end.
Definition kinds (l : list qres) : list nat := map (fun r => match r with QEntry e => 0 | QEnd => 1 | QTimeout => 2 | QUB => 3 | QAbort => 4 | QHang => 5 end)%nat l.
Definition demo_run : list answer := answers (do_acts demo_env 100 (AMake lib0 demo_reader :: between) (session0 star_ex)).

Lemma answers_made : forall x, match answers x with AMade true :: _ => true | _ => false end = true ->
  exists s', x = Ok (AMade true :: tl (answers x), s').
Proof. intros [[[|[ |[]| ] l] s']| | | |] H; try discriminate H. exists s'. reflexivity. Qed.

Example c82_case : env_ok demo_env /\ is_timed star_ex = false /\ q_offset star_ex = 0 /\
  (exists qi, dnstable_reader_query lib0 demo_reader star_ex = Ok qi) /\
  Forall (leaves_alone demo_env star_ex) between /\
  (exists s', do_acts demo_env 100 (AMake lib0 demo_reader :: between) (session0 star_ex) = Ok (AMade true :: tl demo_run, s')) /\
  kinds (gave 0 between (tl demo_run)) = [0; 0; 0; 0; 1]%nat /\ kinds (gave 1 between (tl demo_run)) = [0; 1]%nat.
Proof.
  split; [exact demo_env_ok|]. split; [reflexivity|]. split; [reflexivity|]. split.
  { assert (H : (match dnstable_reader_query lib0 demo_reader star_ex with Ok _ => true | _ => false end) = true) by (vm_compute; reflexivity).
    destruct (dnstable_reader_query lib0 demo_reader star_ex) as [qi| | | |]; try discriminate H. exists qi. reflexivity. }
  split.
  - unfold between. repeat (constructor; [cbn [leaves_alone harmless]; try exact I; try reflexivity; try discriminate|]). constructor.
  - split; [|split; vm_compute; reflexivity].
    apply answers_made; vm_compute; reflexivity.
Qed.

(** What the iterator made of [q] says to [n] calls if [l] is done before them. *)
Definition said (fuel : nat) (r : reader) (q : query) (l : list act) (n : nat) : list qres :=
  let after := l ++ repeat (ANext 0) n in gave 0 after (tl (answers (do_acts demo_env fuel (AMake lib0 r :: after) (session0 q)))).

Definition star_ex_A : query := ask QRrset (Some 1) (Some (wire [[star_sign]; L_ex; L_com])) None None [] [] 0 None None None None.
Definition star_ex_bw : query := ask QRrset None (Some (wire [[star_sign]; L_ex; L_com])) (Some (rwire [L_ex; L_com])) None [] [] 0 None None None None.
Definition star_ex_tfa : query := ask QRrset None (Some (wire [[star_sign]; L_ex; L_com])) None None [] [] 0 (Some 50) None None None.
Definition star_ex_off : query := with_flags true false 2 star_ex.
Definition star_ex_timed : query := with_timeout (Some ts0) star_ex.
Definition ten : query := ask QRdataIp (Some 1) None None None [10; 0; 0; 0] [10; 255; 255; 255] 0 None None None None.

(** The property is false of the code.  Another type, bailiwick, time bound or offset changes the answers
    of an older iterator, and so does another iterator of a query with an offset; an address of the other family ends
    an iterator over addresses; the type ANY makes it fail an assertion; and an iterator made with a timeout that is then taken away jumps
    to a function that has returned. *)
Theorem reuse_refuted : database demo demo_table /\
  (kinds (said 100 demo_reader star_ex_A [] 3) = [0; 0; 1]%nat /\ kinds (said 100 demo_reader star_ex_A [ASet (SetRrtype (Some (str "MX")))] 3) = [0; 1; 1]%nat) /\
  (kinds (said 100 demo_reader star_ex_bw [] 3) = [0; 0; 0]%nat /\ kinds (said 100 demo_reader star_ex_bw [ASet (SetBailiwick None)] 3) = [1; 1; 1]%nat) /\
  (kinds (said 100 demo_reader star_ex_tfa [] 3) = [0; 0; 0]%nat /\ kinds (said 100 demo_reader star_ex_tfa [ASet (SetFilterParameter 1 (Some 125) 8)] 3) = [0; 1; 1]%nat) /\
  (kinds (said 100 demo_reader star_ex_off [] 3) = [0; 0; 1]%nat /\ kinds (said 100 demo_reader star_ex_off [ASet (SetOffset 4)] 3) = [1; 1; 1]%nat /\
   kinds (said 100 demo_reader star_ex_off [AMake lib0 demo_reader; ANext 1] 3) = [0; 0; 0]%nat) /\
  (kinds (said 100 demo_reader ten [] 4) = [0; 0; 0; 1]%nat /\ kinds (said 100 demo_reader ten [ASet (SetData (Some (str "2001:db8::1")))] 4) = [1; 1; 1; 1]%nat /\
   kinds (said 100 demo_reader ten [ASet (SetRrtype (Some (str "TYPE0255")))] 1) = [4]%nat) /\
  (kinds (said 100 demo_reader star_ex_timed [] 1) = [2]%nat /\ kinds (said 100 demo_reader star_ex_timed [ASet (SetTimeout None)] 1) = [3]%nat).
Proof.
  split; [apply demo_database|]. repeat match goal with |- _ /\ _ => split end; vm_compute; reflexivity.
Qed.
Print Assumptions reuse_refuted.

(** The iterator was made for type A; the query then asks for MX: it returns the MX. *)
Definition types_said (l : list qres) : list N := flat_map (fun r => match r with QEntry e => match get_rrtype e with Ok t => [t] | _ => [] end | _ => [] end) l.
Example c83_case : stored_bytes demo_table /\ filters_type star_ex_A = true /\
  types_said (said 100 demo_reader star_ex_A [] 2) = [1; 1] /\
  types_said (said 100 demo_reader star_ex_A [ASet (SetRrtype (Some (str "MX")))] 2) = [15] /\
  (watches_times star_ex_tfa = true /\ kinds (said 100 demo_reader star_ex_tfa [ASet (SetFilterParameter 1 (Some 125) 8)] 2) = [0; 1]%nat).
Proof.
  split.
  { assert (H : forallb (fun e => forallb (fun b => b <? 256) (fst e) && forallb (fun b => b <? 256) (snd e)) demo_table = true) by (vm_compute; reflexivity).
    intros k v Hin. rewrite forallb_forall in H. specialize (H _ Hin). apply andb_true_iff in H. destruct H as [H1 H2]. rewrite forallb_forall in H1, H2.
    split; apply Forall_forall; intros x Hx; [specialize (H1 x Hx)|specialize (H2 x Hx)]; apply N.ltb_lt; assumption. }
  repeat match goal with |- _ /\ _ => split end; vm_compute; reflexivity.
Qed.

(** An iterator with an offset uses up the offset of the query; the next one made of it skips nothing. *)
Definition offset_after (q : query) (l : list act) : N := match do_acts demo_env 100 (AMake lib0 demo_reader :: l) (session0 q) with Ok (_, s) => q_offset (s_query s) | _ => 99 end.
Example c84_case : offset_after star_ex_off [] = 2 /\ offset_after star_ex_off [ANext 0] = 0 /\ offset_after star_ex [ASet (SetOffset 7); ANext 0; ANext 0] = 7.
Proof. repeat match goal with |- _ /\ _ => split end; vm_compute; reflexivity. Qed.

(** * C62-C64: memory

    [make_all fuel [] l (start choices)] makes the calls [l], starting with nothing held
    and no memory in use.  The choices stand for everything the memory model leaves open:
    what the files contain, what matches, when a deadline passes.  [UB] is any use of a
    block that is not there, of a NULL pointer, of a block of the wrong kind, any second
    free, and any longjmp to a jump buffer that has expired.  [Hang]: a loop went round more
    than [fuel] times. *)
From Coq Require Import Permutation.
From Verif Require Import Base ModelMemory SpecMemory HeapLogic MemoryProofs MemoryEnds.

Lemma start_holds rm choices : holds rm [] (start choices).
Proof. split; [split; [simpl; lia|split; constructor]|]. exists []. split; [split; [constructor|auto]|reflexivity]. Qed.
Lemma start_inv rm : inv rm [] [].
Proof. constructor; simpl; [intros w []|intros w []|reflexivity]. Qed.

Lemma run_ok rm fuel choices l : follows fuel [] (start choices) l -> (rm = false -> never_strict fuel [] (start choices) l) ->
  match make_all fuel [] l (start choices) with
  | Ok (c, m) => exists H, kept rm c H /\ holds rm H m
  | Hang => True
  | _ => False
  end.
Proof. intros Hf Hn. exact (make_all_ok fuel l rm [] [] (start choices) (start_inv rm) (start_holds rm choices) Hf Hn). Qed.

(** C62: a client that follows the rules never makes the library use memory it must not. *)
Theorem memory_safe : forall (fuel : nat) (choices : list N) (l : list call),
  follows fuel [] (start choices) l ->
  (exists c m, make_all fuel [] l (start choices) = Ok (c, m)) \/ make_all fuel [] l (start choices) = Hang.
Proof.
  intros fuel choices l Hf. pose proof (run_ok true fuel choices l Hf ltac:(discriminate)) as Hr.
  destruct (make_all fuel [] l (start choices)) as [[c m]| | | |]; try contradiction; [left|right]; eauto.
Qed.

(** ... and every call comes to an end: with enough fuel, which depends on the history only,
    there is a result, the same one however much fuel there is, and the rules are followed or
    broken whatever the fuel. *)
Theorem calls_end : forall (choices : list N) (l : list call), exists enough : nat, forall fuel fuel' : nat, (enough <= fuel)%nat -> (enough <= fuel')%nat ->
  follows fuel [] (start choices) l ->
  follows fuel' [] (start choices) l /\
  exists c m, make_all fuel [] l (start choices) = Ok (c, m) /\ make_all fuel' [] l (start choices) = Ok (c, m).
Proof.
  intros choices l. destruct (calls_stable choices l) as (n0 & P & r & Hr & H). exists n0. intros fuel fuel' H1 H2 Hf. destruct (H fuel H1) as [HP HE]. destruct (H fuel' H2) as [HP' HE'].
  assert (HPP : P) by (apply HP, Hf). split; [apply HP', HPP|]. rewrite (HE HPP), (HE' HPP).
  destruct (memory_safe fuel choices l Hf) as [(c & m & E)|E]; rewrite (HE HPP) in E; [eauto|contradiction].
Qed.

(** C63: a client that has given everything back leaves nothing behind, unless it ran an
    aggregated query with a strict time bound over a set file; then only plain bytes are
    left. *)
Lemma kept_nothing rm H : kept rm [] H -> H = [].
Proof.
  intros (W & E & [_ _ HP]). destruct W; [|discriminate]. simpl in HP. apply Permutation_nil. symmetry. exact HP.
Qed.
Theorem no_leak_partial : forall (fuel : nat) (choices : list N) (l : list call) (m : memory),
  follows fuel [] (start choices) l -> never_strict fuel [] (start choices) l ->
  make_all fuel [] l (start choices) = Ok ([], m) -> cells m = [].
Proof.
  intros fuel choices l m Hf Hn E. pose proof (run_ok false fuel choices l Hf (fun _ => Hn)) as Hr. rewrite E in Hr.
  destruct Hr as (H & HK & _ & L & [_ HL] & HP). apply kept_nothing in HK as ->. rewrite (HL eq_refl) in HP. apply Permutation_nil. symmetry. exact HP.
Qed.
Theorem leftovers_partial : forall (fuel : nat) (choices : list N) (l : list call) (m : memory),
  follows fuel [] (start choices) l -> make_all fuel [] l (start choices) = Ok ([], m) ->
  Forall (fun c => snd c = OBytes) (cells m).
Proof.
  intros fuel choices l m Hf E. pose proof (run_ok true fuel choices l Hf ltac:(discriminate)) as Hr. rewrite E in Hr.
  destruct Hr as (H & HK & _ & L & [HL _] & HP). apply kept_nothing in HK as ->. simpl in HP. apply Forall_forall. intros c Hc. rewrite HP in Hc.
  unfold bytes in HL. rewrite Forall_forall in HL. exact (HL c Hc).
Qed.

(** C64: the limits of a query may be changed while its iterators are in use, as long as one
    of the two is kept; every call the rules allow is safe after it. *)
Lemma follows_app fuel l2 : forall l1 c m, follows fuel c m l1 -> (forall c' m', make_all fuel c l1 m = Ok (c', m') -> follows fuel c' m' l2) -> follows fuel c m (l1 ++ l2).
Proof.
  induction l1 as [|a l1 IH]; intros c m H1 H2; simpl in *; [apply H2; reflexivity|]. destruct H1 as [Ha H1]. split; [exact Ha|].
  intros c' m' E. apply IH; [apply H1, E|]. intros c2 m2 E2. apply H2. unfold mbind. rewrite E. exact E2.
Qed.
Lemma changed_follows : forall (fuel : nat) (choices : list N) (l : list call) (c : client) (m : memory) (q : ptr) (v : query_view) (null deadline : bool) (i : ptr),
  follows fuel [] (start choices) l -> make_all fuel [] l (start choices) = Ok (c, m) ->
  find_query q c = Some v -> (null = true -> (if deadline then v_timeout v else v_deadline v) = true) -> is_some (find_iter i c) = true ->
  follows fuel [] (start choices) (l ++ [if deadline then QuerySetDeadline q null else QuerySetTimeout q null; IterNext i]).
Proof.
  intros fuel choices l c m q v null deadline i Hf E Hq Hkeep Hi. apply follows_app; [exact Hf|]. intros c' m' E'. rewrite E in E'. injection E' as <- <-.
  assert (Hknow : forall f (c : client), find_iter i (know q f c) = find_iter i c).
  { clear. intro f. induction c as [|h c IH]; [reflexivity|]. destruct h; simpl; try exact IH.
    - destruct (q0 =? q); simpl; [reflexivity|exact IH].
    - rewrite IH. reflexivity. }
  assert (Hset : forall f k c' m', mbind (query_set q f) (fun _ => ret (know q k c)) m = Ok (c', m') -> c' = know q k c).
  { intros f k c' m'. unfold mbind, ret. destruct (query_set q f m) as [[u m1]| | | |]; try discriminate. intros [= <- _]. reflexivity. }
  destruct deadline; simpl; rewrite Hq.
  - split; [destruct null; simpl; [rewrite Hkeep by reflexivity; reflexivity|reflexivity]|]. intros c' m' E1. apply Hset in E1 as ->. rewrite Hknow. auto.
  - split; [destruct null; simpl; [rewrite Hkeep by reflexivity; reflexivity|reflexivity]|]. intros c' m' E1. apply Hset in E1 as ->. rewrite Hknow. auto.
Qed.

Theorem change_limits_partial : forall (fuel : nat) (choices : list N) (l : list call) (c : client) (m : memory) (q : ptr) (v : query_view) (null deadline : bool) (i : ptr),
  follows fuel [] (start choices) l -> make_all fuel [] l (start choices) = Ok (c, m) ->
  find_query q c = Some v -> (null = true -> (if deadline then v_timeout v else v_deadline v) = true) -> is_some (find_iter i c) = true ->
  (exists c' m', make_all fuel [] (l ++ [if deadline then QuerySetDeadline q null else QuerySetTimeout q null; IterNext i]) (start choices) = Ok (c', m')) \/
  make_all fuel [] (l ++ [if deadline then QuerySetDeadline q null else QuerySetTimeout q null; IterNext i]) (start choices) = Hang.
Proof. intros. apply memory_safe. eapply changed_follows; eassumption. Qed.
Theorem change_limits_ends_partial : forall (choices : list N) (l : list call) (q : ptr) (null deadline : bool) (i : ptr), exists enough : nat,
  forall (fuel : nat) (c : client) (m : memory) (v : query_view), (enough <= fuel)%nat ->
  follows fuel [] (start choices) l -> make_all fuel [] l (start choices) = Ok (c, m) ->
  find_query q c = Some v -> (null = true -> (if deadline then v_timeout v else v_deadline v) = true) -> is_some (find_iter i c) = true ->
  exists c' m', make_all fuel [] (l ++ [if deadline then QuerySetDeadline q null else QuerySetTimeout q null; IterNext i]) (start choices) = Ok (c', m').
Proof.
  intros choices l q null deadline i. destruct (calls_end choices (l ++ [if deadline then QuerySetDeadline q null else QuerySetTimeout q null; IterNext i])) as (n0 & H). exists n0.
  intros fuel c m v Hn Hf E Hq Hkeep Hi. destruct (H fuel fuel Hn Hn) as (_ & c' & m' & E' & _); [|eauto].
  eapply changed_follows; eassumption.
Qed.

(** ** Concrete histories *)

Ltac walk := repeat (split; [vm_compute; reflexivity|]; let c := fresh "c" in let m := fresh "m" in let E := fresh "E" in intros c m E; vm_compute in E; injection E as <- <-); exact I.

(** A query with a bailiwick, a record type, a timeout and a time bound over a source: an
    entry is got, filtered, read and formatted, the timeout replaced by a deadline, and
    everything given back. *)
Definition story : list call :=
  [SourceOpen; ReaderInit 1; QueryInit ModelQuery.QRrset; QuerySetData 3 false; QuerySetRrtype 3 false; QuerySetBailiwick 3 false;
   QuerySetTimeout 3 false; QuerySetParameter 3 FirstAfter false; ReaderQuery 2 3; ReaderDestroy 2; IterNext 22; QueryFilter 3 52; EntryRead 52;
   QuerySetDeadline 3 false; QuerySetTimeout 3 true; IterNext 22;
   EntryToJson 52; IterGetCount 22; IterDestroy 22; EntryDestroy 52; QueryGetError 3; QueryDestroy 3; SourceClose 1; StringFree 62].
Definition story_choices : list N := repeat 1 12 ++ [0; 1; 0; 1; 1; 1; 1; 1; 1; 1; 1; 1; 1; 1; 1; 1; 0; 1; 1; 1; 1; 1; 1; 1; 1; 1; 1; 1].
Example c62_case : follows 60 [] (start story_choices) story /\ never_strict 60 [] (start story_choices) story /\
  exists m, make_all 60 [] story (start story_choices) = Ok ([], m) /\ cells m = [].
Proof. split; [walk|split; [walk|]]. eexists. split; vm_compute; reflexivity. Qed.

(** The rules are followed with any more fuel as well. *)
Example c62_more : forall n : nat, follows (60 + n) [] (start story_choices) story.
Proof. intro n. walk. Qed.

(** An aggregated query with time_first_after over a set file of one file, which is filtered
    out: an entry is compared with that file's, and everything given back; two keys of the
    iterator are left. *)
Definition strict_story : list call :=
  [ReaderInitSetfile; QueryInit ModelQuery.QRrset; QuerySetData 6 false; QuerySetParameter 6 FirstAfter false; ReaderQuery 1 6; ReaderReload 1; IterNext 30].
Definition strict_choices : list N := [1; 1; 1; 0; 0; 1; 0; 2; 0; 1; 0; 1; 0; 1; 0; 1; 1; 1; 1; 1] ++ [1; 0; 1; 1; 1; 1; 1; 0; 1; 1; 1; 7; 1].
Definition strict_end : list call := strict_story ++ [EntryDestroy 63; IterDestroy 30; QueryDestroy 6; ReaderDestroy 1].
Theorem no_leak_refuted : exists (fuel : nat) (choices : list N) (l : list call) (m : memory),
  follows fuel [] (start choices) l /\ make_all fuel [] l (start choices) = Ok ([], m) /\ cells m <> [].
Proof.
  exists 60%nat, strict_choices, strict_end. eexists. split; [walk|]. split; [vm_compute; reflexivity|]. vm_compute. discriminate.
Qed.
Example c63_case : exists m, make_all 60 [] strict_end (start strict_choices) = Ok ([], m) /\ length (cells m) = 2%nat.
Proof. eexists. split; vm_compute; reflexivity. Qed.

(** C64 in full is false: when both limits are cleared, an iterator made with one jumps to a
    buffer that is no longer valid when that limit expires. *)
Theorem change_limits_refuted : exists (fuel : nat) (choices : list N) (l : list call) (c : client) (m : memory) (q i : ptr),
  follows fuel [] (start choices) l /\ make_all fuel [] l (start choices) = Ok (c, m) /\
  is_some (find_query q c) = true /\ is_some (find_iter i c) = true /\
  make_all fuel [] (l ++ [QuerySetTimeout q true; IterNext i]) (start choices) = UB.
Proof.
  exists 60%nat, (repeat 1 20), (firstn 9 story). eexists. eexists. exists 3, 22. split; [simpl; walk|]. split; [vm_compute; reflexivity|]. repeat split; vm_compute; reflexivity.
Qed.
Example c64_case : exists c m v, make_all 60 [] (firstn 14 story) (start story_choices) = Ok (c, m) /\ find_query 3 c = Some v /\ v_timeout v = true /\ v_deadline v = true /\ is_some (find_iter 22 c) = true.
Proof. eexists. eexists. eexists. split; [vm_compute; reflexivity|]. repeat split; vm_compute; reflexivity. Qed.

(** ** The rules are needed

    Without any one of them there is a history that ends in [UB]: the calls before the last
    ones follow all rules, and only the rule named is broken. *)
Definition ends_badly (choices : list N) (before after : list call) : Prop :=
  follows 60 [] (start choices) before /\ make_all 60 [] (before ++ after) (start choices) = UB.
Ltac badly := split; [simpl; walk|vm_compute; reflexivity].

Example twice_destroyed : ends_badly [] [QueryInit ModelQuery.QRrset; QueryDestroy 1] [QueryDestroy 1].
Proof. badly. Qed.
Example source_closed_early : ends_badly (repeat 1 20) [SourceOpen; ReaderInit 1; QueryInit ModelQuery.QRrset; QuerySetData 3 false] [SourceClose 1; ReaderQuery 2 3].
Proof. badly. Qed.
Example source_closed_early_iterator : ends_badly [1; 1] [SourceOpen; ReaderInit 1; ReaderIter 2; ReaderDestroy 2] [SourceClose 1; IterNext 5].
Proof. badly. Qed.
Example query_destroyed_early : ends_badly (repeat 1 20) (firstn 9 story) [QueryDestroy 3; IterNext 22].
Proof. badly. Qed.
Example query_without_data : ends_badly [] [SourceOpen; ReaderInit 1; QueryInit ModelQuery.QRrset] [ReaderQuery 2 3].
Proof. badly. Qed.
Example query_with_refused_data : ends_badly [1; 0] [SourceOpen; ReaderInit 1; QueryInit ModelQuery.QRrset; QuerySetData 3 false; QuerySetData 3 false] [ReaderQuery 2 3].
Proof. badly. Qed.
Example whole_setfile : ends_badly [1] [ReaderInitSetfile] [ReaderIter 1].
Proof. badly. Qed.
Example bailiwick_changed : ends_badly (repeat 1 12 ++ [0; 0; 1; 0; 1; 1; 1]) (firstn 9 story) [QuerySetBailiwick 3 false; IterNext 22].
Proof. badly. Qed.
Example unknown_formatted : ends_badly [1; 1; 8] [SourceOpen; ReaderInit 1; ReaderIter 2; IterNext 5] [EntryToJson 8].
Proof. badly. Qed.
Example entry_of_nobody : ends_badly [1; 1; 7; 1] [SourceOpen; ReaderInit 1; ReaderIter 2; IterNext 5; EntryDestroy 8] [EntryRead 8].
Proof. badly. Qed.

Definition c62_c64 := (memory_safe, calls_end, change_limits_ends_partial, no_leak_partial, leftovers_partial, no_leak_refuted, change_limits_partial, change_limits_refuted).
Print Assumptions c62_c64.

(** Entries of stored records can be printed, and how. *)
From Verif Require Import Str BaseFacts ModelVarint ModelEntry SpecMerge SpecName SpecEntry ModelFormat SpecFormat PropsEntry SpecQuery SpecJson SpecText.
From Verif Require Import JsonProofs LineProofs PropsFormat PropsText ModelLookup SpecLookup SpecDump SpecOutput.

Lemma decode_unmarked : forall k v e, entry_decode k v = Ok e -> e_iszone e = false.
Proof.
  intros k v e H. unfold entry_decode in H.
  repeat match type of H with
  | Ok _ = Ok _ => injection H as <-
  | Fail = Ok _ => discriminate H
  | Abort = Ok _ => discriminate H
  | UB = Ok _ => discriminate H
  | Hang = Ok _ => discriminate H
  | bind ?x _ = Ok _ => destruct x; cbn [bind] in H
  | (if ?b then _ else _) = Ok _ => destruct b
  | (match ?x with _ => _ end) = Ok _ => destruct x
  | (let _ := _ in _) = Ok _ => cbv zeta in H
  end; reflexivity.
Qed.
Lemma unmarked_same : forall e, e_iszone e = false -> set_iszone e false = e.
Proof. intros [] H. cbn in H. subst. reflexivity. Qed.

Lemma json_nonempty : forall m t, json (JObj m) t -> t <> [].
Proof. intros m t H. inversion H; subst; discriminate. Qed.

Lemma shown_json : forall lib date raw r e, c_strings lib -> shows r e ->
  match r with
  | RRset _ _ _ _ o | RData _ _ _ _ o => time_shown date (o_first o) /\ time_shown date (seen_last o)
  | _ => False
  end ->
  exists m t, record_members lib date false raw false r m /\ dnstable_entry_format lib (json_formatter date false raw) e = Ok (Some t) /\
    t <> [] /\ json_line m (t ++ [10]).
Proof.
  intros lib date raw r e HC (_ & ([k v] & HE & HD)) HT. cbn [fst snd] in HD.
  destruct (json_record_object lib date false raw false r k v HC HE HT) as (e' & m & HD' & HM & (t & F & J & O)).
  rewrite HD in HD'. injection HD' as <-. rewrite (unmarked_same e (decode_unmarked _ _ _ HD)) in F.
  exists m, t. split; [exact HM|]. split; [exact F|]. split; [exact (json_nonempty m t J)|]. exists t. auto.
Qed.

Lemma shown_text : forall lib r e, c_strings lib -> shows r e ->
  match r with
  | RRset _ _ _ _ o => text_shown DateUnix (o_first o) /\ text_shown DateUnix (seen_last o) /\ count_shown lib (seen_count o)
  | RData _ _ _ _ _ => True
  | _ => False
  end ->
  exists ls, record_lines lib DateUnix false r ls /\ dnstable_entry_to_text lib e = Ok (Some (lines ls)) /\ lines ls <> [].
Proof.
  intros lib r e HC (_ & ([k v] & HE & HD)) HT. cbn [fst snd] in HD.
  destruct (text_record_lines lib DateUnix false false false r k v HC HE HT) as (e' & ls & HD' & HL & F).
  rewrite HD in HD'. injection HD' as <-. rewrite (unmarked_same e (decode_unmarked _ _ _ HD)) in F.
  exists ls. split; [exact HL|]. split; [exact F|]. destruct r; try contradiction; cbn [record_lines] in HL.
  - destruct HL as (tf & tl & t & _ & _ & _ & ->). discriminate.
  - destruct HL as (t & _ & ->). unfold lines. cbn [flat_map]. destruct (rr_line _ _ _ _ _); discriminate.
Qed.

Lemma lines_app : forall a b, lines (a ++ b) = lines a ++ lines b.
Proof. intros. unfold lines. apply flat_map_app. Qed.

Lemma shown_type : forall r e, shows r e -> get_type e = match r with RRset _ _ _ _ _ => ENTRY_TYPE_RRSET | _ => ENTRY_TYPE_RDATA end.
Proof. intros r e (H & _). destruct r; cbn in H; try contradiction; apply H. Qed.
Lemma shown_kind : forall r e, shows r e -> match r with RRset _ _ _ _ _ | RData _ _ _ _ _ => True | _ => False end.
Proof. intros r e (H & _). destruct r; cbn in H; try contradiction; exact I. Qed.

Lemma output_of : forall lib o r e, c_strings lib -> shows r e -> showable lib o r ->
  exists s, entry_output lib o e s /\ record_output lib o r s.
Proof.
  intros lib o r e HC HS HO. unfold showable in HO. unfold entry_output, record_output. destruct (o_count o); [exists []; split; reflexivity|]. specialize (HO eq_refl).
  pose proof (shown_kind r e HS) as K. pose proof (shown_type r e HS) as T.
  destruct (o_Json o || o_json o).
  - set (date := if o_json o then DateUnix else DateRfc3339).
    destruct (shown_json lib date (o_raw o) r e HC HS) as (m & t & HM & F & NE & J).
    { unfold date, time_shown. destruct r; try contradiction; (destruct (o_json o); [split; exact I|apply HO; reflexivity]). }
    exists (t ++ [10]). split; [exists t; auto|]. exists m. auto.
  - destruct (shown_text lib r e HC HS) as (ls & HL & F & NE).
    { destruct r; try contradiction; [exact HO|exact I]. }
    exists (lines ls ++ (if get_type e =? ENTRY_TYPE_RRSET then [10] else [])). split; [exists (lines ls); auto|]. exists ls. split; [exact HL|].
    rewrite lines_app, T. f_equal. destruct r; try contradiction; reflexivity.
Qed.

Lemma outputs_of : forall lib o rs es, c_strings lib -> Forall2 shows rs es -> Forall (showable lib o) rs ->
  exists texts, Forall2 (entry_output lib o) es texts /\ Forall2 (record_output lib o) rs texts.
Proof.
  intros lib o rs es HC H. induction H as [|r e rs es H F IH]; intro HS; [exists []; split; constructor|].
  inversion HS; subst. destruct (IH ltac:(assumption)) as (texts & A & B). destruct (output_of lib o r e HC H ltac:(assumption)) as (s & C & D).
  exists (s :: texts). split; constructor; assumption.
Qed.

Lemma dump_of : forall lib o r e, c_strings lib -> shows r e -> dumpable lib o r -> exists s, dumped lib o e s /\ dump_output lib o r s.
Proof.
  intros lib o r e HC HS HO. unfold dumpable in HO. unfold dumped, dump_output.
  pose proof (shown_kind r e HS) as K. pose proof (shown_type r e HS) as T. destruct (d_json o).
  - destruct (shown_json lib DateUnix (d_raw o) r e HC HS) as (m & t & HM & F & NE & J); [destruct r; try contradiction; split; exact I|].
    exists (t ++ [10]). split; [exists t; auto|]. exists m. auto.
  - specialize (HO eq_refl). destruct (shown_text lib r e HC HS) as (ls & HL & F & NE).
    { destruct r; try contradiction; [exact HO|exact I]. }
    exists (lines ls ++ (if get_type e =? ENTRY_TYPE_RDATA then [] else [10])). split; [exists (lines ls); auto|]. exists ls. split; [exact HL|].
    rewrite lines_app, T. f_equal. destruct r; try contradiction; reflexivity.
Qed.
Lemma dumps_of : forall lib o rs es, c_strings lib -> Forall2 shows rs es -> Forall (dumpable lib o) rs ->
  exists texts, Forall2 (dumped lib o) es texts /\ Forall2 (dump_output lib o) rs texts.
Proof.
  intros lib o rs es HC H. induction H as [|r e rs es H F IH]; intro HS; [exists []; split; constructor|].
  inversion HS; subst. destruct (IH ltac:(assumption)) as (texts & A & B). destruct (dump_of lib o r e HC H ltac:(assumption)) as (s & C & D).
  exists (s :: texts). split; constructor; assumption.
Qed.

Lemma Forall2_skipn : forall A B (P : A -> B -> Prop) n a b, Forall2 P a b -> Forall2 P (skipn n a) (skipn n b).
Proof. intros A B P n. induction n as [|n IH]; intros a b H; [exact H|]. inversion H; subst; [constructor|]. cbn. apply IH. assumption. Qed.
Lemma Forall_skipn : forall A (P : A -> Prop) n a, Forall P a -> Forall P (skipn n a).
Proof. intros A P n. induction n as [|n IH]; intros a H; [exact H|]. inversion H; subst; [constructor|]. cbn. apply IH. assumption. Qed.

(** Property C37 for files with any content. *)
From Verif Require Import Base BaseFacts ModelEntry ModelIter ModelQuery SpecIter SpecMerge SpecName SpecEntry SpecQuery SpecReader ModelReader PropsReader SpecDeadline.
From Verif Require Import SpecDecode DecodeProofs PropsDecode PropsSound PropsDumpAny Demo.

Lemma calls_through : forall es l win fuel p after r, decoded l es -> (length l < fuel)%nat ->
  (entry_decode (fst p) (snd p) = Hang /\ r = QHang \/ entry_decode (fst p) (snd p) = UB /\ r = QUB) ->
  reader_calls fuel (S (length es)) {| b_win := win; b_rest := l ++ p :: after |} = map QEntry es ++ [r].
Proof.
  induction es as [|e es IH]; intros l win fuel p after r HD LF HP; cbn [length reader_calls map app].
  - destruct (next_through l [] (p :: after) win fuel HD LF) as (f & E). rewrite E. destruct p as [k v]. cbn [fst snd] in HP. cbn [reader_next base_next b_rest b_win].
    destruct HP as [[D ->]|[D ->]]; rewrite D; reflexivity.
  - destruct (next_through l (e :: es) (p :: after) win fuel HD LF) as (l' & A & B & E). rewrite E. f_equal. apply IH; [exact A|lia|exact HP].
Qed.

Lemma first_harmful : forall l, stored_bytes l -> (exists es, decoded l es) \/
  (exists before p after es, l = before ++ p :: after /\ decoded before es /\
    (overread (fst p) (snd p) /\ entry_decode (fst p) (snd p) = UB \/ unending (fst p) /\ entry_decode (fst p) (snd p) = Hang)).
Proof.
  induction l as [|[k v] l IH]; intro HB; [left; exists []; constructor|].
  destruct (HB k v (or_introl eq_refl)) as [BK BV]. pose proof (decode_outcome k v BK BV) as OC.
  assert (IH' := IH (fun k' v' HI => HB k' v' (or_intror HI))).
  destruct (entry_decode k v) as [e| | | |] eqn:D.
  - destruct IH' as [(es & A)|(before & p & after & es & -> & A & C)]; [left; exists (e :: es); apply dec_yes; assumption|].
    right. exists ((k, v) :: before), p, after, (e :: es). split; [reflexivity|]. split; [apply dec_yes; assumption|exact C].
  - destruct IH' as [(es & A)|(before & p & after & es & -> & A & C)]; [left; exists es; apply dec_no; assumption|].
    right. exists ((k, v) :: before), p, after, es. split; [reflexivity|]. split; [apply dec_no; assumption|exact C].
  - inversion OC.
  - right. exists [], (k, v), l, []. split; [reflexivity|]. split; [constructor|]. left. cbn [fst snd]. split; [inversion OC; assumption|exact D].
  - right. exists [], (k, v), l, []. split; [reflexivity|]. split; [constructor|]. right. cbn [fst snd]. split; [inversion OC; assumption|exact D].
Qed.

(** What iterators of a reader return over a file of any keys and values: the entries they
    range over that decode, in order and once each, and then the end; unless one of these
    keys and values is read outside its bounds (C17) or never done with (C16).  Then they
    return the entries before it, and the next call runs into it. *)
Definition goes_through (l : table) (it : base_it) : Prop :=
  (exists es, decoded l es /\ reader_lists it es) \/
  (exists before p after es, l = before ++ p :: after /\ decoded before es /\
    ((overread (fst p) (snd p) /\ eventually (fun fuel => reader_calls fuel (S (length es)) it = map QEntry es ++ [QUB])) \/
     (unending (fst p) /\ eventually (fun fuel => reader_calls fuel (S (length es)) it = map QEntry es ++ [QHang])))).

Lemma window_through : forall h t, stored_bytes (window h t) -> goes_through (window h t) (base_open h t).
Proof.
  intros h t HB. destruct (first_harmful _ HB) as [(es & A)|(before & p & after & es & E & A & C)].
  - left. exists es. split; [exact A|apply reader_window_lists; exact A].
  - right. exists before, p, after, es. split; [exact E|]. split; [exact A|].
    destruct C as [[C D]|[C D]]; [left|right]; (split; [exact C|]); exists (S (length before)); intros fuel Hf; unfold base_open; rewrite E; apply calls_through; try exact A; try lia; tauto.
Qed.

Theorem reader_iterators_any : forall t, stored_bytes t ->
  goes_through t (reader_iter t) /\
  (forall b it l, In (b, it) (typed_iterators t) -> selects (key_starts [b]) t l -> goes_through l it).
Proof.
  intros t HB. split.
  - assert (W : window HIter t = t) by (unfold window; cbn [in_window]; clear; induction t as [|e t IH]; [reflexivity|]; cbn [filter]; rewrite IH; reflexivity).
    rewrite <- W at 1. apply window_through. rewrite W. exact HB.
  - intros b it l HI HS. assert (it = base_open (HPrefix [b]) t) as ->.
    { cbn in HI. repeat (destruct HI as [HI|HI]; [injection HI as <- <-; reflexivity|]). destruct HI. }
    rewrite <- (selects_window _ _ _ HS). apply window_through. intros k v H. apply HB. unfold window in H. apply filter_In in H. apply H.
Qed.
Print Assumptions reader_iterators_any.

(** The iterator over everything gets to the cut-off time range; the one over RRsets does not. *)
Example c37_any_case : stored_bytes t88 /\ selects (key_starts [0]) t88 (firstn 2 t88) /\
  (exists e, reader_calls 9 2 (reader_iter t88) = [QEntry e; QUB] /\ reader_calls 9 2 (reader_iter_rrset t88) = [QEntry e; QEnd]).
Proof. destruct c88_case as (_ & _ & A & _ & _ & _ & _ & B & _). split; [exact A|]. split; [exact B|]. eexists. split; vm_compute; reflexivity. Qed.

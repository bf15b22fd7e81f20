(** Continuation of OrderProofs.v: queries. *)
From Verif Require Import Base ModelEntry ModelIter SpecIter ModelQuery SpecQuery BaseFacts IterProofs SelectProofs SpecReader SpecSound HiddenProofs TermProofs TermQueries SpecOrder OrderProofs.

Lemma plain_wrap : forall fs s, plain s -> plain (wrap fs s).
Proof. intros fs s H. induction fs as [|f fs IH]; [exact H|exact IH]. Qed.
Lemma plain_stack : forall q fc s, f_fill fc = None -> plain s -> plain (stack_filters q fc s).
Proof. intros q fc s E H. unfold stack_filters. rewrite E. destruct (has_time_bound q), (f_remove fc), (0 <? q_offset q); exact H. Qed.

Lemma common_order : forall q fc t ti qi, sorted t -> sorted ti -> byte_keys t -> byte_keys ti -> q_rrtype q < u32 ->
  query_iter_common q fc (SBase t) (SBase ti) = Ok qi ->
  (f_fill fc = None -> plain (qi_source qi)) /\
  forall fuel ts w, ~ In QHang (timed_calls fuel ts qi w) ->
  match qi_kind qi with
  | Direct _ => exists l, in_order l t /\ Forall2 (fits (qi_source qi)) l (got (timed_calls fuel ts qi w))
  | Indirect _ _ _ => exists idxs groups, in_order idxs ti /\ length groups = length idxs /\ Forall (fun g => in_order g t) groups /\
                      Forall2 (fits (qi_source qi)) (concat groups) (got (timed_calls fuel ts qi w))
  end.
Proof.
  intros q fc t ti qi HS HSi HB HBi HU E. unfold query_iter_common in E.
  set (src0 := if is_timed q then STimeout (SBase t) else SBase t) in *. set (idx0 := if is_timed q then STimeout (SBase ti) else SBase ti) in *.
  cbv zeta in E.
  assert (F0 : forall h, forward h t src0) by (intro h; unfold src0; destruct (is_timed q); reflexivity).
  assert (F1 : forall h, forward h ti idx0) by (intro h; unfold idx0; destruct (is_timed q); reflexivity).
  assert (P0 : plain src0) by (unfold src0; destruct (is_timed q); exact I).
  destruct (query_init q src0 idx0) as [p| | | |] eqn:EP; cbn [bind] in E; try discriminate E. injection E as <-. cbn [qi_kind qi_source].
  destruct (p_index p) as [[tb it]|] eqn:EX.
  - destruct (init_indirect _ _ _ _ _ _ EP EX) as ((fs & PS & HF) & KN & KH & b & IT).
    set (s := stack_filters q fc (p_source p)). set (si := filter_set_cond b StSingleLabel (filter_single_label (length (p_key p))) idx0) in *.
    assert (FS : forall h, forward h t s).
    { intro h. unfold s. apply stack_forward. rewrite PS. apply wrap_forward; [apply F0|]. eapply Forall_impl; [|exact HF]. intros f Hf. apply still_fwd. exact Hf. }
    assert (FI : forward (HPrefix (p_key p)) ti si).
    { unfold si, filter_set_cond. destruct b; [|apply F1]. split; [apply label_fwd; assumption|apply F1]. }
    split; [intro EF; apply plain_stack; [exact EF|rewrite PS; apply plain_wrap; exact P0]|]. intros fuel ts w HH.
    destruct (calls_order t ti s si (HPrefix []) (HPrefix (p_key p)) HS HSi fuel ts {| qi_query := q; qi_source := s; qi_kind := Indirect tb it None |} w [] (window (HPrefix (p_key p)) ti) eq_refl) as (n & i & g & A & B & C & D & G).
    + cbn [qi_kind stands]. split; [intro h; apply forward_ahead; apply FS|]. split; [apply forward_ahead; exact FI|]. split; [rewrite IT; apply place_open; exact FI|reflexivity].
    + exact HH.
    + inversion A; subst. exists i, g. split; [apply in_order_filter with (f := fun e => in_window (HPrefix (p_key p)) (fst e)); exact B|]. split; [exact C|]. split; [exact D|exact G].
  - destruct (init_shape q src0 idx0 p EP EX) as (fs & HF & HP). specialize (HP src0 idx0). rewrite EP in HP. injection HP as HP.
    assert (PS : p_source p = wrap fs src0) by (rewrite HP at 1; reflexivity). clear HP.
    set (s := stack_filters q fc (p_source p)).
    assert (FS : forward (plan_how' p) t s).
    { unfold s. apply stack_forward. rewrite PS. apply wrap_forward; [apply F0|]. eapply Forall_impl; [|exact HF]. intros f Hf. eapply known_fwd; eassumption. }
    split; [intro EF; apply plain_stack; [exact EF|rewrite PS; apply plain_wrap; exact P0]|]. intros fuel ts w HH.
    assert (K : (match p_key2 p with Some key2 => Direct (open (HRange (p_key p) key2) s) | None => Direct (open (HPrefix (p_key p)) s) end) = Direct (open (plan_how' p) s)).
    { unfold plan_how'. destruct (p_key2 p); reflexivity. }
    fold s in HH |- *. rewrite K in *.
    destruct (calls_order t ti s s (plan_how' p) (HPrefix []) HS HSi fuel ts {| qi_query := q; qi_source := s; qi_kind := Direct (open (plan_how' p) s) |} w (window (plan_how' p) t) [] eq_refl) as (n & i & g & A & B & C & D & G).
    + cbn [qi_kind stands]. split; [apply forward_ahead; exact FS|]. split; [apply place_open; exact FS|reflexivity].
    + exact HH.
    + inversion B; subst. destruct g; [|discriminate C]. cbn [concat] in G. rewrite app_nil_r in G. exists n. split; [apply in_order_filter with (f := fun e => in_window (plan_how' p) (fst e)); exact A|exact G].
Qed.

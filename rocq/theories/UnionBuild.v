(** The bitmap builder of merge_rrtype_bitmaps produces the unique RFC 4034 form. *)
From Coq Require Import Sorting.Sorted Permutation.
From Verif Require Import Base BaseFacts ModelUnion SpecUnion UnionProofs.
Notation ssorted := (StronglySorted N.lt).

(** ** Arrays *)

Lemma length_set_nth : forall n v l, length (set_nth n v l) = length l.
Proof. induction n as [|n IH]; intros v [|x l]; cbn; auto. Qed.

Lemma nth_set_nth : forall n v l k, (n < length l)%nat ->
  nth k (set_nth n v l) 0 = if Nat.eqb k n then v else nth k l 0.
Proof.
  induction n as [|n IH]; intros v [|x l] k H; cbn [set_nth length] in *; try lia.
  - destruct k; reflexivity.
  - destruct k as [|k]; cbn [nth Nat.eqb]; [reflexivity|]. apply IH. lia.
Qed.

Lemma bytes_ok_set_nth : forall n v l, v < 256 -> bytes_ok l -> bytes_ok (set_nth n v l).
Proof.
  induction n as [|n IH]; intros v [|x l] Hv H; cbn [set_nth]; auto; inversion H; subst; constructor; auto.
  apply IH; assumption.
Qed.

Lemma bytes_ok_nth : forall l k, bytes_ok l -> nth k l 0 < 256.
Proof.
  induction l as [|x l IH]; intros k H; destruct k; cbn; try lia; inversion H; subst; [assumption|apply IH; assumption].
Qed.

Lemma shiftr_128 : forall b, b < 8 -> N.shiftr 128 b = 2 ^ (7 - b).
Proof.
  intros b H.
  assert (b = 0 \/ b = 1 \/ b = 2 \/ b = 3 \/ b = 4 \/ b = 5 \/ b = 6 \/ b = 7) as
    [->|[->|[->|[->|[->|[->|[->| ->]]]]]]] by lia; reflexivity.
Qed.

Lemma lor_byte : forall a b, a < 256 -> b < 256 -> N.lor a b < 256.
Proof.
  intros a b Ha Hb. destruct (N.eq_dec (N.lor a b) 0) as [->|Hz]; [lia|].
  change 256 with (2 ^ 8). apply N.log2_lt_pow2; [lia|]. rewrite N.log2_lor.
  apply N.max_lub_lt.
  - destruct (N.eq_dec a 0) as [->|]; [cbn; lia|]. apply N.log2_lt_pow2; [lia|exact Ha].
  - destruct (N.eq_dec b 0) as [->|]; [cbn; lia|]. apply N.log2_lt_pow2; [lia|exact Hb].
Qed.

Lemma byte_nonzero_bit : forall a, a < 256 -> a <> 0 -> exists k, k < 8 /\ N.testbit a (7 - k) = true.
Proof.
  intros a Ha Hz. exists (7 - N.log2 a).
  assert (N.log2 a < 8) by (apply N.log2_lt_pow2; [lia|exact Ha]).
  split; [lia|]. replace (7 - (7 - N.log2 a)) with (N.log2 a) by lia. apply N.bit_log2. exact Hz.
Qed.

Lemma byte_bits_eq : forall a b, a < 256 -> b < 256 ->
  (forall k, k < 8 -> N.testbit a (7 - k) = N.testbit b (7 - k)) -> a = b.
Proof.
  intros a b Ha Hb H. apply N.bits_inj. intro n.
  destruct (N.lt_ge_cases n 8) as [Hn|Hn].
  - specialize (H (7 - n)). replace (7 - (7 - n)) with n in H by lia. apply H. lia.
  - assert (E : forall x, x < 256 -> N.testbit x n = false).
    { intros x Hx. destruct (N.eq_dec x 0) as [->|]; [apply N.bits_0|]. apply N.bits_above_log2.
      apply N.lt_le_trans with 8; [|exact Hn]. apply N.log2_lt_pow2; [lia|exact Hx]. }
    rewrite !E by assumption. reflexivity.
Qed.

Lemma offbit_set : forall bm i j, length bm = 32%nat -> i < 256 -> j < 256 ->
  offbit (set_nth (N.to_nat (i / 8)) (N.lor (nth (N.to_nat (i / 8)) bm 0) (N.shiftr 128 (i mod 8))) bm) j
  = (j =? i) || offbit bm j.
Proof.
  intros bm i j HL Hi Hj. unfold offbit. rewrite nth_set_nth by (rewrite HL; lia).
  rewrite shiftr_128 by lia.
  destruct (Nat.eqb_spec (N.to_nat (j / 8)) (N.to_nat (i / 8))) as [E|E].
  - assert (Ed : j / 8 = i / 8) by lia. rewrite <- Ed. rewrite N.lor_spec.
    destruct (N.eqb_spec j i) as [->|Hn].
    + rewrite N.pow2_bits_true. apply orb_true_r.
    + rewrite N.pow2_bits_false by lia. rewrite orb_false_r. reflexivity.
  - destruct (N.eqb_spec j i) as [->|Hn]; [congruence|reflexivity].
Qed.

(** ** Pure builder: the same state machine without the assertion *)

Definition p_flush (s : bmstate) : bytes :=
  bm_result s ++ bm_window s :: bm_len s :: firstn (N.to_nat (bm_len s)) (bm_bitmap s).

Definition p_step (s : bmstate) (t : N) : bmstate :=
  let cur := t / 256 in
  let s1 := if negb (cur =? bm_window s)
            then {| bm_bitmap := zero_bitmap; bm_window := cur; bm_len := 0;
                    bm_result := if 0 <? bm_len s then p_flush s else bm_result s |}
            else s in
  let byte := t mod 256 / 8 in
  {| bm_bitmap := set_nth (N.to_nat byte) (N.lor (nth (N.to_nat byte) (bm_bitmap s1) 0)
                                               (N.shiftr 128 (t mod 256 mod 8))) (bm_bitmap s1);
     bm_window := bm_window s1; bm_len := 1 + byte; bm_result := bm_result s1 |}.

Definition p_size (s : bmstate) : N := blen (bm_result s) + (if bm_len s =? 0 then 0 else 2 + bm_len s).

Lemma bm_step_pure : forall s t,
  bm_step s t = (if negb (t / 256 =? bm_window s) && (0 <? bm_len s) && negb (p_size s <? bm_assert_limit)
                 then Abort else Ok (p_step s t)).
Proof.
  intros s t. unfold bm_step, p_step, p_size, bm_flush, p_flush.
  destruct (N.eqb_spec (t / 256) (bm_window s)) as [E|E]; cbn [negb andb bind bm_bitmap bm_window bm_len bm_result].
  - reflexivity.
  - destruct (N.ltb_spec 0 (bm_len s)) as [Hl|Hl]; cbn [andb].
    + destruct (N.eqb_spec (bm_len s) 0); [lia|].
      replace (blen (bm_result s) + (2 + bm_len s)) with (blen (bm_result s) + 1 + 1 + bm_len s) by lia.
      destruct (blen (bm_result s) + 1 + 1 + bm_len s <? bm_assert_limit); reflexivity.
    + replace (bm_len s) with 0 by lia. reflexivity.
Qed.

Definition cur_ws (ws : list window) (s : bmstate) : list window :=
  if bm_len s =? 0 then ws else ws ++ [(bm_window s, firstn (N.to_nat (bm_len s)) (bm_bitmap s))].

Record Inv (ws : list window) (s : bmstate) (p : list N) : Prop := {
  i_res : bm_result s = encode_windows ws;
  i_len32 : length (bm_bitmap s) = 32%nat;
  i_bok : bytes_ok (bm_bitmap s);
  i_win : bm_window s < 256;
  i_blen : bm_len s <= 32;
  i_above : forall k, (N.to_nat (bm_len s) <= k)%nat -> nth k (bm_bitmap s) 0 = 0;
  i_empty : bm_len s = 0 -> ws = [] /\ p = [] /\ bm_window s = 0;
  i_last : bm_len s <> 0 -> nth (N.to_nat (bm_len s) - 1) (bm_bitmap s) 0 <> 0;
  i_ws : Forall window_ok ws;
  i_sorted : ssorted (map fst ws);
  i_ltw : Forall (fun w => w < bm_window s) (map fst ws);
  i_bnd : forall t, In t p -> t < 65536;
  i_mem : forall t, t < 65536 ->
     (In t p <-> windows_mem ws t \/ (t / 256 = bm_window s /\ offbit (bm_bitmap s) (t mod 256) = true))
}.

Lemma encode_windows_app : forall a b, encode_windows (a ++ b) = encode_windows a ++ encode_windows b.
Proof. intros. unfold encode_windows. apply flat_map_app. Qed.

Lemma p_flush_eq : forall ws s p, Inv ws s p -> bm_len s <> 0 ->
  p_flush s = encode_windows (cur_ws ws s).
Proof.
  intros ws s p H Hl. unfold p_flush, cur_ws. destruct (N.eqb_spec (bm_len s) 0); [lia|].
  rewrite encode_windows_app, (i_res _ _ _ H). cbn [encode_windows flat_map fst snd].
  rewrite app_nil_r. f_equal. f_equal. f_equal. unfold blen. rewrite firstn_length.
  rewrite (i_len32 _ _ _ H). pose proof (i_blen _ _ _ H). lia.
Qed.

Lemma nth_firstn : forall (l : bytes) n k, (k < n)%nat -> nth k (firstn n l) 0 = nth k l 0.
Proof.
  induction l as [|x l IH]; intros [|n] [|k] H; cbn [firstn nth]; try reflexivity; try lia.
  apply IH. lia.
Qed.

Lemma last_nth : forall (l : bytes), last l 0 = nth (length l - 1) l 0.
Proof.
  induction l as [|x l IH]; [reflexivity|].
  destruct l as [|y l]; [reflexivity|].
  change (last (x :: y :: l) 0) with (last (y :: l) 0). rewrite IH.
  cbn [length]. replace (S (S (length l)) - 1)%nat with (S (S (length l) - 1)) by lia. reflexivity.
Qed.

Lemma offbit_firstn_above : forall bm n i, (forall k, (n <= k)%nat -> nth k bm 0 = 0) ->
  offbit (firstn n bm) i = offbit bm i.
Proof.
  intros bm n i H. unfold offbit.
  destruct (Nat.lt_ge_cases (N.to_nat (i / 8)) n) as [Hc|Hc].
  - rewrite nth_firstn by exact Hc. reflexivity.
  - rewrite H by exact Hc. rewrite nth_overflow; [reflexivity|]. rewrite firstn_length. lia.
Qed.

Lemma windows_mem_app : forall a b t, windows_mem (a ++ b) t <-> windows_mem a t \/ windows_mem b t.
Proof.
  intros a b t. unfold windows_mem. split.
  - intros (bm & Hin & Hb). apply in_app_iff in Hin. destruct Hin; [left|right]; eauto.
  - intros [(bm & Hin & Hb)|(bm & Hin & Hb)]; exists bm; rewrite in_app_iff; tauto.
Qed.

Lemma windows_mem_one : forall w bm t, windows_mem [(w, bm)] t <-> t / 256 = w /\ offbit bm (t mod 256) = true.
Proof.
  intros w bm t. unfold windows_mem. rewrite offbit_mem. split.
  - intros (bm' & [E|[]] & H). inversion E; subst. split; [reflexivity|exact H].
  - intros [<- H]. exists bm. split; [left; reflexivity|exact H].
Qed.

(** The window list held by a state denotes exactly the processed types. *)
Lemma cur_ws_spec : forall ws s p, Inv ws s p ->
  windows_ok (cur_ws ws s) /\ (forall t, t < 65536 -> (windows_mem (cur_ws ws s) t <-> In t p)) /\
  (forall w, In w (map fst (cur_ws ws s)) -> w <= bm_window s).
Proof.
  intros ws s p H. unfold cur_ws. destruct (N.eqb_spec (bm_len s) 0) as [E|E].
  - destruct (i_empty _ _ _ H E) as (-> & -> & _). split; [|split].
    + split; constructor.
    + intros t Ht. split; [intros (bm & [] & _)|intros []].
    + intros w [].
  - split; [|split].
    + split.
      * apply Forall_app. split; [apply (i_ws _ _ _ H)|]. constructor; [|constructor].
        pose proof (i_blen _ _ _ H). pose proof (i_len32 _ _ _ H).
        unfold window_ok; cbn [fst snd]. split; [apply (i_win _ _ _ H)|]. split.
        { rewrite firstn_length. lia. }
        split; [apply bytes_ok_firstn; apply (i_bok _ _ _ H)|].
        rewrite last_nth, firstn_length, nth_firstn by lia.
        replace (Nat.min (N.to_nat (bm_len s)) (length (bm_bitmap s)) - 1)%nat
          with (N.to_nat (bm_len s) - 1)%nat by lia.
        apply (i_last _ _ _ H E).
      * rewrite map_app. cbn [map fst]. apply ssorted_app.
        -- apply (i_sorted _ _ _ H).
        -- repeat constructor.
        -- intros x y Hx [<-|[]]. pose proof (i_ltw _ _ _ H) as HF. rewrite Forall_forall in HF. apply HF; exact Hx.
    + intros t Ht. rewrite windows_mem_app, windows_mem_one, offbit_firstn_above by (apply (i_above _ _ _ H)).
      symmetry. apply (i_mem _ _ _ H). exact Ht.
    + intros w Hw. rewrite map_app, in_app_iff in Hw. cbn [map fst In] in Hw.
      destruct Hw as [Hw|[<-|[]]]; [|lia]. pose proof (i_ltw _ _ _ H) as HF. rewrite Forall_forall in HF.
      apply N.lt_le_incl. apply HF; exact Hw.
Qed.

Lemma blen_cur_ws : forall ws s p, Inv ws s p -> blen (encode_windows (cur_ws ws s)) = p_size s.
Proof.
  intros ws s p H. unfold p_size. destruct (N.eqb_spec (bm_len s) 0) as [E|E].
  - unfold cur_ws. rewrite E. cbn [N.eqb]. rewrite (i_res _ _ _ H). lia.
  - rewrite <- (p_flush_eq ws s p H E). unfold p_flush. rewrite blen_app. unfold blen at 2. cbn [length].
    rewrite firstn_length, (i_len32 _ _ _ H). pose proof (i_blen _ _ _ H). lia.
Qed.

Lemma nth_zero_bitmap : forall k, nth k zero_bitmap 0 = 0.
Proof. intro k. unfold zero_bitmap. apply nth_repeat. Qed.

Lemma offbit_zero : forall i, offbit zero_bitmap i = false.
Proof. intro i. unfold offbit. rewrite nth_zero_bitmap. apply N.bits_0. Qed.

Lemma inv_init : Inv [] bm_init [].
Proof.
  constructor; cbn [bm_init bm_result bm_bitmap bm_window bm_len]; auto; try lia.
  - unfold bytes_ok, zero_bitmap. apply Forall_forall. intros x Hx. apply repeat_spec in Hx. subst. unfold byte_ok. lia.
  - intros k _. apply nth_zero_bitmap.
  - constructor.
  - constructor.
  - intros t [].
  - intros t _. split; [intros []|]. intros [(bm & [] & _)|[_ H]]. rewrite offbit_zero in H. discriminate.
Qed.

(** The largest type of the current window. *)
Lemma inv_last_type : forall ws s p, Inv ws s p -> bm_len s <> 0 ->
  exists t, In t p /\ t / 256 = bm_window s /\ t mod 256 / 8 = bm_len s - 1.
Proof.
  intros ws s p H E. pose proof (i_blen _ _ _ H) as Hb. pose proof (i_win _ _ _ H) as Hw.
  destruct (byte_nonzero_bit (nth (N.to_nat (bm_len s) - 1) (bm_bitmap s) 0)) as (k & Hk & Hbit).
  { apply bytes_ok_nth. apply (i_bok _ _ _ H). }
  { apply (i_last _ _ _ H E). }
  set (t := 256 * bm_window s + 8 * (bm_len s - 1) + k).
  assert (Ht1 : t / 256 = bm_window s) by (unfold t; lia).
  assert (Ht2 : t mod 256 = 8 * (bm_len s - 1) + k) by (unfold t; lia).
  exists t. split; [|split; [exact Ht1|lia]].
  apply (i_mem _ _ _ H); [lia|]. right. split; [exact Ht1|].
  unfold offbit. rewrite Ht2.
  replace (N.to_nat ((8 * (bm_len s - 1) + k) / 8)) with (N.to_nat (bm_len s) - 1)%nat by lia.
  replace ((8 * (bm_len s - 1) + k) mod 8) with k by lia. exact Hbit.
Qed.

Lemma inv_window_le : forall ws s p t, Inv ws s p -> bm_len s <> 0 -> (forall x, In x p -> x < t) ->
  bm_window s <= t / 256 /\ (bm_window s = t / 256 -> bm_len s <= 1 + t mod 256 / 8).
Proof.
  intros ws s p t H E Hlt. destruct (inv_last_type ws s p H E) as (t0 & Hin & Hw & Hl).
  apply Hlt in Hin. split; lia.
Qed.

Lemma p_step_inv : forall ws s p t, Inv ws s p -> (forall x, In x p -> x < t) -> t < 65536 ->
  Inv (if t / 256 =? bm_window s then ws else cur_ws ws s) (p_step s t) (p ++ [t]) /\
  p_size s <= p_size (p_step s t).
Proof.
  intros ws s p t H Hlt Ht.
  assert (Hsz0 : forall n, 1 + n =? 0 = false) by (intro; apply N.eqb_neq; lia).
  destruct (N.eqb_spec (t / 256) (bm_window s)) as [Ew|Ew].
  - assert (Hs : p_step s t =
      {| bm_bitmap := set_nth (N.to_nat (t mod 256 / 8))
           (N.lor (nth (N.to_nat (t mod 256 / 8)) (bm_bitmap s) 0) (N.shiftr 128 (t mod 256 mod 8))) (bm_bitmap s);
         bm_window := bm_window s; bm_len := 1 + t mod 256 / 8; bm_result := bm_result s |}).
    { unfold p_step. rewrite Ew, N.eqb_refl. reflexivity. }
    rewrite Hs. clear Hs.
    assert (Hle : bm_len s <= 1 + t mod 256 / 8).
    { destruct (N.eq_dec (bm_len s) 0) as [|E]; [lia|].
      apply (inv_window_le ws s p t H E Hlt). congruence. }
    pose proof (i_len32 _ _ _ H) as L32.
    assert (Hnth : forall k, nth k (set_nth (N.to_nat (t mod 256 / 8))
           (N.lor (nth (N.to_nat (t mod 256 / 8)) (bm_bitmap s) 0) (N.shiftr 128 (t mod 256 mod 8))) (bm_bitmap s)) 0
         = if Nat.eqb k (N.to_nat (t mod 256 / 8)) then
             N.lor (nth (N.to_nat (t mod 256 / 8)) (bm_bitmap s) 0) (N.shiftr 128 (t mod 256 mod 8))
           else nth k (bm_bitmap s) 0).
    { intro k. apply nth_set_nth. rewrite L32. lia. }
    split.
    + constructor; cbn [bm_bitmap bm_window bm_len bm_result].
      * apply (i_res _ _ _ H).
      * rewrite length_set_nth. exact L32.
      * apply bytes_ok_set_nth; [|apply (i_bok _ _ _ H)]. apply lor_byte.
        -- apply bytes_ok_nth. apply (i_bok _ _ _ H).
        -- rewrite shiftr_128 by lia. change 256 with (2 ^ 8). apply N.pow_lt_mono_r; lia.
      * apply (i_win _ _ _ H).
      * lia.
      * intros k Hk. rewrite Hnth. destruct (Nat.eqb_spec k (N.to_nat (t mod 256 / 8))); [lia|].
        apply (i_above _ _ _ H). lia.
      * lia.
      * intros _. rewrite Hnth.
        replace (N.to_nat (1 + t mod 256 / 8) - 1)%nat with (N.to_nat (t mod 256 / 8)) by lia.
        rewrite Nat.eqb_refl. intro Hz. apply N.lor_eq_0_iff in Hz. destruct Hz as [_ Hz].
        rewrite shiftr_128 in Hz by lia. revert Hz. apply N.pow_nonzero. lia.
      * apply (i_ws _ _ _ H).
      * apply (i_sorted _ _ _ H).
      * apply (i_ltw _ _ _ H).
      * intros x Hx. apply in_app_iff in Hx. destruct Hx as [Hx|[<-|[]]]; [apply (i_bnd _ _ _ H); exact Hx|exact Ht].
      * intros x Hx. rewrite in_app_iff, (i_mem _ _ _ H) by exact Hx.
        rewrite offbit_set by (try exact L32; lia). cbn [In].
        rewrite orb_true_iff, N.eqb_eq. split.
        -- intros [[A|[A B]]|[<-|[]]]; [tauto|tauto|]. right. split; [exact Ew|left; reflexivity].
        -- intros [A|[A [B|B]]]; [tauto| |tauto]. right. left. lia.
    + unfold p_size. cbn [bm_len bm_result]. rewrite Hsz0. destruct (bm_len s =? 0); lia.
  - assert (Hcw : (if 0 <? bm_len s then p_flush s else bm_result s) = encode_windows (cur_ws ws s)).
    { destruct (N.ltb_spec 0 (bm_len s)) as [Hl|Hl].
      - apply (p_flush_eq ws s p H). lia.
      - unfold cur_ws. replace (bm_len s) with 0 by lia. apply (i_res _ _ _ H). }
    assert (Hs : p_step s t =
      {| bm_bitmap := set_nth (N.to_nat (t mod 256 / 8))
           (N.lor (nth (N.to_nat (t mod 256 / 8)) zero_bitmap 0) (N.shiftr 128 (t mod 256 mod 8))) zero_bitmap;
         bm_window := t / 256; bm_len := 1 + t mod 256 / 8; bm_result := encode_windows (cur_ws ws s) |}).
    { rewrite <- Hcw. unfold p_step. destruct (N.eqb_spec (t / 256) (bm_window s)); [congruence|]. reflexivity. }
    rewrite Hs. clear Hs Hcw.
    assert (Z32 : length zero_bitmap = 32%nat) by reflexivity.
    assert (Zok : bytes_ok zero_bitmap).
    { apply Forall_forall. intros x Hx. apply repeat_spec in Hx. subst. unfold byte_ok. lia. }
    assert (Hnth : forall k, nth k (set_nth (N.to_nat (t mod 256 / 8))
           (N.lor (nth (N.to_nat (t mod 256 / 8)) zero_bitmap 0) (N.shiftr 128 (t mod 256 mod 8))) zero_bitmap) 0
         = if Nat.eqb k (N.to_nat (t mod 256 / 8)) then
             N.lor (nth (N.to_nat (t mod 256 / 8)) zero_bitmap 0) (N.shiftr 128 (t mod 256 mod 8))
           else nth k zero_bitmap 0).
    { intro k. apply nth_set_nth. rewrite Z32. lia. }
    destruct (cur_ws_spec ws s p H) as (Cok & Cmem & Cle).
    assert (Hgt : forall w, In w (map fst (cur_ws ws s)) -> w < t / 256).
    { intros w Hw. destruct (N.eq_dec (bm_len s) 0) as [E|E].
      - unfold cur_ws in Hw. rewrite E in Hw. cbn [N.eqb] in Hw.
        destruct (i_empty _ _ _ H E) as (-> & _). destruct Hw.
      - apply Cle in Hw. pose proof (inv_window_le ws s p t H E Hlt). lia. }
    split.
    + constructor; cbn [bm_bitmap bm_window bm_len bm_result].
      * reflexivity.
      * rewrite length_set_nth. exact Z32.
      * apply bytes_ok_set_nth; [|exact Zok]. apply lor_byte.
        -- apply bytes_ok_nth. exact Zok.
        -- rewrite shiftr_128 by lia. change 256 with (2 ^ 8). apply N.pow_lt_mono_r; lia.
      * lia.
      * lia.
      * intros k Hk. rewrite Hnth. destruct (Nat.eqb_spec k (N.to_nat (t mod 256 / 8))); [lia|].
        apply nth_zero_bitmap.
      * lia.
      * intros _. rewrite Hnth.
        replace (N.to_nat (1 + t mod 256 / 8) - 1)%nat with (N.to_nat (t mod 256 / 8)) by lia.
        rewrite Nat.eqb_refl. intro Hz. apply N.lor_eq_0_iff in Hz. destruct Hz as [_ Hz].
        rewrite shiftr_128 in Hz by lia. revert Hz. apply N.pow_nonzero. lia.
      * apply Cok.
      * apply Cok.
      * apply Forall_forall. exact Hgt.
      * intros x Hx. apply in_app_iff in Hx. destruct Hx as [Hx|[<-|[]]]; [apply (i_bnd _ _ _ H); exact Hx|exact Ht].
      * intros x Hx. rewrite in_app_iff, Cmem by exact Hx.
        rewrite offbit_set by (try exact Z32; lia). rewrite offbit_zero, orb_false_r, N.eqb_eq. cbn [In]. split.
        -- intros [A|[<-|[]]]; [tauto|]. right. split; reflexivity.
        -- intros [A|[A B]]; [tauto|]. right. left. lia.
    + rewrite <- (blen_cur_ws ws s p H). unfold p_size. cbn [bm_len bm_result]. rewrite Hsz0. lia.
Qed.

Fixpoint p_loop (s : bmstate) (l : list N) : bmstate :=
  match l with [] => s | t :: l' => p_loop (p_step s t) l' end.

Lemma p_loop_inv : forall l ws s p, Inv ws s p -> ssorted (p ++ l) -> (forall t, In t l -> t < 65536) ->
  (exists ws', Inv ws' (p_loop s l) (p ++ l)) /\ p_size s <= p_size (p_loop s l) /\
  (p_size (p_loop s l) < bm_assert_limit -> bm_loop s l = Ok (p_loop s l)) /\
  (bm_loop s l = Ok (p_loop s l) \/ (bm_loop s l = Abort /\ bm_assert_limit <= p_size (p_loop s l))).
Proof.
  induction l as [|t l IH]; intros ws s p H Hs Hb.
  - cbn [p_loop bm_loop]. rewrite app_nil_r. repeat split; [exists ws; exact H|lia|left; reflexivity].
  - cbn [p_loop bm_loop].
    destruct (p_step_inv ws s p t H) as [HI Hsz].
    { intros x Hx. apply ssorted_app_inv in Hs. destruct Hs as (_ & _ & Hs). apply Hs; [exact Hx|left; reflexivity]. }
    { apply Hb. left. reflexivity. }
    destruct (IH _ _ _ HI) as (A & B & C & D).
    { rewrite <- app_assoc. exact Hs. }
    { intros x Hx. apply Hb. right. exact Hx. }
    rewrite <- app_assoc in A. cbn [app] in A.
    split; [exact A|]. split; [lia|].
    rewrite bm_step_pure.
    destruct (negb (t / 256 =? bm_window s) && (0 <? bm_len s) && negb (p_size s <? bm_assert_limit)) eqn:E; cbn [bind].
    + assert (bm_assert_limit <= p_size s).
      { apply andb_prop in E. destruct E as [_ E]. apply negb_true_iff, N.ltb_ge in E. exact E. }
      split; [lia|]. right. split; [reflexivity|lia].
    + split; assumption.
Qed.

Lemma build_bitmap_spec : forall l, l <> [] -> ssorted l -> (forall t, In t l -> t < 65536) ->
  exists ws, ws <> [] /\ windows_ok ws /\ (forall t, windows_mem ws t <-> In t l) /\
    build_bitmap l = if blen (encode_windows ws) <? bm_assert_limit then Ok (encode_windows ws) else Abort.
Proof.
  intros l Hne Hs Hb.
  destruct (p_loop_inv l [] bm_init [] inv_init Hs Hb) as ((ws & H) & _ & C & D).
  cbn [app] in H. destruct (cur_ws_spec _ _ _ H) as (Cok & Cmem & _).
  set (s := p_loop bm_init l) in *.
  assert (El : bm_len s <> 0).
  { intro E. destruct (i_empty _ _ _ H E) as (_ & El & _). congruence. }
  exists (cur_ws ws s). split; [|split; [exact Cok|split]].
  - unfold cur_ws. destruct (N.eqb_spec (bm_len s) 0); [congruence|]. destruct ws; discriminate.
  - intro t. destruct (N.lt_ge_cases t 65536) as [Ht|Ht]; [apply Cmem; exact Ht|]. split.
    + intro Hm. apply in_types_of in Hm; [|apply windows_ok_lenient; exact Cok].
      apply types_of_bound in Hm; [lia|apply windows_ok_lenient; exact Cok].
    + intro Hin. apply Hb in Hin. lia.
  - rewrite (blen_cur_ws _ _ _ H). unfold build_bitmap.
    destruct D as [D|[D Hbig]]; rewrite D; cbn [bind].
    + destruct (N.eqb_spec (bm_len s) 0); [congruence|]. cbn [negb].
      rewrite <- (p_flush_eq _ _ _ H El). unfold bm_flush, p_flush, p_size.
      destruct (N.eqb_spec (bm_len s) 0); [congruence|].
      replace (blen (bm_result s) + (2 + bm_len s)) with (blen (bm_result s) + 1 + 1 + bm_len s) by lia. reflexivity.
    + destruct (N.ltb_spec (p_size s) bm_assert_limit); [lia|reflexivity].
Qed.

(** ** Uniqueness and monotonicity of the RFC 4034 form *)

Lemma window_ok_last : forall w bm, window_ok (w, bm) ->
  exists t, t / 256 = w /\ t mod 256 / 8 = blen bm - 1 /\ offbit bm (t mod 256) = true.
Proof.
  intros w bm (Hw & Hl & Hb & Hlast); cbn [fst snd] in *. rewrite last_nth in Hlast.
  destruct (byte_nonzero_bit _ (bytes_ok_nth _ _ Hb) Hlast) as (k & Hk & Hbit).
  set (t := 256 * w + 8 * (blen bm - 1) + k). unfold blen in *.
  assert (Ht1 : t / 256 = w) by (unfold t; lia).
  assert (Ht2 : t mod 256 = 8 * (N.of_nat (length bm) - 1) + k) by (unfold t; lia).
  exists t. split; [exact Ht1|]. split; [lia|]. unfold offbit. rewrite Ht2.
  replace (N.to_nat ((8 * (N.of_nat (length bm) - 1) + k) / 8)) with (length bm - 1)%nat by lia.
  replace ((8 * (N.of_nat (length bm) - 1) + k) mod 8) with k by lia. exact Hbit.
Qed.

Lemma offbit_in_range : forall bm t, offbit bm (t mod 256) = true -> t mod 256 / 8 < blen bm.
Proof.
  intros bm t H. destruct (N.lt_ge_cases (t mod 256 / 8) (blen bm)) as [|Hc]; [assumption|].
  unfold offbit in H. rewrite nth_overflow in H by (unfold blen in Hc; lia). rewrite N.bits_0 in H. discriminate.
Qed.

Lemma windows_mem_cons : forall w bm ws t,
  windows_mem ((w, bm) :: ws) t <-> (t / 256 = w /\ offbit bm (t mod 256) = true) \/ windows_mem ws t.
Proof.
  intros w bm ws t. change ((w, bm) :: ws) with ([(w, bm)] ++ ws).
  rewrite windows_mem_app, windows_mem_one. reflexivity.
Qed.

Lemma windows_mem_gt : forall ws w t, Forall (N.lt w) (map fst ws) -> windows_mem ws t -> w < t / 256.
Proof.
  intros ws w t HF (bm & Hin & _). rewrite Forall_forall in HF. apply HF.
  change (t / 256) with (fst (t / 256, bm)). apply in_map. exact Hin.
Qed.

Lemma windows_ok_inv : forall w bm ws, windows_ok ((w, bm) :: ws) ->
  window_ok (w, bm) /\ windows_ok ws /\ Forall (N.lt w) (map fst ws).
Proof.
  intros w bm ws [HF S]. inversion HF; subst. cbn [map fst] in S. apply StronglySorted_inv in S.
  destruct S. split; [assumption|split; [split; assumption|assumption]].
Qed.

Lemma bitmap_eq : forall w bm1 bm2, window_ok (w, bm1) -> window_ok (w, bm2) ->
  (forall t, t / 256 = w -> offbit bm1 (t mod 256) = offbit bm2 (t mod 256)) -> bm1 = bm2.
Proof.
  intros w bm1 bm2 H1 H2 H.
  assert (HL : blen bm1 = blen bm2).
  { destruct (window_ok_last _ _ H1) as (t1 & A1 & B1 & C1).
    destruct (window_ok_last _ _ H2) as (t2 & A2 & B2 & C2).
    rewrite H in C1 by exact A1. apply offbit_in_range in C1.
    rewrite <- H in C2 by exact A2. apply offbit_in_range in C2.
    destruct H1 as (_ & L1 & _). destruct H2 as (_ & L2 & _). unfold blen in *; cbn [fst snd] in *. lia. }
  destruct H1 as (Hw & L1 & O1 & _). destruct H2 as (_ & L2 & O2 & _). cbn [fst snd] in *.
  apply nth_ext with (d := 0) (d' := 0); [unfold blen in HL; lia|].
  intros n Hn. apply byte_bits_eq; try (apply bytes_ok_nth; assumption).
  intros k Hk. specialize (H (256 * w + 8 * N.of_nat n + k)). unfold offbit in H.
  replace ((256 * w + 8 * N.of_nat n + k) mod 256) with (8 * N.of_nat n + k) in H by lia.
  replace (N.to_nat ((8 * N.of_nat n + k) / 8)) with n in H by lia.
  replace ((8 * N.of_nat n + k) mod 8) with k in H by lia.
  apply H. lia.
Qed.

Lemma windows_unique : forall ws1 ws2, windows_ok ws1 -> windows_ok ws2 ->
  (forall t, windows_mem ws1 t <-> windows_mem ws2 t) -> ws1 = ws2.
Proof.
  induction ws1 as [|[w1 bm1] ws1 IH]; intros [|[w2 bm2] ws2] H1 H2 H.
  - reflexivity.
  - exfalso. apply windows_ok_inv in H2. destruct H2 as (Hw & _).
    destruct (window_ok_last _ _ Hw) as (t & A & _ & C).
    assert (M : windows_mem ((w2, bm2) :: ws2) t) by (apply windows_mem_cons; tauto).
    apply H in M. destruct M as (? & [] & _).
  - exfalso. apply windows_ok_inv in H1. destruct H1 as (Hw & _).
    destruct (window_ok_last _ _ Hw) as (t & A & _ & C).
    assert (M : windows_mem ((w1, bm1) :: ws1) t) by (apply windows_mem_cons; tauto).
    apply H in M. destruct M as (? & [] & _).
  - apply windows_ok_inv in H1. destruct H1 as (Hw1 & Ho1 & Hg1).
    apply windows_ok_inv in H2. destruct H2 as (Hw2 & Ho2 & Hg2).
    assert (w1 = w2).
    { destruct (window_ok_last _ _ Hw1) as (t1 & A1 & _ & C1).
      destruct (window_ok_last _ _ Hw2) as (t2 & A2 & _ & C2).
      assert (M1 : windows_mem ((w1, bm1) :: ws1) t1) by (apply windows_mem_cons; tauto).
      assert (M2 : windows_mem ((w2, bm2) :: ws2) t2) by (apply windows_mem_cons; tauto).
      apply H, windows_mem_cons in M1. apply H, windows_mem_cons in M2.
      destruct M1 as [[M1 _]|M1]; [lia|]. destruct M2 as [[M2 _]|M2]; [lia|].
      apply (windows_mem_gt _ _ _ Hg2) in M1. apply (windows_mem_gt _ _ _ Hg1) in M2. lia. }
    subst w2.
    assert (Hsplit : forall t, t / 256 = w1 -> offbit bm1 (t mod 256) = offbit bm2 (t mod 256)).
    { intros t Ht. specialize (H t). rewrite !windows_mem_cons in H.
      assert (N1 : ~ windows_mem ws1 t) by (intro M; apply (windows_mem_gt _ _ _ Hg1) in M; lia).
      assert (N2 : ~ windows_mem ws2 t) by (intro M; apply (windows_mem_gt _ _ _ Hg2) in M; lia).
      destruct (offbit bm1 (t mod 256)), (offbit bm2 (t mod 256)); try reflexivity; exfalso; intuition congruence. }
    f_equal.
    + f_equal. apply (bitmap_eq w1); assumption.
    + apply IH; [exact Ho1|exact Ho2|]. intro t. specialize (H t). rewrite !windows_mem_cons in H.
      split; intro M.
      * pose proof (windows_mem_gt _ _ _ Hg1 M). destruct H as [H _]. destruct H as [[? _]|]; [tauto|lia|assumption].
      * pose proof (windows_mem_gt _ _ _ Hg2 M). destruct H as [_ H]. destruct H as [[? _]|]; [tauto|lia|assumption].
Qed.

Lemma windows_mono : forall ws1 ws2, windows_ok ws1 -> windows_ok ws2 ->
  (forall t, windows_mem ws1 t -> windows_mem ws2 t) ->
  blen (encode_windows ws1) <= blen (encode_windows ws2).
Proof.
  induction ws1 as [|[w1 bm1] ws1 IH]; intros ws2 H1 H2 H; [cbn; lia|].
  apply windows_ok_inv in H1. destruct H1 as (Hw1 & Ho1 & Hg1).
  destruct (window_ok_last _ _ Hw1) as (t1 & A1 & B1 & C1).
  assert (M1 : windows_mem ((w1, bm1) :: ws1) t1) by (apply windows_mem_cons; tauto).
  apply H in M1. destruct M1 as (bm2 & Hin & Hbit). rewrite A1 in Hin.
  rewrite <- offbit_mem in Hbit. apply offbit_in_range in Hbit. rewrite B1 in Hbit.
  apply in_split in Hin. destruct Hin as (l1 & l2 & ->).
  assert (HL : blen bm1 <= blen bm2) by lia.
  destruct H2 as [HF S]. apply Forall_app in HF. destruct HF as [F1 F2]. inversion F2; subst.
  rewrite map_app in S. apply ssorted_app_inv in S. destruct S as (S1 & S2 & S12).
  cbn [map fst] in S2. apply StronglySorted_inv in S2. destruct S2 as [S2 G2].
  assert (IHl : blen (encode_windows ws1) <= blen (encode_windows l2)).
  { apply IH; [exact Ho1|split; assumption|]. intros t M.
    pose proof (windows_mem_gt _ _ _ Hg1 M) as Hgt.
    assert (M' : windows_mem ((t1 / 256, bm1) :: ws1) t) by (apply windows_mem_cons; tauto).
    apply H in M'. apply windows_mem_app in M'. destruct M' as [M'|M'].
    - exfalso. destruct M' as (bm & Hin & _).
      assert (t / 256 < t1 / 256); [|lia]. apply S12.
      + change (t / 256) with (fst (t / 256, bm)). apply in_map. exact Hin.
      + left. reflexivity.
    - apply windows_mem_cons in M'. destruct M' as [[? _]|M']; [lia|exact M']. }
  rewrite encode_windows_app, encode_windows_cons, encode_windows_cons, blen_app.
  unfold blen in *. cbn [length]. rewrite !app_length. lia.
Qed.

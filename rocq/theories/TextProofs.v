(** Proofs about the text primitives of ModelFormat: stored digits, decimal numbers,
    escaped strings, JSON arrays and objects. *)
From Coq Require Import Lia.
From Verif Require Import Str BaseFacts ModelVarint ModelUnion ModelEntry ModelNames ModelFormat SpecFormat.

(** ** Stores *)

Lemma wr_mid : forall pre x post b, wr (pre ++ x :: post) (length pre) b = Ok (pre ++ b :: post).
Proof.
  induction pre as [|p pre IH]; intros x post b; cbn [app length wr]; [reflexivity|].
  rewrite IH. reflexivity.
Qed.

Lemma wr_at : forall pre x post b i, i = length pre -> wr (pre ++ x :: post) i b = Ok (pre ++ b :: post).
Proof. intros pre x post b i ->. apply wr_mid. Qed.

(** The last [k] digits of [n]. *)
Fixpoint digits (k : nat) (n : N) : bytes :=
  match k with O => [] | S k' => digits k' (n / 10) ++ [48 + n mod 10] end.

Lemma digits_length : forall k n, length (digits k n) = k.
Proof. induction k as [|k IH]; intro n; cbn [digits]; [reflexivity|]. rewrite app_length, IH. cbn [length]. lia. Qed.

Lemma digits_ok : forall k n, Forall digit (digits k n).
Proof.
  induction k as [|k IH]; intro n; cbn [digits]; [constructor|].
  apply Forall_app. split; [apply IH|]. constructor; [|constructor]. unfold digit.
  pose proof (N.mod_lt n 10 ltac:(lia)). lia.
Qed.

Lemma digits_0 : forall k, digits k 0 = repeat 48 k.
Proof.
  induction k as [|k IH]; [reflexivity|]. cbn [digits]. change (0 / 10) with 0. rewrite IH.
  change (48 + 0 mod 10) with 48. change [48] with (repeat 48 1).
  rewrite <- repeat_app. f_equal. lia.
Qed.

Lemma decimal_value_snoc : forall s c, decimal_value (s ++ [c]) = 10 * decimal_value s + (c - 48).
Proof. intros s c. unfold decimal_value. rewrite fold_left_app. reflexivity. Qed.

Lemma digits_value : forall k n, n < 10 ^ N.of_nat k -> decimal_value (digits k n) = n.
Proof.
  induction k as [|k IH]; intros n H; cbn [digits].
  - change (10 ^ N.of_nat 0) with 1 in H. assert (n = 0) by lia. subst. reflexivity.
  - rewrite decimal_value_snoc. rewrite Nat2N.inj_succ, N.pow_succ_r' in H. rewrite IH.
    + pose proof (N.div_mod' n 10). pose proof (N.mod_lt n 10 ltac:(lia)). lia.
    + apply N.div_lt_upper_bound; lia.
Qed.

Lemma digits_head : forall k n r, n < 10 ^ N.of_nat (S k) -> 10 ^ N.of_nat k <= n -> digits (S k) n <> 48 :: r.
Proof.
  induction k as [|k IH]; intros n r HU H E.
  - cbn [digits app] in E. change (10 ^ N.of_nat 0) with 1 in H. change (10 ^ N.of_nat 1) with 10 in HU.
    rewrite N.mod_small in E by exact HU. apply (f_equal (hd 0)) in E. cbn [hd] in E. lia.
  - rewrite Nat2N.inj_succ, N.pow_succ_r' in H, HU.
    change (digits (S (S k)) n) with (digits (S k) (n / 10) ++ [48 + n mod 10]) in E.
    destruct (digits (S k) (n / 10)) as [|c s] eqn:D.
    + apply (f_equal (@length N)) in D. rewrite digits_length in D. discriminate.
    + cbn [app] in E. injection E as -> _. apply (IH (n / 10) s).
      * apply N.div_lt_upper_bound; lia.
      * apply N.div_le_lower_bound; lia.
      * exact D.
Qed.

Lemma digits_decimal : forall k n, n < 10 ^ N.of_nat (S k) -> (k = 0%nat \/ 10 ^ N.of_nat k <= n) -> decimal n (digits (S k) n).
Proof.
  intros k n HU HL. unfold decimal. split; [apply digits_ok|]. split; [|split].
  - intro E. apply (f_equal (@length N)) in E. rewrite digits_length in E. discriminate.
  - intros r E. destruct HL as [-> | HL].
    + cbn [digits app] in E. apply (f_equal (@tl N)) in E. cbn [tl] in E. symmetry. exact E.
    + exfalso. exact (digits_head k n r HU HL E).
  - apply digits_value. exact HU.
Qed.

Lemma decimal_digits_padded : forall k n, n < 10 ^ N.of_nat k -> padded k n (digits k n).
Proof.
  intros k n H. unfold padded. split; [apply digits_ok|]. split; [apply digits_length|]. apply digits_value. exact H.
Qed.

(** The digits a decimal representation has are the only ones. *)
Lemma digits_unique : forall s, Forall digit s -> s = digits (length s) (decimal_value s).
Proof.
  intro s. induction s as [|c s IH] using rev_ind; intro H; [reflexivity|].
  apply Forall_app in H. destruct H as [H Hc]. inversion Hc as [|? ? Hd _]; subst. unfold digit in Hd.
  rewrite app_length. cbn [length]. rewrite Nat.add_1_r. cbn [digits].
  rewrite decimal_value_snoc.
  assert (E : (10 * decimal_value s + (c - 48)) / 10 = decimal_value s).
  { symmetry. apply (N.div_unique _ 10 _ (c - 48)); lia. }
  assert (M : (10 * decimal_value s + (c - 48)) mod 10 = c - 48).
  { symmetry. apply (N.mod_unique _ 10 (decimal_value s)); lia. }
  rewrite E, M, <- IH by exact H. f_equal. f_equal. lia.
Qed.

(** ** Counting and storing *)

Lemma count_digits_ok : forall f n, n < 10 ^ N.of_nat f -> f <> 0%nat ->
  exists k, count_digits f n = Ok (S k) /\ n < 10 ^ N.of_nat (S k) /\ (k = 0%nat \/ 10 ^ N.of_nat k <= n) /\ (k < f)%nat.
Proof.
  induction f as [|f IH]; intros n H Hf; [contradiction|]. cbn [count_digits].
  rewrite Nat2N.inj_succ, N.pow_succ_r' in H.
  destruct (n / 10 =? 0) eqn:E.
  - apply N.eqb_eq in E. exists 0%nat. split; [reflexivity|]. change (10 ^ N.of_nat 1) with 10.
    pose proof (N.div_mod' n 10). pose proof (N.mod_lt n 10 ltac:(lia)). split; [lia|]. split; [left; reflexivity|]. lia.
  - apply N.eqb_neq in E.
    assert (HF : f <> 0%nat).
    { intro HF. subst f. change (10 ^ N.of_nat 0) with 1 in H. apply E. apply N.div_small. lia. }
    destruct (IH (n / 10)) as (k & R & U & L & B); [apply N.div_lt_upper_bound; lia|exact HF|].
    exists (S k). rewrite R. cbn [bind]. split; [reflexivity|].
    pose proof (N.div_mod' n 10) as DM. pose proof (N.mod_lt n 10 ltac:(lia)) as ML.
    rewrite (Nat2N.inj_succ (S k)), N.pow_succ_r'. split; [lia|]. split; [|lia]. right.
    rewrite Nat2N.inj_succ, N.pow_succ_r'. destruct L as [-> | L]; [change (10 ^ N.of_nat 0) with 1; lia|lia].
Qed.

Lemma skipn_next : forall k (l : bytes) x post, skipn k l = x :: post -> post = skipn (S k) l.
Proof.
  induction k as [|k IH]; intros l x post E; destruct l as [|p l]; try discriminate; cbn [skipn] in E |- *.
  - injection E as _ <-. reflexivity.
  - apply IH in E. exact E.
Qed.

Lemma store_digits_ok : forall k n ptr, (k <= length ptr)%nat -> store_digits k n ptr = Ok (digits k n ++ skipn k ptr).
Proof.
  induction k as [|k IH]; intros n ptr H; [reflexivity|]. cbn [store_digits].
  destruct (skipn k ptr) as [|x post] eqn:Es.
  { apply (f_equal (@length N)) in Es. rewrite skipn_length in Es. cbn [length] in Es. lia. }
  assert (Ef : ptr = firstn k ptr ++ x :: post) by (rewrite <- Es; symmetry; apply firstn_skipn).
  assert (Lf : length (firstn k ptr) = k) by (apply firstn_length_le; lia).
  rewrite Ef at 1. rewrite (wr_at _ x post _ k) by (symmetry; exact Lf). cbn [bind].
  rewrite IH by (rewrite app_length, Lf; cbn [length]; lia). cbn [digits].
  rewrite <- app_assoc. f_equal. f_equal.
  rewrite skipn_app, Lf, Nat.sub_diag. rewrite (skipn_all2 (firstn k ptr)) by lia.
  rewrite <- (skipn_next k ptr x post Es). reflexivity.
Qed.

Lemma ten_64 : 10 ^ 20 > 18446744073709551615. Proof. reflexivity. Qed.

Lemma vnum_ok : forall n ptr, n < u64 -> length ptr = 32%nat ->
  exists k, vnum_to_str n ptr = Ok (digits (S k) n ++ 0 :: skipn (S (S k)) ptr, S k) /\ (S k <= 20)%nat /\ decimal n (digits (S k) n).
Proof.
  intros n ptr H HL. unfold vnum_to_str.
  assert (H20 : n < 10 ^ N.of_nat 20) by (pose proof ten_64; change (N.of_nat 20) with 20; unfold u64 in H; lia).
  destruct (count_digits_ok 64 n) as (k & R & U & L & _); [|discriminate|].
  { eapply N.lt_le_trans; [exact H20|]. apply N.pow_le_mono_r; lia. }
  assert (HK : (S k <= 20)%nat).
  { destruct L as [-> | L]; [lia|]. destruct (Nat.le_gt_cases (S k) 20) as [C|C]; [exact C|]. exfalso.
    assert (10 ^ N.of_nat 20 <= 10 ^ N.of_nat k) by (apply N.pow_le_mono_r; lia). lia. }
  exists k. rewrite R. cbn [bind]. rewrite store_digits_ok by lia. cbn [bind].
  destruct (skipn (S k) ptr) as [|x post] eqn:Es.
  { apply (f_equal (@length N)) in Es. rewrite skipn_length in Es. cbn [length] in Es. lia. }
  rewrite (wr_at _ x post) by (symmetry; apply digits_length). cbn [bind].
  rewrite (skipn_next _ _ _ _ Es).
  split; [reflexivity|]. split; [exact HK|]. apply digits_decimal; assumption.
Qed.

Lemma json_int_ok : forall n, n < u64 -> exists t, (forall u, append_json_value_int u n = Ok (u ++ t)) /\ decimal n t.
Proof.
  intros n H. destruct (vnum_ok n (repeat 170 32) H (repeat_length _ _)) as (k & R & HK & D).
  exists (digits (S k) n). split; [|exact D]. intro u. unfold append_json_value_int. rewrite R. cbn [bind fst snd].
  f_equal. f_equal. rewrite firstn_app, digits_length, Nat.sub_diag, firstn_O, app_nil_r.
  rewrite firstn_all2; [reflexivity|]. rewrite digits_length. lia.
Qed.

(** ** printf *)

Lemma printf_digits_ok : forall f n, n < 10 ^ N.of_nat f -> f <> 0%nat ->
  exists k, printf_digits f n = digits (S k) n /\ n < 10 ^ N.of_nat (S k) /\ (k = 0%nat \/ 10 ^ N.of_nat k <= n).
Proof.
  induction f as [|f IH]; intros n H Hf; [contradiction|]. cbn [printf_digits].
  rewrite Nat2N.inj_succ, N.pow_succ_r' in H.
  destruct (n / 10 =? 0) eqn:E.
  - apply N.eqb_eq in E. exists 0%nat. split; [reflexivity|]. change (10 ^ N.of_nat 1) with 10.
    pose proof (N.div_mod' n 10). pose proof (N.mod_lt n 10 ltac:(lia)). split; [lia|]. left; reflexivity.
  - apply N.eqb_neq in E.
    assert (HF : f <> 0%nat).
    { intro HF. subst f. change (10 ^ N.of_nat 0) with 1 in H. apply E. apply N.div_small. lia. }
    destruct (IH (n / 10)) as (k & R & U & L); [apply N.div_lt_upper_bound; lia|exact HF|].
    exists (S k). rewrite R. split; [reflexivity|].
    pose proof (N.div_mod' n 10) as DM. pose proof (N.mod_lt n 10 ltac:(lia)) as ML.
    rewrite (Nat2N.inj_succ (S k)), N.pow_succ_r'. split; [lia|]. right.
    rewrite Nat2N.inj_succ, N.pow_succ_r'. destruct L as [-> | L]; [change (10 ^ N.of_nat 0) with 1; lia|lia].
Qed.

Lemma size_pow : forall n, n < 2 ^ N.of_nat (N.size_nat n).
Proof.
  intro n. destruct n as [|p]; [reflexivity|].
  cbn [N.size_nat]. induction p as [p IH|p IH|]; cbn [Pos.size_nat]; rewrite ?Nat2N.inj_succ, ?N.pow_succ_r'; try lia.
Qed.

Lemma printf_u_decimal : forall n, decimal n (printf_u n).
Proof.
  intro n. unfold printf_u. destruct (printf_digits_ok (S (N.size_nat n)) n) as (k & R & U & L).
  - eapply N.lt_le_trans; [apply size_pow|]. rewrite Nat2N.inj_succ.
    transitivity (10 ^ N.of_nat (N.size_nat n)); [apply N.pow_le_mono_l; lia|apply N.pow_le_mono_r; lia].
  - discriminate.
  - rewrite R. apply digits_decimal; assumption.
Qed.

Lemma decimal_unique : forall n s s', decimal n s -> decimal n s' -> s = s'.
Proof.
  assert (len : forall n s, decimal n s -> n < 10 ^ N.of_nat (length s) /\ (length s = 1%nat \/ (10 ^ N.of_nat (length s - 1) <= n /\ length s <> 0%nat))).
  { intros n s (D & NE & Z & V).
    assert (UB : forall t, Forall digit t -> decimal_value t < 10 ^ N.of_nat (length t)).
    { intro t. induction t as [|c t IH] using rev_ind; intro Ht; [reflexivity|].
      apply Forall_app in Ht. destruct Ht as [Ht Hc]. inversion Hc as [|? ? Hd _]; subst. unfold digit in Hd.
      rewrite decimal_value_snoc, app_length. cbn [length]. rewrite Nat.add_1_r, Nat2N.inj_succ, N.pow_succ_r'.
      specialize (IH Ht). lia. }
    split; [rewrite <- V; apply UB; exact D|].
    destruct s as [|c r]; [congruence|]. destruct r as [|c' r']; [left; reflexivity|]. right.
    split; [|discriminate]. assert (Hc : c <> 48) by (intros ->; specialize (Z _ eq_refl); discriminate).
    inversion D as [|? ? Hd Hr]; subst. unfold digit in Hd. cbn [length]. rewrite Nat.sub_1_r. cbn [Nat.pred].
    assert (LB : forall t, 10 ^ N.of_nat (length t) <= decimal_value (c :: t)).
    { intro t. induction t as [|x t IH] using rev_ind.
      - change (decimal_value [c]) with (10 * 0 + (c - 48)). change (10 ^ N.of_nat (length (@nil N))) with 1. lia.
      - change (c :: t ++ [x]) with ((c :: t) ++ [x]). rewrite decimal_value_snoc, app_length. cbn [length].
        rewrite Nat.add_1_r, Nat2N.inj_succ, N.pow_succ_r'. lia. }
    apply (LB (c' :: r')). }
  intros n s s' H H'. destruct (len n s H) as [U L]. destruct (len n s' H') as [U' L'].
  assert (length s = length s') as E.
  { destruct (Nat.lt_trichotomy (length s) (length s')) as [C|[C|C]]; [|exact C|]; exfalso.
    - destruct L' as [L'|[L' _]]; [destruct s; [destruct H as (_ & NE & _); congruence|cbn [length] in *; lia]|].
      assert (10 ^ N.of_nat (length s) <= 10 ^ N.of_nat (length s' - 1)) by (apply N.pow_le_mono_r; lia). lia.
    - destruct L as [L|[L _]]; [destruct s'; [destruct H' as (_ & NE & _); congruence|cbn [length] in *; lia]|].
      assert (10 ^ N.of_nat (length s') <= 10 ^ N.of_nat (length s - 1)) by (apply N.pow_le_mono_r; lia). lia. }
  rewrite (digits_unique s), (digits_unique s') by (apply H || apply H').
  destruct H as (_ & _ & _ & ->). destruct H' as (_ & _ & _ & ->). rewrite E. reflexivity.
Qed.

(** ** Strings *)

(** What one character becomes. *)
Definition esc1 (c : N) : bytes :=
  if 0 <? json_esc c then [92; json_esc c]
  else if c <=? 31 then [92; 117; 48; 48; hex_digit (c / 16); hex_digit (c mod 16)]
  else [c].

Lemma escape_loop_ok : forall str u p, escape_loop u p str = u ++ p ++ flat_map esc1 str.
Proof.
  induction str as [|c r IH]; intros u p; cbn [escape_loop flat_map]; [rewrite app_nil_r; reflexivity|].
  unfold esc1 at 1. destruct (0 <? json_esc c) eqn:E; cbn [orb].
  - rewrite IH. destruct p; cbn [app]; rewrite <- ?app_assoc; reflexivity.
  - destruct (c <=? 31) eqn:E2.
    + rewrite IH. destruct p; cbn [app]; rewrite <- ?app_assoc; reflexivity.
    + rewrite IH. rewrite <- app_assoc. reflexivity.
Qed.

Lemma json_value_string_ok : forall u s, append_json_value_string u s = u ++ 34 :: flat_map esc1 s ++ [34].
Proof.
  intros u s. unfold append_json_value_string, append_json_string_escaped. rewrite escape_loop_ok.
  cbn [app]. rewrite <- !app_assoc. reflexivity.
Qed.

Lemma hex_digit_value : forall d, d < 16 -> hex_value (hex_digit d) d.
Proof.
  intros d H. unfold hex_value, hex_digit. destruct (d <? 10) eqn:E; [left|right; left]; lia.
Qed.

Lemma esc1_plain : forall c, json_esc c = 0 -> c <=? 31 = false -> 32 <= c /\ c <> 34 /\ c <> 92.
Proof.
  intros c E L. assert (32 <= c) by lia. split; [assumption|]. unfold json_esc in E.
  split; intros ->; vm_compute in E; discriminate.
Qed.

Lemma json_esc_listed : forall c, json_esc c <> 0 -> In (json_esc c, c) short_escapes.
Proof.
  intro c. unfold json_esc, short_escapes.
  repeat match goal with |- context [if c =? ?k then _ else _] => destruct (N.eqb_spec c k); [subst; cbn; tauto|] end.
  congruence.
Qed.

Lemma esc_chars : forall s, json_chars (flat_map esc1 s) s.
Proof.
  induction s as [|c s IH]; cbn [flat_map]; [constructor|]. unfold esc1.
  destruct (0 <? json_esc c) eqn:E.
  - cbn [app]. apply jc_escape; [|exact IH]. apply json_esc_listed. lia.
  - destruct (c <=? 31) eqn:L.
    + cbn [app].
      assert (H16 : c / 16 < 16) by (apply N.div_lt_upper_bound; lia).
      pose proof (N.mod_lt c 16 ltac:(lia)) as HM. pose proof (N.div_mod' c 16) as DM.
      assert (J : json_chars (92 :: 117 :: 48 :: 48 :: hex_digit (c / 16) :: hex_digit (c mod 16) :: flat_map esc1 s)
        (4096 * 0 + 256 * 0 + 16 * (c / 16) + c mod 16 :: s)).
      { apply (jc_code 48 48 _ _ 0 0 (c / 16) (c mod 16));
          [left; lia|left; lia|apply hex_digit_value; exact H16|apply hex_digit_value; exact HM|lia|exact IH]. }
      replace (4096 * 0 + 256 * 0 + 16 * (c / 16) + c mod 16) with c in J by lia. exact J.
    + cbn [app]. destruct (esc1_plain c) as (A & B & C); [lia|exact L|]. apply jc_plain; assumption.
Qed.

Lemma esc_string : forall s, json_string s (34 :: flat_map esc1 s ++ [34]).
Proof. intro s. exists (flat_map esc1 s). split; [apply esc_chars|reflexivity]. Qed.

Lemma hex_value_unique : forall c v v', hex_value c v -> hex_value c v' -> v = v'.
Proof. intros c v v'. unfold hex_value. lia. Qed.

Lemma json_chars_unique : forall t s, json_chars t s -> forall s', json_chars t s' -> s = s'.
Proof.
  intros t s H. induction H as [|c t s H1 H2 H3 _ IH|x c t s HI _ IH|a b c d va vb vc vd t s Ha Hb Hc Hd HL _ IH]; intros s' H'.
  - inversion H'. reflexivity.
  - inversion H'; subst; [f_equal; auto|congruence|congruence].
  - inversion H' as [|? ? ? ? ? ? ?|? c' ? ? HI' ?|? ? ? ? ? ? ? ? ? ? ? ? ? ? ? ?]; subst.
    + congruence.
    + assert (c = c') as ->.
      { unfold short_escapes in HI, HI'. cbn [In] in HI, HI'.
        repeat match goal with H : _ \/ _ |- _ => destruct H as [H|H] end; try contradiction;
          congruence. }
      f_equal. auto.
    + exfalso. unfold short_escapes in HI. cbn [In] in HI.
      repeat match goal with H : _ \/ _ |- _ => destruct H as [H|H] end; try contradiction; congruence.
  - inversion H' as [|? ? ? ? ? ? ?|? c' ? ? HI' ?|? ? ? ? va' vb' vc' vd' ? ? Ha' Hb' Hc' Hd' ? ?]; subst.
    + congruence.
    + exfalso. unfold short_escapes in HI'. cbn [In] in HI'.
      repeat match goal with H : _ \/ _ |- _ => destruct H as [H|H] end; try contradiction; congruence.
    + rewrite (hex_value_unique _ _ _ Ha Ha'), (hex_value_unique _ _ _ Hb Hb'),
        (hex_value_unique _ _ _ Hc Hc'), (hex_value_unique _ _ _ Hd Hd'). f_equal. auto.
Qed.

Lemma hex_value_ge : forall c v, hex_value c v -> 32 <= c.
Proof. intros c v. unfold hex_value. lia. Qed.

Lemma json_chars_one_line : forall t s, json_chars t s -> one_line t.
Proof.
  unfold one_line. intros t s H. induction H as [|c t s H1 H2 H3 _ IH|x c t s HI _ IH|a b c d va vb vc vd t s Ha Hb Hc Hd HL _ IH].
  - constructor.
  - constructor; assumption.
  - constructor; [lia|]. constructor; [|exact IH]. unfold short_escapes in HI. cbn [In] in HI.
    repeat match goal with H : _ \/ _ |- _ => destruct H as [H|H] end; try contradiction; injection HI as <- _; lia.
  - repeat (constructor; [first [lia|eapply hex_value_ge; eassumption]|]). exact IH.
Qed.

Lemma one_line_app : forall a b, one_line a -> one_line b -> one_line (a ++ b).
Proof. intros a b. unfold one_line. rewrite Forall_app. tauto. Qed.

Lemma json_string_one_line : forall s t, json_string s t -> one_line t.
Proof.
  intros s t (i & H & ->). unfold one_line. constructor; [lia|]. apply Forall_app.
  split; [exact (json_chars_one_line _ _ H)|]. constructor; [lia|constructor].
Qed.

Lemma decimal_one_line : forall n t, decimal n t -> one_line t.
Proof.
  intros n t (D & _). unfold one_line. eapply Forall_impl; [|exact D]. cbv beta. unfold digit. intros. lia.
Qed.

Scheme json_ind' := Induction for json Sort Prop
  with json_elements_ind' := Induction for json_elements Sort Prop
  with json_members_ind' := Induction for json_members Sort Prop.

Lemma json_one_line : forall v t, json v t -> one_line t.
Proof.
  apply (json_ind' (fun v t _ => one_line t) (fun l t _ => one_line t) (fun m t _ => one_line t)).
  - intros n t H. eapply decimal_one_line. exact H.
  - intros s t H. eapply json_string_one_line. exact H.
  - intros l t _ H. constructor; [lia|]. apply one_line_app; [exact H|]. constructor; [lia|constructor].
  - intros m t _ H. constructor; [lia|]. apply one_line_app; [exact H|]. constructor; [lia|constructor].
  - constructor.
  - intros v t _ H. exact H.
  - intros v w l t t' _ H _ H'. apply one_line_app; [exact H|]. constructor; [lia|exact H'].
  - constructor.
  - intros k v tk t Hk _ H. apply one_line_app; [exact (json_string_one_line _ _ Hk)|]. constructor; [lia|exact H].
  - intros k v p m tk t t' Hk _ H _ H'. apply one_line_app; [exact (json_string_one_line _ _ Hk)|].
    constructor; [lia|]. apply one_line_app; [exact H|]. constructor; [lia|exact H'].
Qed.

Lemma cstr_one_line : forall t, one_line t -> cstr t = t.
Proof.
  unfold one_line. intros t H. induction H as [|c t Hc _ IH]; [reflexivity|]. cbn [cstr].
  destruct (c =? 0) eqn:E; [lia|]. rewrite IH. reflexivity.
Qed.

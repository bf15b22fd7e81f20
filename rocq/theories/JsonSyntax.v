(** Facts about the JSON grammar of SpecFormat: a text denotes one value, and is
    UTF-8 when the strings of the value are. *)
From Coq Require Import Lia.
From Verif Require Import Str BaseFacts ModelFormat SpecFormat TextProofs.

(** ** A text denotes one value *)

Lemma chars_prefix : forall i s, json_chars i s -> forall i' s' r r', json_chars i' s' -> i ++ 34 :: r = i' ++ 34 :: r' ->
  i = i' /\ s = s' /\ r = r'.
Proof.
  assert (NE : forall x c, In (x, c) short_escapes -> x <> 117).
  { intros x c H. unfold short_escapes in H. cbn [In] in H.
    repeat match goal with H : _ \/ _ |- _ => destruct H as [H|H] end; try contradiction; congruence. }
  assert (FN : forall x c c', In (x, c) short_escapes -> In (x, c') short_escapes -> c = c').
  { intros x c c' H H'. unfold short_escapes in H, H'. cbn [In] in H, H'.
    repeat match goal with H : _ \/ _ |- _ => destruct H as [H|H] end; try contradiction; congruence. }
  intros i s H. induction H as [|c t s H1 H2 H3 H IH|x c t s HI H IH|a b c d va vb vc vd t s Ha Hb Hc Hd HL H IH];
    intros i' s' r r' H' E; destruct H' as [|c' t' s' H1' H2' H3' H'|x' c' t' s' HI' H'|a' b' c' d' va' vb' vc' vd' t' s' Ha' Hb' Hc' Hd' HL' H'];
    cbn [app] in E; try (injection E as E; congruence).
  - injection E as ->. auto.
  - assert (c = c') by congruence. subst c'. assert (E' : t ++ 34 :: r = t' ++ 34 :: r') by congruence.
    destruct (IH _ _ _ _ H' E') as (-> & -> & ->). auto.
  - assert (x = x') by congruence. subst x'. assert (E' : t ++ 34 :: r = t' ++ 34 :: r') by congruence.
    destruct (IH _ _ _ _ H' E') as (-> & -> & ->). rewrite (FN x c c' HI HI'). auto.
  - exfalso. apply (NE _ _ HI). congruence.
  - exfalso. apply (NE _ _ HI'). congruence.
  - assert (a = a') by congruence. assert (b = b') by congruence. assert (c = c') by congruence. assert (d = d') by congruence.
    assert (E' : t ++ 34 :: r = t' ++ 34 :: r') by congruence. subst a' b' c' d'.
    destruct (IH _ _ _ _ H' E') as (-> & -> & ->).
    rewrite (hex_value_unique _ _ _ Ha Ha'), (hex_value_unique _ _ _ Hb Hb'), (hex_value_unique _ _ _ Hc Hc'), (hex_value_unique _ _ _ Hd Hd').
    auto.
Qed.

Lemma string_prefix : forall s t s' t' r r', json_string s t -> json_string s' t' -> t ++ r = t' ++ r' ->
  s = s' /\ t = t' /\ r = r'.
Proof.
  intros s t s' t' r r' (i & H & ->) (i' & H' & ->) E. cbn [app] in E. injection E as E. rewrite <- !app_assoc in E.
  destruct (chars_prefix _ _ H _ _ _ _ H' E) as (-> & -> & ->). auto.
Qed.

(** What may follow a number. *)
Definition stop (r : bytes) : Prop := match r with [] => True | c :: _ => ~ digit c end.

Lemma digits_prefix : forall t t' r r', Forall digit t -> Forall digit t' -> stop r -> stop r' -> t ++ r = t' ++ r' -> t = t' /\ r = r'.
Proof.
  induction t as [|c t IH]; intros t' r r' H H' S S' E; destruct t' as [|c' t']; cbn [app] in E.
  - auto.
  - subst r. inversion H'; subst. contradiction.
  - subst r'. inversion H; subst. contradiction.
  - inversion H; subst. inversion H'; subst. injection E as -> E.
    destruct (IH t' r r') as (-> & ->); auto.
Qed.

(** The first character of a value. *)
Definition starts (c : N) : Prop := digit c \/ c = 34 \/ c = 91 \/ c = 123.
Lemma json_starts : forall v t, json v t -> exists c r, t = c :: r /\ starts c.
Proof.
  intros v t H. destruct H as [n t (D & NE & _)|s t (i & _ & ->)|l t _|m t _].
  - destruct t as [|c r]; [congruence|]. exists c, r. inversion D; subst. split; [reflexivity|]. left. assumption.
  - eexists _, _. split; [reflexivity|]. right. left. reflexivity.
  - eexists _, _. split; [reflexivity|]. right. right. left. reflexivity.
  - eexists _, _. split; [reflexivity|]. right. right. right. reflexivity.
Qed.
Lemma members_start : forall p m t, json_members (p :: m) t -> exists r, t = 34 :: r.
Proof.
  intros p m t H. inversion H as [|k v tk t0 (i & _ & ->)|k v q m' tk t0 t' (i & _ & ->)]; subst; eexists; reflexivity.
Qed.
Lemma elements_start : forall v l t, json_elements (v :: l) t -> exists c r, t = c :: r /\ starts c.
Proof.
  intros v l t H. inversion H as [|v0 t0 J|v0 w l' t0 t' J J']; subst; destruct (json_starts _ _ J) as (c & r & -> & S);
    [exists c, r|exists c, (r ++ 44 :: t')]; split; auto.
Qed.

Lemma json_prefix : forall v t, json v t -> forall v' t' r r', json v' t' -> stop r -> stop r' -> t ++ r = t' ++ r' ->
  v = v' /\ t = t' /\ r = r'.
Proof.
  assert (ST : forall c r, ~ digit c -> stop (c :: r)) by (intros; assumption).
  assert (D93 : forall r, stop (93 :: r)) by (intro r; apply ST; unfold digit; lia).
  assert (D125 : forall r, stop (125 :: r)) by (intro r; apply ST; unfold digit; lia).
  assert (D44 : forall r, stop (44 :: r)) by (intro r; apply ST; unfold digit; lia).
  apply (json_ind'
    (fun v t _ => forall v' t' r r', json v' t' -> stop r -> stop r' -> t ++ r = t' ++ r' -> v = v' /\ t = t' /\ r = r')
    (fun l t _ => forall l' t' r r', json_elements l' t' -> t ++ 93 :: r = t' ++ 93 :: r' -> l = l' /\ t = t' /\ r = r')
    (fun m t _ => forall m' t' r r', json_members m' t' -> t ++ 125 :: r = t' ++ 125 :: r' -> m = m' /\ t = t' /\ r = r')).
  - intros n t (D & NE & Z & V) v' t' r r' J S S' E. destruct t as [|c t]; [congruence|].
    assert (Hc : digit c) by (inversion D; assumption).
    destruct J as [n' t' (D' & NE' & Z' & V')|s t' (i & _ & ->)|l t' _|m t' _]; cbn [app] in E.
    + destruct (digits_prefix (c :: t) t' r r' D D' S S' E) as (<- & ->). rewrite <- V, <- V'. auto.
    + exfalso. assert (c = 34) by congruence. unfold digit in Hc. lia.
    + exfalso. assert (c = 91) by congruence. unfold digit in Hc. lia.
    + exfalso. assert (c = 123) by congruence. unfold digit in Hc. lia.
  - intros s t HS v' t' r r' J S S' E.
    destruct J as [n' t' (D' & NE' & Z' & V')|s' t' HS'|l t' _|m t' _].
    + exfalso. destruct HS as (i & _ & ->). destruct t' as [|c t']; [congruence|]. inversion D' as [|? ? Hc]; subst.
      cbn [app] in E. assert (c = 34) by congruence. unfold digit in Hc. lia.
    + destruct (string_prefix _ _ _ _ _ _ HS HS' E) as (-> & -> & ->). auto.
    + exfalso. destruct HS as (i & _ & ->). cbn [app] in E. congruence.
    + exfalso. destruct HS as (i & _ & ->). cbn [app] in E. congruence.
  - intros l t HL IH v' t' r r' J S S' E.
    destruct J as [n' t' (D' & NE' & Z' & V')|s' t' (i & _ & ->)|l' t' HL'|m t' _]; cbn [app] in E.
    + exfalso. destruct t' as [|c t']; [congruence|]. inversion D' as [|? ? Hc]; subst.
      cbn [app] in E. assert (c = 91) by congruence. unfold digit in Hc. lia.
    + congruence.
    + injection E as E. rewrite <- !app_assoc in E. destruct (IH _ _ _ _ HL' E) as (-> & -> & ->). auto.
    + congruence.
  - intros m t HM IH v' t' r r' J S S' E.
    destruct J as [n' t' (D' & NE' & Z' & V')|s' t' (i & _ & ->)|l' t' _|m' t' HM']; cbn [app] in E.
    + exfalso. destruct t' as [|c t']; [congruence|]. inversion D' as [|? ? Hc]; subst.
      cbn [app] in E. assert (c = 123) by congruence. unfold digit in Hc. lia.
    + congruence.
    + congruence.
    + injection E as E. rewrite <- !app_assoc in E. destruct (IH _ _ _ _ HM' E) as (-> & -> & ->). auto.
  - intros l' t' r r' H E. cbn [app] in E. destruct l' as [|v l'].
    + inversion H; subst. cbn [app] in E. injection E as ->. auto.
    + exfalso. destruct (elements_start _ _ _ H) as (c & x & -> & SC). cbn [app] in E. assert (c = 93) by congruence.
      unfold starts, digit in SC. lia.
  - intros v t J IH l' t' r r' H E. destruct H as [|v' t' J'|v' w l' t' t'' J' H'].
    + exfalso. destruct (json_starts _ _ J) as (c & x & -> & SC). cbn [app] in E. assert (c = 93) by congruence.
      unfold starts, digit in SC. lia.
    + destruct (IH _ _ _ _ J' (D93 r) (D93 r') E) as (-> & -> & E'). injection E' as ->. auto.
    + exfalso. rewrite <- app_assoc in E. cbn [app] in E. destruct (IH _ _ _ _ J' (D93 r) (D44 _) E) as (_ & _ & E'). congruence.
  - intros v w l t t' J IH H IH' l' t1 r r' H1 E. rewrite <- app_assoc in E. cbn [app] in E.
    destruct H1 as [|v1 t1 J1|v1 w1 l1 t1 t2 J1 H1].
    + exfalso. destruct (json_starts _ _ J) as (c & x & -> & SC). cbn [app] in E. assert (c = 93) by congruence.
      unfold starts, digit in SC. lia.
    + exfalso. destruct (IH _ _ _ _ J1 (D44 _) (D93 r') E) as (_ & _ & E'). congruence.
    + rewrite <- app_assoc in E. cbn [app] in E. destruct (IH _ _ _ _ J1 (D44 _) (D44 _) E) as (-> & -> & E').
      injection E' as E'. destruct (IH' _ _ _ _ H1 E') as (E2 & -> & ->). injection E2 as -> ->. auto.
  - intros m' t' r r' H E. cbn [app] in E. destruct m' as [|p m'].
    + inversion H; subst. cbn [app] in E. injection E as ->. auto.
    + exfalso. destruct (members_start _ _ _ H) as (x & ->). cbn [app] in E. congruence.
  - intros k v tk t HK J IH m' t' r r' H E. rewrite <- app_assoc in E. cbn [app] in E.
    destruct H as [|k' v' tk' t' HK' J'|k' v' p m' tk' t' t'' HK' J' H'].
    + exfalso. destruct HK as (i & _ & ->). cbn [app] in E. congruence.
    + rewrite <- app_assoc in E. cbn [app] in E. destruct (string_prefix _ _ _ _ _ _ HK HK' E) as (-> & -> & E'). injection E' as E'.
      destruct (IH _ _ _ _ J' (D125 r) (D125 r') E') as (-> & -> & E2). injection E2 as ->. auto.
    + exfalso. rewrite <- !app_assoc in E. cbn [app] in E. rewrite <- !app_assoc in E. cbn [app] in E.
      destruct (string_prefix _ _ _ _ _ _ HK HK' E) as (-> & -> & E'). injection E' as E'.
      destruct (IH _ _ _ _ J' (D125 r) (D44 _) E') as (_ & _ & E2). congruence.
  - intros k v p m tk t t' HK J IH H IH' m' t1 r r' H1 E. rewrite <- !app_assoc in E. cbn [app] in E. rewrite <- !app_assoc in E. cbn [app] in E.
    destruct H1 as [|k1 v1 tk1 t1 HK1 J1|k1 v1 p1 m1 tk1 t1 t2 HK1 J1 H1].
    + exfalso. destruct HK as (i & _ & ->). cbn [app] in E. congruence.
    + exfalso. rewrite <- !app_assoc in E. cbn [app] in E. destruct (string_prefix _ _ _ _ _ _ HK HK1 E) as (-> & -> & E'). injection E' as E'.
      destruct (IH _ _ _ _ J1 (D44 _) (D125 r') E') as (_ & _ & E2). congruence.
    + rewrite <- !app_assoc in E. cbn [app] in E. rewrite <- !app_assoc in E. cbn [app] in E.
      destruct (string_prefix _ _ _ _ _ _ HK HK1 E) as (-> & -> & E'). injection E' as E'.
      destruct (IH _ _ _ _ J1 (D44 _) (D44 _) E') as (-> & -> & E2). injection E2 as E2.
      destruct (IH' _ _ _ _ H1 E2) as (E3 & -> & ->). injection E3 as -> ->. auto.
Qed.

Lemma json_unambiguous : forall v v' t, json v t -> json v' t -> v = v'.
Proof.
  intros v v' t H H'. destruct (json_prefix _ _ H v' t [] [] H' I I eq_refl) as (E & _). exact E.
Qed.

(** ** UTF-8 *)

Lemma utf8_app : forall a b, utf8 a -> utf8 b -> utf8 (a ++ b).
Proof.
  intros a b H Hb. induction H; cbn [app]; [exact Hb| | | |]; constructor; assumption.
Qed.
Lemma utf8_ascii : forall t, Forall (fun c => c < 128) t -> utf8 t.
Proof. intros t H. induction H; constructor; assumption. Qed.

(** Characters from 128 on stand for themselves. *)
Lemma chars_high : forall t c s, json_chars t (c :: s) -> 128 <= c -> exists t', t = c :: t' /\ json_chars t' s.
Proof.
  intros t c s H Hc. remember (c :: s) as l eqn:E.
  destruct H as [|c0 t0 s0 A B C D|x c0 t0 s0 HI D|a b c0 d va vb vc vd t0 s0 Ha Hb Hc' Hd HL D]; [discriminate| | |].
  - exists t0. assert (c0 = c) as -> by congruence. assert (s0 = s) as -> by congruence. auto.
  - exfalso. assert (c0 = c) as -> by congruence. unfold short_escapes in HI. cbn [In] in HI.
    repeat match goal with H : _ \/ _ |- _ => destruct H as [H|H] end; try contradiction; assert (c < 128) by (injection HI as _ <-; lia); lia.
  - exfalso. apply (f_equal (hd 0)) in E. cbn [hd] in E. lia.
Qed.

Lemma chars_low : forall t c s, json_chars t (c :: s) -> c < 128 -> exists a t', t = a ++ t' /\ Forall (fun c => c < 128) a /\ json_chars t' s.
Proof.
  intros t c s H Hc. assert (HX : forall x v, hex_value x v -> x < 128) by (intros x v; unfold hex_value; lia).
  remember (c :: s) as l eqn:E.
  destruct H as [|c0 t0 s0 A B C D|x c0 t0 s0 HI D|a b c0 d va vb vc vd t0 s0 Ha Hb Hc' Hd HL D]; [discriminate| | |];
    assert (s0 = s) as -> by congruence.
  - assert (c0 = c) as -> by congruence. exists [c], t0. split; [reflexivity|]. split; [constructor; [exact Hc|constructor]|exact D].
  - exists [92; x], t0. split; [reflexivity|]. split; [|exact D]. constructor; [lia|]. constructor; [|constructor].
    unfold short_escapes in HI. cbn [In] in HI.
    repeat match goal with H : _ \/ _ |- _ => destruct H as [H|H] end; try contradiction; injection HI as <- _; lia.
  - exists [92; 117; a; b; c0; d], t0. split; [reflexivity|]. split; [|exact D].
    repeat (constructor; [first [lia|eapply HX; eassumption]|]). constructor.
Qed.

Lemma chars_utf8 : forall s, utf8 s -> forall t, json_chars t s -> utf8 t.
Proof.
  intros s H. induction H as [|a s Ha _ IH|a b s Ha Hb _ IH|a b c s Ha Hb Hc X Y _ IH|a b c d s Ha Hb Hc Hd X Y _ IH]; intros t J;
    unfold tail_byte in *.
  - inversion J. constructor.
  - destruct (chars_low _ _ _ J Ha) as (x & t' & -> & HA & J'). apply utf8_app; [apply utf8_ascii; exact HA|apply IH; exact J'].
  - destruct (chars_high _ _ _ J) as (t1 & -> & J1); [lia|]. destruct (chars_high _ _ _ J1) as (t2 & -> & J2); [lia|].
    apply u8_2; [lia|exact Hb|apply IH; exact J2].
  - destruct (chars_high _ _ _ J) as (t1 & -> & J1); [lia|]. destruct (chars_high _ _ _ J1) as (t2 & -> & J2); [lia|].
    destruct (chars_high _ _ _ J2) as (t3 & -> & J3); [lia|].
    apply u8_3; try assumption. apply IH; exact J3.
  - destruct (chars_high _ _ _ J) as (t1 & -> & J1); [lia|]. destruct (chars_high _ _ _ J1) as (t2 & -> & J2); [lia|].
    destruct (chars_high _ _ _ J2) as (t3 & -> & J3); [lia|]. destruct (chars_high _ _ _ J3) as (t4 & -> & J4); [lia|].
    apply u8_4; try assumption. apply IH; exact J4.
Qed.

Lemma string_utf8 : forall s t, json_string s t -> utf8 s -> utf8 t.
Proof.
  intros s t (i & J & ->) H. apply u8_1; [lia|]. apply utf8_app; [exact (chars_utf8 s H i J)|]. apply u8_1; [lia|constructor].
Qed.

Lemma json_utf8 : forall v t, json v t -> Forall utf8 (jv_strings v) -> utf8 t.
Proof.
  apply (json_ind' (fun v t _ => Forall utf8 (jv_strings v) -> utf8 t)
    (fun l t _ => Forall utf8 (flat_map jv_strings l) -> utf8 t)
    (fun m t _ => Forall utf8 (flat_map (fun p => fst p :: jv_strings (snd p)) m) -> utf8 t)).
  - intros n t (D & _) _. apply utf8_ascii. eapply Forall_impl; [|exact D]. cbv beta. unfold digit. intros; lia.
  - intros s t J H. cbn [jv_strings] in H. inversion H; subst. eapply string_utf8; eassumption.
  - intros l t _ IH H. apply u8_1; [lia|]. apply utf8_app; [apply IH; exact H|]. apply u8_1; [lia|constructor].
  - intros m t _ IH H. apply u8_1; [lia|]. apply utf8_app; [apply IH; exact H|]. apply u8_1; [lia|constructor].
  - constructor.
  - intros v t _ IH H. cbn [flat_map] in H. rewrite app_nil_r in H. apply IH. exact H.
  - intros v w l t t' _ IH _ IH' H. change (flat_map jv_strings (v :: w :: l)) with (jv_strings v ++ flat_map jv_strings (w :: l)) in H.
    apply Forall_app in H. destruct H as [H1 H2]. apply utf8_app; [apply IH; exact H1|]. apply u8_1; [lia|]. apply IH'. exact H2.
  - constructor.
  - intros k v tk t HK _ IH H. cbn [flat_map fst snd] in H. rewrite app_nil_r in H. inversion H; subst.
    apply utf8_app; [eapply string_utf8; eassumption|]. apply u8_1; [lia|]. apply IH. assumption.
  - intros k v p m tk t t' HK _ IH _ IH' H. cbn [flat_map fst snd] in H.
    inversion H as [|? ? H1 H2]; subst. apply Forall_app in H2. destruct H2 as [H2 H3].
    apply utf8_app; [eapply string_utf8; eassumption|]. apply u8_1; [lia|].
    apply utf8_app; [apply IH; exact H2|]. apply u8_1; [lia|]. apply IH'. exact H3.
Qed.

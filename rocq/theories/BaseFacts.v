(** Elementary facts about [Base]: byte sweeps, order, prefixes. *)
From Verif Require Import Base.

Definition all_bytes : list N := map N.of_nat (seq 0 256).

Lemma byte_sweep : forall P : N -> bool,
  forallb P all_bytes = true -> forall b, b < 256 -> P b = true.
Proof.
  intros P H b Hb.
  rewrite forallb_forall in H. apply H.
  unfold all_bytes. apply in_map_iff. exists (N.to_nat b).
  split; [lia|]. apply in_seq. lia.
Qed.

Lemma land_127 : forall b, N.land b 127 = b mod 128.
Proof. intro b. change 127 with (N.ones 7). rewrite N.land_ones. reflexivity. Qed.

Lemma land_128_lt : forall b, b < 256 -> (N.land b 128 =? 0) = (b <? 128).
Proof.
  intros b Hb.
  apply (byte_sweep (fun b => Bool.eqb (N.land b 128 =? 0) (b <? 128))) in Hb.
  - apply eqb_prop in Hb. exact Hb.
  - vm_compute. reflexivity.
Qed.

Lemma lor_128_lt : forall b, b < 128 -> N.lor b 128 = b + 128.
Proof.
  intros b Hb.
  assert (Hb' : b < 256) by lia.
  apply (byte_sweep (fun b => implb (b <? 128) (N.lor b 128 =? b + 128))) in Hb'.
  - apply N.ltb_lt in Hb. rewrite Hb in Hb'. cbn [implb] in Hb'. apply N.eqb_eq. exact Hb'.
  - vm_compute. reflexivity.
Qed.

Lemma lor_shiftl_add : forall a b s, a < 2 ^ s -> N.lor a (N.shiftl b s) = a + b * 2 ^ s.
Proof.
  intros a b s Ha.
  assert (Hd : N.land a (N.shiftl b s) = 0).
  { apply N.bits_inj. intro n. rewrite N.land_spec, N.bits_0.
    destruct (N.ltb_spec n s) as [Hn|Hn].
    - rewrite N.shiftl_spec_low by exact Hn. apply andb_false_r.
    - destruct (N.eq_dec a 0) as [->|Hz]; [reflexivity|].
      rewrite (N.bits_above_log2 a n); [reflexivity|].
      apply N.log2_lt_pow2; [lia|].
      eapply N.lt_le_trans; [exact Ha|]. apply N.pow_le_mono_r; lia. }
  rewrite <- N.lxor_lor by exact Hd.
  rewrite <- N.add_nocarry_lxor by exact Hd.
  rewrite N.shiftl_mul_pow2. reflexivity.
Qed.

(** ** Order on byte strings *)

Lemma bytes_compare_refl : forall a, bytes_compare a a = Eq.
Proof. induction a as [|x a IH]; cbn; [reflexivity|]. rewrite N.compare_refl. exact IH. Qed.

Lemma bytes_compare_eq : forall a b, bytes_compare a b = Eq <-> a = b.
Proof.
  induction a as [|x a IH]; intros [|y b]; cbn; try (split; congruence).
  destruct (N.compare_spec x y) as [->|H|H].
  - rewrite IH. split; congruence.
  - split; [congruence|]. intro E; inversion E; lia.
  - split; [congruence|]. intro E; inversion E; lia.
Qed.

Lemma bytes_compare_antisym : forall a b, bytes_compare b a = CompOpp (bytes_compare a b).
Proof.
  induction a as [|x a IH]; intros [|y b]; cbn; try reflexivity.
  rewrite N.compare_antisym. destruct (x ?= y); cbn; auto.
Qed.

Lemma blt_trans : forall a b c, blt a b = true -> blt b c = true -> blt a c = true.
Proof.
  unfold blt.
  induction a as [|x a IH]; intros [|y b] [|z c]; cbn; try congruence.
  destruct (N.compare_spec x y) as [->|H|H]; try congruence;
  destruct (N.compare_spec y z) as [->|H'|H']; try congruence.
  - intros. eapply IH; eauto.
  - intros _ _. destruct (N.compare_spec x z); (reflexivity || lia).
  - intros _ _. destruct (N.compare_spec x z); (reflexivity || lia).
Qed.

Lemma blt_irrefl : forall a, blt a a = false.
Proof. intro a. unfold blt. rewrite bytes_compare_refl. reflexivity. Qed.

Lemma ble_lteq : forall a b, ble a b = true <-> blt a b = true \/ a = b.
Proof.
  intros a b. unfold ble, blt. destruct (bytes_compare a b) eqn:E.
  - apply bytes_compare_eq in E. split; auto.
  - split; auto.
  - split; [congruence|]. intros [H|H]; [congruence|].
    subst b. rewrite bytes_compare_refl in E. congruence.
Qed.

Lemma ble_refl : forall a, ble a a = true.
Proof. intro a. apply ble_lteq. auto. Qed.

Lemma ble_trans : forall a b c, ble a b = true -> ble b c = true -> ble a c = true.
Proof.
  intros a b c. rewrite !ble_lteq. intros [H| ->] [H'| <-]; auto.
  left. eapply blt_trans; eauto.
Qed.

Lemma ble_blt_trans : forall a b c, ble a b = true -> blt b c = true -> blt a c = true.
Proof. intros a b c. rewrite !ble_lteq. intros [H| ->] H'; [eapply blt_trans; eauto | exact H']. Qed.

Lemma blt_ble_trans : forall a b c, blt a b = true -> ble b c = true -> blt a c = true.
Proof. intros a b c. rewrite !ble_lteq. intros H [H'| <-]; [eapply blt_trans; eauto | exact H]. Qed.

Lemma blt_ble : forall a b, blt a b = true -> ble a b = true.
Proof. intros. apply ble_lteq. auto. Qed.

Lemma ble_not_blt : forall a b, ble a b = negb (blt b a).
Proof.
  intros. unfold ble, blt. rewrite (bytes_compare_antisym a b).
  destruct (bytes_compare a b); reflexivity.
Qed.

Lemma blt_not_ble : forall a b, blt a b = negb (ble b a).
Proof. intros. rewrite ble_not_blt. destruct (blt a b); reflexivity. Qed.

Lemma beq_true : forall a b, beq a b = true <-> a = b.
Proof.
  intros. unfold beq. rewrite <- bytes_compare_eq.
  destruct (bytes_compare a b); split; congruence.
Qed.

Lemma blt_neq : forall a b, blt a b = true -> a <> b.
Proof. intros a b H ->. rewrite blt_irrefl in H. discriminate. Qed.

Lemma ble_antisym : forall a b, ble a b = true -> ble b a = true -> a = b.
Proof.
  intros a b. rewrite !ble_lteq. intros [H|H] [H'|H']; auto.
  pose proof (blt_trans _ _ _ H H') as C. rewrite blt_irrefl in C. discriminate.
Qed.

Lemma bytes_compare_app : forall p a b, bytes_compare (p ++ a) (p ++ b) = bytes_compare a b.
Proof. induction p as [|x p IH]; intros a b; cbn; [reflexivity|]. rewrite N.compare_refl. apply IH. Qed.

Lemma blt_app : forall p a b, blt (p ++ a) (p ++ b) = blt a b.
Proof. intros. unfold blt. rewrite bytes_compare_app. reflexivity. Qed.

Lemma ble_app : forall p a b, ble (p ++ a) (p ++ b) = ble a b.
Proof. intros. unfold ble. rewrite bytes_compare_app. reflexivity. Qed.

Lemma ble_nil : forall a, ble [] a = true.
Proof. destruct a; reflexivity. Qed.

Lemma ble_prefix : forall a b, ble a (a ++ b) = true.
Proof. intros. rewrite <- (app_nil_r a) at 1. rewrite ble_app. apply ble_nil. Qed.

(** ** Prefixes *)

Lemma is_prefix_app : forall p l, is_prefix p (p ++ l) = true.
Proof. induction p as [|x p IH]; intro l; cbn; [reflexivity|]. rewrite N.eqb_refl. apply IH. Qed.

Lemma is_prefix_spec : forall p l, is_prefix p l = true <-> exists s, l = p ++ s.
Proof.
  induction p as [|x p IH]; intro l.
  - cbn. split; eauto.
  - destruct l as [|y l]; cbn.
    + split; [congruence|]. intros [s Hs]. discriminate.
    + rewrite andb_true_iff, N.eqb_eq, IH. split.
      * intros [-> [s ->]]. eauto.
      * intros [s Hs]. inversion Hs; subst. eauto.
Qed.

Lemma is_prefix_firstn : forall p l, is_prefix p l = true -> firstn (length p) l = p.
Proof.
  intros p l H. apply is_prefix_spec in H. destruct H as [s ->].
  rewrite firstn_app, Nat.sub_diag, firstn_all. cbn. apply app_nil_r.
Qed.

Lemma is_prefix_len : forall p l, is_prefix p l = true -> (length p <= length l)%nat.
Proof. intros p l H. apply is_prefix_spec in H. destruct H as [s ->]. rewrite app_length. lia. Qed.

Lemma is_prefix_trans : forall a b c,
  is_prefix a b = true -> is_prefix b c = true -> is_prefix a c = true.
Proof.
  intros a b c H H'. apply is_prefix_spec in H. apply is_prefix_spec in H'.
  destruct H as [s ->]. destruct H' as [s' ->]. rewrite <- app_assoc. apply is_prefix_app.
Qed.

Lemma is_prefix_ble : forall p l, is_prefix p l = true -> ble p l = true.
Proof. intros p l H. apply is_prefix_spec in H. destruct H as [s ->]. apply ble_prefix. Qed.

(** ** Bytes *)

Lemma bytes_ok_app : forall a b, bytes_ok (a ++ b) <-> bytes_ok a /\ bytes_ok b.
Proof. intros. unfold bytes_ok. apply Forall_app. Qed.

Lemma bytes_ok_firstn : forall n a, bytes_ok a -> bytes_ok (firstn n a).
Proof. intros n a H. rewrite <- (firstn_skipn n a) in H. apply bytes_ok_app in H. tauto. Qed.

Lemma bytes_ok_skipn : forall n a, bytes_ok a -> bytes_ok (skipn n a).
Proof. intros n a H. rewrite <- (firstn_skipn n a) in H. apply bytes_ok_app in H. tauto. Qed.

Lemma skipn_app_len : forall (A : Type) (a b : list A), skipn (length a) (a ++ b) = b.
Proof. intros. rewrite skipn_app, skipn_all, Nat.sub_diag. reflexivity. Qed.

Lemma firstn_app_len : forall (A : Type) (a b : list A), firstn (length a) (a ++ b) = a.
Proof. intros. rewrite firstn_app, firstn_all, Nat.sub_diag. cbn. apply app_nil_r. Qed.

(** Facts about wire-format names and the libwdns model. *)
From Verif Require Import Base BaseFacts ModelWdns SpecName.

Lemma enc_labels_app : forall a b, enc_labels (a ++ b) = enc_labels a ++ enc_labels b.
Proof. intros. apply flat_map_app. Qed.

Lemma wire_cons : forall l ls, wire (l :: ls) = blen l :: l ++ wire ls.
Proof. intros. unfold wire. cbn [enc_labels flat_map]. rewrite <- app_assoc. reflexivity. Qed.

Lemma wire_nil : wire [] = [0].
Proof. reflexivity. Qed.

Lemma wire_nonempty : forall ls, (1 <= length (wire ls))%nat.
Proof. intro ls. unfold wire. rewrite app_length. cbn. lia. Qed.

Lemma length_enc_rev : forall ls, length (enc_labels (rev ls)) = length (enc_labels ls).
Proof.
  induction ls as [|l ls IH]; [reflexivity|]. cbn [rev]. rewrite enc_labels_app, app_length, IH.
  change (enc_labels (l :: ls)) with (blen l :: l ++ enc_labels ls). change (enc_labels [l]) with (blen l :: l ++ []). rewrite app_nil_r. cbn [length]. rewrite !app_length. lia.
Qed.

Lemma length_rwire : forall ls, length (rwire ls) = length (wire ls).
Proof. intro ls. unfold rwire, wire. rewrite !app_length, length_enc_rev. reflexivity. Qed.

Lemma name_ok_rev : forall ls, name_ok ls -> name_ok (rev ls).
Proof.
  intros ls [H L]. split; [apply Forall_rev; exact H|]. change (wire (rev ls)) with (rwire ls).
  rewrite length_rwire. exact L.
Qed.

Lemma name_ok_cons : forall l ls, name_ok (l :: ls) -> label_ok l /\ name_ok ls.
Proof.
  intros l ls [H L]. inversion H; subst. split; [assumption|]. split; [assumption|].
  rewrite wire_cons in L. cbn [length] in L. rewrite app_length in L. lia.
Qed.

Lemma enc_labels_bytes_ok : forall ls, Forall label_ok ls -> bytes_ok (enc_labels ls).
Proof.
  induction 1 as [|l ls [Hl Hb] H IH]; [constructor|]. cbn [enc_labels flat_map].
  rewrite <- app_comm_cons. constructor; [unfold byte_ok, blen; lia|]. apply bytes_ok_app. split; assumption.
Qed.

Lemma wire_bytes_ok : forall ls, Forall label_ok ls -> bytes_ok (wire ls).
Proof.
  intros ls H. apply bytes_ok_app. split; [apply enc_labels_bytes_ok; exact H|].
  constructor; [unfold byte_ok; lia|constructor].
Qed.

Lemma skipn_blen : forall (l : bytes) rest, skipn (N.to_nat (blen l)) (l ++ rest) = rest.
Proof. intros. unfold blen. rewrite Nnat.Nat2N.id. apply skipn_app_len. Qed.
Lemma firstn_blen : forall (l : bytes) rest, firstn (N.to_nat (blen l)) (l ++ rest) = l.
Proof. intros. unfold blen. rewrite Nnat.Nat2N.id. apply firstn_app_len. Qed.

(** Wire names are self-delimiting. *)
Lemma app_inj_len : forall (a a' b b' : bytes), length a = length a' -> a ++ b = a' ++ b' -> a = a' /\ b = b'.
Proof.
  induction a as [|x a IH]; intros [|y a'] b b' HL E; cbn in *; try discriminate; [split; auto|].
  inversion E; subst. inversion HL. destruct (IH a' b b'); auto. subst. split; reflexivity.
Qed.

Lemma wire_prefix_inj : forall a b x y, Forall label_ok a -> Forall label_ok b ->
  wire a ++ x = wire b ++ y -> a = b /\ x = y.
Proof.
  induction a as [|l a IH]; intros [|m b] x y Ha Hb E.
  - cbn in E. inversion E. split; reflexivity.
  - exfalso. rewrite wire_cons, wire_nil in E. cbn [app] in E. inversion E as [[E1 E2]].
    inversion Hb as [|? ? [Hm _] _]; subst. unfold blen in E1. lia.
  - exfalso. rewrite wire_cons, wire_nil in E. cbn [app] in E. inversion E as [[E1 E2]].
    inversion Ha as [|? ? [Hm _] _]; subst. unfold blen in E1. lia.
  - rewrite !wire_cons in E. cbn [app] in E. inversion E as [[E1 E2]]. rewrite <- !app_assoc in E2.
    apply app_inj_len in E2; [|unfold blen in E1; lia]. destruct E2 as [-> E2].
    inversion Ha; inversion Hb; subst. destruct (IH b x y) as [-> ->]; auto.
Qed.

Lemma wire_inj : forall a b, Forall label_ok a -> Forall label_ok b -> wire a = wire b -> a = b.
Proof.
  intros a b Ha Hb E. apply (wire_prefix_inj a b [] []); auto. rewrite E. reflexivity.
Qed.

(** ** wdns_len_uname *)

Lemma len_uname_loop_wire : forall ls acc rest fuel, Forall label_ok ls ->
  acc + N.of_nat (length (wire ls)) <= 255 -> (length (wire ls ++ rest) < fuel)%nat ->
  len_uname_loop fuel acc (wire ls ++ rest) = Ok (N.to_nat acc + length (wire ls))%nat.
Proof.
  induction ls as [|l ls IH]; intros acc rest fuel H HL Hf.
  - destruct fuel; [lia|]. cbn [wire enc_labels flat_map app len_uname_loop]. cbn [N.eqb].
    cbn [length wire enc_labels flat_map app] in *. unfold WDNS_MAXLEN_NAME.
    destruct (N.leb_spec (acc + 1) 255); [|lia]. f_equal. lia.
  - inversion H as [|? ? [Hl Hb] Hls]; subst. rewrite wire_cons in *. destruct fuel as [|fuel]; [lia|].
    cbn [app len_uname_loop length] in *. rewrite app_length in HL.
    destruct (N.eqb_spec (blen l) 0); [unfold blen in *; lia|].
    unfold WDNS_MAXLEN_LABEL, WDNS_MAXLEN_NAME.
    destruct (N.ltb_spec 63 (blen l)); [unfold blen in *; lia|].
    destruct (N.ltb_spec 255 (acc + 1 + blen l)); [unfold blen in *; lia|].
    rewrite <- app_assoc, skipn_blen. rewrite IH; [|assumption|unfold blen; lia|].
    + f_equal. rewrite app_length. unfold blen. lia.
    + rewrite <- app_assoc, app_length in Hf. lia.
Qed.

Lemma len_uname_wire : forall ls rest, name_ok ls ->
  wdns_len_uname (wire ls ++ rest) = Ok (length (wire ls)).
Proof.
  intros ls rest [H L]. unfold wdns_len_uname. rewrite len_uname_loop_wire; auto; lia.
Qed.

(** The converse: what [wdns_len_uname] accepts is a wire name (label bytes
    need not be checked). *)
Lemma len_uname_loop_inv : forall fuel acc l n, len_uname_loop fuel acc l = Ok n ->
  exists ls rest, l = wire ls ++ rest /\ n = (N.to_nat acc + length (wire ls))%nat /\
    Forall (fun x : bytes => (1 <= length x <= 63)%nat) ls /\ acc + N.of_nat (length (wire ls)) <= 255.
Proof.
  induction fuel as [|fuel IH]; intros acc l n H; [discriminate|]. cbn [len_uname_loop] in H.
  destruct l as [|c l]; [discriminate|].
  destruct (N.eqb_spec c 0) as [->|Hc].
  - destruct (N.leb_spec (acc + 1) WDNS_MAXLEN_NAME) as [Hle|]; [|discriminate]. inversion H; subst.
    exists [], l. unfold WDNS_MAXLEN_NAME in Hle.
    split; [reflexivity|]. split; [cbn; lia|]. split; [constructor|cbn; lia].
  - destruct (N.ltb_spec WDNS_MAXLEN_LABEL c) as [|H63]; [discriminate|].
    destruct (N.ltb_spec WDNS_MAXLEN_NAME (acc + 1 + c)) as [|H255]; [discriminate|].
    assert (Hlen : (N.to_nat c <= length l)%nat).
    { destruct (Nat.le_gt_cases (N.to_nat c) (length l)) as [|Hgt]; [assumption|].
      rewrite skipn_all2 in H by lia. destruct fuel; discriminate. }
    apply IH in H. destruct H as (ls & rest & E & -> & HF & HL). unfold WDNS_MAXLEN_LABEL in H63.
    assert (Hfl : length (firstn (N.to_nat c) l) = N.to_nat c) by (rewrite firstn_length; lia).
    exists (firstn (N.to_nat c) l :: ls), rest. rewrite wire_cons.
    split; [|split; [|split]].
    + cbn [app]. rewrite <- app_assoc, <- E, firstn_skipn. f_equal. unfold blen. lia.
    + cbn [length]. rewrite app_length. lia.
    + constructor; [lia|exact HF].
    + cbn [length]. rewrite app_length. lia.
Qed.

Lemma len_uname_inv : forall l n, wdns_len_uname l = Ok n ->
  exists ls rest, l = wire ls ++ rest /\ n = length (wire ls) /\
    Forall (fun x : bytes => (1 <= length x <= 63)%nat) ls /\ (length (wire ls) <= 255)%nat.
Proof.
  intros l n H. apply len_uname_loop_inv in H. destruct H as (ls & rest & E & -> & HF & HL).
  exists ls, rest. repeat split; auto; lia.
Qed.

Lemma len_uname_loop_not_ub : forall fuel acc l, len_uname_loop fuel acc l = Fail \/ exists n, len_uname_loop fuel acc l = Ok n.
Proof.
  induction fuel as [|fuel IH]; intros acc l; [left; reflexivity|]. cbn [len_uname_loop].
  destruct l as [|c l]; [left; reflexivity|]. destruct (c =? 0).
  - destruct (_ <=? _); [right; eauto|left; reflexivity].
  - destruct (_ <? _); [left; reflexivity|]. destruct (_ <? _); [left; reflexivity|]. apply IH.
Qed.

Lemma len_uname_total : forall l, wdns_len_uname l = Fail \/ exists n, wdns_len_uname l = Ok n.
Proof. intro l. apply len_uname_loop_not_ub. Qed.

(** ** wdns_reverse_name *)

Lemma reverse_loop_wire : forall ls rest fuel total len acc,
  Forall (fun x : bytes => (1 <= length x)%nat) ls ->
  total + N.of_nat (length (wire ls)) = len -> (length (wire ls ++ rest) < fuel)%nat ->
  reverse_name_loop fuel (wire ls ++ rest) total len acc = Ok (enc_labels (rev ls) ++ acc).
Proof.
  induction ls as [|l ls IH]; intros rest fuel total len acc H HL Hf.
  - destruct fuel; [lia|]. cbn [wire enc_labels flat_map app reverse_name_loop N.eqb rev].
    cbn [length wire enc_labels flat_map app] in HL.
    destruct (N.eqb_spec (total + 1) len); [reflexivity|lia].
  - inversion H; subst. rewrite wire_cons in *. destruct fuel as [|fuel]; [lia|].
    cbn [app reverse_name_loop length] in *.
    assert (Hblen : blen (l ++ wire ls) = blen l + N.of_nat (length (wire ls))) by (unfold blen; rewrite app_length; lia).
    pose proof (wire_nonempty ls).
    destruct (N.eqb_spec (blen l) 0); [unfold blen in *; lia|].
    rewrite app_length.
    destruct (N.ltb_spec (total + N.of_nat (S (length l + length (wire ls)))) (total + (blen l + 1))); [unfold blen in *; lia|].
    destruct (N.eqb_spec (total + (blen l + 1)) (total + N.of_nat (S (length l + length (wire ls))))); [unfold blen in *; lia|].
    rewrite <- app_assoc.
    destruct (N.ltb_spec (blen (l ++ wire ls ++ rest)) (blen l)) as [Hc|_]; [unfold blen in Hc; rewrite app_length in Hc; lia|].
    rewrite skipn_blen, firstn_blen. rewrite IH.
    + f_equal. cbn [rev]. rewrite enc_labels_app. cbn [enc_labels flat_map].
      rewrite app_nil_r, <- !app_assoc. reflexivity.
    + assumption.
    + unfold blen. lia.
    + rewrite <- app_assoc, app_length in Hf. lia.
Qed.

Lemma reverse_wire_gen : forall ls rest, Forall (fun x : bytes => (1 <= length x)%nat) ls ->
  wdns_reverse_name (wire ls ++ rest) (N.of_nat (length (wire ls))) = Ok (wire (rev ls)).
Proof.
  intros ls rest H. unfold wdns_reverse_name. pose proof (wire_nonempty ls).
  destruct (N.eqb_spec (N.of_nat (length (wire ls))) 0); [lia|].
  rewrite reverse_loop_wire; auto; lia.
Qed.

Lemma label_ok_nonempty : forall ls, Forall label_ok ls -> Forall (fun x : bytes => (1 <= length x)%nat) ls.
Proof. intros ls H. eapply Forall_impl; [|exact H]. intros l [? _]. lia. Qed.

Lemma reverse_wire : forall ls rest, Forall label_ok ls ->
  wdns_reverse_name (wire ls ++ rest) (N.of_nat (length (wire ls))) = Ok (rwire ls).
Proof. intros. apply reverse_wire_gen. apply label_ok_nonempty. assumption. Qed.

Lemma reverse_rwire : forall ls rest, Forall label_ok ls ->
  wdns_reverse_name (rwire ls ++ rest) (N.of_nat (length (wire ls))) = Ok (wire ls).
Proof.
  intros ls rest H. rewrite <- length_rwire. unfold rwire. rewrite reverse_wire by (apply Forall_rev; exact H).
  unfold rwire. rewrite rev_involutive. reflexivity.
Qed.

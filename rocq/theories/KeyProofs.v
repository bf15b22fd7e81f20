(** Proofs about seek keys: increment_key and filter_single_label. *)
From Verif Require Import Base BaseFacts ModelIter SpecIter IterProofs ModelQuery.

Lemma incr_rev_spec : forall l, bytes_ok l ->
  (exists m b A, l = repeat 255 m ++ b :: A /\ b < 255 /\ incr_rev l = (true, repeat 0 m ++ (b + 1) :: A)) \/
  (l = repeat 255 (length l) /\ incr_rev l = (false, repeat 0 (length l))).
Proof.
  induction l as [|b l IH]; intro H; [right; split; reflexivity|].
  inversion H as [|? ? Hb Hl]; subst. unfold byte_ok in Hb. cbn [incr_rev].
  destruct (N.eqb_spec ((b + 1) mod 256) 0) as [E|E].
  - assert (b = 255) by lia. subst b. destruct (IH Hl) as [(m & b & A & -> & Hlt & E2)|[E1 E2]].
    + left. exists (S m), b, A. rewrite E2. repeat split; auto.
    + right. rewrite E2. cbn [length repeat]. split; [f_equal; exact E1|reflexivity].
  - left. exists O, b, l. cbn [repeat app]. replace ((b + 1) mod 256) with (b + 1) by lia.
    split; [reflexivity|]. split; [lia|reflexivity].
Qed.

Lemma rev_repeat : forall (A : Type) (x : A) n, rev (repeat x n) = repeat x n.
Proof.
  intros A x n. induction n as [|n IH]; [reflexivity|]. cbn [repeat rev]. rewrite IH.
  clear IH. induction n as [|n IH]; [reflexivity|]. cbn [repeat app]. f_equal. exact IH.
Qed.

(** [succ_of P S]: [S] is [P] with the last byte that is not 255 incremented and
    the following ones cleared. *)
Definition succ_of (P S : bytes) : Prop :=
  exists A b m, P = A ++ b :: repeat 255 m /\ b < 255 /\ S = A ++ (b + 1) :: repeat 0 m.

Lemma increment_key_spec : forall key pos, bytes_ok key -> (pos < length key)%nat ->
  (exists S, succ_of (firstn (Datatypes.S pos) key) S /\
     increment_key key pos = Ok (true, S ++ skipn (Datatypes.S pos) key)) \/
  (Forall (eq 255) (firstn (Datatypes.S pos) key) /\
     increment_key key pos = Ok (false, repeat 0 (Datatypes.S pos) ++ skipn (Datatypes.S pos) key)).
Proof.
  intros key pos Hok Hp. unfold increment_key. destruct (Nat.ltb_spec pos (length key)) as [_|]; [|lia].
  set (P := firstn (S pos) key). assert (HP : bytes_ok P) by (apply bytes_ok_firstn; exact Hok).
  assert (LP : length P = S pos) by (unfold P; rewrite firstn_length; lia).
  assert (HR : bytes_ok (rev P)) by (apply Forall_rev; exact HP).
  destruct (incr_rev_spec _ HR) as [(m & b & A & E & Hb & EI)|[E EI]]; rewrite EI.
  - left. exists (rev (repeat 0 m ++ (b + 1) :: A)). split; [|reflexivity].
    exists (rev A), b, m. rewrite rev_app_distr. cbn [rev]. rewrite rev_repeat.
    split; [|split; [exact Hb|rewrite <- app_assoc; reflexivity]].
    rewrite <- (rev_involutive P), E, rev_app_distr. cbn [rev]. rewrite rev_repeat, <- app_assoc. reflexivity.
  - right. rewrite rev_length, LP in E, EI |- *. split.
    + rewrite <- (rev_involutive P), E, rev_repeat. clear. induction (S pos); cbn; constructor; auto.
    + rewrite rev_repeat. reflexivity.
Qed.

Lemma succ_length : forall P S, succ_of P S -> length S = length P.
Proof. intros P S (A & b & m & -> & _ & ->). rewrite !app_length. cbn. rewrite !repeat_length. reflexivity. Qed.

Lemma compare_app_head : forall A a b, bytes_compare (A ++ a) (A ++ b) = bytes_compare a b.
Proof. induction A as [|x A IH]; intros; [reflexivity|]. cbn. rewrite N.compare_refl. apply IH. Qed.
Lemma blt_app_head : forall A a b, blt (A ++ a) (A ++ b) = blt a b.
Proof. intros. unfold blt. rewrite compare_app_head. reflexivity. Qed.
Lemma ble_app_head : forall A a b, ble (A ++ a) (A ++ b) = ble a b.
Proof. intros. unfold ble. rewrite compare_app_head. reflexivity. Qed.
Lemma prefix_app_head : forall A a b, is_prefix (A ++ a) (A ++ b) = is_prefix a b.
Proof. induction A as [|x A IH]; intros; [reflexivity|]. cbn. rewrite N.eqb_refl. apply IH. Qed.

Lemma blt_cons : forall x y a b, blt (x :: a) (y :: b) = true <-> x < y \/ (x = y /\ blt a b = true).
Proof.
  intros. unfold blt. cbn. destruct (N.compare_spec x y) as [->|H|H].
  - split; [auto|]. intros [H|[_ H]]; [lia|auto].
  - split; [auto|]. intros _. reflexivity.
  - split; [discriminate|]. intros [H'|[H' _]]; lia.
Qed.
Lemma ble_cons : forall x y a b, ble (x :: a) (y :: b) = true <-> x < y \/ (x = y /\ ble a b = true).
Proof.
  intros. unfold ble. cbn. destruct (N.compare_spec x y) as [->|H|H].
  - split; [auto|]. intros [H|[_ H]]; [lia|auto].
  - split; [auto|]. intros _. reflexivity.
  - split; [discriminate|]. intros [H'|[H' _]]; lia.
Qed.
Lemma blt_nil_r : forall a, blt a [] = false.
Proof. intros [|x a]; reflexivity. Qed.

Lemma succ_gt : forall P S rest rest', succ_of P S -> blt (P ++ rest) (S ++ rest') = true.
Proof.
  intros P S rest rest' (A & b & m & -> & _ & ->). rewrite <- !app_assoc, blt_app_head.
  apply blt_cons. left. lia.
Qed.

(** Nothing but extensions of [P] and proper prefixes of [S] lies between them. *)
Lemma below_zeros : forall m e, blt e (repeat 0 m) = true -> exists j, (j < m)%nat /\ e = repeat 0 j.
Proof.
  induction m as [|m IH]; intros e H; [rewrite blt_nil_r in H; discriminate|].
  destruct e as [|x e]; [exists O; split; [lia|reflexivity]|]. cbn [repeat] in H. apply blt_cons in H.
  destruct H as [H|[-> H]]; [lia|]. destruct (IH _ H) as (j & Hj & ->). exists (S j). split; [lia|reflexivity].
Qed.
Lemma above_ffs : forall m e, bytes_ok e -> ble (repeat 255 m) e = true -> is_prefix (repeat 255 m) e = true.
Proof.
  induction m as [|m IH]; intros e Hok H; [reflexivity|]. destruct e as [|x e]; [discriminate|].
  inversion Hok as [|? ? Hx He]; subst. unfold byte_ok in Hx. cbn [repeat] in *. apply ble_cons in H.
  destruct H as [H|[<- H]]; [lia|]. cbn. apply IH; auto.
Qed.

Lemma succ_between : forall P S e, succ_of P S -> bytes_ok e ->
  ble P e = true -> blt e S = true ->
  is_prefix P e = true \/
  (exists A b m j, P = A ++ b :: repeat 255 m /\ b < 255 /\ (j < m)%nat /\ e = A ++ (b + 1) :: repeat 0 j).
Proof.
  intros P S e (A & b & m & -> & Hb & ->) Hok HL HU. revert e Hok HL HU.
  enough (forall A' e, bytes_ok e -> ble (A ++ b :: repeat 255 m) e = true -> blt e (A ++ (b + 1) :: repeat 0 m) = true ->
    is_prefix (A ++ b :: repeat 255 m) e = true \/
    exists j, (j < m)%nat /\ A' ++ e = A' ++ A ++ (b + 1) :: repeat 0 j) as G.
  { intros e Hok HL HU. destruct (G [] e Hok HL HU) as [H|(j & Hj & E)]; [left; exact H|].
    right. exists A, b, m, j. auto. }
  intros A' e. revert A'. revert e. induction A as [|x A IH]; intros e A' Hok HL HU; cbn [app] in *.
  - destruct e as [|y e]; [discriminate|]. inversion Hok as [|? ? Hy He]; subst.
    apply ble_cons in HL. apply blt_cons in HU. destruct HL as [HL|[<- HL]].
    + destruct HU as [HU|[-> HU]]; [lia|]. destruct (below_zeros _ _ HU) as (j & Hj & ->).
      right. exists j. split; auto.
    + left. cbn. rewrite N.eqb_refl. cbn. apply above_ffs; auto.
  - destruct e as [|y e]; [discriminate|]. inversion Hok as [|? ? Hy He]; subst.
    apply ble_cons in HL. apply blt_cons in HU.
    destruct HL as [HL|[<- HL]]; [destruct HU as [HU|[HU _]]; lia|].
    destruct HU as [HU|[_ HU]]; [lia|].
    destruct (IH e (A' ++ [x]) He HL HU) as [H|(j & Hj & E)].
    + left. cbn. rewrite N.eqb_refl. exact H.
    + right. exists j. split; auto. rewrite <- !app_assoc in E. cbn [app] in E. exact E.
Qed.

(** The same with the rest of a longer key in place. *)
Lemma succ_between_app : forall P S X e, succ_of P S -> bytes_ok e ->
  ble P e = true -> blt e (S ++ X) = true ->
  is_prefix P e = true \/
  (exists A b m j, P = A ++ b :: repeat 255 m /\ b < 255 /\ (j < m)%nat /\ e = A ++ (b + 1) :: repeat 0 j) \/
  (exists r, e = S ++ r /\ blt r X = true).
Proof.
  intros P S X e HS Hok HL HU.
  destruct (blt e S) eqn:E.
  - destruct (succ_between P S e HS Hok HL E) as [H|H]; auto.
  - right. right. clear HL HS Hok. revert e HU E. induction S as [|x S IH]; intros e HU E.
    + exists e. auto.
    + destruct e as [|y e]; [discriminate|]. cbn [app] in HU. apply blt_cons in HU.
      destruct HU as [HU|[-> HU]].
      * exfalso. assert (blt (y :: e) (x :: S) = true) by (apply blt_cons; auto). congruence.
      * assert (E' : blt e S = false).
        { destruct (blt e S) eqn:E'; auto. assert (blt (x :: e) (x :: S) = true) by (apply blt_cons; auto). congruence. }
        destruct (IH e HU E') as (r & -> & Hr). exists r. auto.
Qed.

(** ** Reading at a position *)

Lemma rd_app1 : forall a b i, (i < length a)%nat -> rd (a ++ b) i = rd a i.
Proof. intros. unfold rd. rewrite nth_error_app1 by lia. reflexivity. Qed.
Lemma rd_app2 : forall a b i, (length a <= i)%nat -> rd (a ++ b) i = rd b (i - length a).
Proof. intros. unfold rd. rewrite nth_error_app2 by lia. reflexivity. Qed.
Lemma rd_inv : forall l i b, rd l i = Ok b -> (i < length l)%nat.
Proof. intros l i b H. unfold rd in H. apply nth_error_Some. destruct (nth_error l i); congruence. Qed.
Lemma rd_ok_ex : forall l i, (i < length l)%nat -> exists b, rd l i = Ok b.
Proof.
  intros l i H. unfold rd. destruct (nth_error l i) eqn:E; [eauto|]. apply nth_error_None in E. lia.
Qed.
Lemma rd_byte : forall l i b, bytes_ok l -> rd l i = Ok b -> b < 256.
Proof.
  intros l i b H E. unfold rd in E. destruct (nth_error l i) eqn:EN; [|discriminate]. inversion E; subst.
  apply nth_error_In in EN. rewrite (Forall_forall byte_ok) in H. apply H. exact EN.
Qed.
Lemma rd_firstn : forall l i n, (i < n)%nat -> rd (firstn n l) i = rd l i.
Proof.
  intros l i n. revert l i. induction n as [|n IH]; intros [|x l] i H; cbn [firstn]; try reflexivity; [lia|].
  destruct i as [|i]; [reflexivity|]. unfold rd in *. cbn. apply (IH l i). lia.
Qed.
Lemma rd_split : forall l i b, rd l i = Ok b -> l = firstn i l ++ b :: skipn (S i) l.
Proof.
  intros l i. revert l. induction i as [|i IH]; intros [|x l] b E; cbn in *; try discriminate; [congruence|].
  unfold rd in *. cbn in E. f_equal. apply IH. exact E.
Qed.
Lemma prefix_split : forall p l, is_prefix p l = true -> exists r, l = p ++ r.
Proof.
  intros p l H. exists (skipn (length p) l). apply is_prefix_spec in H. destruct H as (r & ->).
  rewrite skipn_app_len. reflexivity.
Qed.

(** ** filter_single_label *)

Definition matched (r : fres) : bool := match r with FMatch => true | _ => false end.

Lemma single_label_seek : forall K k next_len, K <> [] -> (hd 0 K < 255) -> is_prefix K k = true -> bytes_ok k ->
  (length K < next_len <= length k)%nat ->
  exists S, succ_of (firstn next_len k) S /\ seek_past k next_len = FSeek S.
Proof.
  intros K k n HK Hh HP Hok Hn. unfold seek_past.
  assert (L : length (firstn n k) = n) by (rewrite firstn_length; lia).
  destruct (increment_key_spec (firstn n k) (n - 1)) as [(S & HS & E)|[HF E]].
  - apply bytes_ok_firstn; auto.
  - lia.
  - rewrite E. replace (Datatypes.S (n - 1)) with (length (firstn n k)) in * by lia.
    rewrite firstn_all in HS. rewrite skipn_all. rewrite app_nil_r. exists S. auto.
  - exfalso. replace (Datatypes.S (n - 1)) with (length (firstn n k)) in HF by lia. rewrite firstn_all in HF.
    destruct K as [|x K]; [congruence|]. cbn in Hh. apply prefix_split in HP. destruct HP as (r & ->).
    destruct n as [|n]; [lia|]. cbn in HF. inversion HF; subst. lia.
Qed.

Lemma hd_byte_prefix : forall K k : bytes, K <> [] -> is_prefix K k = true -> exists x K' k', K = x :: K' /\ k = x :: k'.
Proof.
  intros [|x K] k HK H; [congruence|]. destruct k as [|y k]; [discriminate|]. cbn in H.
  apply andb_prop in H. destruct H as [H _]. apply N.eqb_eq in H. subst. eauto.
Qed.

Lemma single_label_good : forall K t, K <> [] -> hd 0 K < 255 ->
  (forall e, In e t -> is_prefix K (fst e) = true /\ bytes_ok (fst e)) ->
  good_filter (filter_single_label (length K)) (fun e => matched (single_label_res (length K) (fst e))) t.
Proof.
  intros K t HK Hh HT w k v Hin. split; [reflexivity|]. unfold filter_single_label. cbn [fst snd].
  destruct (HT _ Hin) as [HP Hok]. cbn [fst] in HP, Hok.
  pose proof (is_prefix_len _ _ HP) as HL.
  destruct (single_label_res (length K) k) as [| |k'| | |] eqn:E; try reflexivity.
  - (* seek *)
    assert (Hsp : exists n, (length K < n <= length k)%nat /\ seek_past k n = FSeek k' /\
      ((n = length K + 1)%nat /\ rd k (length K) = Ok 0 \/
       (exists c c', rd k (length K) = Ok c /\ c <> 0 /\ n = (length K + N.to_nat c + 1)%nat /\ rd k n = Ok c' /\ c' <> 0))).
    { unfold single_label_res in E. destruct (Nat.leb_spec (length k) (length K)) as [|H1]; [discriminate|].
      destruct (rd k (length K)) as [c| | | |] eqn:Ec; try discriminate.
      destruct (N.eqb_spec c 0) as [->|Hc].
      - exists (length K + 1)%nat. split; [lia|]. split; [exact E|]. left. auto.
      - set (n := (length K + N.to_nat c + 1)%nat) in *.
        destruct (Nat.leb_spec (length k) n) as [|H2]; [discriminate|].
        destruct (rd k n) as [c'| | | |] eqn:Ec'; try discriminate.
        destruct (N.eqb_spec c' 0) as [->|Hc']; [discriminate|].
        exists n. split; [lia|]. split; [exact E|]. right. exists c, c'. auto. }
    destruct Hsp as (n & Hn & Es & Hcase).
    destruct (single_label_seek K k n HK Hh HP Hok Hn) as (S & HS & Es'). rewrite Es' in Es. inversion Es; subst S. clear Es Es'.
    split.
    { rewrite <- (firstn_skipn n k) at 1. pose proof (succ_gt (firstn n k) k' (skipn n k) [] HS) as G.
      rewrite app_nil_r in G. exact G. }
    intros e He Hge Hlt. destruct (HT _ He) as [HPe Hoke]. set (ke := fst e) in *.
    assert (HPge : ble (firstn n k) ke = true).
    { eapply ble_trans; [|exact Hge]. rewrite <- (firstn_skipn n k) at 2. apply ble_prefix. }
    assert (LP : length (firstn n k) = n) by (rewrite firstn_length; lia).
    destruct (succ_between _ _ _ HS Hoke HPge Hlt) as [Hpre|(A & b & m & j & EP & Hb & Hj & Ee)].
    + (* e extends the first n bytes of k *)
      apply prefix_split in Hpre. destruct Hpre as (r & Er).
      assert (Erd : forall i, (i < n)%nat -> rd ke i = rd k i).
      { intros i Hi. rewrite Er, rd_app1 by lia. apply rd_firstn. lia. }
      destruct Hcase as [[-> H0]|(c & c' & Hc & Hc0 & En & Hc' & Hc'0)].
      * unfold single_label_res. destruct (Nat.leb_spec (length ke) (length K)); [reflexivity|].
        rewrite Erd by lia. rewrite H0. cbn. unfold seek_past. destruct (increment_key _ _) as [[? ?]| | | |]; reflexivity.
      * unfold single_label_res. destruct (Nat.leb_spec (length ke) (length K)); [reflexivity|].
        rewrite Erd by lia. rewrite Hc. destruct (N.eqb_spec c 0); [congruence|]. rewrite <- En.
        destruct (Nat.leb_spec (length ke) n) as [|Hlen]; [reflexivity|].
        destruct (rd_ok_ex ke n Hlen) as (d & Hd). rewrite Hd.
        destruct (N.eqb_spec d 0) as [->|].
        -- (* e would be before k *)
           exfalso. assert (Hk : k = firstn n k ++ c' :: skipn (Datatypes.S n) k).
           { apply rd_split. exact Hc'. }
           assert (Hr : exists r', r = 0 :: r').
           { rewrite Er in Hd. rewrite rd_app2 in Hd by lia. rewrite LP, Nat.sub_diag in Hd.
             destruct r as [|y r]; [discriminate|]. inversion Hd; subst. eauto. }
           destruct Hr as (r' & ->). rewrite Hk, Er in Hge.
           rewrite ble_app_head in Hge. apply ble_cons in Hge. lia.
        -- unfold seek_past. destruct (increment_key _ _) as [[? ?]| | | |]; reflexivity.
    + (* e is a proper prefix of the seek key *)
      assert (Llt : (length ke < n)%nat).
      { rewrite <- LP, EP, Ee, !app_length. cbn. rewrite !repeat_length. lia. }
      unfold single_label_res. destruct (Nat.leb_spec (length ke) (length K)) as [|HgtK]; [reflexivity|].
      destruct Hcase as [[-> _]|(c & c' & Hc & Hc0 & En & Hc' & Hc'0)]; [lia|].
      (* position of the incremented byte relative to K *)
      assert (HA : (length K <= length A)%nat).
      { destruct (Nat.le_gt_cases (length K) (length A)) as [|Hlt']; [assumption|]. exfalso.
        (* then byte [length A] of e is b+1 but of K (a prefix of both) is b *)
        assert (R1 : rd ke (length A) = Ok (b + 1)).
        { rewrite Ee. rewrite rd_app2 by lia. rewrite Nat.sub_diag. reflexivity. }
        assert (R2 : rd (firstn n k) (length A) = Ok b).
        { rewrite EP. rewrite rd_app2 by lia. rewrite Nat.sub_diag. reflexivity. }
        rewrite rd_firstn in R2 by lia.
        apply prefix_split in HP. destruct HP as (r1 & E1). apply prefix_split in HPe. destruct HPe as (r2 & E2).
        rewrite E1 in R2. rewrite E2 in R1. rewrite rd_app1 in R1, R2 by lia. rewrite R1 in R2. inversion R2. lia. }
      destruct (Nat.eq_dec (length K) (length A)) as [HeqA|HneA].
      * (* the label length itself was incremented *)
        assert (R1 : rd ke (length K) = Ok (b + 1)).
        { rewrite Ee, HeqA. rewrite rd_app2 by lia. rewrite Nat.sub_diag. reflexivity. }
        assert (R2 : rd (firstn n k) (length K) = Ok b).
        { rewrite EP, HeqA. rewrite rd_app2 by lia. rewrite Nat.sub_diag. reflexivity. }
        rewrite rd_firstn in R2 by lia. rewrite Hc in R2. inversion R2; subst b.
        rewrite R1. destruct (N.eqb_spec (c + 1) 0); [lia|].
        destruct (Nat.leb_spec (length ke) (length K + N.to_nat (c + 1) + 1)); [reflexivity|lia].
      * assert (R1 : rd ke (length K) = Ok c).
        { rewrite <- Hc. rewrite Ee. rewrite rd_app1 by lia.
          rewrite <- (rd_firstn k (length K) n) by lia. rewrite EP. rewrite rd_app1 by lia. reflexivity. }
        rewrite R1. destruct (N.eqb_spec c 0); [congruence|]. rewrite <- En.
        destruct (Nat.leb_spec (length ke) n); [reflexivity|lia].
  - (* FStop cannot happen *)
    exfalso. unfold single_label_res in E. destruct (Nat.leb (length k) (length K)); [discriminate|].
    unfold seek_past in E.
    destruct (rd k (length K)) as [c| | | |]; try discriminate. destruct (c =? 0).
    + destruct (increment_key _ _) as [[? ?]| | | |]; discriminate.
    + destruct (Nat.leb _ _); [discriminate|]. destruct (rd k (length K + N.to_nat c + 1)) as [c'| | | |] eqn:Ec'; try discriminate.
      destruct (N.eqb_spec c' 0); [discriminate|]. destruct (increment_key _ _) as [[? ?]| | | |]; discriminate.
  - (* abort *)
    unfold single_label_res in E. destruct (Nat.leb_spec (length k) (length K)); [discriminate|].
    destruct (rd k (length K)) as [c| | | |] eqn:Ec; try discriminate. destruct (c =? 0).
    + destruct (single_label_seek K k (length K + 1) HK Hh HP Hok) as (S & _ & ES); [lia|]. congruence.
    + destruct (Nat.leb_spec (length k) (length K + N.to_nat c + 1)); [discriminate|].
      destruct (rd k (length K + N.to_nat c + 1)) as [c'| | | |] eqn:Ec'; try discriminate. destruct (N.eqb_spec c' 0); [discriminate|].
      destruct (single_label_seek K k (length K + N.to_nat c + 1) HK Hh HP Hok) as (S & _ & ES); [lia|]. congruence.
  - (* out of bounds *)
    unfold single_label_res in E. destruct (Nat.leb_spec (length k) (length K)); [discriminate|].
    destruct (rd_ok_ex k (length K)) as (c & Ec); [lia|]. rewrite Ec in E. unfold seek_past in E. destruct (c =? 0).
    + destruct (increment_key _ _) as [[? ?]| | | |]; discriminate.
    + destruct (Nat.leb_spec (length k) (length K + N.to_nat c + 1)); [discriminate|].
      destruct (rd_ok_ex k (length K + N.to_nat c + 1)) as (c' & Ec'); [lia|]. rewrite Ec' in E.
      destruct (N.eqb_spec c' 0); [discriminate|]. destruct (increment_key _ _) as [[? ?]| | | |]; discriminate.
Qed.

(** filter_rrtype_ip never seeks past a wanted key. *)
From Verif Require Import Base BaseFacts ModelVarint VarintProofs SpecMerge MergeProofs ModelWdns SpecName NameFacts.
From Verif Require Import ModelEntry SpecEntry ModelIter SpecIter ModelQuery SpecQuery KeyProofs FilterProofs.

(** Keys of address records; [ow] in the order of the key. *)
Definition ip_form (n : nat) (ty : N) (X : bytes) : Prop :=
  exists a ow, length a = n /\ Forall label_ok ow /\ bytes_ok X /\
    X = ENTRY_TYPE_RDATA :: a ++ ty :: wire ow ++ [N.of_nat n; 0].

Definition sound (n : nat) (ty : N) (k : bytes) (r : fres) : Prop :=
  match r with
  | FSkip => True
  | FSeek k' => blt k k' = true /\ forall X, ip_form n ty X -> blt k X = true -> ble k' X = true
  | FStop => forall X, ip_form n ty X -> blt k X = false
  | _ => False
  end.

(** Above a key with prefix [p]: an extension of [p] or above all of them. *)
Lemma above_split : forall p r X, blt (p ++ r) X = true ->
  (exists r', X = p ++ r' /\ blt r r' = true) \/ (forall z, blt (p ++ z) X = true).
Proof.
  induction p as [|x p IH]; intros r X H; [left; exists X; auto|]. destruct X as [|y X]; [rewrite blt_nil_r in H; discriminate|].
  cbn [app] in *. apply blt_cons in H. destruct H as [H|[<- H]].
  - right. intro z. apply blt_cons. left. exact H.
  - destruct (IH r X H) as [(r' & -> & Hr)|H'].
    + left. exists r'. auto.
    + right. intro z. apply blt_cons. right. auto.
Qed.

Lemma blt_irrefl_false : forall a, blt a a = true -> False.
Proof. intros a H. induction a as [|x a IH]; [discriminate|]. apply blt_cons in H. destruct H as [H|[_ H]]; [lia|auto]. Qed.

Lemma not_blt_ble : forall a b, blt a b = false -> ble b a = true.
Proof.
  induction a as [|x a IH]; intros b H; destruct b as [|y b]; try reflexivity; try discriminate.
  apply ble_cons. destruct (N.lt_trichotomy y x) as [L|[->|L]]; [auto| |].
  - right. split; auto. apply IH. destruct (blt a b) eqn:E; [|reflexivity].
    assert (C : blt (x :: a) (x :: b) = true) by (apply blt_cons; auto). congruence.
  - assert (C : blt (x :: a) (y :: b) = true) by (apply blt_cons; auto). congruence.
Qed.

Lemma ble_nil : forall a, ble [] a = true.
Proof. intros [|x a]; reflexivity. Qed.

Lemma blt_ble : forall a b, blt a b = true -> ble a b = true.
Proof. intros a b H. unfold blt, ble in *. destruct (bytes_compare a b); congruence. Qed.

Lemma ip_increment_sound : forall n ty P Y k r, P <> [] -> hd 0 P = ENTRY_TYPE_RDATA -> bytes_ok (P ++ Y) ->
  k = P ++ r ->
  (forall X, ip_form n ty X -> blt k X = true -> forall z, blt (P ++ z) X = true) ->
  (forall X S r', ip_form n ty X -> succ_of P S -> X = S ++ r' -> ble Y r' = true) ->
  (forall X A b m j, ip_form n ty X -> P = A ++ b :: repeat 255 m -> (j < m)%nat -> X <> A ++ (b + 1) :: repeat 0 j) ->
  sound n ty k (ip_increment (P ++ Y) (length P)).
Proof.
  intros n ty P Y k r HP Hh Hok Hk H1 H2 H3. unfold ip_increment.
  destruct P as [|p0 P']; [congruence|]. cbn in Hh. subst p0. set (P := ENTRY_TYPE_RDATA :: P') in *.
  assert (L : Datatypes.S (length P - 1) = length P) by (cbn; lia).
  destruct (increment_key_spec (P ++ Y) (length P - 1) Hok) as [(S & HS & E)|[HF E]].
  { rewrite app_length. cbn. lia. }
  2:{ exfalso. rewrite L, firstn_app_len in HF. inversion HF as [|? ? C]. discriminate. }
  rewrite L, firstn_app_len, skipn_app_len in *. rewrite E.
  assert (HX : forall X, ip_form n ty X -> blt k X = true -> ble (S ++ Y) X = true).
  { intros X FX HkX. apply not_blt_ble. destruct (blt X (S ++ Y)) eqn:EX; [|reflexivity]. exfalso.
    pose proof (H1 X FX HkX) as HA. pose proof FX as (a & ow & _ & _ & HokX & _).
    assert (HPX : ble P X = true) by (specialize (HA []); rewrite app_nil_r in HA; apply blt_ble; exact HA).
    destruct (succ_between_app P S Y X HS HokX HPX EX) as [HPre|[(A & b & m & j & EP & Hb & Hj & EXs)|(r' & EXs & Hr)]].
    - apply prefix_split in HPre. destruct HPre as (z & ->). exact (blt_irrefl_false _ (HA z)).
    - exact (H3 X A b m j FX EP Hj EXs).
    - pose proof (H2 X S r' FX HS EXs) as C. unfold blt, ble in *. 
      rewrite bytes_compare_antisym in C. destruct (bytes_compare r' Y); cbn in C; congruence. }
  pose proof (succ_length P S HS) as LS. destruct S as [|s0 S']; [cbn in LS; lia|].
  change (rd ((s0 :: S') ++ Y) 0) with (@Ok N s0). cbv iota. destruct (N.eqb_spec s0 ENTRY_TYPE_RDATA) as [->|Hs0].
  - split; [|exact HX]. subst k. exact (succ_gt P _ r Y HS).
  - intros X FX. destruct (blt k X) eqn:EX; [|reflexivity]. exfalso.
    pose proof (HX X FX EX) as C. pose proof FX as (a & ow & _ & _ & _ & ->). cbn [app] in C. apply ble_cons in C.
    destruct C as [C|[C _]]; [|congruence].
    pose proof (succ_gt P _ [] [] HS) as G. rewrite !app_nil_r in G. unfold P in G. apply blt_cons in G. lia.
Qed.

Lemma form_len : forall n ty X, ip_form n ty X -> (n + 5 <= length X)%nat.
Proof.
  intros n ty X (a & ow & L & _ & _ & ->). cbn [length]. rewrite app_length. cbn [length]. rewrite app_length. cbn [length].
  pose proof (wire_nonempty ow). unfold wire. rewrite app_length. cbn [length]. lia.
Qed.

(** A complete name is no beginning of a list of labels. *)
Lemma wire_not_labels : forall ow ls y, Forall label_ok ow -> Forall label_ok ls -> enc_labels ls = wire ow ++ y -> False.
Proof.
  induction ow as [|l ow IH]; intros ls y Ho Hl E.
  - destruct ls as [|m ls]; [discriminate|]. inversion Hl as [|? ? [Hm _] _]; subst. cbn in E. inversion E as [[E0 _]].
    unfold blen in E0. destruct m; [cbn in Hm; lia|discriminate].
  - inversion Ho as [|? ? Hlo Ho']; subst. destruct ls as [|m ls]; [discriminate|]. inversion Hl as [|? ? Hm Hl']; subst.
    rewrite wire_cons in E. change (enc_labels (m :: ls)) with ((blen m :: m) ++ enc_labels ls) in E.
    cbn [app] in E. injection E as E0 E. rewrite <- app_assoc in E. apply app_inj_len in E; [|unfold blen in E0; lia].
    destruct E as [_ E]. exact (IH ls y Ho' Hl' E).
Qed.

(** Labels that start a complete name are its first labels. *)
Lemma labels_start : forall ls ow y z, Forall label_ok ls -> Forall label_ok ow ->
  wire ow ++ y = enc_labels ls ++ z -> exists more, ow = ls ++ more /\ z = wire more ++ y.
Proof.
  induction ls as [|l ls IH]; intros ow y z Hl Ho E; [exists ow; auto|].
  inversion Hl as [|? ? Hl1 Hl']; subst. change (enc_labels (l :: ls)) with ((blen l :: l) ++ enc_labels ls) in E.
  destruct ow as [|m ow].
  - exfalso. cbn in E. inversion E as [[E0 _]]. destruct Hl1 as [Hl1 _]. unfold blen in E0. destruct l; [cbn in Hl1; lia|discriminate].
  - inversion Ho as [|? ? Hm Ho']; subst. rewrite wire_cons in E. cbn [app] in E. injection E as E0 E.
    rewrite <- !app_assoc in E. apply app_inj_len in E; [|unfold blen in E0; lia]. destruct E as [-> E].
    destruct (IH ow y z Hl' Ho' E) as (more & -> & ->). exists more. auto.
Qed.

Lemma wire_head : forall ow, Forall label_ok ow -> exists b s, wire ow = b :: s /\ b <= 63.
Proof.
  intros [|l ow] H; [exists 0, []; split; [reflexivity|lia]|]. inversion H as [|? ? [Hl _] _]; subst.
  rewrite wire_cons. eexists _, _. split; [reflexivity|]. unfold blen. lia.
Qed.

Section Ip.
Variables (n : nat) (ty : N).
Hypothesis HK : ip_kind n ty.

Lemma kind_pos : (0 < n)%nat /\ ty < 255.
Proof. destruct HK as [[-> ->]|[-> ->]]; split; lia. Qed.

(** Wanted keys with a given address part. *)
Lemma form_split : forall p c X r, length p = S n -> ip_form n ty X -> X = p ++ c :: r -> c = ty /\
  exists ow, Forall label_ok ow /\ r = wire ow ++ [N.of_nat n; 0].
Proof.
  intros p c X r Hp (a & ow & La & Ho & _ & ->) E. destruct p as [|p0 p]; [discriminate|]. cbn [app] in E. injection E as E0 E.
  apply app_inj_len in E; [|cbn in Hp; lia]. destruct E as [-> E]. injection E as -> E. split; [reflexivity|]. exists ow. auto.
Qed.

Lemma form_cut : forall p X r, length p = S n -> ip_form n ty X -> X = p ++ r ->
  exists ow, Forall label_ok ow /\ r = ty :: wire ow ++ [N.of_nat n; 0].
Proof.
  intros p X r Hp FX E. destruct r as [|c r].
  - pose proof (form_len _ _ _ FX) as L. rewrite E, app_nil_r in L. lia.
  - destruct (form_split p c X r Hp FX E) as (-> & ow & Ho & ->). eauto.
Qed.

(** Moving to the next address. *)
Lemma next_address_sound : forall p Y k r, length p = S n -> hd 0 p = ENTRY_TYPE_RDATA -> bytes_ok (p ++ Y) -> k = p ++ r ->
  (Y = [] \/ Y = [ty]) ->
  (forall X r', ip_form n ty X -> X = p ++ r' -> blt r r' = true -> False) ->
  sound n ty k (ip_increment (p ++ Y) (S n)).
Proof.
  intros p Y k r Lp Hh Hok Ek HY Hno. rewrite <- Lp. apply (ip_increment_sound n ty p Y k r); auto.
  - intros ->. discriminate.
  - intros X FX HX z. rewrite Ek in HX. destruct (above_split p r X HX) as [(r' & EX & Hr)|H]; [exfalso; eauto|apply H].
  - intros X S r' FX HS EX. destruct HY as [-> | ->]; [apply ble_nil|].
    assert (LS : length S = Datatypes.S n) by (rewrite (succ_length p S HS); exact Lp).
    destruct (form_cut S X r' LS FX EX) as (ow & _ & ->). apply ble_cons. right. split; [reflexivity|apply ble_nil].
  - intros X A b m j FX EP Hj EX. pose proof (form_len _ _ _ FX) as L. rewrite EX in L. rewrite app_length in L. cbn in L.
    rewrite repeat_length in L. rewrite EP, app_length in Lp. cbn in Lp. rewrite repeat_length in Lp. lia.
Qed.

Lemma repeat_zero_app : forall m (l : bytes), ble (repeat 0 m) (l) = true \/ (length l < m)%nat.
Proof.
  induction m as [|m IH]; intro l; [left; apply ble_nil|]. destruct l as [|x l]; [right; cbn; lia|]. cbn [repeat length].
  destruct (IH l) as [H|H]; [|right; lia]. left. apply ble_cons. destruct (N.eq_dec x 0) as [->|]; [right; auto|left; lia].
Qed.

(** The label loop.  [ls] are the labels passed so far. *)
Lemma labels_sound : forall fuel p ls rest k, length p = S n -> hd 0 p = ENTRY_TYPE_RDATA -> bytes_ok k ->
  k = (p ++ ty :: enc_labels ls) ++ rest -> Forall label_ok ls -> (length rest < fuel)%nat ->
  (ls = [] -> exists c r, rest = c :: r /\ c <= 63) ->
  ~ ip_overread n ty k ->
  sound n ty k (ip_labels fuel ty k (p ++ ty :: enc_labels ls)).
Proof.
  induction fuel as [|fuel IH]; intros p ls rest k Lp Hh Hok Ek Hls Hf H0 HO; [lia|]. cbn [ip_labels].
  set (sk := p ++ ty :: enc_labels ls) in *.
  assert (HR : rd k (length sk) = match rest with c :: _ => Ok c | [] => UB end).
  { rewrite Ek, rd_app2 by lia. rewrite Nat.sub_diag. destruct rest; reflexivity. }
  rewrite HR. destruct rest as [|llen rest].
  - exfalso. destruct ls as [|l ls]; [destruct H0 as (c & r & E & _); [reflexivity|discriminate]|].
    apply HO. right. destruct p as [|p0 a]; [discriminate|]. cbn in Hh. subst p0. exists a, (l :: ls).
    split; [cbn in Lp; lia|]. split; [discriminate|]. split; [exact Hls|]. rewrite Ek, app_nil_r. reflexivity.
  - (* wanted keys that extend sk *)
    assert (HX : forall X r', ip_form n ty X -> X = sk ++ r' -> exists more, Forall label_ok more /\
              r' = wire more ++ [N.of_nat n; 0]).
    { intros X r' FX EX. unfold sk in EX. rewrite <- app_assoc in EX. cbn [app] in EX.
      destruct (form_split p ty X _ Lp FX EX) as (_ & ow & Ho & E). symmetry in E.
      destruct (labels_start ls ow _ _ Hls Ho E) as (more & -> & ->). exists more. split; [|reflexivity]. apply Forall_app in Ho. tauto. }
    assert (Hsk : sk <> []) by (unfold sk; destruct p; discriminate).
    assert (Hhs : hd 0 sk = ENTRY_TYPE_RDATA) by (unfold sk; destruct p; [discriminate|exact Hh]).
    assert (Hoks : bytes_ok sk) by (rewrite Ek in Hok; apply Forall_app in Hok; tauto).
    destruct (N.ltb_spec 63 llen) as [HB|HB].
    + (* not a label *)
      replace sk with (sk ++ []) at 1 by apply app_nil_r. apply (ip_increment_sound n ty sk [] k (llen :: rest)); auto.
      * rewrite app_nil_r. exact Hoks.
      * intros X FX HkX z. rewrite Ek in HkX. destruct (above_split sk _ X HkX) as [(r' & EX & Hr)|H]; [exfalso|apply H].
        destruct (HX X r' FX EX) as (more & Hm & ->). destruct (wire_head more Hm) as (b & s & Ew & Hb). rewrite Ew in Hr.
        cbn [app] in Hr. apply blt_cons in Hr. lia.
      * intros. apply ble_nil.
      * intros X A b m j FX EP Hj EX. pose proof FX as (a & ow & La & Ho & _ & E).
        (* X ends in n, 0, so it is [A; n; 0] *)
        assert (EA : exists i, j = S i) .
        { destruct j as [|j]; [|eauto]. exfalso. rewrite E in EX. cbn [repeat] in EX.
          assert (C : [0] = [b + 1]); [|inversion C; lia].
          cbn [app] in EX. 
          assert (EX' : (ENTRY_TYPE_RDATA :: a ++ ty :: wire ow ++ [N.of_nat n]) ++ [0] = A ++ [b + 1]).
          { rewrite <- EX. cbn [app]. rewrite <- app_assoc. cbn [app]. rewrite <- app_assoc. reflexivity. }
          apply app_inj_tail in EX'. destruct EX' as [_ C]. congruence. }
        destruct EA as (i & ->). rewrite E in EX. 
        assert (EX' : (ENTRY_TYPE_RDATA :: a ++ ty :: wire ow ++ [N.of_nat n]) ++ [0] = (A ++ (b + 1) :: repeat 0 i) ++ [0]).
        { cbn [app]. rewrite <- !app_assoc. cbn [app]. rewrite <- !app_assoc. cbn [app]. rewrite EX. f_equal. f_equal.
          change (repeat 0 (S i)) with (0 :: repeat 0 i). rewrite repeat_cons. reflexivity. }
        apply app_inj_tail in EX'. destruct EX' as [EX' _].
        assert (Ei : i = O).
        { destruct i as [|i]; [reflexivity|]. exfalso. change (repeat 0 (S i)) with (0 :: repeat 0 i) in EX'. rewrite repeat_cons in EX'.
          assert (C : (ENTRY_TYPE_RDATA :: a ++ ty :: wire ow) ++ [N.of_nat n] = (A ++ (b + 1) :: repeat 0 i) ++ [0]).
          { cbn [app]. rewrite <- !app_assoc. cbn [app]. exact EX'. }
          apply app_inj_tail in C. destruct C as [_ C]. pose proof kind_pos. lia. }
        subst i. cbn [repeat] in EX'.
        assert (C : (ENTRY_TYPE_RDATA :: a ++ ty :: wire ow) ++ [N.of_nat n] = A ++ [b + 1]).
        { cbn [app]. rewrite <- !app_assoc. cbn [app]. exact EX'. }
        apply app_inj_tail in C. destruct C as [C _]. subst A.
        unfold sk in EP. destruct p as [|p0 p']; [discriminate|]. cbn [app] in EP. injection EP as _ EP.
        rewrite <- app_assoc in EP. apply app_inj_len in EP; [|cbn in Lp; lia]. destruct EP as [_ EP]. cbn [app] in EP. injection EP as EP.
        exact (wire_not_labels ow ls _ Ho Hls EP).
    + destruct (N.eqb_spec llen 0) as [->|Hnz].
      * (* end of the name *)
        assert (ER : (if ty =? WDNS_TYPE_A then Some [4; 0] else if ty =? WDNS_TYPE_AAAA then Some [16; 0] else None) = Some [N.of_nat n; 0])
          by (destruct HK as [[-> ->]|[-> ->]]; reflexivity).
        rewrite ER.
        assert (HXE : forall X r', ip_form n ty X -> X = (sk ++ [0]) ++ r' -> r' = [N.of_nat n; 0]).
        { intros X r' FX EX. rewrite <- app_assoc in EX. destruct (HX X _ FX EX) as (more & Hm & E).
          destruct more as [|l more]; [cbn in E; congruence|]. exfalso. inversion Hm as [|? ? [Hl _] _]; subst.
          rewrite wire_cons in E. cbn in E. inversion E as [[E0 _]]. unfold blen in E0. destruct l; [cbn in Hl; lia|discriminate]. }
        assert (Ek' : k = (sk ++ [0]) ++ rest) by (rewrite Ek, <- app_assoc; reflexivity).
        change (sk ++ [0] ++ [N.of_nat n; 0]) with (sk ++ [0] ++ [N.of_nat n; 0]). rewrite app_assoc.
        destruct (blt k ((sk ++ [0]) ++ [N.of_nat n; 0])) eqn:EL.
        -- split; [exact EL|]. intros X FX HkX. rewrite Ek' in HkX. destruct (above_split (sk ++ [0]) rest X HkX) as [(r' & EX & Hr)|H].
           ++ rewrite (HXE X r' FX EX) in EX. rewrite EX. apply ble_refl.
           ++ apply blt_ble. apply H.
        -- replace (length sk + 1)%nat with (length (sk ++ [0])) by (rewrite app_length; cbn [length]; lia).
           replace (sk ++ [0]) with ((sk ++ [0]) ++ []) at 1 by apply app_nil_r.
           apply (ip_increment_sound n ty (sk ++ [0]) [] k rest); auto.
           ++ destruct sk; discriminate.
           ++ destruct sk; [congruence|exact Hhs].
           ++ rewrite app_nil_r. rewrite Ek' in Hok. apply Forall_app in Hok. tauto.
           ++ intros X FX HkX z. pose proof HkX as HkX'. rewrite Ek' in HkX. destruct (above_split (sk ++ [0]) rest X HkX) as [(r' & EX & Hr)|H]; [exfalso|apply H].
              rewrite (HXE X r' FX EX) in EX. rewrite EX in HkX'. congruence.
           ++ intros. apply ble_nil.
           ++ intros X A b m j FX EP Hj EX. destruct m as [|m]; [lia|]. change (repeat 255 (S m)) with (255 :: repeat 255 m) in EP.
              rewrite repeat_cons in EP. rewrite app_comm_cons, app_assoc in EP. apply app_inj_tail in EP. destruct EP as [_ EP]. discriminate.
      * assert (Lk : length k = (length sk + S (length rest))%nat) by (rewrite Ek, app_length; reflexivity).
        destruct (Nat.ltb_spec (length k) (N.to_nat llen + 1 + length sk)) as [HT|HT].
        -- (* truncated label *)
           set (x := (N.to_nat llen + 1 + length sk - length k)%nat).
           split.
           ++ replace k with (k ++ []) at 1 by apply app_nil_r. rewrite blt_app_head. destruct x eqn:Ex; [lia|reflexivity].
           ++ intros X FX HkX. replace k with (k ++ []) in HkX by apply app_nil_r.
              destruct (above_split k [] X HkX) as [(r' & EX & Hr)|H]; [|apply blt_ble; apply H].
              rewrite EX. rewrite ble_app_head. destruct (repeat_zero_app x r') as [C|C]; [exact C|exfalso].
              assert (EX' : X = sk ++ (llen :: rest ++ r')) by (rewrite EX, Ek, <- app_assoc; reflexivity).
              destruct (HX X _ FX EX') as (more & Hm & E). destruct more as [|l more]; [cbn in E; congruence|].
              rewrite wire_cons in E. cbn [app] in E. injection E as E0 E.
              apply (f_equal (@length N)) in E. rewrite !app_length in E. unfold blen in E0. lia.
        -- (* one more label *)
           set (l := firstn (N.to_nat llen) rest).
           assert (Ll : length l = N.to_nat llen) by (unfold l; rewrite firstn_length; lia).
           assert (Es : skipn (length sk + 1) k = rest).
           { rewrite Ek. replace (length sk + 1)%nat with (length (sk ++ [llen])) by (rewrite app_length; reflexivity).
             replace (sk ++ llen :: rest) with ((sk ++ [llen]) ++ rest) by (rewrite <- app_assoc; reflexivity). apply skipn_app_len. }
           rewrite Es. fold l.
           assert (E2 : sk ++ [llen] ++ l = p ++ ty :: enc_labels (ls ++ [l])).
           { unfold sk. rewrite enc_labels_app. rewrite <- app_assoc. cbn [app enc_labels flat_map]. rewrite app_nil_r.
             replace (blen l) with llen by (unfold blen; lia). reflexivity. }
           rewrite E2. apply (IH p (ls ++ [l]) (skipn (N.to_nat llen) rest) k); auto.
           ++ rewrite <- E2, Ek, <- !app_assoc. cbn [app]. unfold l. rewrite firstn_skipn. reflexivity.
           ++ apply Forall_app. split; [exact Hls|]. constructor; [|constructor]. split; [lia|].
              unfold l. apply bytes_ok_firstn. rewrite Ek in Hok. apply Forall_app in Hok. destruct Hok as [_ Hok]. inversion Hok; auto.
           ++ rewrite skipn_length. cbn [length] in Hf. lia.
           ++ intro C. destruct ls; discriminate.
Qed.

Lemma bytes_compare_app1 : forall p a b, bytes_compare (p ++ [a]) (p ++ [b]) = (a ?= b).
Proof. intros. rewrite compare_app_head. cbn. destruct (a ?= b); reflexivity. Qed.

Lemma ip_seek_sound : forall k, bytes_ok k -> hd 0 k = ENTRY_TYPE_RDATA -> k <> [] -> ~ ip_overread n ty k ->
  sound n ty k (ip_seek (S (S n)) ty k).
Proof.
  intros k Hok Hh Hne HO. pose proof kind_pos as [Hn Ht].
  assert (EV : varint_encode32 ty = [ty] /\ varint_length ty = 1) by (destruct HK as [[_ ->]|[_ ->]]; split; reflexivity).
  destruct EV as [EV EVL]. unfold ip_seek. rewrite EVL. change (N.to_nat 1) with 1%nat. replace (S (S n) - 1)%nat with (S n) by lia.
  assert (EA : forall x, add_rrtype_to_key x ty = Ok (x ++ [ty])).
  { intro x. unfold add_rrtype_to_key, WDNS_TYPE_ANY. rewrite EV. destruct (N.eqb_spec ty 255); [lia|reflexivity]. }
  rewrite !EA. destruct (Nat.ltb_spec (length k) (S n)) as [HL|HL].
  - (* short key *)
    split.
    + replace k with (k ++ []) at 1 by apply app_nil_r. rewrite <- app_assoc, blt_app_head. destruct (repeat 0 (S n - length k)); reflexivity.
    + intros X FX HkX. replace k with (k ++ []) in HkX by apply app_nil_r.
      destruct (above_split k [] X HkX) as [(r' & EX & Hr)|H]; [|apply blt_ble; rewrite <- app_assoc; apply H].
      rewrite EX, <- app_assoc, ble_app_head. set (m := (S n - length k)%nat) in *.
      assert (Lr : (m <= length r')%nat) by (pose proof (form_len _ _ _ FX) as L; rewrite EX, app_length in L; lia).
      rewrite <- (firstn_skipn m r').
      assert (Lf : length (firstn m r') = m) by (rewrite firstn_length; lia).
      destruct (form_cut (k ++ firstn m r') X (skipn m r')) as (ow & _ & E).
      { rewrite app_length. lia. } { exact FX. } { rewrite <- app_assoc, firstn_skipn. exact EX. }
      rewrite E. generalize (firstn m r') Lf. clear. induction m as [|m IH]; intros [|x l] L; try discriminate.
      * apply ble_cons. right. split; [reflexivity|apply ble_nil].
      * cbn [repeat app]. apply ble_cons. destruct (N.eq_dec x 0) as [->|]; [|left; lia]. right. split; [reflexivity|]. apply IH. cbn in L. lia.
  - set (p := firstn (S n) k). assert (Lp : length p = S n) by (unfold p; rewrite firstn_length; lia).
    assert (Hhp : hd 0 p = ENTRY_TYPE_RDATA) by (unfold p; destruct k; [congruence|exact Hh]).
    assert (Lsk : length (p ++ [ty]) = S (S n)) by (rewrite app_length, Lp; cbn [length]; lia). rewrite Lsk.
    destruct (Nat.ltb_spec (length k) (S (S n))) as [HS|HS].
    { exfalso. apply HO. left. lia. }
    destruct (skipn (S n) k) as [|c r] eqn:Er.
    { apply (f_equal (@length N)) in Er. rewrite skipn_length in Er. cbn in Er. lia. }
    assert (Ek : k = p ++ c :: r) by (unfold p; rewrite <- Er; symmetry; apply firstn_skipn).
    assert (Ef : firstn (S (S n)) k = p ++ [c]).
    { rewrite Ek. replace (S (S n)) with (length (p ++ [c])) by (rewrite app_length; cbn [length]; lia).
      replace (p ++ c :: r) with ((p ++ [c]) ++ r) by (rewrite <- app_assoc; reflexivity). apply firstn_app_len. }
    rewrite Ef, bytes_compare_app1.
    assert (Hokp : forall Y, bytes_ok Y -> bytes_ok (p ++ Y)).
    { intros Y HY. apply Forall_app. split; [unfold p; apply bytes_ok_firstn; exact Hok|exact HY]. }
    assert (Hty : bytes_ok [ty]) by (repeat constructor; unfold byte_ok; lia).
    destruct (N.compare_spec ty c) as [<-|HC|HC].
    + (* same type byte *)
      destruct r as [|c r].
      { rewrite Ek. rewrite app_length. cbn [length]. destruct (Nat.leb_spec (length p + 1) (S (S n))); [exact I|lia]. }
      destruct (Nat.leb_spec (length k) (S (S n))) as [C|C].
      { exfalso. rewrite Ek, app_length in C. cbn [length] in C. lia. }
      assert (HR : rd k (S (S n)) = Ok c).
      { rewrite Ek. replace (p ++ ty :: c :: r) with ((p ++ [ty]) ++ c :: r) by (rewrite <- app_assoc; reflexivity).
        rewrite rd_app2 by lia. rewrite Lsk, Nat.sub_diag. reflexivity. }
      rewrite HR.
      assert (HAA : (ty =? WDNS_TYPE_A) || (ty =? WDNS_TYPE_AAAA) = true) by (destruct HK as [[_ ->]|[_ ->]]; reflexivity).
      rewrite HAA, andb_true_r. destruct (N.ltb_spec 63 c) as [HB|HB].
      * replace (firstn (S n) (p ++ [ty])) with (p ++ []) by (rewrite app_nil_r, <- Lp, firstn_app_len; reflexivity).
        apply (next_address_sound p [] k (ty :: c :: r)); auto; [apply Hokp; constructor|].
        intros X r' FX EX Hr. destruct (form_cut p X r' Lp FX EX) as (ow & Ho & ->). destruct (wire_head ow Ho) as (b & s & Ew & Hb).
        rewrite Ew in Hr. cbn [app] in Hr. apply blt_cons in Hr. destruct Hr as [Hr|[_ Hr]]; [lia|]. apply blt_cons in Hr. lia.
      * replace (p ++ [ty]) with (p ++ ty :: enc_labels []) by reflexivity.
        apply (labels_sound (S (length k)) p [] (c :: r) k); auto.
        -- rewrite Ek, <- app_assoc. reflexivity.
        -- apply (f_equal (@length N)) in Ek. rewrite app_length in Ek. cbn [length] in *. lia.
        -- intros _. eauto.
    + (* the type byte is larger *)
      apply (next_address_sound p [ty] k (c :: r)); auto.
      intros X r' FX EX Hr. destruct (form_cut p X r' Lp FX EX) as (ow & Ho & ->). apply blt_cons in Hr. lia.
    + (* smaller *)
      split.
      * rewrite Ek, blt_app_head. apply blt_cons. left. exact HC.
      * intros X FX HkX. rewrite Ek in HkX. destruct (above_split p _ X HkX) as [(r' & EX & Hr)|H]; [|apply blt_ble; apply H].
        destruct (form_cut p X r' Lp FX EX) as (ow & Ho & ->). rewrite EX, ble_app_head. apply ble_cons. right. split; [reflexivity|apply ble_nil].
Qed.
End Ip.

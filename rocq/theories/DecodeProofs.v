(** Proofs about decoding arbitrary bytes. *)
From Verif Require Import Base BaseFacts ModelVarint VarintProofs SpecMerge MergeProofs.
From Verif Require Import ModelWdns SpecName NameFacts ModelEntry SpecEntry EntryProofs SpecDecode.

(** ** Numbers *)

Lemma base128_vval : forall l, base128 l = vval l.
Proof. reflexivity. Qed.

Lemma number_cases : forall max l,
  (exists enc rest, l = enc ++ rest /\ finished max enc) \/ overlong max l \/ cut max l.
Proof.
  induction max as [|max IH]; intro l.
  - right. left. exists [], l. repeat split; auto. constructor.
  - destruct l as [|b l]; [right; right; split; [constructor|cbn; lia]|].
    destruct (N.lt_ge_cases b 128) as [Hb|Hb].
    + left. exists [b], l. split; [reflexivity|]. exists [], b. repeat split; auto; [constructor|cbn; lia].
    + destruct (IH l) as [(enc & rest & -> & init & last & -> & HA & HL & Hn)|[(a & r & -> & Ha & HA)|(HA & HL)]].
      * left. exists (b :: init ++ [last]), rest. split; [reflexivity|]. exists (b :: init), last. repeat split; auto; [constructor; auto|cbn [length app] in *; lia].
      * right. left. exists (b :: a), r. repeat split; auto; [cbn; lia|constructor; auto].
      * right. right. split; [constructor; auto|cbn; lia].
Qed.

Lemma finished_packed : forall max enc, bytes_ok enc -> finished max enc -> packed enc /\ (length enc <= max)%nat.
Proof.
  intros max enc HB (init & last & -> & HA & HL & Hn). split; [|exact Hn]. clear Hn.
  induction HA as [|b init Hb HA IH]; cbn [app packed].
  - left. split; [exact HL|reflexivity].
  - inversion HB; subst. right. split; [unfold byte_ok in *; lia|]. apply IH. assumption.
Qed.

Lemma finished_nonempty : forall max enc, finished max enc -> (1 <= length enc)%nat.
Proof. intros max enc (init & last & -> & _). rewrite app_length. cbn. lia. Qed.

Lemma decode32_mod : forall l rest, packed l -> (length l <= 5)%nat ->
  varint_decode32 (l ++ rest) = Ok (length l, vval l mod u32).
Proof.
  intros l rest Hp Hl. destruct (Nat.le_gt_cases (length l) 4) as [H4|H4].
  - pose proof (vval_bound l) as Hb.
    assert (H : 2 ^ (7 * N.of_nat (length l)) <= 2 ^ 28) by (apply N.pow_le_mono_r; lia).
    change (2 ^ 28) with 268435456 in H. rewrite decode32_ok by (assumption || unfold u32; lia).
    rewrite N.mod_small by (unfold u32; lia). reflexivity.
  - unfold varint_decode32, varint_length_packed. rewrite (length_packed_from_ok l 5 0 rest Hp Hl). cbn [bind Nat.add].
    destruct l as [|b0 [|b1 [|b2 [|b3 [|b4 [|b5 l]]]]]]; cbn [length] in H4, Hl; try lia.
    apply packed_cases in Hp; destruct Hp as [Hb0 Hp]. apply packed_cases in Hp; destruct Hp as [Hb1 Hp].
    apply packed_cases in Hp; destruct Hp as [Hb2 Hp]. apply packed_cases in Hp; destruct Hp as [Hb3 Hp]. apply packed_cases in Hp.
    unfold rd. cbn [app nth_error bind length Nat.ltb Nat.leb]. rewrite !land_127.
    assert (E : N.shiftl b4 28 mod u32 = N.shiftl (b4 mod 16) 28) by (rewrite !N.shiftl_mul_pow2; change (2 ^ 28) with 268435456; unfold u32; lia).
    rewrite E.
    assert (X0 : b0 mod 128 < 128) by lia. assert (X1 : b1 mod 128 < 128) by lia. assert (X2 : b2 mod 128 < 128) by lia. assert (X3 : b3 mod 128 < 128) by lia. clear E.
    rewrite (lor_shiftl_add (b0 mod 128) _ 7) by (change (2^7) with 128; exact X0).
    rewrite (lor_shiftl_add _ (b2 mod 128) 14) by (change (2^7) with 128; change (2^14) with 16384; lia).
    rewrite (lor_shiftl_add _ (b3 mod 128) 21) by (change (2^7) with 128; change (2^14) with 16384; change (2^21) with 2097152; lia).
    rewrite (lor_shiftl_add _ (b4 mod 16) 28) by (change (2^7) with 128; change (2^14) with 16384; change (2^21) with 2097152; change (2^28) with 268435456; lia).
    f_equal. f_equal. cbn [vval]. change (2^7) with 128; change (2^14) with 16384; change (2^21) with 2097152; change (2^28) with 268435456.
    rewrite (N.mod_small b4 128) by exact Hp. pose proof (N.div_mod b4 16 ltac:(discriminate)) as D. pose proof (N.mod_lt b4 16 ltac:(discriminate)) as D'.
    apply (N.mod_unique _ _ (b4 / 16)).
    + unfold u32. generalize dependent (b0 mod 128). generalize dependent (b1 mod 128). generalize dependent (b2 mod 128). generalize dependent (b3 mod 128).
      generalize dependent (b4 mod 16). clear. intros. lia.
    + unfold u32. generalize dependent (b0 mod 128). generalize dependent (b1 mod 128). generalize dependent (b2 mod 128). generalize dependent (b3 mod 128).
      generalize dependent (b4 mod 16). generalize dependent (b4 / 16). clear. intros. lia.
Qed.

Lemma shl_mod : forall a s, s <= 64 -> N.shiftl a s mod u64 = N.shiftl (a mod 2 ^ (64 - s)) s.
Proof.
  intros a s Hs. rewrite !N.shiftl_mul_pow2.
  assert (E : u64 = 2 ^ (64 - s) * 2 ^ s) by (rewrite <- N.pow_add_r; replace (64 - s + s) with 64 by lia; reflexivity).
  rewrite E. apply N.mul_mod_distr_r; apply N.pow_nonzero; lia.
Qed.

Lemma decode64_loop_mod : forall l rest s val, packed l -> val < 2 ^ s -> s + 7 * (N.of_nat (length l) - 1) <= 63 ->
  varint_decode64_loop (length l) (l ++ rest) s val = Ok ((val + 2 ^ s * vval l) mod u64).
Proof.
  induction l as [|b t IH]; intros rest s val Hp Hv Hs; [destruct Hp|].
  cbn [length app varint_decode64_loop vval] in *. rewrite land_127.
  assert (Hm : b mod 128 < 128) by (apply N.mod_lt; lia).
  destruct Hp as [[_ ->]|[_ Ht]].
  - cbn [length app varint_decode64_loop vval] in *. f_equal. rewrite shl_mod by lia. rewrite lor_shiftl_add by exact Hv.
    assert (E : u64 = 2 ^ (64 - s) * 2 ^ s) by (rewrite <- N.pow_add_r; replace (64 - s + s) with 64 by lia; reflexivity).
    set (A := 2 ^ (64 - s)) in *. set (B := 2 ^ s) in *. assert (HA : A <> 0) by (apply N.pow_nonzero; lia).
    apply (N.mod_unique _ _ ((b mod 128) / A)); [rewrite E; pose proof (N.mod_lt (b mod 128) A HA); nia|].
    rewrite E. pose proof (N.div_mod (b mod 128) A HA). nia.
  - pose proof (packed_nonempty t Ht).
    assert (Hp2 : 2 ^ (s + 7) = 2 ^ s * 128) by (rewrite N.pow_add_r; reflexivity).
    assert (H64 : 2 ^ (s + 7) <= 2 ^ 63) by (apply N.pow_le_mono_r; lia).
    rewrite (N.mod_small (N.shiftl (b mod 128) s)) by (rewrite N.shiftl_mul_pow2; change u64 with (2 ^ 63 * 2); nia).
    rewrite lor_shiftl_add by exact Hv. rewrite IH; [f_equal; f_equal; rewrite Hp2; lia|exact Ht|rewrite Hp2; nia|lia].
Qed.

Lemma decode64_mod : forall l rest, packed l -> (length l <= 10)%nat ->
  varint_decode64 (l ++ rest) = Ok (length l, vval l mod u64).
Proof.
  intros l rest Hp Hl. destruct (Nat.le_gt_cases (length l) 9) as [H9|H9].
  - pose proof (vval_bound l) as Hb.
    assert (H : 2 ^ (7 * N.of_nat (length l)) <= 2 ^ 63) by (apply N.pow_le_mono_r; lia).
    change (2 ^ 63) with 9223372036854775808 in H. rewrite decode64_ok by (assumption || unfold u64; lia).
    rewrite N.mod_small by (unfold u64; lia). reflexivity.
  - unfold varint_decode64, varint_length_packed. rewrite (length_packed_from_ok l 10 0 rest Hp Hl). cbn [bind Nat.add].
    destruct (Nat.ltb_spec (length l) 5) as [H5|_]; [lia|].
    destruct l as [|b0 [|b1 [|b2 [|b3 l]]]]; cbn [length] in H9; try lia.
    apply packed_cases in Hp; destruct Hp as [Hb0 Hp]. apply packed_cases in Hp; destruct Hp as [Hb1 Hp]. apply packed_cases in Hp; destruct Hp as [Hb2 Hp].
    destruct l as [|b4 l]; [cbn [length] in H9; lia|]. apply packed_cases in Hp; destruct Hp as [Hb3 Hp].
    unfold rd. cbn [app nth_error bind]. rewrite !land_127.
    rewrite (lor_shiftl_add (b0 mod 128) _ 7) by (change (2^7) with 128; lia).
    rewrite (lor_shiftl_add _ (b2 mod 128) 14) by (change (2^7) with 128; change (2^14) with 16384; lia).
    rewrite (lor_shiftl_add _ (b3 mod 128) 21) by (change (2^7) with 128; change (2^14) with 16384; change (2^21) with 2097152; lia).
    replace (length (b0 :: b1 :: b2 :: b3 :: b4 :: l) - 4)%nat with (length (b4 :: l)) by (cbn [length]; lia).
    change (skipn 4 (b0 :: b1 :: b2 :: b3 :: b4 :: l ++ rest)) with ((b4 :: l) ++ rest).
    rewrite decode64_loop_mod; [|exact Hp| |].
    + cbn [bind]. f_equal. f_equal. cbn [vval]. f_equal. change (2^7) with 128; change (2^14) with 16384; change (2^21) with 2097152; change (2^28) with 268435456. lia.
    + change (2^7) with 128; change (2^14) with 16384; change (2^21) with 2097152; change (2^28) with 268435456. lia.
    + cbn [length] in *. lia.
Qed.

Lemma land_128_more : forall b, byte_ok b -> 128 <= b -> (N.land b 128 =? 0) = false.
Proof. intros b H1 H2. rewrite land_128_lt by exact H1. apply N.ltb_ge. exact H2. Qed.

Lemma packed_overlong : forall max i l, bytes_ok l -> overlong max l -> varint_length_packed_from max i l = Ok 0%nat.
Proof.
  induction max as [|max IH]; intros i l HB (a & r & -> & Ha & HA); [reflexivity|].
  destruct a as [|b a]; [discriminate|]. cbn [app varint_length_packed_from]. inversion HA; subst. inversion HB; subst.
  rewrite land_128_more by assumption. apply IH; [assumption|]. exists a, r. repeat split; auto.
Qed.
Lemma packed_cut : forall max i l, bytes_ok l -> cut max l -> varint_length_packed_from max i l = UB.
Proof.
  induction max as [|max IH]; intros i l HB (HA & HL); [lia|]. destruct l as [|b l]; [reflexivity|].
  cbn [varint_length_packed_from]. inversion HA; subst. inversion HB; subst. rewrite land_128_more by assumption. apply IH; [assumption|].
  split; [assumption|cbn [length] in HL; lia].
Qed.

Lemma read32_overlong : forall l, bytes_ok l -> overlong 5 l -> varint_decode32 l = Ok (0%nat, hd 0 l - 128) /\ 128 <= hd 0 l < 256.
Proof.
  intros l HB HO. unfold varint_decode32, varint_length_packed. rewrite (packed_overlong 5 0 l HB HO). cbn [bind].
  destruct HO as (a & r & -> & Ha & HA). destruct a as [|b a]; [discriminate|]. cbn [app] in *. inversion HA; subst. inversion HB; subst. unfold byte_ok in *.
  unfold rd. cbn [nth_error bind hd]. rewrite land_127. split; [|lia]. cbn. f_equal. f_equal. lia.
Qed.
Lemma read64_overlong : forall l, bytes_ok l -> overlong 10 l -> exists v, varint_decode64 l = Ok (0%nat, v).
Proof.
  intros l HB HO. unfold varint_decode64, varint_length_packed. rewrite (packed_overlong 10 0 l HB HO). cbn [bind Nat.ltb Nat.leb].
  assert (H5 : overlong 5 l).
  { destruct HO as (a & r & -> & Ha & HA). exists (firstn 5 a), (skipn 5 a ++ r). rewrite app_assoc, firstn_skipn. split; [reflexivity|]. split; [rewrite firstn_length; lia|].
    unfold announcing in *. rewrite <- (firstn_skipn 5 a) in HA. apply Forall_app in HA. tauto. }
  destruct (read32_overlong l HB H5) as [-> _]. eauto.
Qed.
Lemma read32_cut : forall l, bytes_ok l -> cut 5 l -> varint_decode32 l = UB.
Proof. intros l HB HC. unfold varint_decode32, varint_length_packed. rewrite (packed_cut 5 0 l HB HC). reflexivity. Qed.
Lemma read64_cut : forall l, bytes_ok l -> cut 10 l -> varint_decode64 l = UB.
Proof. intros l HB HC. unfold varint_decode64, varint_length_packed. rewrite (packed_cut 10 0 l HB HC). reflexivity. Qed.
Lemma read32_finished : forall enc rest, bytes_ok enc -> finished 5 enc -> varint_decode32 (enc ++ rest) = Ok (length enc, base128 enc mod u32).
Proof. intros enc rest HB HF. destruct (finished_packed 5 enc HB HF). apply decode32_mod; assumption. Qed.
Lemma read64_finished : forall enc rest, bytes_ok enc -> finished 10 enc -> varint_decode64 (enc ++ rest) = Ok (length enc, base128 enc mod u64).
Proof. intros enc rest HB HF. destruct (finished_packed 10 enc HB HF). apply decode64_mod; assumption. Qed.

Lemma bytes_ok_app : forall a b, bytes_ok (a ++ b) <-> bytes_ok a /\ bytes_ok b.
Proof. intros a b. apply Forall_app. Qed.

Lemma skipn_app_at : forall (a b : bytes), skipn (length a) (a ++ b) = b.
Proof. intros. rewrite skipn_app, skipn_all, Nat.sub_diag. reflexivity. Qed.
Lemma firstn_app_at : forall (a b : bytes), firstn (length a) (a ++ b) = a.
Proof. intros. rewrite firstn_app, firstn_all, Nat.sub_diag. cbn. apply app_nil_r. Qed.

(** ** Arrays of record data *)

Lemma overlong_length : forall max l, overlong max l -> (max <= length l)%nat.
Proof. intros max l (a & b & -> & <- & _). rewrite app_length. lia. Qed.

Lemma item_shorter : forall l d r, item l d r -> (length r < length l)%nat.
Proof.
  intros l d r [enc data rest HF _ _|data rest _ HN _].
  - pose proof (finished_nonempty _ _ HF). rewrite !app_length. lia.
  - destruct data; [congruence|]. rewrite app_length. cbn. lia.
Qed.

Lemma item_bytes : forall l d r, item l d r -> bytes_ok l -> bytes_ok r.
Proof. intros l d r [enc data rest _ _ _|data rest _ _ _] H; rewrite ?bytes_ok_app in H; tauto. Qed.

Lemma item_decodes : forall fuel l d r, bytes_ok l -> item l d r ->
  decode_rdatas (S fuel) l = (let* rest := decode_rdatas fuel r in Ok (d :: rest)).
Proof.
  intros fuel l d r HB HI. pose proof (item_shorter _ _ _ HI) as HL. cbn [decode_rdatas]. destruct l as [|b l']; [cbn in HL; lia|]. set (l := b :: l') in *.
  destruct HI as [enc data rest HF HV HM|data rest HO HN HH].
  - apply bytes_ok_app in HB. destruct HB as [HB1 HB2]. rewrite (read32_finished enc (data ++ rest) HB1 HF). cbn [bind fst snd]. rewrite skipn_app_at, HV.
    destruct (N.ltb_spec 65535 (blen data)); [lia|]. destruct (N.ltb_spec (blen (data ++ rest)) (blen data)) as [C|_]; [unfold blen in C; rewrite app_length in C; lia|].
    rewrite skipn_blen, firstn_blen. reflexivity.
  - destruct (read32_overlong (data ++ rest) HB HO) as [-> HR]. cbn [bind fst snd skipn].
    assert (E : hd 0 (data ++ rest) - 128 = blen data) by (destruct data; [congruence|]; cbn [hd app] in *; lia). rewrite E.
    assert (E' : hd 0 (data ++ rest) = 128 + blen data) by lia.
    destruct (N.ltb_spec 65535 (blen data)); [lia|]. destruct (N.ltb_spec (blen (data ++ rest)) (blen data)) as [C|_]; [unfold blen in C; rewrite app_length in C; lia|].
    rewrite skipn_blen, firstn_blen. reflexivity.
Qed.

Lemma items_decode : forall l ds r, items l ds r -> bytes_ok l -> forall fuel, exists k, (length r + k = length l)%nat /\
  ((length l < fuel)%nat -> exists fuel', (length r < fuel')%nat /\ decode_rdatas fuel l = (let* rest := decode_rdatas fuel' r in Ok (ds ++ rest))).
Proof.
  intros l ds r H. induction H as [l|l d l' ds r HI H IH]; intros HB fuel.
  - exists O. split; [lia|]. intro HF. exists fuel. split; [exact HF|]. destruct (decode_rdatas fuel l); reflexivity.
  - pose proof (item_shorter _ _ _ HI) as HL. destruct (IH (item_bytes _ _ _ HI HB) (pred fuel)) as (k & EK & HK).
    exists (length l - length r)%nat. split; [lia|]. intro HF. destruct fuel as [|fuel]; [lia|]. cbn [pred] in HK. destruct (HK ltac:(lia)) as (fuel' & HF' & E).
    exists fuel'. split; [exact HF'|]. rewrite (item_decodes fuel l d l' HB HI), E. destruct (decode_rdatas fuel' r); reflexivity.
Qed.

Lemma endless_hangs : forall l, bytes_ok l -> endless l -> forall fuel, decode_rdatas fuel l = Hang.
Proof.
  intros l HB (HO & HH). destruct (read32_overlong l HB HO) as [E _]. rewrite HH in E. pose proof (overlong_length _ _ HO).
  induction fuel as [|fuel IH]; [reflexivity|]. cbn [decode_rdatas]. destruct l as [|b l']; [cbn in *; lia|]. rewrite E. cbn [bind fst snd skipn]. change (128 - 128) with 0.
  destruct (N.ltb_spec 65535 0); [lia|]. destruct (N.ltb_spec (blen (b :: l')) 0); [lia|]. cbn [N.to_nat skipn]. rewrite IH. reflexivity.
Qed.

Inductive rd_outcome (l : bytes) : res (list bytes) -> Prop :=
| rdo_ok : forall ds, items l ds [] -> rd_outcome l (Ok ds)
| rdo_ub : forall ds r, items l ds r -> r <> [] -> cut 5 r -> rd_outcome l UB
| rdo_hang : forall ds r, items l ds r -> endless r -> rd_outcome l Hang
| rdo_fail : rd_outcome l Fail.

Lemma rdatas_outcome : forall fuel l, bytes_ok l -> (length l < fuel)%nat -> rd_outcome l (decode_rdatas fuel l).
Proof.
  induction fuel as [|fuel IH]; intros l HB HF; [lia|]. destruct l as [|b l']; [apply rdo_ok; constructor|]. set (l := b :: l') in *.
  destruct (number_cases 5 l) as [(enc & rest & E & HN)|[HO|HC]].
  - assert (HB' : bytes_ok enc /\ bytes_ok rest) by (apply bytes_ok_app; rewrite <- E; exact HB). destruct HB' as [HB1 HB2].
    assert (ED : varint_decode32 l = Ok (length enc, base128 enc mod u32)) by (rewrite E; apply read32_finished; assumption).
    destruct (N.le_gt_cases (base128 enc mod u32) 65535) as [H1|H1].
    2:{ replace (decode_rdatas (S fuel) l) with (@Fail (list bytes)); [constructor|]. cbn [decode_rdatas]. unfold l at 1. rewrite ED. cbn [bind fst snd]. apply N.ltb_lt in H1. rewrite H1. reflexivity. }
    destruct (N.le_gt_cases (base128 enc mod u32) (blen rest)) as [H2|H2].
    2:{ replace (decode_rdatas (S fuel) l) with (@Fail (list bytes)); [constructor|]. cbn [decode_rdatas]. unfold l at 1. rewrite ED. cbn [bind fst snd]. apply N.ltb_ge in H1. rewrite H1.
        rewrite E, skipn_app_at. apply N.ltb_lt in H2. rewrite H2. reflexivity. }
    set (n := N.to_nat (base128 enc mod u32)) in *. assert (HI : item l (firstn n rest) (skipn n rest)).
    { assert (EB : blen (firstn n rest) = base128 enc mod u32) by (unfold blen in *; rewrite firstn_length; lia).
      rewrite E. rewrite <- (firstn_skipn n rest) at 1. apply item_counted; [exact HN|congruence|rewrite EB; exact H1]. }
    pose proof (item_shorter _ _ _ HI) as HL. pose proof (IH _ (item_bytes _ _ _ HI HB) ltac:(lia)) as HR. rewrite (item_decodes fuel l _ _ HB HI).
    inversion HR as [ds Hi Er|ds r Hi Hn Hc Er|ds r Hi Hc Er|Er]; cbn [bind].
    + apply rdo_ok. econstructor; eauto.
    + eapply rdo_ub; [econstructor; eauto|exact Hn|exact Hc].
    + eapply rdo_hang; [econstructor; eauto|exact Hc].
    + constructor.
  - destruct (read32_overlong l HB HO) as [ED HR0]. set (v := hd 0 l - 128) in *. destruct (N.eq_dec v 0) as [Ez|Ez].
    + assert (HEnd : endless l) by (split; [exact HO|lia]). rewrite (endless_hangs l HB HEnd). eapply rdo_hang; [constructor|exact HEnd].
    + destruct (N.le_gt_cases v (blen l)) as [H2|H2].
      2:{ replace (decode_rdatas (S fuel) l) with (@Fail (list bytes)); [constructor|]. cbn [decode_rdatas]. unfold l at 1. rewrite ED. cbn [bind fst snd skipn].
          destruct (N.ltb_spec 65535 v); [reflexivity|]. apply N.ltb_lt in H2. rewrite H2. reflexivity. }
      assert (HI : item l (firstn (N.to_nat v) l) (skipn (N.to_nat v) l)).
      { assert (EB : blen (firstn (N.to_nat v) l) = v) by (unfold blen in *; rewrite firstn_length; lia).
        rewrite <- (firstn_skipn (N.to_nat v) l) at 1. apply item_overlong; [rewrite firstn_skipn; exact HO| |].
        - intro C. rewrite C in EB. cbn in EB. lia.
        - rewrite EB. assert (Hh : hd 0 (firstn (N.to_nat v) l) = hd 0 l) by (unfold l; destruct (N.to_nat v) eqn:Ev; [lia|reflexivity]). rewrite Hh. lia. }
      pose proof (item_shorter _ _ _ HI) as HL. pose proof (IH _ (item_bytes _ _ _ HI HB) ltac:(lia)) as HR. rewrite (item_decodes fuel l _ _ HB HI).
      inversion HR as [ds Hi Er|ds r Hi Hn Hc Er|ds r Hi Hc Er|Er]; cbn [bind].
      * apply rdo_ok. econstructor; eauto.
      * eapply rdo_ub; [econstructor; eauto|exact Hn|exact Hc].
      * eapply rdo_hang; [econstructor; eauto|exact Hc].
      * constructor.
  - replace (decode_rdatas (S fuel) l) with (@UB (list bytes)); [eapply rdo_ub; [constructor|discriminate|exact HC]|].
    cbn [decode_rdatas]. unfold l at 1. rewrite (read32_cut l HB HC). reflexivity.
Qed.

Lemma rdatas_of : forall fuel l ds, items l ds [] -> bytes_ok l -> (length l < fuel)%nat -> decode_rdatas fuel l = Ok ds.
Proof.
  intros fuel l ds HI HB HF. destruct (items_decode l ds [] HI HB fuel) as (k & _ & H). destruct (H HF) as (f & Hf & ->). destruct f; [cbn in Hf; lia|]. cbn. rewrite app_nil_r. reflexivity.
Qed.
Lemma rdatas_cut : forall fuel l ds r, items l ds r -> r <> [] -> cut 5 r -> bytes_ok l -> (length l < fuel)%nat -> decode_rdatas fuel l = UB.
Proof.
  intros fuel l ds r HI HN HC HB HF. destruct (items_decode l ds r HI HB fuel) as (k & _ & H). destruct (H HF) as (f & Hf & ->). destruct f; [lia|].
  assert (HBr : bytes_ok r). { clear -HI HB. induction HI as [|l d l' ds r Hi HI IH]; [exact HB|]. apply IH. exact (item_bytes _ _ _ Hi HB). }
  cbn [decode_rdatas]. destruct r; [congruence|]. rewrite (read32_cut _ HBr HC). reflexivity.
Qed.
Lemma rdatas_endless : forall fuel l ds r, items l ds r -> endless r -> bytes_ok l -> (length l < fuel)%nat -> decode_rdatas fuel l = Hang.
Proof.
  intros fuel l ds r HI HN HB HF. destruct (items_decode l ds r HI HB fuel) as (k & _ & H). destruct (H HF) as (f & Hf & ->).
  assert (HBr : bytes_ok r). { clear -HI HB. induction HI as [|l d l' ds r Hi HI IH]; [exact HB|]. apply IH. exact (item_bytes _ _ _ Hi HB). }
  rewrite (endless_hangs r HBr HN). reflexivity.
Qed.

(** ** Names *)

Lemma rev_name_outcome : forall mem avail, bytes_ok mem ->
  (exists owner rest, firstn avail mem = rwire owner ++ rest /\ name_ok owner /\ decode_rev_name mem avail = Ok (length (rwire owner), wire owner)) \/
  decode_rev_name mem avail = Fail.
Proof.
  intros mem avail HB. unfold decode_rev_name. destruct (wdns_len_uname (firstn avail mem)) as [n| | | |] eqn:E;
    try (destruct (len_uname_total (firstn avail mem)) as [F|(m & F)]; rewrite E in F; try discriminate F; right; reflexivity).
  left. cbn [bind]. apply len_uname_inv in E. destruct E as (ls & rest & Em & -> & HF & HL).
  assert (Emem : mem = wire ls ++ (rest ++ skipn avail mem)) by (rewrite app_assoc, <- Em, firstn_skipn; reflexivity).
  exists (rev ls), rest. unfold rwire. rewrite rev_involutive. split; [exact Em|]. split.
  - apply name_ok_rev. split; [|exact HL]. rewrite Emem in HB. apply bytes_ok_app in HB. destruct HB as [HB _]. unfold wire in HB. apply bytes_ok_app in HB. destruct HB as [HB _].
    clear -HF HB. induction HF as [|x ls Hx HF IH]; constructor.
    + split; [exact Hx|]. cbn [enc_labels flat_map app] in HB. inversion HB as [|? ? _ HB']; subst. apply bytes_ok_app in HB'. tauto.
    + apply IH. cbn [enc_labels flat_map app] in HB. inversion HB as [|? ? _ HB']; subst. apply bytes_ok_app in HB'. tauto.
  - rewrite Emem at 1. rewrite reverse_wire_gen; [reflexivity|]. eapply Forall_impl; [|exact HF]. cbn. intros; lia.
Qed.

Lemma rev_name_of : forall owner rest avail, name_ok owner -> (length (rwire owner) <= avail)%nat ->
  decode_rev_name (rwire owner ++ rest) avail = Ok (length (rwire owner), wire owner).
Proof. intros owner rest avail HO HL. rewrite length_rwire in HL. rewrite (rev_name_ok owner rest avail HO HL), length_rwire. reflexivity. Qed.

Lemma rev_name_big : forall b mem avail, 128 <= b -> decode_rev_name (b :: mem) avail = Fail.
Proof.
  intros b mem [|avail] Hb; [reflexivity|]. unfold decode_rev_name, wdns_len_uname. cbn [firstn length len_uname_loop].
  destruct (N.eqb_spec b 0); [lia|]. unfold WDNS_MAXLEN_LABEL. destruct (N.ltb_spec 63 b); [reflexivity|lia].
Qed.

(** [wdns_reverse_name] on a whole key. *)
Inductive rev_outcome (mem acc : bytes) : res bytes -> Prop :=
| ro_ok : forall ls, mem = wire ls -> long_labels ls -> rev_outcome mem acc (Ok (enc_labels (rev ls) ++ acc))
| ro_open : forall ls, mem = enc_labels ls -> long_labels ls -> rev_outcome mem acc UB
| ro_early : forall ls rest, mem = wire ls ++ rest -> rest <> [] -> long_labels ls -> rev_outcome mem acc UB
| ro_fail : rev_outcome mem acc Fail.

Lemma reverse_outcome : forall fuel mem total acc, (length mem < fuel)%nat ->
  rev_outcome mem acc (reverse_name_loop fuel mem total (total + blen mem) acc).
Proof.
  induction fuel as [|fuel IH]; intros mem total acc HF; [lia|]. cbn [reverse_name_loop]. destruct mem as [|c rest].
  - apply (ro_open _ _ []); [reflexivity|constructor].
  - cbn [length] in HF. assert (EB : blen (c :: rest) = 1 + blen rest) by (unfold blen; cbn [length]; lia). rewrite EB. destruct (N.eqb_spec c 0) as [->|Hc].
    + destruct (N.eqb_spec (total + 1) (total + (1 + blen rest))) as [E|E].
      * destruct rest; [|unfold blen in E; cbn [length] in E; lia]. apply (ro_ok _ _ []); [reflexivity|constructor].
      * apply (ro_early _ _ [] rest); [reflexivity|intros ->; unfold blen in E; cbn [length] in E; lia|constructor].
    + destruct (N.ltb_spec (total + (1 + blen rest)) (total + (c + 1))); [constructor|].
      destruct (N.eqb_spec (total + (c + 1)) (total + (1 + blen rest))) as [E|E].
      * apply (ro_open _ _ [rest]); [cbn; rewrite app_nil_r; f_equal; lia|]. constructor; [unfold blen in E; lia|constructor].
      * destruct (N.ltb_spec (blen rest) c); [lia|]. set (l := firstn (N.to_nat c) rest). set (r := skipn (N.to_nat c) rest).
        assert (ER : rest = l ++ r) by (symmetry; apply firstn_skipn). assert (EL : blen l = c) by (unfold l, blen in *; rewrite firstn_length; lia).
        assert (EBr : blen rest = c + blen r) by (rewrite ER, <- EL; unfold blen; rewrite app_length; lia).
        assert (HL : (1 <= length l)%nat) by (unfold blen in EL; lia).
        specialize (IH r (total + (c + 1)) ((c :: l) ++ acc)). replace (total + (c + 1) + blen r) with (total + (1 + blen rest)) in IH by lia.
        specialize (IH ltac:(unfold blen in EBr; lia)). fold r. fold l.
        generalize dependent (reverse_name_loop fuel r (total + (c + 1)) (total + (1 + blen rest)) ((c :: l) ++ acc)). intros R IH.
        inversion IH as [ls Em HLs Er|ls Em HLs Er|ls rest' Em Hr HLs Er|Er].
        -- replace (enc_labels (rev ls) ++ (c :: l) ++ acc) with (enc_labels (rev (l :: ls)) ++ acc).
           ++ apply (ro_ok _ _ (l :: ls)); [rewrite wire_cons, EL, <- Em, <- ER; reflexivity|constructor; assumption].
           ++ cbn [rev]. rewrite enc_labels_app. cbn [enc_labels flat_map]. rewrite app_nil_r, EL, <- app_assoc. reflexivity.
        -- apply (ro_open _ _ (l :: ls)); [cbn [enc_labels flat_map]; fold (enc_labels ls); rewrite EL, <- Em, ER; reflexivity|constructor; assumption].
        -- apply (ro_early _ _ (l :: ls) rest'); [rewrite wire_cons, EL; cbn [app]; rewrite <- app_assoc, <- Em, <- ER; reflexivity|exact Hr|constructor; assumption].
        -- constructor.
Qed.

Lemma labels_nonempty : forall l ls, (1 <= length l)%nat -> (1 <= length (enc_labels (l :: ls)))%nat.
Proof. intros. cbn. lia. Qed.

Lemma reverse_open : forall ls fuel total acc, long_labels ls -> (length (enc_labels ls) < fuel)%nat ->
  reverse_name_loop fuel (enc_labels ls) total (total + blen (enc_labels ls)) acc = UB.
Proof.
  induction ls as [|l ls IH]; intros fuel total acc HL HF; (destruct fuel as [|fuel]; [lia|]); [reflexivity|].
  inversion HL; subst. cbn [enc_labels flat_map app] in *. fold (enc_labels ls) in *. cbn [reverse_name_loop]. cbn [length] in HF. rewrite app_length in HF.
  assert (EB : blen (blen l :: l ++ enc_labels ls) = 1 + blen l + blen (enc_labels ls)) by (unfold blen; cbn [length]; rewrite app_length; lia). rewrite EB.
  destruct (N.eqb_spec (blen l) 0) as [C|_]; [unfold blen in C; lia|].
  destruct (N.ltb_spec (total + (1 + blen l + blen (enc_labels ls))) (total + (blen l + 1))); [lia|].
  destruct (N.eqb_spec (total + (blen l + 1)) (total + (1 + blen l + blen (enc_labels ls)))) as [E|E]; [reflexivity|].
  destruct (N.ltb_spec (blen (l ++ enc_labels ls)) (blen l)) as [C|_]; [reflexivity|]. rewrite skipn_blen, firstn_blen.
  replace (total + (1 + blen l + blen (enc_labels ls))) with (total + (blen l + 1) + blen (enc_labels ls)) by lia. apply IH; [assumption|lia].
Qed.

Lemma reverse_early : forall ls rest fuel total acc, long_labels ls -> rest <> [] -> (length (wire ls ++ rest) < fuel)%nat ->
  reverse_name_loop fuel (wire ls ++ rest) total (total + blen (wire ls ++ rest)) acc = UB.
Proof.
  induction ls as [|l ls IH]; intros rest fuel total acc HL HN HF; (destruct fuel as [|fuel]; [lia|]).
  - cbn [wire enc_labels flat_map app reverse_name_loop N.eqb]. destruct (N.eqb_spec (total + 1) (total + blen (0 :: rest))) as [E|E]; [|reflexivity].
    destruct rest; [congruence|]. unfold blen in E. cbn [length] in E. lia.
  - inversion HL; subst. rewrite wire_cons in *. cbn [app reverse_name_loop]. cbn [app length] in HF. rewrite <- app_assoc, !app_length in HF.
    assert (EB : blen (blen l :: (l ++ wire ls) ++ rest) = 1 + blen l + blen (wire ls ++ rest)) by (unfold blen; cbn [length]; rewrite !app_length; lia). rewrite EB, <- app_assoc.
    assert (HW : 1 <= blen (wire ls ++ rest)) by (unfold blen; rewrite app_length; pose proof (wire_nonempty ls); lia).
    destruct (N.eqb_spec (blen l) 0) as [C|_]; [unfold blen in C; lia|].
    destruct (N.ltb_spec (total + (1 + blen l + blen (wire ls ++ rest))) (total + (blen l + 1))); [lia|].
    destruct (N.eqb_spec (total + (blen l + 1)) (total + (1 + blen l + blen (wire ls ++ rest)))) as [E|E]; [lia|].
    destruct (N.ltb_spec (blen (l ++ wire ls ++ rest)) (blen l)) as [C|_]; [reflexivity|]. rewrite skipn_blen, firstn_blen.
    replace (total + (1 + blen l + blen (wire ls ++ rest))) with (total + (blen l + 1) + blen (wire ls ++ rest)) by lia. apply IH; [assumption|assumption|rewrite app_length; lia].
Qed.

(** ** Values *)

Lemma skipn_plus : forall (a b : bytes) n, skipn (length a + n) (a ++ b) = skipn n b.
Proof. intros a b n. rewrite <- skipn_skipn_add, skipn_app_at. reflexivity. Qed.

Lemma triplet_of : forall a b c val, bytes_ok val -> numbers [a; b; c] val -> triplet_unpack val = Ok (a, b, c).
Proof.
  intros a b c val HB H. inversion H as [|e1 ? l1 F1 H1]; subst. inversion H1 as [|e2 ? l2 F2 H2]; subst. inversion H2 as [|e3 ? l3 F3 H3]; subst. inversion H3; subst.
  apply bytes_ok_app in HB. destruct HB as [B1 HB]. apply bytes_ok_app in HB. destruct HB as [B2 HB]. apply bytes_ok_app in HB. destruct HB as [B3 _].
  unfold triplet_unpack. rewrite (read64_finished e1 _ B1 F1). cbn [bind fst snd]. rewrite skipn_app_at, (read64_finished e2 _ B2 F2). cbn [bind fst snd].
  rewrite skipn_plus, skipn_app_at, (read64_finished e3 _ B3 F3). cbn [bind fst snd]. rewrite !app_length. cbn [length].
  destruct (Nat.eqb_spec (length e1 + length e2 + length e3) (length e1 + (length e2 + (length e3 + 0)))); [reflexivity|lia].
Qed.
Lemma pair_of : forall a b val, bytes_ok val -> numbers [a; b] val -> pair_unpack val = Ok (a, b).
Proof.
  intros a b val HB H. inversion H as [|e1 ? l1 F1 H1]; subst. inversion H1 as [|e2 ? l2 F2 H2]; subst. inversion H2; subst.
  apply bytes_ok_app in HB. destruct HB as [B1 HB]. apply bytes_ok_app in HB. destruct HB as [B2 _].
  unfold pair_unpack. rewrite (read64_finished e1 _ B1 F1). cbn [bind fst snd]. rewrite skipn_app_at, (read64_finished e2 _ B2 F2). cbn [bind fst snd].
  rewrite !app_length. cbn [length]. destruct (Nat.eqb_spec (length e1 + length e2) (length e1 + (length e2 + 0))); [reflexivity|lia].
Qed.

Lemma triplet_short : forall val, bytes_ok val -> short 3 val -> triplet_unpack val = UB.
Proof.
  intros val HB H. inversion H as [n l C1|n e1 l1 F1 H1]; subst; [unfold triplet_unpack; rewrite (read64_cut _ HB C1); reflexivity|].
  apply bytes_ok_app in HB. destruct HB as [B1 HB]. unfold triplet_unpack. rewrite (read64_finished e1 _ B1 F1). cbn [bind fst snd]. rewrite skipn_app_at.
  inversion H1 as [n l C2|n e2 l2 F2 H2]; subst; [rewrite (read64_cut _ HB C2); reflexivity|].
  apply bytes_ok_app in HB. destruct HB as [B2 HB]. rewrite (read64_finished e2 _ B2 F2). cbn [bind fst snd]. rewrite skipn_plus, skipn_app_at.
  inversion H2 as [n l C3|n e3 l3 F3 H3]; subst; [rewrite (read64_cut _ HB C3); reflexivity|]. inversion H3.
Qed.
Lemma pair_short : forall val, bytes_ok val -> short 2 val -> pair_unpack val = UB.
Proof.
  intros val HB H. inversion H as [n l C1|n e1 l1 F1 H1]; subst; [unfold pair_unpack; rewrite (read64_cut _ HB C1); reflexivity|].
  apply bytes_ok_app in HB. destruct HB as [B1 HB]. unfold pair_unpack. rewrite (read64_finished e1 _ B1 F1). cbn [bind fst snd]. rewrite skipn_app_at.
  inversion H1 as [n l C2|n e2 l2 F2 H2]; subst; [rewrite (read64_cut _ HB C2); reflexivity|]. inversion H2.
Qed.

Lemma triplet_outcome : forall val, bytes_ok val ->
  (exists a b c, numbers [a; b; c] val /\ triplet_unpack val = Ok (a, b, c)) \/ (short 3 val /\ triplet_unpack val = UB) \/ triplet_unpack val = Fail.
Proof.
  intros val HB. destruct (number_cases 10 val) as [(e1 & r1 & -> & F1)|[O1|C1]].
  3:{ right. left. assert (S3 : short 3 val) by (apply short_now; exact C1). split; [exact S3|apply triplet_short; assumption]. }
  2:{ right. right. unfold triplet_unpack. destruct (read64_overlong val HB O1) as (v & E). rewrite E. cbn [bind fst snd skipn Nat.add]. rewrite E. cbn [bind fst snd skipn Nat.add]. rewrite E. cbn [bind fst snd Nat.add].
      pose proof (overlong_length _ _ O1). destruct (Nat.eqb_spec 0 (length val)); [lia|reflexivity]. }
  pose proof HB as HB0. apply bytes_ok_app in HB. destruct HB as [B1 HB]. destruct (number_cases 10 r1) as [(e2 & r2 & -> & F2)|[O2|C2]].
  3:{ right. left. assert (S3 : short 3 (e1 ++ r1)) by (apply short_later; [exact F1|apply short_now; exact C2]). split; [exact S3|apply triplet_short; assumption]. }
  2:{ right. right. unfold triplet_unpack. rewrite (read64_finished e1 _ B1 F1). cbn [bind fst snd]. rewrite skipn_app_at. destruct (read64_overlong r1 HB O2) as (v & E). rewrite E. cbn [bind fst snd].
      rewrite skipn_plus. cbn [skipn]. rewrite E. cbn [bind fst snd]. pose proof (overlong_length _ _ O2). rewrite app_length. destruct (Nat.eqb_spec (length e1 + 0 + 0) (length e1 + length r1)); [lia|reflexivity]. }
  apply bytes_ok_app in HB. destruct HB as [B2 HB]. destruct (number_cases 10 r2) as [(e3 & r3 & -> & F3)|[O3|C3]].
  3:{ right. left. assert (S3 : short 3 (e1 ++ e2 ++ r2)) by (apply short_later; [exact F1|apply short_later; [exact F2|apply short_now; exact C3]]). split; [exact S3|apply triplet_short; assumption]. }
  2:{ right. right. unfold triplet_unpack. rewrite (read64_finished e1 _ B1 F1). cbn [bind fst snd]. rewrite skipn_app_at, (read64_finished e2 _ B2 F2). cbn [bind fst snd]. rewrite skipn_plus, skipn_app_at.
      destruct (read64_overlong r2 HB O3) as (v & E). rewrite E. cbn [bind fst snd]. pose proof (overlong_length _ _ O3). rewrite !app_length.
      destruct (Nat.eqb_spec (length e1 + length e2 + 0) (length e1 + (length e2 + length r2))); [lia|reflexivity]. }
  destruct r3 as [|b r3].
  - left. do 3 eexists. assert (N3 : numbers [base128 e1 mod u64; base128 e2 mod u64; base128 e3 mod u64] (e1 ++ e2 ++ e3 ++ [])) by (repeat (constructor; [assumption|]); constructor).
    split; [exact N3|apply triplet_of; assumption].
  - right. right. apply bytes_ok_app in HB. destruct HB as [B3 _]. unfold triplet_unpack. rewrite (read64_finished e1 _ B1 F1). cbn [bind fst snd]. rewrite skipn_app_at, (read64_finished e2 _ B2 F2). cbn [bind fst snd].
    rewrite skipn_plus, skipn_app_at, (read64_finished e3 _ B3 F3). cbn [bind fst snd]. rewrite !app_length. cbn [length].
    destruct (Nat.eqb_spec (length e1 + length e2 + length e3) (length e1 + (length e2 + (length e3 + S (length r3))))); [lia|reflexivity].
Qed.

Lemma pair_outcome : forall val, bytes_ok val ->
  (exists a b, numbers [a; b] val /\ pair_unpack val = Ok (a, b)) \/ (short 2 val /\ pair_unpack val = UB) \/ pair_unpack val = Fail.
Proof.
  intros val HB. destruct (number_cases 10 val) as [(e1 & r1 & -> & F1)|[O1|C1]].
  3:{ right. left. assert (S3 : short 2 val) by (apply short_now; exact C1). split; [exact S3|apply pair_short; assumption]. }
  2:{ right. right. unfold pair_unpack. destruct (read64_overlong val HB O1) as (v & E). rewrite E. cbn [bind fst snd skipn Nat.add]. rewrite E. cbn [bind fst snd skipn Nat.add].
      pose proof (overlong_length _ _ O1). destruct (Nat.eqb_spec 0 (length val)); [lia|reflexivity]. }
  pose proof HB as HB0. apply bytes_ok_app in HB. destruct HB as [B1 HB]. destruct (number_cases 10 r1) as [(e2 & r2 & -> & F2)|[O2|C2]].
  3:{ right. left. assert (S3 : short 2 (e1 ++ r1)) by (apply short_later; [exact F1|apply short_now; exact C2]). split; [exact S3|apply pair_short; assumption]. }
  2:{ right. right. unfold pair_unpack. rewrite (read64_finished e1 _ B1 F1). cbn [bind fst snd]. rewrite skipn_app_at. destruct (read64_overlong r1 HB O2) as (v & E). rewrite E. cbn [bind fst snd].
      pose proof (overlong_length _ _ O2). rewrite app_length. destruct (Nat.eqb_spec (length e1 + 0) (length e1 + length r1)); [lia|reflexivity]. }
  destruct r2 as [|b r2].
  - left. do 2 eexists. assert (N3 : numbers [base128 e1 mod u64; base128 e2 mod u64] (e1 ++ e2 ++ [])) by (repeat (constructor; [assumption|]); constructor).
    split; [exact N3|apply pair_of; assumption].
  - right. right. apply bytes_ok_app in HB. destruct HB as [B2 _]. unfold pair_unpack. rewrite (read64_finished e1 _ B1 F1). cbn [bind fst snd]. rewrite skipn_app_at, (read64_finished e2 _ B2 F2). cbn [bind fst snd].
    rewrite !app_length. cbn [length]. destruct (Nat.eqb_spec (length e1 + length e2) (length e1 + (length e2 + S (length r2)))); [lia|reflexivity].
Qed.

(** ** RRset keys *)

Lemma front_decodes : forall buf owner ty bw rest, bytes_ok buf -> rrset_front buf owner ty bw rest ->
  bytes_ok rest /\ (length rest <= length buf)%nat /\
  decode_rrset buf = (let* rs := decode_rdatas (S (length buf)) rest in Ok (wire owner, ty, wire bw, rs)).
Proof.
  intros buf owner ty bw rest HB HF. destruct HF as [owner t bw rest HO HBw HT]. set (buf := rwire owner ++ t ++ rwire bw ++ rest) in *.
  pose proof HB as HB0. unfold buf in HB. apply bytes_ok_app in HB. destruct HB as [_ HB]. apply bytes_ok_app in HB. destruct HB as [BT HB]. apply bytes_ok_app in HB. destruct HB as [_ BR].
  split; [exact BR|]. split; [unfold buf; rewrite !app_length; lia|].
  unfold decode_rrset, decode_rrset_fuel. set (fuel := S (length buf)).
  unfold buf at 1. rewrite (rev_name_of owner _ _ HO) by (unfold buf; rewrite app_length; lia). cbn [bind fst snd].
  unfold buf. rewrite skipn_app_at, (read32_finished t _ BT HT). cbn [bind fst snd]. rewrite skipn_app_at.
  rewrite (rev_name_of bw rest _ HBw) by (rewrite app_length; lia). cbn [bind fst snd]. rewrite skipn_app_at. reflexivity.
Qed.

Inductive rrset_outcome (buf : bytes) : res (bytes * N * bytes * list bytes) -> Prop :=
| rs_ok : forall owner ty bw rest ds, rrset_front buf owner ty bw rest -> items rest ds [] -> rrset_outcome buf (Ok (wire owner, ty, wire bw, ds))
| rs_type : forall owner l, buf = rwire owner ++ l -> name_ok owner -> cut 5 l -> rrset_outcome buf UB
| rs_length : forall owner ty bw rest ds l, rrset_front buf owner ty bw rest -> items rest ds l -> l <> [] -> cut 5 l -> rrset_outcome buf UB
| rs_hang : forall owner ty bw rest ds l, rrset_front buf owner ty bw rest -> items rest ds l -> endless l -> rrset_outcome buf Hang
| rs_fail : rrset_outcome buf Fail.

Lemma overlong_first : forall max l, overlong (S max) l -> exists b l', l = b :: l' /\ 128 <= b.
Proof. intros max l (a & r & -> & Ha & HA). destruct a as [|b a]; [discriminate|]. inversion HA; subst. exists b, (a ++ r). split; [reflexivity|assumption]. Qed.

Lemma decode_rrset_outcome : forall buf, bytes_ok buf -> rrset_outcome buf (decode_rrset buf).
Proof.
  intros buf HB. pose proof HB as HB0. destruct (rev_name_outcome buf (length buf) HB) as [(owner & r1 & E & HO & D)|D].
  2:{ unfold decode_rrset, decode_rrset_fuel. rewrite D. constructor. }
  rewrite firstn_all in E. destruct (number_cases 5 r1) as [(t & r2 & E1 & HT)|[O1|C1]].
  3:{ replace (decode_rrset buf) with (@UB (bytes * N * bytes * list bytes)); [exact (rs_type buf owner r1 E HO C1)|].
      unfold decode_rrset, decode_rrset_fuel. rewrite D. cbn [bind fst snd]. rewrite E, skipn_app_at. rewrite E in HB. apply bytes_ok_app in HB. rewrite (read32_cut r1 (proj2 HB) C1). reflexivity. }
  2:{ replace (decode_rrset buf) with (@Fail (bytes * N * bytes * list bytes)); [constructor|].
      unfold decode_rrset, decode_rrset_fuel. rewrite D. cbn [bind fst snd]. rewrite E, skipn_app_at. rewrite E in HB. apply bytes_ok_app in HB. destruct (read32_overlong r1 (proj2 HB) O1) as [ED _]. rewrite ED. cbn [bind fst snd skipn].
      destruct (overlong_first 4 r1 O1) as (b & l' & -> & Hb). rewrite rev_name_big by exact Hb. reflexivity. }
  subst r1. assert (BR : bytes_ok t /\ bytes_ok r2) by (rewrite E in HB; apply bytes_ok_app in HB; destruct HB as [_ HB]; apply bytes_ok_app in HB; exact HB). destruct BR as [BT B2].
  destruct (rev_name_outcome r2 (length r2) B2) as [(bw & r3 & E2 & HBw & D2)|D2].
  2:{ replace (decode_rrset buf) with (@Fail (bytes * N * bytes * list bytes)); [constructor|].
      unfold decode_rrset, decode_rrset_fuel. rewrite D. cbn [bind fst snd]. rewrite E, skipn_app_at, (read32_finished t _ BT HT). cbn [bind fst snd]. rewrite skipn_app_at, D2. reflexivity. }
  rewrite firstn_all in E2. subst r2. assert (HF : rrset_front buf owner (base128 t mod u32) bw r3) by (rewrite E; constructor; assumption).
  destruct (front_decodes buf owner _ bw r3 HB0 HF) as (B3 & L3 & ->). pose proof (rdatas_outcome (S (length buf)) r3 B3 ltac:(lia)) as HR.
  destruct HR as [ds Hi|ds r Hi Hn Hc|ds r Hi Hc|]; cbn [bind].
  - exact (rs_ok buf _ _ _ _ _ HF Hi).
  - exact (rs_length buf _ _ _ _ _ _ HF Hi Hn Hc).
  - exact (rs_hang buf _ _ _ _ _ _ HF Hi Hc).
  - constructor.
Qed.

(** ** RData keys *)

Lemma last_two : forall buf, 2 <= blen buf -> exists body lo hi, buf = body ++ [lo; hi].
Proof.
  intros buf H. unfold blen in H. exists (firstn (length buf - 2) buf). assert (HL : length (skipn (length buf - 2) buf) = 2%nat) by (rewrite skipn_length; lia).
  destruct (skipn (length buf - 2) buf) as [|lo [|hi [|]]] eqn:E; try discriminate HL. exists lo, hi. rewrite <- E, firstn_skipn. reflexivity.
Qed.

Lemma le16_parts : forall n lo hi, lo < 256 -> hi < 256 -> n = lo + 256 * hi -> enc_le16 n = [lo; hi] /\ n < 65536.
Proof. intros n lo hi H1 H2 ->. unfold enc_le16. split; [f_equal; [lia|f_equal; lia]|lia]. Qed.

Lemma parts_decode : forall buf owner ty data, bytes_ok buf -> rdata_parts buf owner ty data -> decode_rdata buf = Ok (wire owner, ty, data).
Proof.
  intros buf owner ty data HB H. destruct H as [tail t owner slice HT HO HL]. apply bytes_ok_app in HB. destruct HB as [_ HB]. apply bytes_ok_app in HB. destruct HB as [BT _].
  unfold decode_rdata. set (lo := blen tail mod 256). set (hi := blen tail / 256). change (enc_le16 (blen tail)) with [lo; hi].
  set (body := tail ++ t ++ rwire owner ++ slice). assert (EB : tail ++ t ++ rwire owner ++ slice ++ [lo; hi] = body ++ [lo; hi]) by (unfold body; rewrite <- !app_assoc; reflexivity). rewrite EB.
  assert (EL : blen (body ++ [lo; hi]) = blen body + 2) by (unfold blen; rewrite app_length; cbn; lia). rewrite EL. destruct (N.ltb_spec (blen body + 2) 2); [lia|].
  replace (length (body ++ [lo; hi]) - 2)%nat with (length body) by (rewrite app_length; cbn; lia).
  rewrite (rd_app_at body lo [hi]). cbn [bind]. assert (EH : rd (body ++ [lo; hi]) (S (length body)) = Ok hi).
  { replace (body ++ [lo; hi]) with ((body ++ [lo]) ++ hi :: []) by (rewrite <- app_assoc; reflexivity). replace (S (length body)) with (length (body ++ [lo])) by (rewrite app_length; cbn; lia). apply rd_app_at. }
  rewrite EH. cbn [bind]. assert (ED : lo + 256 * hi = blen tail) by (unfold lo, hi; pose proof (N.div_mod (blen tail) 256 ltac:(discriminate)); lia). rewrite ED.
  destruct (N.ltb_spec (N.of_nat (length body)) (blen tail)) as [C|_]; [unfold body, blen in C; rewrite app_length in C; lia|].
  rewrite <- EB, firstn_blen, skipn_blen, (read32_finished t _ BT HT). cbn [bind fst snd].
  assert (E2 : (N.to_nat (blen tail) + length t)%nat = length (tail ++ t)) by (unfold blen; rewrite app_length; lia). rewrite E2.
  destruct (Nat.ltb_spec (length body) (length (tail ++ t))) as [C|_]; [unfold body in C; rewrite !app_length in C; lia|].
  rewrite (app_assoc tail t), skipn_app_at. replace (length body - length (tail ++ t))%nat with (length (rwire owner ++ slice)) by (unfold body; rewrite !app_length; lia).
  rewrite (rev_name_of owner _ _ HO) by (rewrite app_length; lia). cbn [bind fst snd].
  assert (E3 : (length (tail ++ t) + length (rwire owner))%nat = length ((tail ++ t) ++ rwire owner)) by (rewrite (app_length (tail ++ t)); reflexivity). rewrite E3.
  rewrite (app_assoc (tail ++ t)), skipn_app_at. replace (length body - length ((tail ++ t) ++ rwire owner))%nat with (length slice) by (unfold body; rewrite !app_length; lia).
  rewrite firstn_app_at. reflexivity.
Qed.

Lemma over_rdata_decode : forall tail l, bytes_ok (l ++ enc_le16 (blen tail)) -> cut 5 (l ++ enc_le16 (blen tail)) -> blen tail < 65536 ->
  decode_rdata (tail ++ l ++ enc_le16 (blen tail)) = UB.
Proof.
  intros tail l HB HC HL. unfold decode_rdata. set (lo := blen tail mod 256) in *. set (hi := blen tail / 256) in *. change (enc_le16 (blen tail)) with [lo; hi] in *.
  set (body := tail ++ l). assert (EB : tail ++ l ++ [lo; hi] = body ++ [lo; hi]) by (unfold body; rewrite <- !app_assoc; reflexivity). rewrite EB.
  assert (EL : blen (body ++ [lo; hi]) = blen body + 2) by (unfold blen; rewrite app_length; cbn; lia). rewrite EL. destruct (N.ltb_spec (blen body + 2) 2); [lia|].
  replace (length (body ++ [lo; hi]) - 2)%nat with (length body) by (rewrite app_length; cbn; lia).
  rewrite (rd_app_at body lo [hi]). cbn [bind]. assert (EH : rd (body ++ [lo; hi]) (S (length body)) = Ok hi).
  { replace (body ++ [lo; hi]) with ((body ++ [lo]) ++ hi :: []) by (rewrite <- app_assoc; reflexivity). replace (S (length body)) with (length (body ++ [lo])) by (rewrite app_length; cbn; lia). apply rd_app_at. }
  rewrite EH. cbn [bind]. assert (ED : lo + 256 * hi = blen tail) by (unfold lo, hi; pose proof (N.div_mod (blen tail) 256 ltac:(discriminate)); lia). rewrite ED.
  destruct (N.ltb_spec (N.of_nat (length body)) (blen tail)) as [C|_]; [unfold body, blen in C; rewrite app_length in C; lia|].
  rewrite <- EB, firstn_blen, skipn_blen, (read32_cut _ HB HC). reflexivity.
Qed.

Inductive rdata_outcome (buf : bytes) : res (bytes * N * bytes) -> Prop :=
| rk_ok : forall owner ty data, rdata_parts buf owner ty data -> rdata_outcome buf (Ok (wire owner, ty, data))
| rk_type : forall tail l, buf = tail ++ l ++ enc_le16 (blen tail) -> blen tail < 65536 -> cut 5 (l ++ enc_le16 (blen tail)) -> rdata_outcome buf UB
| rk_fail : rdata_outcome buf Fail.

Lemma decode_rdata_outcome : forall buf, bytes_ok buf -> rdata_outcome buf (decode_rdata buf).
Proof.
  intros buf HB. destruct (N.lt_ge_cases (blen buf) 2) as [H2|H2].
  { unfold decode_rdata. apply N.ltb_lt in H2. rewrite H2. constructor. }
  destruct (last_two buf H2) as (body & lo & hi & E). pose proof HB as HB0. rewrite E in HB. apply bytes_ok_app in HB. destruct HB as [BB BL]. inversion BL as [|? ? Blo BL']; subst. inversion BL' as [|? ? Bhi _]; subst. unfold byte_ok in Blo, Bhi.
  set (n := lo + 256 * hi). destruct (le16_parts n lo hi Blo Bhi eq_refl) as [EN HN].
  assert (EH : rd (body ++ [lo; hi]) (S (length body)) = Ok hi).
  { replace (body ++ [lo; hi]) with ((body ++ [lo]) ++ hi :: []) by (rewrite <- app_assoc; reflexivity). replace (S (length body)) with (length (body ++ [lo])) by (rewrite app_length; cbn; lia). apply rd_app_at. }
  assert (EL : (length (body ++ [lo; hi]) - 2)%nat = length body) by (rewrite app_length; cbn; lia).
  destruct (N.lt_ge_cases (N.of_nat (length body)) n) as [Hn|Hn].
  { unfold decode_rdata. apply N.ltb_ge in H2. rewrite H2, EL, (rd_app_at body lo [hi]), EH. cbn [bind]. fold n. apply N.ltb_lt in Hn. rewrite Hn. constructor. }
  set (tail := firstn (N.to_nat n) body). set (l := skipn (N.to_nat n) body). assert (EBd : body = tail ++ l) by (symmetry; apply firstn_skipn).
  assert (ET : blen tail = n) by (unfold tail, blen; rewrite firstn_length; lia).
  assert (EK : body ++ [lo; hi] = tail ++ l ++ enc_le16 (blen tail)) by (rewrite ET, EN, EBd, <- app_assoc; reflexivity).
  assert (BP : bytes_ok (l ++ [lo; hi])) by (apply bytes_ok_app; split; [rewrite EBd in BB; apply bytes_ok_app in BB; tauto|exact BL]).
  destruct (number_cases 5 (l ++ [lo; hi])) as [(t & r & E1 & HT)|[O1|C1]].
  3:{ rewrite EK, over_rdata_decode; [apply (rk_type _ tail l); [reflexivity|lia|rewrite ET, EN; exact C1]|rewrite ET, EN; exact BP|rewrite ET, EN; exact C1|lia]. }
  2:{ replace (decode_rdata (body ++ [lo; hi])) with (@Fail (bytes * N * bytes)); [constructor|]. symmetry.
      unfold decode_rdata. apply N.ltb_ge in H2. rewrite H2, EL, (rd_app_at body lo [hi]), EH. cbn [bind]. fold n. apply N.ltb_ge in Hn. rewrite Hn.
      rewrite EK, <- ET, skipn_blen, ET, EN. destruct (read32_overlong _ BP O1) as [-> _]. cbn [bind fst snd]. rewrite Nat.add_0_r. apply N.ltb_ge in Hn. destruct (Nat.ltb_spec (length body) (N.to_nat n)); [reflexivity|].
      rewrite <- ET at 1. rewrite skipn_blen. destruct (overlong_first 4 _ O1) as (b & l' & -> & Hb). rewrite rev_name_big by exact Hb. reflexivity. }
  assert (BTR : bytes_ok t /\ bytes_ok r) by (rewrite E1 in BP; apply bytes_ok_app in BP; exact BP). destruct BTR as [BT BR].
  destruct (Nat.le_gt_cases (length t) (length l)) as [Ht|Ht].
  2:{ replace (decode_rdata (body ++ [lo; hi])) with (@Fail (bytes * N * bytes)); [constructor|]. symmetry.
      unfold decode_rdata. apply N.ltb_ge in H2. rewrite H2, EL, (rd_app_at body lo [hi]), EH. cbn [bind]. fold n. apply N.ltb_ge in Hn. rewrite Hn.
      rewrite EK, <- ET, skipn_blen, ET, EN, E1, (read32_finished t r BT HT). cbn [bind fst snd].
      destruct (Nat.ltb_spec (length body) (N.to_nat n + length t)) as [_|C]; [reflexivity|]. rewrite EBd, app_length in C. unfold blen in ET. lia. }
  assert (EL2 : exists l2, l = t ++ l2).
  { exists (skipn (length t) l). rewrite <- (firstn_skipn (length t) l) at 1. f_equal. apply (f_equal (firstn (length t))) in E1. rewrite firstn_app_at, firstn_app in E1.
    replace (length t - length l)%nat with O in E1 by lia. cbn [firstn] in E1. rewrite app_nil_r in E1. exact E1. }
  destruct EL2 as (l2 & El). assert (Er : r = l2 ++ [lo; hi]) by (rewrite El, <- app_assoc in E1; apply app_inv_head in E1; congruence).
  destruct (rev_name_outcome (l2 ++ [lo; hi]) (length l2)) as [(owner & slice & Es & HO & D)|D]; [rewrite <- Er; exact BR| |].
  - rewrite firstn_app_at in Es. assert (HP : rdata_parts (body ++ [lo; hi]) owner (base128 t mod u32) (firstn (N.to_nat (blen (slice ++ tail) mod 65536)) (slice ++ tail))).
    { rewrite EK, El, Es, <- !app_assoc. apply parts_intro; [exact HT|exact HO|lia]. }
    rewrite (parts_decode _ _ _ _ HB0 HP). constructor. exact HP.
  - replace (decode_rdata (body ++ [lo; hi])) with (@Fail (bytes * N * bytes)); [constructor|]. symmetry.
    unfold decode_rdata. apply N.ltb_ge in H2. rewrite H2, EL, (rd_app_at body lo [hi]), EH. cbn [bind]. fold n. apply N.ltb_ge in Hn. rewrite Hn.
    rewrite EK, <- ET, skipn_blen, ET, EN, E1, (read32_finished t r BT HT). cbn [bind fst snd].
    destruct (Nat.ltb_spec (length body) (N.to_nat n + length t)) as [_|C]; [reflexivity|].
    assert (E2 : (N.to_nat n + length t)%nat = length (tail ++ t)) by (rewrite <- ET; unfold blen; rewrite app_length; lia). rewrite E2.
    rewrite (app_assoc tail t), skipn_app_at, Er. replace (length body - length (tail ++ t))%nat with (length l2) by (rewrite EBd, El, !app_length; lia).
    rewrite D. reflexivity.
Qed.

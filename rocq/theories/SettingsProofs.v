(** Text parsing and histories of query settings. *)
From Verif Require Import Str BaseFacts ModelWdns SpecName NameFacts ModelIter ModelQuery SpecQuery ModelNames ModelSetters SpecSettings CidrProofs.

(** ** strtok, strtol *)

Lemma split_on_none : forall d s cur, no_char d s -> split_on d cur s = [cur ++ s].
Proof.
  induction s as [|c s IH]; intros cur H; [cbn; rewrite app_nil_r; reflexivity|].
  inversion H; subst. cbn [split_on]. assert ((c =? d) = false) as -> by (apply N.eqb_neq; assumption).
  rewrite IH by assumption. rewrite <- app_assoc. reflexivity.
Qed.
Lemma split_on_one : forall d a b cur, no_char d a -> no_char d b -> split_on d cur (a ++ d :: b) = [cur ++ a; b].
Proof.
  induction a as [|c a IH]; intros b cur Ha Hb.
  - cbn [app split_on]. rewrite N.eqb_refl, split_on_none by exact Hb. rewrite app_nil_r. reflexivity.
  - inversion Ha; subst. cbn [app split_on]. assert ((c =? d) = false) as -> by (apply N.eqb_neq; assumption).
    rewrite IH by assumption. rewrite <- app_assoc. reflexivity.
Qed.
Lemma strtok_two : forall d a b, a <> [] -> b <> [] -> no_char d a -> no_char d b -> strtok_all d (a ++ d :: b) = [a; b].
Proof.
  intros d a b Na Nb Ha Hb. unfold strtok_all. rewrite split_on_one by assumption.
  destruct a; [congruence|]. destruct b; [congruence|]. reflexivity.
Qed.

Lemma has_char_none : forall d s, no_char d s -> has_char d s = false.
Proof.
  induction s as [|c s IH]; intro H; [reflexivity|]. inversion H; subst. unfold has_char in *. cbn [existsb]. rewrite IH by assumption.
  assert ((d =? c) = false) as -> by (apply N.eqb_neq; congruence). reflexivity.
Qed.
Lemma has_char_mid : forall d a b, has_char d (a ++ d :: b) = true.
Proof. intros. unfold has_char. rewrite existsb_app. cbn. rewrite N.eqb_refl. apply orb_true_r. Qed.

Lemma digits_value_app : forall s v v' d, digits_value v s = Some v' -> d < 10 -> digits_value v (s ++ [48 + d]) = Some (10 * v' + d).
Proof.
  induction s as [|c s IH]; intros v v' d H Hd.
  - injection H as <-. cbn [app digits_value]. unfold isdigit. assert ((48 <=? 48 + d) && (48 + d <=? 57) = true) as -> by lia.
    do 2 f_equal. lia.
  - cbn [app digits_value] in *. destruct (isdigit c); [|discriminate H]. apply IH; assumption.
Qed.
Lemma decimal_digits : forall s v, decimal s v -> digits_value 0 s = Some v.
Proof.
  induction 1 as [d Hd|s v d H IH Hd].
  - cbn [digits_value]. unfold isdigit. assert ((48 <=? 48 + d) && (48 + d <=? 57) = true) as -> by lia. f_equal. lia.
  - rewrite (digits_value_app s 0 v d IH Hd). reflexivity.
Qed.
Lemma decimal_head : forall s v, decimal s v -> exists d r, d < 10 /\ s = (48 + d) :: r.
Proof.
  induction 1 as [d Hd|s v d H (d0 & r & H0 & ->) Hd]; [exists d, []; auto|]. exists d0, (r ++ [48 + d]). auto.
Qed.
Lemma decimal_chars : forall s v, decimal s v -> Forall (fun c => 48 <= c <= 57) s.
Proof.
  induction 1 as [d Hd|s v d H IH Hd]; [constructor; [lia|constructor]|].
  apply Forall_app. split; [exact IH|]. constructor; [lia|constructor].
Qed.
Lemma digit_cases : forall d, d < 10 -> In d [0; 1; 2; 3; 4; 5; 6; 7; 8; 9].
Proof. intros d H. cbn. lia. Qed.

Lemma strtol_decimal : forall s v, decimal s v -> v < 2 ^ 63 -> strtol_all s = Some (Z.of_N v).
Proof.
  intros s v H HV. pose proof (decimal_digits s v H) as E. destruct (decimal_head s v H) as (d & r & Hd & ->).
  assert (S : strtol_all (48 + d :: r) = match digits_value 0 (48 + d :: r) with
     | None => None
     | Some v => if (-9223372036854775808 <=? Z.of_N v)%Z && (Z.of_N v <=? 9223372036854775807)%Z then Some (Z.of_N v) else None end).
  { pose proof (digit_cases d Hd) as C. cbn in C. destruct C as [<-|[<-|[<-|[<-|[<-|[<-|[<-|[<-|[<-|[<-|[]]]]]]]]]]]; reflexivity. }
  rewrite S, E. assert (((-9223372036854775808 <=? Z.of_N v)%Z && (Z.of_N v <=? 9223372036854775807)%Z) = true) as -> by lia. reflexivity.
Qed.

(** Nothing else is cut in two or taken for a number. *)

Lemma strtok_sep : forall d s, strtok_all d (d :: s) = strtok_all d s.
Proof. intros d s. unfold strtok_all. cbn [split_on]. rewrite N.eqb_refl. reflexivity. Qed.
Lemma strtok_seps : forall d i s, strtok_all d (repeat d i ++ s) = strtok_all d s.
Proof. induction i as [|i IH]; intro s; [reflexivity|]. cbn [repeat app]. rewrite strtok_sep. apply IH. Qed.
Lemma split_on_word : forall d a cur s, no_char d a -> split_on d cur (a ++ d :: s) = (cur ++ a) :: split_on d [] s.
Proof.
  induction a as [|c a IH]; intros cur s H.
  - cbn [app split_on]. rewrite N.eqb_refl, app_nil_r. reflexivity.
  - inversion H; subst. cbn [app split_on]. assert ((c =? d) = false) as -> by (apply N.eqb_neq; assumption). rewrite IH by assumption. rewrite <- app_assoc. reflexivity.
Qed.
Lemma strtok_word : forall d a s, a <> [] -> no_char d a -> strtok_all d (a ++ d :: s) = a :: strtok_all d s.
Proof. intros d a s HN H. unfold strtok_all. rewrite split_on_word by exact H. destruct a; [congruence|]. reflexivity. Qed.
Lemma strtok_last : forall d a, a <> [] -> no_char d a -> strtok_all d a = [a].
Proof. intros d a HN H. unfold strtok_all. rewrite split_on_none by exact H. destruct a; [congruence|]. reflexivity. Qed.
Lemma no_char_split : forall d s, no_char d s \/ exists a r, s = a ++ d :: r /\ no_char d a.
Proof.
  induction s as [|c s IH]; [left; constructor|]. destruct (N.eq_dec c d) as [->|NE]; [right; exists [], s; split; [reflexivity|constructor]|].
  destruct IH as [H|(a & r & -> & H)]; [left; constructor; assumption|]. right. exists (c :: a), r. split; [reflexivity|constructor; assumption].
Qed.
Lemma seps_split : forall d s, exists i t, s = repeat d i ++ t /\ (t = [] \/ exists a r, t = a ++ r /\ a <> [] /\ no_char d a /\ (r = [] \/ exists r', r = d :: r')).
Proof.
  induction s as [|c s (i & t & -> & H)]; [exists 0%nat, []; auto|]. destruct (N.eq_dec c d) as [->|NE].
  - exists (S i), t. split; [reflexivity|exact H].
  - exists 0%nat, (c :: repeat d i ++ t). split; [reflexivity|]. right. destruct (no_char_split d (repeat d i ++ t)) as [F|(a & r & E & F)].
    + exists (c :: repeat d i ++ t), []. rewrite app_nil_r. split; [reflexivity|]. split; [discriminate|]. split; [constructor; assumption|auto].
    + exists (c :: a), (d :: r). rewrite E. split; [reflexivity|]. split; [discriminate|]. split; [constructor; assumption|eauto].
Qed.
Lemma strtok_first : forall d s, (strtok_all d s = [] /\ exists i, s = repeat d i) \/
  exists i a r, s = repeat d i ++ a ++ r /\ a <> [] /\ no_char d a /\ (r = [] \/ exists r', r = d :: r') /\ strtok_all d s = a :: strtok_all d r.
Proof.
  intros d s. destruct (seps_split d s) as (i & t & -> & H). rewrite strtok_seps. destruct H as [->|(a & r & -> & HN & HC & HR)].
  - left. split; [reflexivity|]. exists i. apply app_nil_r.
  - right. exists i, a, r. repeat (split; [first [reflexivity|assumption]|]). destruct HR as [->|(r' & ->)].
    + rewrite app_nil_r, strtok_last by assumption. reflexivity.
    + rewrite strtok_word by assumption. rewrite strtok_sep. reflexivity.
Qed.
Lemma two_parts_iff : forall d s a b, strtok_all d s = [a; b] <-> two_parts d s a b.
Proof.
  intros d s a b. split.
  - intro H. destruct (strtok_first d s) as [(E & _)|(i & a' & r & -> & HN & HC & HR & E)]; [congruence|]. rewrite E in H. injection H as -> H.
    destruct (strtok_first d r) as [(E2 & _)|(j & b' & r2 & E2 & HN2 & HC2 & HR2 & E3)]; [congruence|]. rewrite E3 in H. injection H as -> H.
    destruct (strtok_first d r2) as [(_ & k & E4)|(? & ? & ? & _ & _ & _ & _ & E4)]; [|congruence].
    destruct j as [|j].
    { exfalso. cbn [repeat app] in E2. destruct b as [|c b]; [congruence|]. inversion HC2; subst. destruct HR as [HR|(r' & HR)]; [discriminate HR|]. injection HR as HR _. congruence. }
    exists i, j, k. rewrite E2, E4. auto.
  - intros (i & j & k & -> & Na & Nb & Ca & Cb). rewrite strtok_seps. cbn [repeat app]. rewrite strtok_word by assumption. f_equal. rewrite strtok_seps.
    destruct k as [|k]; [rewrite app_nil_r; apply strtok_last; assumption|]. cbn [repeat]. rewrite strtok_word by assumption. f_equal.
    clear. induction k as [|k IH]; [reflexivity|]. cbn [repeat]. rewrite strtok_sep. exact IH.
Qed.

Lemma isspace_blank : forall c, isspace c = true <-> blank c.
Proof. intro c. unfold isspace, blank. lia. Qed.
Lemma skip_space_parts : forall s, exists w, s = w ++ skip_space s /\ Forall blank w.
Proof.
  induction s as [|c s (w & E & F)]; [exists []; auto|]. cbn [skip_space]. destruct (isspace c) eqn:B.
  - exists (c :: w). split; [cbn; rewrite <- E; reflexivity|]. constructor; [apply isspace_blank; exact B|exact F].
  - exists []. auto.
Qed.
Lemma skip_space_blanks : forall w s, Forall blank w -> skip_space (w ++ s) = skip_space s.
Proof. induction w as [|c w IH]; intros s F; [reflexivity|]. inversion F; subst. cbn [app skip_space]. assert (isspace c = true) as -> by (apply isspace_blank; assumption). apply IH. assumption. Qed.
Lemma digits_value_last : forall s v d x, digits_value v (s ++ [d]) = Some x -> exists y, digits_value v s = Some y /\ isdigit d = true /\ x = 10 * y + (d - 48).
Proof.
  induction s as [|c s IH]; intros v d x H; cbn [app digits_value] in *.
  - destruct (isdigit d); [|discriminate]. injection H as <-. eauto.
  - destruct (isdigit c); [|discriminate]. apply IH. exact H.
Qed.
Lemma digits_decimal : forall s x, s <> [] -> digits_value 0 s = Some x -> decimal s x.
Proof.
  intros s. induction s as [|d s IH] using rev_ind; intros x HN H; [congruence|].
  apply digits_value_last in H. destruct H as (y & H & D & ->). unfold isdigit in D. replace d with (48 + (d - 48)) at 1 by lia. destruct s as [|c s].
  - injection H as <-. cbn [app]. replace (10 * 0 + (d - 48)) with (d - 48) by lia. apply dec_one. lia.
  - apply dec_more; [|lia]. apply IH; [discriminate|exact H].
Qed.
Lemma strtol_only : forall s z, no_char 45 s -> strtol_all s = Some z -> exists p, prefix_length s p /\ p < 2 ^ 63 /\ z = Z.of_N p.
Proof.
  intros s z HC H. unfold strtol_all in H. destruct (skip_space_parts s) as (w & E & F). rewrite E in HC. apply Forall_app in HC. destruct HC as (_ & HC).
  set (t := skip_space s) in *. clearbody t.
  assert (SG : exists sign ds, t = sign ++ ds /\ (sign = [] \/ sign = str "+") /\ match t with 45 :: r => (true, r) | 43 :: r => (false, r) | _ => (false, t) end = (false, ds)).
  { destruct t as [|c q]; [exists [], []; auto|]. inversion HC; subst. destruct (N.eq_dec c 43) as [->|N2]; [exists [43], q; auto|].
    exists [], (c :: q). split; [reflexivity|]. split; [auto|]. destruct c as [|p]; [reflexivity|]. do 6 (destruct p as [p|p|]; try reflexivity; try congruence). }
  destruct SG as (sign & ds & -> & HS & M). rewrite M in H. clear M. destruct ds as [|c ds]; [discriminate|]. destruct (digits_value 0 (c :: ds)) as [v|] eqn:DV; [|discriminate].
  cbv zeta in H. destruct (_ && _) eqn:B in H; [|discriminate]. injection H as <-. exists v. split; [|split; [cbn; lia|reflexivity]].
  exists w, sign, (c :: ds). repeat (split; [assumption|]). apply digits_decimal; [discriminate|exact DV].
Qed.
Lemma strtol_prefix : forall s p, prefix_length s p -> p < 2 ^ 63 -> strtol_all s = Some (Z.of_N p).
Proof.
  intros s p (w & sign & ds & -> & F & HS & HD) HP. pose proof (decimal_digits ds p HD) as E. destruct (decimal_head ds p HD) as (d & r & Hd & ->).
  unfold strtol_all. rewrite skip_space_blanks by exact F.
  assert (RG : ((-9223372036854775808 <=? Z.of_N p)%Z && (Z.of_N p <=? 9223372036854775807)%Z) = true) by (cbn in HP; lia).
  destruct HS as [->| ->].
  - pose proof (digit_cases d Hd) as C. cbn in C. destruct C as [<-|[<-|[<-|[<-|[<-|[<-|[<-|[<-|[<-|[<-|[]]]]]]]]]]]; cbn -[digits_value Z.leb] in *; rewrite E, RG; reflexivity.
  - change (str "+" ++ 48 + d :: r) with (43 :: 48 + d :: r). change (skip_space (43 :: 48 + d :: r)) with (43 :: 48 + d :: r). cbn iota. rewrite E. cbv zeta. cbn iota. rewrite RG. reflexivity.
Qed.

(** ** C27: address blocks *)

Lemma as_unsigned_small : forall p, p < 4294967296 -> as_unsigned (Z.of_N p) = p.
Proof. intros p H. unfold as_unsigned. rewrite Z.mod_small by lia. apply N2Z.id. Qed.

Lemma no_char_decimal : forall d s v, decimal s v -> d < 48 -> no_char d s.
Proof.
  intros d s v H Hd. pose proof (decimal_chars s v H) as F. eapply Forall_impl; [|exact F]. cbn. lia.
Qed.
Lemma decimal_nonempty : forall s v, decimal s v -> s <> [].
Proof. intros s v H. destruct (decimal_head s v H) as (d & r & _ & ->). discriminate. Qed.

Definition same_rest (q q' : query) : Prop := same_but_data q q'.

Lemma same_but_data_ip : forall q l1 i1 l2 i2 r, same_but_data q (with_ip2 l2 i2 (with_ip1 l1 i1 (with_rrtype r q))).
Proof. intros. unfold same_but_data. repeat split; try reflexivity. Qed.

Lemma set_data_prefix : forall ev q addr ds p, q_type q = QRdataIp -> addr <> [] -> no_char 45 addr -> no_char 47 addr ->
  decimal ds p -> set_data ev (Some (addr ++ 47 :: ds)) q = set_data_ip_prefix ev (addr ++ 47 :: ds) q /\ strtok_all 47 (addr ++ 47 :: ds) = [addr; ds].
Proof.
  intros ev q addr ds p HT HA H45 H47 HD. split.
  - unfold set_data. rewrite HT. unfold set_data_rdata_ip. rewrite has_char_none.
    + rewrite has_char_mid. reflexivity.
    + apply Forall_app. split; [exact H45|]. constructor; [lia|]. eapply no_char_decimal; [exact HD|lia].
  - apply strtok_two; auto; [eapply decimal_nonempty; exact HD|eapply no_char_decimal; [exact HD|lia]].
Qed.

Lemma firstn_at : forall n (l r : bytes), length l = n -> firstn n (l ++ r) = l.
Proof. intros n l r <-. rewrite firstn_app, Nat.sub_diag, firstn_O, app_nil_r. apply firstn_all. Qed.

Lemma cidr4_ok : forall ev q addr ds p a, env_ok ev -> q_type q = QRdataIp -> addr <> [] -> no_char 45 addr -> no_char 47 addr ->
  pton4 ev addr = Some a -> decimal ds p -> 2 <= p <= 32 ->
  exists q' lo hi, set_data ev (Some (addr ++ 47 :: ds)) q = Ok (true, q') /\ same_but_data q q' /\
    asks_range q' 4 1 lo hi /\ is_block 4 (N.to_nat p) a lo hi.
Proof.
  intros ev q addr ds p a (_ & _ & E4 & _) HT HA H45 H47 HP HD Hp.
  destruct (set_data_prefix ev q addr ds p HT HA H45 H47 HD) as [-> TK].
  destruct (E4 _ _ HP) as [La Ba]. destruct (ip4_block a p La Ba Hp) as (lo & hi & EL & EH & BL).
  unfold set_data_ip_prefix. rewrite TK. unfold query_load_address. rewrite HP. cbn [skipn negb].
  rewrite app_nil_r. rewrite (strtol_decimal ds p HD) by (cbn; lia).
  assert ((((4 =? 4) && (32 <? Z.of_N p)%Z) || ((4 =? 16) && (128 <? Z.of_N p)%Z)) = false) as -> by (cbn; lia).
  change (4 =? 4) with true. cbn iota. rewrite as_unsigned_small by lia. rewrite EL, EH. cbn [bind].
  eexists; exists lo, hi. split; [reflexivity|]. split; [apply same_but_data_ip|]. split; [|exact BL].
  destruct BL as (L1 & B1 & L2 & B2 & _).
  split; [left; auto|]. repeat (split; [reflexivity|]). cbn [with_ip1 with_ip2 q_len_ip1 q_len_ip2 q_ip1 q_ip2].
  rewrite !firstn_at by assumption. split; [reflexivity|]. split; [exact L1|]. split; [exact B1|]. right. auto.
Qed.

Lemma cidr6_ok : forall ev q addr ds p a, env_ok ev -> q_type q = QRdataIp -> addr <> [] -> no_char 45 addr -> no_char 47 addr ->
  pton4 ev addr = None -> pton6 ev addr = Some a -> decimal ds p -> 1 <= p <= 128 -> p <> 64 ->
  exists q' lo hi, set_data ev (Some (addr ++ 47 :: ds)) q = Ok (true, q') /\ same_but_data q q' /\
    asks_range q' 16 28 lo hi /\ is_block 16 (N.to_nat p) a lo hi.
Proof.
  intros ev q addr ds p a (_ & _ & _ & E6) HT HA H45 H47 H4 HP HD Hp HN.
  destruct (set_data_prefix ev q addr ds p HT HA H45 H47 HD) as [-> TK].
  destruct (E6 _ _ HP) as [La Ba]. destruct (ip6_block a p La Ba Hp HN) as (lo & hi & EL & EH & BL).
  unfold set_data_ip_prefix. rewrite TK. unfold query_load_address. rewrite H4, HP. cbn [negb].
  rewrite (strtol_decimal ds p HD) by (cbn; lia).
  assert ((((16 =? 4) && (32 <? Z.of_N p)%Z) || ((16 =? 16) && (128 <? Z.of_N p)%Z)) = false) as -> by (cbn; lia).
  change (16 =? 4) with false. cbn iota. rewrite as_unsigned_small by lia. rewrite EL, EH. cbn [bind].
  eexists; exists lo, hi. split; [reflexivity|]. split; [apply same_but_data_ip|]. split; [|exact BL].
  destruct BL as (L1 & B1 & L2 & B2 & _).
  split; [right; auto|]. repeat (split; [reflexivity|]). cbn [with_ip1 with_ip2 q_len_ip1 q_len_ip2 q_ip1 q_ip2].
  rewrite <- (app_nil_r lo), <- (app_nil_r hi), !firstn_at by assumption. rewrite !app_nil_r.
  split; [reflexivity|]. split; [exact L1|]. split; [exact B1|]. right. auto.
Qed.

(** ** Hexadecimal *)

Lemma hex_to_int_digit : forall c x, hex_to_int c = Some x <-> hex_digit c x /\ x < 16.
Proof.
  assert (A : forall c, c < 128 -> forallb (fun x => Bool.eqb
      (match hex_to_int c with Some y => y =? x | None => false end)
      (match nth_error (str "0123456789abcdef") (N.to_nat x) with Some d => d =? c | None => false end ||
       match nth_error (str "0123456789ABCDEF") (N.to_nat x) with Some d => d =? c | None => false end)) (map N.of_nat (seq 0 16)) = true).
  { assert (B : forallb (fun c => forallb (fun x => Bool.eqb
      (match hex_to_int c with Some y => y =? x | None => false end)
      (match nth_error (str "0123456789abcdef") (N.to_nat x) with Some d => d =? c | None => false end ||
       match nth_error (str "0123456789ABCDEF") (N.to_nat x) with Some d => d =? c | None => false end)) (map N.of_nat (seq 0 16))) (map N.of_nat (seq 0 128)) = true)
      by (vm_compute; reflexivity).
    rewrite forallb_forall in B. intros c Hc. apply B. rewrite in_map_iff. exists (N.to_nat c). rewrite N2Nat.id. split; [reflexivity|]. apply in_seq. lia. }
  assert (T : forall s x c, nth_error s (N.to_nat x) = Some c <-> match nth_error s (N.to_nat x) with Some d => d =? c | None => false end = true).
  { intros s x c. destruct (nth_error s (N.to_nat x)) as [d|]; [|split; discriminate]. rewrite N.eqb_eq. split; congruence. }
  assert (RNG : forall c x, hex_to_int c = Some x -> c < 128 /\ x < 16).
  { intros c x. unfold hex_to_int, toupper. destruct ((97 <=? c) && (c <=? 122)) eqn:U.
    - destruct ((48 <=? c - 32) && (c - 32 <=? 57)) eqn:D; [intro E; injection E as <-; lia|].
      destruct ((65 <=? c - 32) && (c - 32 <=? 70)) eqn:F; [intro E; injection E as <-; lia|discriminate].
    - destruct ((48 <=? c) && (c <=? 57)) eqn:D; [intro E; injection E as <-; lia|].
      destruct ((65 <=? c) && (c <=? 70)) eqn:F; [intro E; injection E as <-; lia|discriminate]. }
  assert (ASC : forall s x c, Forall (fun c => c < 128) s -> nth_error s (N.to_nat x) = Some c -> c < 128).
  { intros s x c F E. apply nth_error_In in E. rewrite Forall_forall in F. apply F. exact E. }
  assert (CORE : forall c x, c < 128 -> x < 16 -> (hex_to_int c = Some x <-> hex_digit c x)).
  { intros c x Hc Hx. specialize (A c Hc). rewrite forallb_forall in A.
    specialize (A x ltac:(rewrite in_map_iff; exists (N.to_nat x); rewrite N2Nat.id; split; [reflexivity|]; apply in_seq; lia)).
    apply eqb_prop in A. unfold hex_digit. rewrite (T (str "0123456789abcdef")), (T (str "0123456789ABCDEF")), <- orb_true_iff, <- A.
    destruct (hex_to_int c) as [y|]; [|split; discriminate]. rewrite N.eqb_eq. split; congruence. }
  intros c x. split.
  - intro E. destruct (RNG c x E). split; [apply CORE; assumption|assumption].
  - intros [H Hx]. apply CORE; auto. destruct H as [H|H]; (eapply ASC; [|exact H]); vm_compute; repeat constructor.
Qed.
Lemma hex_digit_lt : forall c x, hex_digit c x -> x < 16.
Proof.
  intros c x [H|H].
  - assert (N : nth_error (str "0123456789abcdef") (N.to_nat x) <> None) by congruence. apply nth_error_Some in N. cbn in N. lia.
  - assert (N : nth_error (str "0123456789ABCDEF") (N.to_nat x) <> None) by congruence. apply nth_error_Some in N. cbn in N. lia.
Qed.
Lemma hex_pair : forall x y, x < 16 -> y < 16 -> N.lor (N.shiftl x 4) y = 16 * x + y.
Proof.
  intros x y Hx Hy.
  assert (A : forallb (fun a => forallb (fun b => N.lor (N.shiftl a 4) b =? 16 * a + b) (map N.of_nat (seq 0 16))) (map N.of_nat (seq 0 16)) = true) by (vm_compute; reflexivity).
  assert (I : forall z, z < 16 -> In z (map N.of_nat (seq 0 16))).
  { intros z Hz. rewrite in_map_iff. exists (N.to_nat z). rewrite N2Nat.id. split; [reflexivity|]. apply in_seq. lia. }
  rewrite forallb_forall in A. specialize (A x (I x Hx)). rewrite forallb_forall in A. specialize (A y (I y Hy)). apply N.eqb_eq. exact A.
Qed.

Lemma hex_bytes_spells : forall n s l, (length s <= n)%nat -> Nat.modulo (length s) 2 = 0%nat -> (hex_bytes s = Some l <-> hex_spells s l).
Proof.
  induction n as [|n IH]; intros s l HL HM.
  - destruct s; [|cbn in HL; lia]. cbn. split; [intro E; injection E as <-; constructor|intro H; inversion H; reflexivity].
  - destruct s as [|a [|b s]].
    + cbn. split; [intro E; injection E as <-; constructor|intro H; inversion H; reflexivity].
    + discriminate HM.
    + cbn [length] in *. assert (HM' : Nat.modulo (length s) 2 = 0%nat).
      { replace (S (S (length s))) with (length s + 1 * 2)%nat in HM by lia. rewrite Nat.mod_add in HM by lia. exact HM. }
      cbn [hex_bytes]. split.
      * destruct (hex_to_int a) as [x|] eqn:Ea; [|discriminate]. destruct (hex_to_int b) as [y|] eqn:Eb; [|discriminate].
        destruct (hex_bytes s) as [r|] eqn:Er; [|discriminate]. intro E. injection E as <-.
        apply hex_to_int_digit in Ea, Eb. rewrite hex_pair by tauto. constructor; [tauto|tauto|]. apply IH; auto. lia.
      * intro H. inversion H as [|? ? x y ? r Ha Hb Hr]; subst.
        pose proof (hex_digit_lt a x Ha) as Lx. pose proof (hex_digit_lt b y Hb) as Ly.
        rewrite (proj2 (hex_to_int_digit a x) (conj Ha Lx)), (proj2 (hex_to_int_digit b y) (conj Hb Ly)).
        rewrite (proj2 (IH s r ltac:(lia) HM') Hr). rewrite hex_pair by assumption. reflexivity.
Qed.
Lemma hex_spells_length : forall s l, hex_spells s l -> length s = (2 * length l)%nat.
Proof. induction 1; cbn [length]; lia. Qed.

Lemma hex_decode_ok : forall s l raw len raw' len', hex_decode s raw len = (true, raw', len') /\ raw' = Some l <->
  s <> [] /\ hex_spells s l /\ hex_decode s raw len = (true, Some l, blen l) /\ raw' = Some l /\ len' = blen l.
Proof.
  intros s l raw len raw' len'. unfold hex_decode.
  destruct (Nat.eqb (length s) 0) eqn:E0; [apply Nat.eqb_eq in E0; cbn [orb]; split; [intros [C _]; discriminate C|intros (_ & _ & C & _); discriminate C]|].
  apply Nat.eqb_neq in E0. cbn [orb].
  destruct (Nat.eqb (Nat.modulo (length s) 2) 0) eqn:E1; cbn [negb]; [|split; [intros [C _]; discriminate C|intros (_ & _ & C & _); discriminate C]].
  apply Nat.eqb_eq in E1. pose proof (hex_bytes_spells (length s) s) as HS.
  assert (LEN : forall l, hex_spells s l -> N.of_nat (Nat.div (length s) 2) = blen l).
  { intros l0 H. unfold blen. rewrite (hex_spells_length s l0 H). rewrite Nat.mul_comm, Nat.div_mul by lia. reflexivity. }
  destruct (hex_bytes s) as [r|] eqn:Er.
  - pose proof (proj1 (HS r ltac:(lia) E1) eq_refl) as HR. rewrite (LEN r HR). split.
    + intros [E ->]. injection E as E <-. subst r. repeat split; auto. destruct s; [cbn in E0; lia|discriminate].
    + intros (_ & H & E & -> & ->). split; [exact E|reflexivity].
  - split; [intros [C _]; discriminate C|intros (_ & _ & C & _); discriminate C].
Qed.

Lemma hex_decode_success : forall s raw len raw' len', hex_decode s raw len = (true, raw', len') -> exists l, raw' = Some l.
Proof.
  intros s raw len raw' len'. unfold hex_decode. destruct (_ || _); [discriminate|]. destruct (hex_bytes s); [|discriminate].
  intro E. injection E as <- _. eauto.
Qed.

(** ** Names *)

Lemma lower_letter_tolower : forall c, lower_letter c = tolower c.
Proof. reflexivity. Qed.

Lemma downcase_wire : forall ls, name_ok ls -> wdns_downcase_name (wire ls) = wire (lower_name ls).
Proof.
  intros ls [HF _]. unfold wdns_downcase_name, wire, lower_name. rewrite map_app. cbn. f_equal.
  induction ls as [|l ls IH]; [reflexivity|]. inversion HF as [|? ? [HL _] HF']; subst.
  unfold enc_labels in *. cbn [map flat_map app]. rewrite map_app, IH by assumption.
  assert (tolower (blen l) = blen (map lower_letter l)) as ->; [|reflexivity].
  unfold blen. rewrite map_length. unfold tolower. assert (((65 <=? N.of_nat (length l)) && (N.of_nat (length l) <=? 90)) = false) as -> by lia. reflexivity.
Qed.
Lemma lower_name_ok : forall ls, name_ok ls -> name_ok (lower_name ls).
Proof.
  intros ls [HF HL]. split.
  - unfold lower_name. apply Forall_map. eapply Forall_impl; [|exact HF]. intros l [H1 H2]. split; [rewrite map_length; exact H1|].
    unfold bytes_ok. apply Forall_map. eapply Forall_impl; [|exact H2]. unfold byte_ok, lower_letter. intros c Hc. destruct ((65 <=? c) && (c <=? 90)) eqn:E; lia.
  - assert (E : length (wire (lower_name ls)) = length (wire ls)).
    { rewrite <- downcase_wire by (split; assumption). apply map_length. }
    lia.
Qed.

(** ** Case-insensitive comparison *)

Lemma same_letter_tolower : forall a b, tolower a = tolower b <-> same_letter a b.
Proof.
  intros a b. unfold tolower, same_letter.
  destruct ((65 <=? a) && (a <=? 90)) eqn:A; destruct ((65 <=? b) && (b <=? 90)) eqn:B; lia.
Qed.
Lemma beq_iff : forall a b, beq a b = true <-> a = b.
Proof.
  induction a as [|x a IH]; intros [|y b]; cbn; try (split; congruence).
  unfold beq in *. cbn. destruct (x ?= y) eqn:C.
  - apply N.compare_eq in C. subst y. rewrite IH. split; congruence.
  - split; [discriminate|]. intro E. injection E as -> ->. rewrite N.compare_refl in C. discriminate.
  - split; [discriminate|]. intro E. injection E as -> ->. rewrite N.compare_refl in C. discriminate.
Qed.
Lemma strcaseeq_ok : forall a b, strcaseeq a b = true <-> caseless a b.
Proof.
  intros a b. unfold strcaseeq, caseless. rewrite beq_iff. revert b. induction a as [|x a IH]; intros [|y b]; cbn [map].
  - split; constructor.
  - split; [discriminate|]. intro H. inversion H.
  - split; [discriminate|]. intro H. inversion H.
  - split.
    + intro E. injection E as E1 E2. constructor; [apply same_letter_tolower; exact E1|apply IH; exact E2].
    + intro H. inversion H; subst. f_equal; [apply same_letter_tolower; assumption|apply IH; assumption].
Qed.

(** ** Address text *)

Lemma ip_value_inj : forall a b, bytes_ok a -> bytes_ok b -> length a = length b -> ip_value a = ip_value b -> a = b.
Proof.
  induction a as [|x a IH]; intros [|y b] Ha Hb HL HE; try discriminate HL; [reflexivity|].
  inversion Ha; inversion Hb; subst. cbn [length] in HL.
  change (x :: a) with ([x] ++ a) in HE. change (y :: b) with ([y] ++ b) in HE. rewrite !ip_value_app in HE.
  assert (L : length a = length b) by lia. rewrite L in HE.
  pose proof (ip_value_lt a ltac:(assumption)) as A. pose proof (ip_value_lt b ltac:(assumption)) as B. rewrite L in A. rewrite <- pow256 in A, B.
  unfold ip_value at 1 3 in HE. cbn [fold_left] in HE.
  assert (x = y) by nia. subst y. f_equal. apply IH; auto. lia.
Qed.

Lemma same_block_refl : forall p a, same_block p a a.
Proof. reflexivity. Qed.

Lemma block_unique : forall n p a lo hi lo' hi', length a = n -> bytes_ok a -> is_block n p a lo hi -> is_block n p a lo' hi' -> lo = lo' /\ hi = hi'.
Proof.
  intros n p a lo hi lo' hi' La Ba (L1 & B1 & L2 & B2 & H) (L1' & B1' & L2' & B2' & H').
  pose proof (proj2 (H a La Ba) (same_block_refl p a)) as A. pose proof (proj2 (H' a La Ba) (same_block_refl p a)) as A'.
  assert (T : forall x, length x = n -> bytes_ok x -> (ip_value lo <= ip_value x <= ip_value hi <-> ip_value lo' <= ip_value x <= ip_value hi')).
  { intros x Lx Bx. rewrite (H x Lx Bx), (H' x Lx Bx). tauto. }
  pose proof (proj1 (T lo L1 B1)). pose proof (proj2 (T lo' L1' B1')). pose proof (proj1 (T hi L2 B2)). pose proof (proj2 (T hi' L2' B2')).
  split; apply ip_value_inj; auto; lia.
Qed.

Lemma load_address : forall ev s n a buf, env_ok ev -> address ev s n a ->
  exists b, query_load_address ev s buf = (true, N.of_nat n, b) /\ firstn n b = a /\ length a = n /\ bytes_ok a /\ ip_kind n (if Nat.eqb n 4 then 1 else 28).
Proof.
  intros ev s n a buf (_ & _ & E4 & E6) [a0 H|a0 H H6]; unfold query_load_address; rewrite H.
  - destruct (E4 _ _ H). eexists. split; [reflexivity|]. split; [apply firstn_at; assumption|]. split; [assumption|]. split; [assumption|]. left. auto.
  - rewrite H6. destruct (E6 _ _ H6) as [L B]. eexists. split; [reflexivity|].
    split; [rewrite <- (app_nil_r a0) at 1; apply firstn_at; assumption|]. split; [assumption|]. split; [assumption|]. right. auto.
Qed.

(** Only the two parts matter. *)
Lemma prefix_parts : forall ev q s s1 s2 p, q_type q = QRdataIp -> no_char dash s -> two_parts slash s s1 s2 -> prefix_length s2 p -> p < 2 ^ 63 ->
  exists ds, decimal ds p /\ plain s1 /\ set_data ev (Some s) q = set_data ev (Some (s1 ++ slash :: ds)) q.
Proof.
  intros ev q s s1 s2 p HT HC TP PL HP. pose proof PL as (w & sign & ds & -> & F & HS & HD). exists ds. split; [exact HD|].
  assert (PL1 : plain s1).
  { destruct TP as (i & j & k & -> & N1 & _ & C1 & _). split; [exact N1|]. split; [|exact C1]. apply Forall_app in HC. destruct HC as (_ & HC). apply Forall_app in HC. apply HC. }
  split; [exact PL1|]. destruct PL1 as (N1 & D1 & C1). unfold slash, dash in *. destruct (set_data_prefix ev q s1 ds p HT N1 D1 C1 HD) as (E & TK). rewrite E.
  unfold set_data. rewrite HT. unfold set_data_rdata_ip. rewrite (has_char_none 45 s HC).
  assert (HAS : has_char 47 s = true).
  { destruct TP as (i & j & k & -> & _). cbn [repeat app]. rewrite app_assoc. apply has_char_mid. }
  rewrite HAS. unfold set_data_ip_prefix. apply two_parts_iff in TP. rewrite TP, TK, (strtol_prefix _ _ PL HP), (strtol_decimal _ _ HD HP). reflexivity.
Qed.

Lemma denotes_ok : forall ev q s n lo hi, env_ok ev -> q_type q = QRdataIp -> denotes ev s n lo hi ->
  exists q', set_data ev (Some s) q = Ok (true, q') /\ same_but_data q q' /\ asks_range q' n (if Nat.eqb n 4 then 1 else 28) lo hi.
Proof.
  intros ev q s n lo hi HE HT [s0 n0 a H45 H47 HA|s0 s1 s2 n0 a1 a2 TP A1 A2|s0 s1 s2 n0 a p lo0 hi0 HC TP HA PL HP HB].
  - unfold set_data. rewrite HT. unfold set_data_rdata_ip. unfold dash, slash in *. rewrite !has_char_none by assumption.
    unfold set_data_ip_address. cbn [with_ip2 q_ip1 q_ip2].
    destruct (load_address ev s0 n0 a (q_ip1 q) HE HA) as (b & -> & F & L & B & K).
    eexists. split; [reflexivity|]. split; [unfold same_but_data; repeat split; reflexivity|].
    split; [exact K|]. cbn. split; [reflexivity|]. split; [destruct K as [[-> _]|[-> _]]; reflexivity|]. split; [reflexivity|].
    split; [exact F|]. split; [exact L|]. split; [exact B|]. left. auto.
  - unfold set_data. rewrite HT. unfold set_data_rdata_ip. unfold dash, slash in *.
    assert (has_char 45 s0 = true) as -> by (destruct TP as (i & j & k & -> & _); cbn [repeat app]; rewrite app_assoc; apply has_char_mid).
    unfold set_data_ip_range. apply two_parts_iff in TP. rewrite TP.
    destruct (load_address ev s1 n0 a1 (q_ip1 q) HE A1) as (b1 & -> & F1 & L1 & B1 & K). cbn [with_ip1 q_ip1 q_ip2].
    destruct (load_address ev s2 n0 a2 (q_ip2 q) HE A2) as (b2 & -> & F2 & L2 & B2 & _). rewrite N.eqb_refl.
    eexists. split; [reflexivity|]. split; [unfold same_but_data; repeat split; reflexivity|].
    split; [exact K|]. cbn. split; [reflexivity|]. split; [destruct K as [[-> _]|[-> _]]; reflexivity|]. split; [reflexivity|].
    split; [exact F1|]. split; [exact L1|]. split; [exact B1|]. right. auto.
  - destruct (prefix_parts ev q s0 s1 s2 p HT HC TP PL) as (ds & HD & (HN & H45 & H47) & ->); [destruct HP; cbn; lia|].
    destruct HA as [a H|a H H6]; (destruct HP as [[HP1 HP2]|[HP1 HP2]]; [try discriminate HP1|try discriminate HP1]).
    + destruct (cidr4_ok ev q s1 ds p a HE HT HN H45 H47 H HD HP2) as (q' & l & h & A & B & C & D).
      assert (LB : length a = 4%nat /\ bytes_ok a) by (destruct HE as (_ & _ & E4 & _); eapply E4; exact H).
      destruct (block_unique _ _ _ _ _ _ _ (proj1 LB) (proj2 LB) D HB) as [-> ->]. exists q'. auto.
    + destruct (cidr6_ok ev q s1 ds p a HE HT HN H45 H47 H H6 HD (proj1 HP2) (proj2 HP2)) as (q' & l & h & A & B & C & D).
      assert (LB : length a = 16%nat /\ bytes_ok a) by (destruct HE as (_ & _ & _ & E6); eapply E6; exact H6).
      destruct (block_unique _ _ _ _ _ _ _ (proj1 LB) (proj2 LB) D HB) as [-> ->]. exists q'. auto.
Qed.

(** ** One call *)

Definition step {A} (sets : setting -> option A) (c : setting) (b : bool) (cur : A) : A :=
  if b then match sets c with Some v => v | None => cur end else cur.

Lemma same_but_data_refl : forall q, same_but_data q q.
Proof. intro q. unfold same_but_data. repeat split; reflexivity. Qed.

Lemma name_same : forall n q, same_but_data q (with_name n q).
Proof. intros. unfold same_but_data. repeat split; reflexivity. Qed.

Lemma set_data_same : forall ev s q b q', set_data ev s q = Ok (b, q') -> same_but_data q q'.
Proof.
  intros ev s q b q'. unfold set_data.
  assert (T1 : Ok (set_data_name ev s q) = Ok (b, q') -> same_but_data q q').
  { unfold set_data_name. destruct (query_load_name ev s (q_case_sensitive q)) as [ok n]. intro E. injection E as <- <-. unfold same_but_data; repeat split; reflexivity. }
  destruct (q_type q); auto.
  - unfold set_data_rdata_ip. destruct s as [s|].
    2:{ intro E. injection E as <- <-. unfold same_but_data; repeat split; reflexivity. }
    destruct (has_char 45 s); [|destruct (has_char 47 s)].
    + unfold set_data_ip_range. destruct (strtok_all 45 s) as [|a1 [|a2 [|]]]; try (intro E; injection E as <- <-; apply same_but_data_refl).
      destruct (query_load_address ev a1 (q_ip1 q)) as [[ok1 len1] ip1]. destruct ok1; [|intro E; injection E as <- <-; unfold same_but_data; repeat split; reflexivity].
      cbn [with_ip1 q_ip2]. destruct (query_load_address ev a2 (q_ip2 q)) as [[ok2 len2] ip2].
      destruct ok2; [|intro E; injection E as <- <-; unfold same_but_data; repeat split; reflexivity].
      destruct (len1 =? len2); intro E; injection E as <- <-; unfold same_but_data; repeat split; reflexivity.
    + unfold set_data_ip_prefix. destruct (strtok_all 47 s) as [|a [|p [|]]]; try (intro E; injection E as <- <-; apply same_but_data_refl).
      destruct (query_load_address ev a []) as [[ok len] ip]. destruct ok; cbn [negb]; [|intro E; injection E as <- <-; apply same_but_data_refl].
      destruct (strtol_all p); [|intro E; injection E as <- <-; apply same_but_data_refl].
      destruct (_ || _); [intro E; injection E as <- <-; apply same_but_data_refl|].
      destruct (len =? 4).
      * destruct (ip4_lower ip _) as [lo| | | |]; try discriminate. destruct (ip4_upper ip _) as [hi| | | |]; try discriminate. cbn [bind].
        intro E. injection E as <- <-. unfold same_but_data; repeat split; reflexivity.
      * destruct (ip6_lower ip _) as [lo| | | |]; try discriminate. destruct (ip6_upper ip _) as [hi| | | |]; try discriminate. cbn [bind].
        intro E. injection E as <- <-. unfold same_but_data; repeat split; reflexivity.
    + unfold set_data_ip_address. cbn [with_ip2 q_ip1]. destruct (query_load_address ev s (q_ip1 q)) as [[ok len] ip].
      destruct ok; intro E; injection E as <- <-; unfold same_but_data; repeat split; reflexivity.
  - unfold set_data_rdata_raw. destruct s as [s|]; [|intro E; injection E as <- <-; unfold same_but_data; repeat split; reflexivity].
    destruct (hex_decode s None (q_len_rdata q)) as [[ok raw] len]. intro E. injection E as <- <-. unfold same_but_data; repeat split; reflexivity.
  - intro E. injection E as <- <-. apply same_but_data_refl.
  - intro E. injection E as <- <-. apply same_but_data_refl.
  - unfold set_version_type. destruct s as [s|]; [|intro E; injection E as <- <-; apply same_but_data_refl].
    destruct (entry_type_from_string s) as [t|]; [|intro E; injection E as <- <-; apply same_but_data_refl].
    destruct (existsb _ _); intro E; injection E as <- <-; [unfold same_but_data; repeat split; reflexivity|apply same_but_data_refl].
Qed.

Lemma any_type_ok : forall s, strcaseeq s (str "ANY") || strcaseeq s (str "TYPE255") || strcaseeq s (str "ANY-DNSSEC") = any_type s.
Proof.
  intro s. unfold any_type, strcaseeq. cbn [existsb]. rewrite orb_false_r, <- orb_assoc.
  assert (E : forall x y, map tolower x = y -> beq (map tolower s) (map tolower x) = if list_eq_dec N.eq_dec (map lower_letter s) y then true else false).
  { intros x y <-. change lower_letter with tolower. destruct (list_eq_dec N.eq_dec (map tolower s) (map tolower x)) as [E|E]; [apply beq_iff; exact E|].
    apply not_true_is_false. rewrite beq_iff. exact E. }
  rewrite (E (str "ANY") (str "any") eq_refl), (E (str "TYPE255") (str "type255") eq_refl), (E (str "ANY-DNSSEC") (str "any-dnssec") eq_refl). reflexivity.
Qed.

Record one_step (ev : env) (c : setting) (b : bool) (q q' : query) : Prop := {
  os_type : q_type q' = q_type q;
  os_offset : q_offset q' = step sets_offset c b (q_offset q);
  os_aggregated : q_aggregated q' = step sets_aggregated c b (q_aggregated q);
  os_case : q_case_sensitive q' = step sets_case c b (q_case_sensitive q);
  os_timeout : timeout_of q' = step sets_timeout c b (timeout_of q);
  os_deadline : deadline_of q' = step sets_deadline c b (deadline_of q);
  os_bound : forall p, p < 4 -> bound_of p q' = step (sets_bound p) c b (bound_of p q)
}.

Lemma same_step : forall ev c b q q', same_but_data q q' ->
  match c with SetData _ => True | _ => False end -> one_step ev c b q q'.
Proof.
  intros ev c b q q' (A1 & A2 & A3 & A4 & A5 & A6 & A7 & A8) Hc. destruct c; try contradiction Hc.
  constructor; unfold step; cbn; try (destruct b; assumption). intros p _. destruct b; apply A8.
Qed.

Lemma bound_cases : forall p, p < 4 -> p = 0 \/ p = 1 \/ p = 2 \/ p = 3.
Proof. lia. Qed.

Lemma apply_one : forall ev c q b q', apply_setting ev c q = Ok (b, q') -> one_step ev c b q q'.
Proof.
  intros ev c q b q' E. destruct c as [s|s|s|n|x|x|t|t|p v len]; cbn [apply_setting] in E.
  - apply same_step; [eapply set_data_same; exact E|exact I].
  - unfold set_rrtype in E. destruct s as [s|].
    + destruct (_ || _); [injection E as <- <-; constructor; reflexivity|]. destruct (_ =? 0); injection E as <- <-; constructor; reflexivity.
    + injection E as <- <-. constructor; reflexivity.
  - unfold set_bailiwick in E. destruct (q_type q) eqn:ET; try (injection E as <- <-; constructor; reflexivity).
    destruct (query_load_name ev s false) as [ok [n|]].
    + destruct (wdns_reverse_name n (blen n)) as [r| | | |]; try discriminate E; injection E as <- <-; constructor; reflexivity.
    + injection E as <- <-. constructor; try reflexivity; destruct ok; try reflexivity; intros; destruct ok; reflexivity.
  - injection E as <- <-. constructor; reflexivity.
  - injection E as <- <-. constructor; reflexivity.
  - injection E as <- <-. constructor; reflexivity.
  - injection E as <- <-. constructor; try reflexivity. unfold timeout_of, step, opt. cbn. destruct t; reflexivity.
  - injection E as <- <-. constructor; try reflexivity. unfold deadline_of, step, opt. cbn. destruct t; reflexivity.
  - unfold set_filter_parameter in E. destruct (negb (len =? 8)); [injection E as <- <-; constructor; reflexivity|].
    destruct (p =? 0) eqn:P0; [|destruct (p =? 1) eqn:P1; [|destruct (p =? 2) eqn:P2; [|destruct (p =? 3) eqn:P3]]];
      injection E as <- <-; try (constructor; reflexivity); constructor; try reflexivity;
      intros p' Hp'; unfold step; cbn [sets_bound];
      apply N.eqb_eq in P0 || apply N.eqb_eq in P1 || apply N.eqb_eq in P2 || apply N.eqb_eq in P3; subst p;
      destruct (bound_cases p' Hp') as [->|[->|[->| ->]]]; cbn; unfold opt; destruct v; reflexivity.
Qed.

(** ** Sequences of calls *)

Lemma apply_cons : forall ev c cs q rs q', apply_settings ev (c :: cs) q = Ok (rs, q') ->
  exists b rs' q1, rs = b :: rs' /\ apply_setting ev c q = Ok (b, q1) /\ apply_settings ev cs q1 = Ok (rs', q').
Proof.
  intros ev c cs q rs q' E. cbn in E. destruct (apply_setting ev c q) as [[b q1]| | | |]; try discriminate E. cbn in E.
  destruct (apply_settings ev cs q1) as [[rs' q2]| | | |] eqn:E2; try discriminate E. cbn in E. injection E as <- <-. eauto 10.
Qed.
Lemma apply_length : forall ev cs q rs q', apply_settings ev cs q = Ok (rs, q') -> length rs = length cs.
Proof.
  induction cs as [|c cs IH]; intros q rs q' E; [injection E as <- _; reflexivity|].
  apply apply_cons in E. destruct E as (b & rs' & q1 & -> & _ & E). cbn. f_equal. eauto.
Qed.
Lemma apply_app : forall ev a b q rs q', apply_settings ev (a ++ b) q = Ok (rs, q') ->
  exists r1 r2 q1, rs = r1 ++ r2 /\ apply_settings ev a q = Ok (r1, q1) /\ apply_settings ev b q1 = Ok (r2, q').
Proof.
  induction a as [|c a IH]; intros b q rs q' E; [exists [], rs, q; auto|].
  cbn [app] in E. apply apply_cons in E. destruct E as (x & rs' & q1 & -> & E1 & E2). apply IH in E2.
  destruct E2 as (r1 & r2 & q2 & -> & E2 & E3). exists (x :: r1), r2, q2. split; [reflexivity|]. split; [|exact E3].
  cbn. rewrite E1. cbn. rewrite E2. reflexivity.
Qed.

(** A parameter seen through [obs] and changed as [sets] says. *)
Lemma last_set_ok : forall A ev (obs : query -> A) (sets : setting -> option A),
  (forall c q b q', apply_setting ev c q = Ok (b, q') -> obs q' = step sets c b (obs q)) ->
  forall cs q rs q', apply_settings ev cs q = Ok (rs, q') -> obs q' = last_set sets (obs q) (combine cs rs).
Proof.
  intros A ev obs sets HS cs. induction cs as [|c cs IH]; intros q rs q' E.
  - injection E as <- <-. reflexivity.
  - apply apply_cons in E. destruct E as (b & rs' & q1 & -> & E1 & E2). cbn [combine]. unfold last_set. cbn [fold_left fst snd].
    rewrite (IH q1 rs' q' E2), (HS c q b q1 E1). reflexivity.
Qed.

(** Calls that do not concern the data leave it alone. *)
Definition data_fields (q : query) := (q_name q, q_len_ip1 q, q_len_ip2 q, q_ip1 q, q_ip2 q, q_len_rdata q, q_rdata q, q_has_v_type q, q_v_type q).

Lemma not_data_keeps : forall ev c q b q', apply_setting ev c q = Ok (b, q') -> ~ is_data c -> data_fields q' = data_fields q.
Proof.
  intros ev c q b q' E Hc. destruct c as [s|s|s|n|x|x|t|t|p v len]; cbn [apply_setting] in E.
  - exfalso. apply Hc. exact I.
  - unfold set_rrtype in E. destruct s as [s|]; [destruct (_ || _); [|destruct (_ =? 0)]|]; injection E as <- <-; reflexivity.
  - unfold set_bailiwick in E. destruct (q_type q); try (injection E as <- <-; reflexivity).
    destruct (query_load_name ev s false) as [ok [n|]]; [destruct (wdns_reverse_name n (blen n)); try discriminate E|]; injection E as <- <-; reflexivity.
  - injection E as <- <-. reflexivity.
  - injection E as <- <-. reflexivity.
  - injection E as <- <-. reflexivity.
  - injection E as <- <-. reflexivity.
  - injection E as <- <-. reflexivity.
  - unfold set_filter_parameter in E. repeat (match type of E with context [if ?c then _ else _] => destruct c end); injection E as <- <-; reflexivity.
Qed.
Lemma not_data_list : forall ev cs q rs q', apply_settings ev cs q = Ok (rs, q') -> Forall (fun c => ~ is_data c) cs -> data_fields q' = data_fields q.
Proof.
  induction cs as [|c cs IH]; intros q rs q' E F; [injection E as _ <-; reflexivity|].
  apply apply_cons in E. destruct E as (b & rs' & q1 & -> & E1 & E2). inversion F; subst.
  rewrite (IH _ _ _ E2) by assumption. eapply not_data_keeps; eauto.
Qed.

Lemma not_type_keeps : forall ev c q b q', apply_setting ev c q = Ok (b, q') -> ~ is_data c -> ~ is_type c -> rrtype_of q' = rrtype_of q.
Proof.
  intros ev c q b q' E Hc Ht. destruct c as [s|s|s|n|x|x|t|t|p v len]; cbn [apply_setting] in E; try (injection E as <- <-; reflexivity).
  - exfalso. apply Hc. exact I.
  - exfalso. apply Ht. exact I.
  - unfold set_bailiwick in E. destruct (q_type q); try (injection E as <- <-; reflexivity).
    destruct (query_load_name ev s false) as [ok [n|]]; [destruct (wdns_reverse_name n (blen n)); try discriminate E|]; injection E as <- <-; reflexivity.
  - unfold set_filter_parameter in E. repeat (match type of E with context [if ?c then _ else _] => destruct c end); injection E as <- <-; reflexivity.
Qed.
Lemma not_type_list : forall ev cs q rs q', apply_settings ev cs q = Ok (rs, q') ->
  Forall (fun c => ~ is_data c /\ ~ is_type c) cs -> rrtype_of q' = rrtype_of q.
Proof.
  induction cs as [|c cs IH]; intros q rs q' E F; [injection E as _ <-; reflexivity|].
  apply apply_cons in E. destruct E as (b & rs' & q1 & -> & E1 & E2). inversion F; subst.
  rewrite (IH _ _ _ E2) by assumption. eapply not_type_keeps; eauto; tauto.
Qed.

Lemma bailiwick_keeps : forall ev c q b q', apply_setting ev c q = Ok (b, q') -> ~ is_bailiwick c -> q_bailiwick q' = q_bailiwick q.
Proof.
  intros ev c q b q' E Hc. destruct c as [s|s|s|n|x|x|t|t|p v len]; cbn [apply_setting] in E; try (injection E as <- <-; reflexivity).
  - apply set_data_same in E. apply E.
  - unfold set_rrtype in E. destruct s as [s|]; [destruct (_ || _); [|destruct (_ =? 0)]|]; injection E as <- <-; reflexivity.
  - exfalso. apply Hc. exact I.
  - unfold set_filter_parameter in E. repeat (match type of E with context [if ?c then _ else _] => destruct c end); injection E as <- <-; reflexivity.
Qed.
Lemma bailiwick_list : forall ev cs q rs q', apply_settings ev cs q = Ok (rs, q') -> Forall (fun c => ~ is_bailiwick c) cs -> q_bailiwick q' = q_bailiwick q.
Proof.
  induction cs as [|c cs IH]; intros q rs q' E F; [injection E as _ <-; reflexivity|].
  apply apply_cons in E. destruct E as (b & rs' & q1 & -> & E1 & E2). inversion F; subst.
  rewrite (IH _ _ _ E2) by assumption. eapply bailiwick_keeps; eauto.
Qed.
Lemma type_list : forall ev cs q rs q', apply_settings ev cs q = Ok (rs, q') -> q_type q' = q_type q.
Proof.
  induction cs as [|c cs IH]; intros q rs q' E; [injection E as _ <-; reflexivity|].
  apply apply_cons in E. destruct E as (b & rs' & q1 & -> & E1 & E2). rewrite (IH _ _ _ E2). apply apply_one in E1. apply E1.
Qed.

(** The type restriction of a query that is not about addresses. *)
Lemma set_data_type : forall ev s q b q', set_data ev s q = Ok (b, q') -> q_type q <> QRdataIp -> rrtype_of q' = rrtype_of q.
Proof.
  intros ev s q b q' E HT. unfold set_data in E. destruct (q_type q); try (exfalso; apply HT; reflexivity); try (injection E as <- <-; reflexivity).
  - unfold set_data_name in E. destruct (query_load_name ev s (q_case_sensitive q)). injection E as <- <-. reflexivity.
  - unfold set_data_name in E. destruct (query_load_name ev s (q_case_sensitive q)). injection E as <- <-. reflexivity.
  - unfold set_data_rdata_raw in E. destruct s as [s|]; [|injection E as <- <-; reflexivity]. destruct (hex_decode s None (q_len_rdata q)) as [[ok raw] len]. injection E as <- <-. reflexivity.
  - unfold set_version_type in E. destruct s as [s|]; [|injection E as <- <-; reflexivity].
    destruct (entry_type_from_string s); [|injection E as <- <-; reflexivity]. destruct (existsb _ _); injection E as <- <-; reflexivity.
Qed.
Lemma rrtype_step : forall ev c q b q', env_ok ev -> apply_setting ev c q = Ok (b, q') -> q_type q <> QRdataIp ->
  rrtype_of q' = step (sets_rrtype ev) c b (rrtype_of q).
Proof.
  intros ev c q b q' HE E HT. destruct c as [s|s|s|n|x|x|t|t|p v len]; unfold step; cbn [sets_rrtype];
    try (match goal with |- _ = (if b then _ else ?r) => assert (H : rrtype_of q' = r); [|rewrite H; destruct b; reflexivity] end;
         first [eapply not_type_keeps; [exact E|cbn; tauto|cbn; tauto] | eapply set_data_type; [exact E|exact HT]]).
  cbn [apply_setting] in E. unfold set_rrtype in E. destruct s as [s|]; [|injection E as <- <-; reflexivity].
  rewrite any_type_ok in E. destruct (any_type s); [injection E as <- <-; reflexivity|].
  destruct HE as (_ & HR & _). specialize (HR s). rewrite (N.mod_small (str_to_rrtype ev s) u16) in E by exact HR.
  destruct (_ =? 0); injection E as <- <-; reflexivity.
Qed.
Lemma rrtype_list : forall ev cs q rs q', env_ok ev -> apply_settings ev cs q = Ok (rs, q') -> q_type q <> QRdataIp ->
  rrtype_of q' = last_set (sets_rrtype ev) (rrtype_of q) (combine cs rs).
Proof.
  intros ev cs. induction cs as [|c cs IH]; intros q rs q' HE E HT; [injection E as <- <-; reflexivity|].
  apply apply_cons in E. destruct E as (b & rs' & q1 & -> & E1 & E2). cbn [combine]. unfold last_set. cbn [fold_left fst snd].
  rewrite (IH q1 rs' q' HE E2). { rewrite (rrtype_step ev c q b q1 HE E1 HT). reflexivity. }
  apply apply_one in E1. rewrite (os_type _ _ _ _ _ E1). exact HT.
Qed.

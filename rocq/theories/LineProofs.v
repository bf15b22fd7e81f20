(** Proofs about the text output of entries. *)
From Coq Require Import Lia.
From Verif Require Import Str BaseFacts ModelVarint ModelUnion ModelEntry ModelNames ModelFormat SpecFormat SpecName SpecMerge SpecUnion SpecEntry SpecJson SpecText.
From Verif Require Import TextProofs CalendarProofs TimeProofs MergeProofs PropsEntry JsonProofs.

Definition nz (s : bytes) : Prop := ~ In 0 s.
Lemma nz_app : forall a b, nz a -> nz b -> nz (a ++ b).
Proof. unfold nz. intros a b Ha Hb H. apply in_app_or in H. tauto. Qed.
Lemma nz_str : forall s, existsb (N.eqb 0) s = false -> nz s.
Proof. intros s H Hin. assert (existsb (N.eqb 0) s = true) by (apply existsb_exists; exists 0; split; [exact Hin|reflexivity]). congruence. Qed.

Lemma add_cstr_nz : forall u s, nz u -> nz s -> add_cstr u s = u ++ s.
Proof.
  intros u s Hu Hs. unfold add_cstr. rewrite (cstr_no_nul s Hs). f_equal.
  destruct (rev u) as [|c r] eqn:E; [reflexivity|]. destruct c as [|p]; [|reflexivity].
  exfalso. apply Hu. apply in_rev. rewrite E. left. reflexivity.
Qed.

Lemma digits_nz : forall s, Forall digit s -> nz s.
Proof. intros s H Hin. rewrite Forall_forall in H. apply H in Hin. unfold digit in Hin. lia. Qed.

(** ** Times *)

Lemma printf_02d_ok : forall n, n < 100 -> padded 2 n (printf_02d (Z.of_N n)).
Proof.
  intros n H. unfold printf_02d. rewrite N2Z.id.
  assert (n / 10 < 10) by (apply N.div_lt_upper_bound; lia). pose proof (N.mod_lt n 10 ltac:(lia)). pose proof (N.div_mod' n 10).
  split; [repeat constructor; lia|]. split; [reflexivity|]. unfold decimal_value. cbn [fold_left]. lia.
Qed.

Lemma printf_d_ok : forall n, decimal n (printf_d (Z.of_N n)).
Proof.
  intro n. unfold printf_d. replace (Z.of_N n <? 0)%Z with false by lia. rewrite N2Z.id. apply printf_u_decimal.
Qed.

Lemma decimal_length : forall n s k, decimal n s -> n < 10 ^ N.of_nat k -> (1 <= k)%nat -> (length s <= k)%nat.
Proof.
  intros n s k (D & NE & Z & V) H Hk. destruct (Nat.le_gt_cases (length s) k) as [C|C]; [exact C|]. exfalso.
  destruct s as [|c s]; [congruence|]. cbn [length] in C.
  assert (Hc : c <> 48) by (intros ->; rewrite (Z s eq_refl) in C; cbn [length] in C; lia).
  assert (L : 10 ^ N.of_nat (length s) <= decimal_value (c :: s)).
  { unfold decimal_value. cbn [fold_left]. inversion D as [|? ? Dc Ds]; subst. unfold digit in Dc.
    assert (G : forall l a, Forall digit l -> 1 <= a -> 10 ^ N.of_nat (length l) <= fold_left (fun v c => 10 * v + (c - 48)) l a).
    { clear. induction l as [|x l IH]; intros a F Ha; [cbn; lia|]. inversion F; subst.
      cbn [fold_left length]. rewrite Nat2N.inj_succ, N.pow_succ_r'.
      assert (M : forall l a b, b <= a -> fold_left (fun v c => 10 * v + (c - 48)) l b + (a - b) * 10 ^ N.of_nat (length l) <= fold_left (fun v c => 10 * v + (c - 48)) l a).
      { clear. induction l as [|y l IH]; intros a b H; cbn [fold_left length]; [change (10 ^ N.of_nat 0) with 1; lia|].
        etransitivity; [|apply (IH (10 * a + (y - 48)) (10 * b + (y - 48))); lia].
        rewrite Nat2N.inj_succ, N.pow_succ_r'. apply N.add_le_mono_l. nia. }
      pose proof (M l (10 * a + (x - 48)) 1 ltac:(lia)) as M1. pose proof (IH 1 H2 ltac:(lia)).
      nia. }
    apply G; [exact Ds|lia]. }
  rewrite V in L. assert (10 ^ N.of_nat k <= 10 ^ N.of_nat (length s)) by (apply N.pow_le_mono_r; lia). lia.
Qed.

Lemma fmt_time_ok : forall v, v < 67767976233532800 -> exists s, (forall u, fmt_time u v = Ok (u ++ s)) /\ plain_time s v /\ nz s.
Proof.
  intros v H. destruct (gmtime_any v ltac:(lia)) as (y & mo & d & h & mi & se & G & ((Y1 & Y2) & Y3) & HM & HD & H1 & H2 & H3 & HV).
  unfold fmt_time. rewrite G. set (r := Build_tm _ _ _ _ _ _).
  assert (ML : nth (N.to_nat (mo - 1)) (month_lengths y) 0 <= 31).
  { assert (C : mo = 1 \/ mo = 2 \/ mo = 3 \/ mo = 4 \/ mo = 5 \/ mo = 6 \/ mo = 7 \/ mo = 8 \/ mo = 9 \/ mo = 10 \/ mo = 11 \/ mo = 12) by lia.
    unfold month_lengths.
    destruct C as [-> |[-> |[-> |[-> |[-> |[-> |[-> |[-> |[-> |[-> |[-> | ->]]]]]]]]]]]; destruct (leap y); vm_compute; discriminate. }
  assert (E : strftime_text r = printf_d (Z.of_N y) ++ str "-" ++ printf_02d (Z.of_N mo) ++ str "-" ++ printf_02d (Z.of_N d) ++ str " " ++
    printf_02d (Z.of_N h) ++ str ":" ++ printf_02d (Z.of_N mi) ++ str ":" ++ printf_02d (Z.of_N se) ++ str " -0000").
  { unfold strftime_text, r. cbn [tm_year tm_mon tm_mday tm_hour tm_min tm_sec].
    replace (1900 + (Z.of_N y - 1900))%Z with (Z.of_N y) by lia. replace (1 + (Z.of_N mo - 1))%Z with (Z.of_N mo) by lia. reflexivity. }
  assert (D31 : d <= 31) by (etransitivity; [apply HD|exact ML]). clear ML.
  cbv zeta. rewrite E.
  pose proof (printf_d_ok y) as Dy. pose proof (printf_02d_ok mo ltac:(lia)) as P1. pose proof (printf_02d_ok d ltac:(lia)) as P2.
  pose proof (printf_02d_ok h ltac:(lia)) as P3. pose proof (printf_02d_ok mi ltac:(lia)) as P4. pose proof (printf_02d_ok se ltac:(lia)) as P5.
  pose proof (decimal_length y _ 10 Dy ltac:(cbn; lia) ltac:(lia)) as L.
  eexists. split; [|split].
  - intro u. match goal with |- (if (length ?s <? 32)%nat then _ else _) = _ => replace (length s <? 32)%nat with true; [reflexivity|] end.
    symmetry. apply Nat.ltb_lt. rewrite !app_length.
    destruct P1 as (_ & -> & _), P2 as (_ & -> & _), P3 as (_ & -> & _), P4 as (_ & -> & _), P5 as (_ & -> & _).
    vm_compute (length (str "-")). vm_compute (length (str " ")). vm_compute (length (str ":")). vm_compute (length (str " -0000")). lia.
  - do 12 eexists. split; [exact Y1|]. split; [exact HM|]. split; [exact HD|]. split; [exact H1|]. split; [exact H2|]. split; [exact H3|].
    split; [exact Dy|]. split; [exact P1|]. split; [exact P2|]. split; [exact P3|]. split; [exact P4|]. split; [exact P5|].
    split; [reflexivity|exact HV].
  - destruct Dy as (Dy & _), P1 as (P1 & _), P2 as (P2 & _), P3 as (P3 & _), P4 as (P4 & _), P5 as (P5 & _).
    repeat (apply nz_app; [first [apply digits_nz; assumption|apply nz_str; reflexivity]|]). apply nz_str. reflexivity.
Qed.

Lemma one_line_nz : forall s, one_line s -> nz s.
Proof. intros s H Hin. unfold one_line in H. rewrite Forall_forall in H. apply H in Hin. lia. Qed.

Lemma text_time_ok : forall date v, text_shown date v ->
  exists s, (forall u, (match date with DateUnix => fmt_time | DateRfc3339 => fmt_rfc3339_time end) u v = Ok (u ++ s)) /\
    text_time date v s /\ nz s.
Proof.
  intros [|] v H; cbn [text_shown text_time] in *; [exact (fmt_time_ok v H)|].
  destruct (rfc3339_ts_ok v H) as (s & E & R & L). exists s. split; [|split; [exact R|apply one_line_nz; exact L]].
  intro u. unfold fmt_rfc3339_time. rewrite E. reflexivity.
Qed.

(** The format writes the text s for the time v. *)
Definition text_writes (date : date_format) (v : N) (s : bytes) : Prop :=
  (forall u, (match date with DateUnix => fmt_time | DateRfc3339 => fmt_rfc3339_time end) u v = Ok (u ++ s)) /\ nz s.

(** ** Pieces *)

Lemma uint64_ok : forall lib n u, count_shown lib n -> fmt_uint64 lib u n = Ok (u ++ locale_uint64 lib n).
Proof.
  intros lib n u (_ & L). unfold fmt_uint64. cbv zeta. replace (length (locale_uint64 lib n) <=? 26)%nat with true; [reflexivity|].
  symmetry. apply Nat.leb_le. exact L.
Qed.

Lemma text_type_ok : forall lib ty, c_strings lib -> exists s,
  (forall u, nz u -> fmt_rrtype lib u ty = u ++ s) /\ type_text lib (ty mod u16) s /\ nz s.
Proof.
  intros lib ty (_ & _ & H). unfold fmt_rrtype, type_text. cbv zeta. destruct (wdns_rrtype_to_str lib (ty mod u16)) as [s|] eqn:E.
  - exists s. split; [|split; [reflexivity|exact (H _ _ E)]]. intros u Hu. apply add_cstr_nz; [exact Hu|exact (H _ _ E)].
  - exists (str "TYPE" ++ printf_u (ty mod u16)). split; [reflexivity|].
    split; [exists (printf_u (ty mod u16)); split; [apply printf_u_decimal|reflexivity]|].
    apply nz_app; [apply nz_str; reflexivity|]. apply digits_nz. apply printf_u_decimal.
Qed.

Lemma nz_domain : forall lib n, c_strings lib -> nz (wdns_domain_to_str lib n).
Proof. intros lib n (H & _). apply H. Qed.
Lemma nz_rdata : forall lib r t, c_strings lib -> nz (wdns_rdata_to_str lib r t).
Proof. intros lib r t (_ & H & _). apply H. Qed.

Lemma rr_line_nz : forall lib nm ty t rdata, c_strings lib -> nz t -> nz (rr_line lib nm ty t rdata).
Proof.
  intros lib nm ty t rdata HC Ht. unfold rr_line. apply nz_app; [apply nz_domain; exact HC|].
  apply nz_app; [apply nz_str; reflexivity|]. apply nz_app; [exact Ht|]. apply nz_app; [apply nz_str; reflexivity|apply nz_rdata; exact HC].
Qed.

Lemma text_rr_ok : forall lib nm ty t rdata u, c_strings lib -> nz t -> nz u -> (forall u, nz u -> fmt_rrtype lib u ty = u ++ t) ->
  text_rr lib (wdns_domain_to_str lib nm) ty u rdata = Ok (u ++ rr_line lib nm (ty mod u16) t rdata ++ [10]).
Proof.
  intros lib nm ty t rdata u HC Ht Hu HT. unfold text_rr. cbv zeta.
  pose proof (nz_domain lib nm HC) as H1. pose proof (nz_rdata lib rdata (ty mod u16) HC) as H2.
  assert (S1 : nz (str " IN ")) by (apply nz_str; reflexivity). assert (S2 : nz (str " ")) by (apply nz_str; reflexivity).
  rewrite (add_cstr_nz u) by assumption.
  rewrite HT by (repeat apply nz_app; assumption).
  rewrite add_cstr_nz by (repeat apply nz_app; assumption).
  unfold rr_line. rewrite <- !app_assoc. reflexivity.
Qed.

Lemma lines_app : forall a b, lines (a ++ b) = lines a ++ lines b.
Proof. intros. apply flat_map_app. Qed.
Lemma lines_nz : forall l, Forall nz l -> nz (lines l).
Proof.
  intros l H. induction H as [|x l Hx _ IH]; [intros []|]. cbn [lines flat_map]. fold (lines l).
  apply nz_app; [apply nz_app; [exact Hx|apply nz_str; reflexivity]|exact IH].
Qed.

Lemma rrs_ok : forall lib nm ty t rs u, c_strings lib -> nz t -> nz u -> (forall u, nz u -> fmt_rrtype lib u ty = u ++ t) ->
  fmt_list [] (text_rr lib (wdns_domain_to_str lib nm) ty) u rs = Ok (u ++ lines (map (rr_line lib nm (ty mod u16) t) rs)).
Proof.
  intros lib nm ty t rs u HC Ht Hu HT. revert u Hu. induction rs as [|r rs IH]; intros u Hu; cbn [fmt_list map]; [rewrite app_nil_r; reflexivity|].
  rewrite (text_rr_ok lib nm ty t r u HC Ht Hu HT). cbn [bind].
  match goal with |- fmt_list _ _ ?x _ = _ => replace x with (u ++ rr_line lib nm (ty mod u16) t r ++ [10])
    by (destruct rs; [reflexivity|rewrite app_nil_r; reflexivity]) end.
  rewrite IH.
  - cbn [lines flat_map]. fold (lines (map (rr_line lib nm (ty mod u16) t) rs)). rewrite <- !app_assoc. reflexivity.
  - apply nz_app; [exact Hu|]. apply nz_app; [apply rr_line_nz; assumption|apply nz_str; reflexivity].
Qed.

Lemma spaced_joined : forall l, spaced l = joined (str " ") l.
Proof.
  induction l as [|a [|b l] IH]; [reflexivity|cbn; rewrite app_nil_r; reflexivity|].
  change (spaced (a :: b :: l)) with (a ++ str " " ++ spaced (b :: l)). rewrite IH. reflexivity.
Qed.
Lemma spaced_nz : forall l, Forall nz l -> nz (spaced l).
Proof.
  intros l H. induction H as [|a l Ha Hl IH]; [intros []|]. destruct l as [|b l]; [exact Ha|].
  change (spaced (a :: b :: l)) with (a ++ str " " ++ spaced (b :: l)).
  apply nz_app; [exact Ha|]. apply nz_app; [apply nz_str; reflexivity|exact IH].
Qed.

Lemma text_types_ok : forall lib l u, c_strings lib -> nz u -> exists ts,
  Forall2 (type_text lib) (map (fun t => t mod u16) l) ts /\ Forall nz ts /\
  fmt_list (str " ") (fun u t => Ok (fmt_rrtype lib u t)) u l = Ok (u ++ spaced ts).
Proof.
  intros lib l u HC. revert u. induction l as [|t l IH]; intros u Hu.
  - exists []. split; [constructor|]. split; [constructor|]. cbn. rewrite app_nil_r. reflexivity.
  - destruct (text_type_ok lib t HC) as (s & Hs & T & Ns). cbn [fmt_list bind]. rewrite (Hs u Hu).
    destruct l as [|t' l].
    + exists [s]. split; [repeat constructor; exact T|]. split; [repeat constructor; exact Ns|]. reflexivity.
    + destruct (IH ((u ++ s) ++ str " ")) as (ts & F & N & E); [apply nz_app; [apply nz_app; assumption|apply nz_str; reflexivity]|].
      exists (s :: ts). split; [constructor; assumption|]. split; [constructor; assumption|]. rewrite E.
      destruct ts as [|b ts]; [inversion F|]. change (spaced (s :: b :: ts)) with (s ++ str " " ++ spaced (b :: ts)).
      rewrite <- !app_assoc. reflexivity.
Qed.

(** ** Entries *)

Lemma rrset_lines_any : forall lib e date nm bw tf tl, c_strings lib -> e_type e = ENTRY_TYPE_RRSET -> e_name e = Some nm -> e_bailiwick e = Some bw ->
  count_shown lib (e_count e) -> text_writes date (e_time_first e) tf -> text_writes date (e_time_last e) tl ->
  exists t, type_text lib (e_rrtype e mod u16) t /\
    prints_lines (dnstable_entry_to_text_fmt lib e date)
     ([str ";;  bailiwick: " ++ wdns_domain_to_str lib bw;
       str ";;      count: " ++ locale_uint64 lib (e_count e);
       str ";; first seen" ++ seen_in (e_iszone e) ++ tf;
       str ";;  last seen" ++ seen_in (e_iszone e) ++ tl] ++
      map (rr_line lib nm (e_rrtype e mod u16) t) (e_rdatas e)).
Proof.
  intros lib e date nm bw tf tl HC T N1 N2 HN (F1 & Z1) (F2 & Z2).
  destruct (text_type_ok lib (e_rrtype e) HC) as (t & Ft & Pt & Zt).
  exists t. split; [exact Pt|].
  unfold prints_lines, dnstable_entry_to_text_fmt. rewrite T. cbn [N.eqb ENTRY_TYPE_RRSET]. cbv zeta.
  rewrite N1, N2. cbn [domain_str bind app].
  pose proof (nz_domain lib bw HC) as Zb. destruct HN as (Zn & Ln).
  rewrite add_cstr_nz by (assumption || (apply nz_str; reflexivity)).
  rewrite uint64_ok by (split; assumption). cbn [bind].
  rewrite F1. cbn [bind]. rewrite F2. cbn [bind].
  set (hdr := [str ";;  bailiwick: " ++ wdns_domain_to_str lib bw; str ";;      count: " ++ locale_uint64 lib (e_count e);
    str ";; first seen" ++ seen_in (e_iszone e) ++ tf; str ";;  last seen" ++ seen_in (e_iszone e) ++ tl]).
  assert (HH : Forall nz hdr).
  { unfold hdr, seen_in. repeat constructor; destruct (e_iszone e);
    repeat (apply nz_app; [first [assumption|apply nz_str; reflexivity]|]); first [assumption|apply nz_str; reflexivity]. }
  match goal with |- context [fmt_list [] _ ?u _] => assert (E : u = lines hdr) end.
  { unfold hdr, lines, seen_in. cbn [flat_map]. rewrite app_nil_r. destruct (e_iszone e); rewrite <- !app_assoc; reflexivity. }
  rewrite E. rewrite (rrs_ok lib nm (e_rrtype e) t (e_rdatas e) (lines hdr) HC Zt (lines_nz _ HH) Ft). cbn [bind].
  rewrite cstr_no_nul.
  - rewrite <- lines_app. reflexivity.
  - apply nz_app; [apply lines_nz; exact HH|]. apply lines_nz. apply Forall_forall. intros x Hx. apply in_map_iff in Hx.
    destruct Hx as (r & <- & _). apply rr_line_nz; assumption.
Qed.
Lemma rrset_lines : forall lib e date nm bw, c_strings lib -> e_type e = ENTRY_TYPE_RRSET -> e_name e = Some nm -> e_bailiwick e = Some bw ->
  count_shown lib (e_count e) -> text_shown date (e_time_first e) -> text_shown date (e_time_last e) ->
  exists tf tl t, text_time date (e_time_first e) tf /\ text_time date (e_time_last e) tl /\ type_text lib (e_rrtype e mod u16) t /\
    prints_lines (dnstable_entry_to_text_fmt lib e date)
     ([str ";;  bailiwick: " ++ wdns_domain_to_str lib bw;
       str ";;      count: " ++ locale_uint64 lib (e_count e);
       str ";; first seen" ++ seen_in (e_iszone e) ++ tf;
       str ";;  last seen" ++ seen_in (e_iszone e) ++ tl] ++
      map (rr_line lib nm (e_rrtype e mod u16) t) (e_rdatas e)).
Proof.
  intros lib e date nm bw HC T N1 N2 HN T1 T2.
  destruct (text_time_ok date _ T1) as (tf & F1 & P1 & Z1). destruct (text_time_ok date _ T2) as (tl & F2 & P2 & Z2).
  destruct (rrset_lines_any lib e date nm bw tf tl HC T N1 N2 HN (conj F1 Z1) (conj F2 Z2)) as (t & Pt & P).
  exists tf, tl, t. split; [exact P1|]. split; [exact P2|]. split; [exact Pt|]. exact P.
Qed.

Lemma rdata_lines : forall lib e date nm r, c_strings lib -> e_type e = ENTRY_TYPE_RDATA -> e_name e = Some nm -> e_rdatas e = [r] ->
  exists t, type_text lib (e_rrtype e mod u16) t /\
    prints_lines (dnstable_entry_to_text_fmt lib e date) [rr_line lib nm (e_rrtype e mod u16) t r].
Proof.
  intros lib e date nm r HC T N1 N2. destruct (text_type_ok lib (e_rrtype e) HC) as (t & Ft & Pt & Zt).
  exists t. split; [exact Pt|]. unfold prints_lines, dnstable_entry_to_text_fmt. rewrite T.
  cbn [N.eqb Pos.eqb ENTRY_TYPE_RRSET ENTRY_TYPE_RDATA]. cbv zeta. rewrite N1, N2. cbn [domain_str bind].
  rewrite (text_rr_ok lib nm (e_rrtype e) t r [] HC Zt) by (assumption || intros []). cbn [bind app].
  rewrite cstr_no_nul.
  - unfold lines. cbn [flat_map]. rewrite app_nil_r. reflexivity.
  - apply nz_app; [apply rr_line_nz; assumption|apply nz_str; reflexivity].
Qed.

Definition index_what (ty : N) (what : bytes) : Prop :=
  (ty = ENTRY_TYPE_RRSET_NAME_FWD /\ what = str "rrset name fwd") \/ (ty = ENTRY_TYPE_RDATA_NAME_REV /\ what = str "rdata name rev").

(** [types] is what the index value unpacks to, [None] that it does not. *)
Lemma index_lines : forall lib e date nm what types, c_strings lib -> index_what (e_type e) what -> e_name e = Some nm ->
  rrtype_union_unpack (name_bytes (e_rrtype_map e)) = Ok types ->
  exists ts, match types with
             | Some l => Forall2 (type_text lib) (map (fun t => t mod u16) l) ts
             | None => ts = [str "<failure>"]
             end /\
    prints_lines (dnstable_entry_to_text_fmt lib e date)
      [wdns_domain_to_str lib nm ++ str " RRtypes=[" ++ spaced ts ++ str "]  ;; " ++ what].
Proof.
  intros lib e date nm what types HC HW HN HU.
  assert (EQ : dnstable_entry_to_text_fmt lib e date =
    let* u := fmt_rrtypes_union lib (wdns_domain_to_str lib nm) e in Ok (Some (cstr (u ++ str " ;; " ++ what ++ [10])))).
  { unfold dnstable_entry_to_text_fmt.
    destruct HW as [[-> ->] | [-> ->]]; cbn [N.eqb Pos.eqb ENTRY_TYPE_RRSET ENTRY_TYPE_RRSET_NAME_FWD ENTRY_TYPE_RDATA ENTRY_TYPE_RDATA_NAME_REV]; cbv zeta;
      rewrite HN; cbn [domain_str bind]; rewrite (add_cstr_nz []) by ((apply nz_domain; exact HC) || (intros [])); reflexivity. }
  assert (ZW : nz what) by (destruct HW as [[_ ->] | [_ ->]]; apply nz_str; reflexivity).
  pose proof (nz_domain lib nm HC) as ZN.
  assert (U : exists ts, match types with
             | Some l => Forall2 (type_text lib) (map (fun t => t mod u16) l) ts
             | None => ts = [str "<failure>"]
             end /\ Forall nz ts /\ fmt_rrtypes_union lib (wdns_domain_to_str lib nm) e =
                    Ok (wdns_domain_to_str lib nm ++ str " RRtypes=[" ++ spaced ts ++ str "] ")).
  { assert (Z0 : nz (wdns_domain_to_str lib nm ++ str " RRtypes=[")) by (apply nz_app; [exact ZN|apply nz_str; reflexivity]).
    unfold fmt_rrtypes_union. cbv zeta. destruct types as [l|].
    - destruct (text_types_ok lib l _ HC Z0) as (ts & F & Z & E). exists ts. split; [exact F|]. split; [exact Z|].
      destruct (e_rrtype_map e) as [m|]; cbn [name_bytes] in HU.
      + rewrite HU. cbn [bind]. rewrite E. cbn [bind]. rewrite <- !app_assoc. reflexivity.
      + cbn [rrtype_union_unpack] in HU. injection HU as <-. inversion F; subst. cbn [bind spaced app]. rewrite <- !app_assoc. reflexivity.
    - exists [str "<failure>"]. split; [reflexivity|]. split; [constructor; [apply nz_str; reflexivity|constructor]|].
      destruct (e_rrtype_map e) as [m|]; cbn [name_bytes] in HU; [|discriminate].
      rewrite HU. cbn [bind spaced]. rewrite <- !app_assoc. reflexivity. }
  destruct U as (ts & F & Z & E). exists ts. split; [exact F|]. unfold prints_lines. rewrite EQ, E. cbn [bind].
  rewrite cstr_no_nul.
  - unfold lines. cbn [flat_map]. rewrite app_nil_r. rewrite <- !app_assoc. reflexivity.
  - apply nz_app; [apply nz_app; [exact ZN|]; apply nz_app; [apply nz_str; reflexivity|]; apply nz_app; [apply spaced_nz; exact Z|apply nz_str; reflexivity]|].
    apply nz_app; [apply nz_str; reflexivity|]. apply nz_app; [exact ZW|apply nz_str; reflexivity].
Qed.

Lemma time_range_lines_any : forall lib e date tf tl, e_type e = ENTRY_TYPE_TIME_RANGE ->
  text_writes date (e_time_first e) tf -> text_writes date (e_time_last e) tl ->
  prints_lines (dnstable_entry_to_text_fmt lib e date) [str ";; Earliest time_first: " ++ tf; str ";; Latest time_last: " ++ tl].
Proof.
  intros lib e date tf tl T (F1 & Z1) (F2 & Z2). unfold prints_lines, dnstable_entry_to_text_fmt. rewrite T.
  cbn [N.eqb Pos.eqb ENTRY_TYPE_RRSET ENTRY_TYPE_RRSET_NAME_FWD ENTRY_TYPE_RDATA ENTRY_TYPE_RDATA_NAME_REV ENTRY_TYPE_TIME_RANGE]. cbv zeta.
  rewrite F1. cbn [bind]. rewrite F2. cbn [bind].
  rewrite cstr_no_nul; [unfold lines; cbn [flat_map]; rewrite app_nil_r, <- !app_assoc; reflexivity|].
  repeat apply nz_app; first [assumption|apply nz_str; reflexivity].
Qed.
Lemma time_range_lines : forall lib e date, e_type e = ENTRY_TYPE_TIME_RANGE ->
  text_shown date (e_time_first e) -> text_shown date (e_time_last e) ->
  exists tf tl, text_time date (e_time_first e) tf /\ text_time date (e_time_last e) tl /\
    prints_lines (dnstable_entry_to_text_fmt lib e date) [str ";; Earliest time_first: " ++ tf; str ";; Latest time_last: " ++ tl].
Proof.
  intros lib e date T T1 T2.
  destruct (text_time_ok date _ T1) as (tf & F1 & P1 & Z1). destruct (text_time_ok date _ T2) as (tl & F2 & P2 & Z2).
  exists tf, tl. split; [exact P1|]. split; [exact P2|]. apply time_range_lines_any; [exact T|split; assumption|split; assumption].
Qed.

Lemma source_info_lines : forall lib e date, e_type e = ENTRY_TYPE_SOURCE_INFO ->
  prints_lines (dnstable_entry_to_text_fmt lib e date) [str ";; source info: " ++ cstr (name_bytes (e_source_info e))].
Proof.
  intros lib e date T. unfold prints_lines, dnstable_entry_to_text_fmt. rewrite T.
  cbn [N.eqb Pos.eqb ENTRY_TYPE_RRSET ENTRY_TYPE_RRSET_NAME_FWD ENTRY_TYPE_RDATA ENTRY_TYPE_RDATA_NAME_REV ENTRY_TYPE_TIME_RANGE ENTRY_TYPE_SOURCE_INFO]. cbv zeta.
  assert (E : add_cstr ([] ++ str ";; source info: ") (name_bytes (e_source_info e)) = str ";; source info: " ++ cstr (name_bytes (e_source_info e))) by reflexivity.
  rewrite E. assert (Z : nz (cstr (name_bytes (e_source_info e)))).
  { generalize (name_bytes (e_source_info e)). induction b as [|c b IH]; [intros []|]. cbn [cstr]. destruct (c =? 0) eqn:C; [intros []|].
    intros [H|H]; [lia|exact (IH H)]. }
  rewrite cstr_no_nul; [unfold lines; cbn [flat_map]; rewrite app_nil_r; reflexivity|].
  apply nz_app; [apply nz_app; [apply nz_str; reflexivity|exact Z]|apply nz_str; reflexivity].
Qed.

Lemma version_lines : forall lib e date, e_type e = ENTRY_TYPE_VERSION ->
  exists s d, version_text (e_v_type e) s /\ decimal (e_version e) d /\
    prints_lines (dnstable_entry_to_text_fmt lib e date) [str ";; Version type " ++ s ++ str ": " ++ d].
Proof.
  intros lib e date T. exists (match entry_type_to_string (e_v_type e) with Some s => s | None => printf_u (e_v_type e) end), (printf_u (e_version e)).
  split; [unfold version_text; destruct (entry_type_to_string (e_v_type e)); [reflexivity|apply printf_u_decimal]|].
  split; [apply printf_u_decimal|]. unfold prints_lines, dnstable_entry_to_text_fmt. rewrite T.
  cbn [N.eqb Pos.eqb ENTRY_TYPE_RRSET ENTRY_TYPE_RRSET_NAME_FWD ENTRY_TYPE_RDATA ENTRY_TYPE_RDATA_NAME_REV ENTRY_TYPE_TIME_RANGE ENTRY_TYPE_SOURCE_INFO ENTRY_TYPE_VERSION]. cbv zeta.
  rewrite cstr_no_nul; [unfold lines; cbn [flat_map app]; rewrite app_nil_r, <- !app_assoc; reflexivity|].
  assert (Z2 : nz (printf_u (e_version e))) by (apply digits_nz; apply printf_u_decimal).
  assert (Z1 : nz (match entry_type_to_string (e_v_type e) with Some s => s | None => printf_u (e_v_type e) end)).
  { destruct (entry_type_to_string (e_v_type e)) as [s|] eqn:E; [|apply digits_nz; apply printf_u_decimal].
    unfold entry_type_to_string in E.
    repeat match type of E with context [if ?b then _ else _] => destruct b end; try discriminate; injection E as <-; apply nz_str; reflexivity. }
  rewrite app_nil_l. apply nz_app; [apply nz_str; reflexivity|]. apply nz_app; [exact Z1|]. apply nz_app; [apply nz_str; reflexivity|].
  apply nz_app; [exact Z2|apply nz_str; reflexivity].
Qed.

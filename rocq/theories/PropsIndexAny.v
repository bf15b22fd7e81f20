(** C75: what the type test of an index value makes of arbitrary bytes. *)
From Coq Require Import Sorting.Sorted.
From Verif Require Import Base BaseFacts ModelUnion ModelMerge SpecMerge SpecUnion SpecDecode SpecMergeAny SpecIndexAny.
From Verif Require Import UnionProofs UnionBuild UnionMerge PropsUnion PropsMergeAny.

Definition answer (o : verdict) : res bool :=
  match o with Yes => Ok true | No => Ok false | OutsideMap => UB end.
Lemma answer_inj : forall a b, answer a = answer b -> a = b.
Proof. intros [| |] [| |] E; (reflexivity || discriminate). Qed.

Lemma bit_answer : forall b t, answer (bit_says b t) = Ok (negb (N.land b (N.shiftr 128 (t mod 256 mod 8)) =? 0)).
Proof.
  intros b t. unfold bit_says. assert (E : t mod 256 mod 8 = t mod 8) by lia. rewrite E. clear E.
  rewrite shiftr_128 by lia. generalize (7 - t mod 8). intro k.
  destruct (N.testbit b k) eqn:ET; cbn [answer]; f_equal; symmetry.
  - apply Bool.negb_true_iff, N.eqb_neq. intro H. apply (f_equal (fun x => N.testbit x k)) in H.
    rewrite N.land_spec, ET, N.pow2_bits_true, N.bits_0 in H. discriminate.
  - apply Bool.negb_false_iff, N.eqb_eq. apply N.bits_inj. intro n. rewrite N.land_spec, N.bits_0.
    destruct (N.eq_dec n k) as [->|Hn]; [rewrite ET; reflexivity|]. rewrite N.pow2_bits_false by congruence. apply Bool.andb_false_r.
Qed.

Definition check (t : N) (fuel : nat) (m : bytes) := union_check_blocks fuel (t / 256) (t mod 256 / 8) (t mod 256 mod 8) m.

Lemma check_block : forall t fuel w bm rest, check t (S fuel) (w :: blen bm :: bm ++ rest) =
  if w =? t / 256 then
    (if blen bm <? t mod 256 / 8 then Ok false
     else let* a := rd (bm ++ rest) (octet_of t) in Ok (negb (N.land a (N.shiftr 128 (t mod 256 mod 8)) =? 0)))
  else check t fuel rest.
Proof.
  intros t fuel w bm rest. unfold check. cbn [union_check_blocks].
  destruct (N.ltb_spec (blen (bm ++ rest)) (blen bm)) as [Hc|_]; [rewrite blen_app in Hc; lia|].
  destruct (w =? t / 256); cbn [negb]; [reflexivity|]. rewrite skipn_blen_app. reflexivity.
Qed.

Lemma check_others : forall t ws fuel rest, others t ws -> (length (encode_windows ws ++ rest) < fuel)%nat ->
  exists fuel', (length rest < fuel')%nat /\ check t fuel (encode_windows ws ++ rest) = check t fuel' rest.
Proof.
  intros t ws. induction ws as [|[w bm] ws IH]; intros fuel rest HO HF; [exists fuel; auto|].
  inversion HO as [|? ? Hw HO']; subst. cbn [fst] in Hw. rewrite encode_windows_cons in *. cbn [app] in *. rewrite <- app_assoc in *.
  destruct fuel as [|fuel]; [lia|]. rewrite check_block. destruct (N.eqb_spec w (t / 256)); [congruence|].
  apply IH; [exact HO'|]. cbn [length] in HF. rewrite app_length in HF. lia.
Qed.

Lemma rd_here : forall (a : bytes) r i, (i < length a)%nat -> rd (a ++ r) i = Ok (nth i a 0).
Proof. intros a r i H. unfold rd. rewrite nth_error_app1 by exact H. rewrite (nth_error_nth' a 0 H). reflexivity. Qed.
Lemma rd_after : forall (a : bytes) b r, rd (a ++ b :: r) (length a) = Ok b.
Proof. intros a b r. unfold rd. rewrite nth_error_app2 by lia. rewrite Nat.sub_diag. reflexivity. Qed.
Lemma rd_end : forall (a : bytes), rd a (length a) = UB.
Proof. intro a. unfold rd. destruct (nth_error a (length a)) eqn:E; [|reflexivity]. assert (nth_error a (length a) <> None) by congruence. apply nth_error_Some in H. lia. Qed.

Lemma scanned_sound : forall t m o fuel, scanned t m o -> (length m < fuel)%nat -> check t fuel m = answer o.
Proof.
  intros t m o fuel H HF. destruct H as [ws HO|ws junk HO HC|ws bm rest HO HL|ws bm b rest HO HL|ws bm HO HL|ws bm rest HO HL].
  - rewrite <- (app_nil_r (encode_windows ws)) in *. destruct (check_others t ws fuel [] HO HF) as (f & Hf & ->).
    destruct f as [|f]; [lia|]. reflexivity.
  - destruct (check_others t ws fuel junk HO HF) as (f & Hf & ->). destruct f as [|f]; [lia|].
    destruct HC as [(w & ->)|(w & n & rest & -> & HN)]; [reflexivity|]. unfold check. cbn [union_check_blocks].
    apply N.ltb_lt in HN. rewrite HN. reflexivity.
  - destruct (check_others t ws fuel _ HO HF) as (f & Hf & ->). destruct f as [|f]; [lia|].
    cbn [encode_windows flat_map fst snd app]. rewrite app_nil_r. rewrite check_block, N.eqb_refl.
    unfold octet_of in HL. destruct (N.ltb_spec (blen bm) (t mod 256 / 8)) as [Hc|_]; [unfold blen in Hc; lia|].
    rewrite rd_here by exact HL. cbn [bind]. symmetry. apply bit_answer.
  - destruct (check_others t ws fuel _ HO HF) as (f & Hf & ->). destruct f as [|f]; [lia|].
    cbn [encode_windows flat_map fst snd app]. rewrite app_nil_r. rewrite check_block, N.eqb_refl.
    assert (HL' := HL). unfold octet_of in HL'. destruct (N.ltb_spec (blen bm) (t mod 256 / 8)) as [Hc|_]; [unfold blen in Hc; lia|].
    rewrite HL, rd_after. cbn [bind]. symmetry. apply bit_answer.
  - destruct (check_others t ws fuel _ HO HF) as (f & Hf & ->). destruct f as [|f]; [lia|].
    cbn [encode_windows flat_map fst snd app]. rewrite check_block, N.eqb_refl.
    assert (HL' := HL). unfold octet_of in HL'. destruct (N.ltb_spec (blen bm) (t mod 256 / 8)) as [Hc|_]; [unfold blen in Hc; lia|].
    rewrite app_nil_r, HL, rd_end. reflexivity.
  - destruct (check_others t ws fuel _ HO HF) as (f & Hf & ->). destruct f as [|f]; [lia|].
    cbn [encode_windows flat_map fst snd app]. rewrite app_nil_r. rewrite check_block, N.eqb_refl.
    unfold octet_of in HL. destruct (N.ltb_spec (blen bm) (t mod 256 / 8)) as [_|Hc]; [reflexivity|unfold blen in Hc; lia].
Qed.

Lemma scanned_other : forall t w bm m o, w <> t / 256 -> scanned t m o -> scanned t (encode_windows [(w, bm)] ++ m) o.
Proof.
  intros t w bm m o Hw H.
  assert (HE : forall ws, encode_windows [(w, bm)] ++ encode_windows ws = encode_windows ((w, bm) :: ws))
    by (intro ws; rewrite encode_windows_cons; cbn [encode_windows flat_map fst snd app]; rewrite app_nil_r; reflexivity).
  assert (HO : forall ws, others t ws -> others t ((w, bm) :: ws)) by (intros ws H'; constructor; assumption).
  destruct H; try rewrite app_assoc; rewrite HE; constructor; auto.
Qed.

Lemma scanned_total : forall t n m, (length m < n)%nat -> exists o, scanned t m o.
Proof.
  intros t n. induction n as [|n IH]; intros m HL; [lia|]. destruct m as [|w [|k rest]].
  - exists No. apply (s_absent t []). constructor.
  - exists Yes. apply (s_cut t [] [w]); [constructor|]. left. eauto.
  - destruct (N.lt_ge_cases (blen rest) k) as [HC|HC].
    + exists Yes. apply (s_cut t [] (w :: k :: rest)); [constructor|]. right. eauto 6.
    + set (bm := firstn (N.to_nat k) rest). set (tl := skipn (N.to_nat k) rest).
      assert (EB : blen bm = k) by (unfold blen, bm in *; rewrite firstn_length; lia).
      assert (EM : w :: k :: rest = encode_windows [(w, bm)] ++ tl).
      { cbn [encode_windows flat_map fst snd app]. rewrite app_nil_r, EB. unfold bm, tl. rewrite firstn_skipn. reflexivity. }
      rewrite EM. destruct (N.eq_dec w (t / 256)) as [->|Hw].
      * destruct (Nat.lt_trichotomy (octet_of t) (length bm)) as [HO|[HO|HO]].
        -- eexists. apply (s_bit t [] bm tl); [constructor|exact HO].
        -- destruct tl as [|b tl].
           ++ eexists. rewrite app_nil_r. apply (s_past t [] bm); [constructor|exact HO].
           ++ eexists. apply (s_next t [] bm b tl); [constructor|exact HO].
        -- eexists. apply (s_short t [] bm tl); [constructor|exact HO].
      * destruct (IH tl) as [o Ho]; [unfold tl; rewrite skipn_length; cbn [length] in HL; lia|].
        exists o. apply scanned_other; assumption.
Qed.

Lemma check_is : forall t m, (3 <= length m)%nat -> rrtype_union_check t m = check t (S (length m)) m.
Proof. intros t m H. destruct m as [|a [|b [|c m]]]; cbn [length] in H; try lia. reflexivity. Qed.

(** C75: for every non-empty value of bytes and every type, the test has exactly
    one of the results of [tested], the one described there. *)
Theorem index_test_any : forall e_type t m, m <> [] ->
  (exists o, rrtype_test e_type t m = answer o) /\
  (forall o, rrtype_test e_type t m = answer o <-> tested t m o).
Proof.
  intros e_type t m HN.
  assert (ET : rrtype_test e_type t m = rrtype_union_check t m) by (destruct m; [congruence|reflexivity]). rewrite ET. clear ET.
  assert (HS : forall o, tested t m o -> rrtype_union_check t m = answer o).
  { intros o H. destruct H as [b|lo hi|m o HL H].
    - cbn. destruct (t =? b); reflexivity.
    - unfold rrtype_union_check, le16. destruct (t =? lo + 256 * hi); reflexivity.
    - rewrite check_is by exact HL. apply scanned_sound; [exact H|lia]. }
  assert (HT : exists o, tested t m o).
  { destruct m as [|a [|b [|c m]]]; [congruence|eexists; apply t_one|eexists; apply t_two|].
    destruct (scanned_total t (S (length (a :: b :: c :: m))) (a :: b :: c :: m)) as [o Ho]; [lia|].
    exists o. apply t_map; [cbn; lia|exact Ho]. }
  destruct HT as [o Ho]. split; [exists o; apply HS; exact Ho|]. intro o'. split; [|apply HS].
  intro E. rewrite (HS o Ho) in E. apply answer_inj in E. subst. exact Ho.
Qed.
Print Assumptions index_test_any.

(** The one way to read behind the value: the last block is the one of the type,
    and its bitmap ends just before the octet of the type. *)
Theorem index_test_outside_iff : forall e_type t m,
  rrtype_test e_type t m = UB <->
  (exists ws bm, m = encode_windows (ws ++ [(t / 256, bm)]) /\ others t ws /\ octet_of t = length bm) /\ (3 <= length m)%nat.
Proof.
  intros e_type t m. destruct m as [|a m].
  { split; [|intros [_ H]; cbn in H; lia]. intro E. exfalso. unfold rrtype_test, rrtype_union_check in E.
    destruct (e_type =? _); [discriminate|]. destruct (e_type =? _); discriminate. }
  destruct (index_test_any e_type t (a :: m) ltac:(discriminate)) as [_ H]. specialize (H OutsideMap). cbn [answer] in H. rewrite H.
  assert (EW : forall ws bm, encode_windows (ws ++ [(t / 256, bm)]) = encode_windows ws ++ encode_windows [(t / 256, bm)])
    by (intros; unfold encode_windows; apply flat_map_app).
  split.
  - intro HT. inversion HT as [b E E2|lo hi E E2|m' o HL HS]; subst.
    + exfalso. match goal with H : (if ?c then Yes else No) = _ |- _ => destruct c; discriminate H end.
    + exfalso. match goal with H : (if ?c then Yes else No) = _ |- _ => destruct c; discriminate H end.
    + split; [|exact HL]. inversion HS as [| |ws bm rest HO HB E1 E2|ws bm b rest HO HB E1 E2|ws bm HO HB E1|]; subst.
      * exfalso. unfold bit_says in E2. destruct (N.testbit _ _); discriminate.
      * exfalso. unfold bit_says in E2. destruct (N.testbit _ _); discriminate.
      * exists ws, bm. rewrite EW. auto.
  - intros [(ws & bm & E & HO & HB) HL]. apply t_map; [exact HL|]. rewrite E, EW. apply s_past; assumption.
Qed.
Print Assumptions index_test_outside_iff.

(** A type of either value still passes the test after a merge that gives a
    value. *)
Theorem merged_index_keeps_types : forall k rest v0 v1 P0 P1 v t, name_type k ->
  bytes_ok v0 -> bytes_ok v1 -> octets_ok v0 -> octets_ok v1 ->
  read_as v0 P0 -> read_as v1 P1 -> P0 t \/ P1 t -> t < 65536 -> v0 <> v1 ->
  merge_func (k :: rest) v0 v1 = Ok v -> rrtype_test k t v = Ok true.
Proof.
  intros k rest v0 v1 P0 P1 v t HT B0 B1 O0 O1 R0 R1 HP Ht HD E.
  destruct (union_windows v0 v1 P0 P1 B0 B1 O0 O1 R0 R1) as (ws & HW & HM).
  rewrite (merge_names k rest v0 v1 HT), (union_result v0 v1 P0 P1 ws B0 B1 O0 O1 HD R0 R1 HW HM) in E.
  destruct (_ <? 1024); [|discriminate]. inversion E; subst v. apply HM in HP.
  assert (HN : ws <> []) by (intros ->; destruct HP as (bm & [] & _)).
  apply index_test_no_false_negative; [apply uv_map; assumption|exact Ht|]. apply union_mem_windows; assumption.
Qed.
Print Assumptions merged_index_keeps_types.

(** Case: {1, 15} in window 0 and type 256 in window 1, then a cut block. *)
Definition demo_map : bytes := [0; 2; 64; 1; 1; 1; 128; 7; 9; 5].

Example c75_case :
  tested 15 demo_map Yes /\ tested 2 demo_map No /\ tested 23 demo_map Yes /\ tested 300 demo_map No /\ tested 1792 demo_map Yes /\
  tested 16 [0; 2; 64; 1] OutsideMap /\
  rrtype_test 1 15 demo_map = Ok true /\ rrtype_test 1 2 demo_map = Ok false /\ rrtype_test 1 16 [0; 2; 64; 1] = UB.
Proof.
  assert (HT : forall t m o, m <> [] -> rrtype_test 1 t m = answer o -> tested t m o)
    by (intros t m o HN E; apply (index_test_any 1 t m HN); exact E).
  split; [apply HT; [discriminate|reflexivity]|]. split; [apply HT; [discriminate|reflexivity]|]. split; [apply HT; [discriminate|reflexivity]|].
  split; [apply HT; [discriminate|reflexivity]|]. split; [apply HT; [discriminate|reflexivity]|]. split; [apply HT; [discriminate|reflexivity]|].
  split; [|split]; reflexivity.
Qed.

(** Case for [merged_index_keeps_types]: a value with an empty bitmap octet. *)
Example c75_merge_case : name_type 1 /\ octets_ok [0; 2; 64; 0] /\ read_as [0; 2; 64; 0] (windows_mem [(0, [64; 0])]) /\
  windows_mem [(0, [64; 0])] 1 /\ read_as [15] (fun t => t = 15) /\
  merge_func [1; 1; 97; 0] [0; 2; 64; 0] [15] = Ok [0; 2; 64; 1] /\ rrtype_test 1 1 [0; 2; 64; 1] = Ok true.
Proof.
  split; [left; reflexivity|]. split.
  { intros ws E. assert (EW : [0; 2; 64; 0] = encode_windows [(0, [64; 0])]) by reflexivity. rewrite EW in E. apply encode_windows_inj in E. subst ws.
    constructor; [cbn; lia|constructor]. }
  split.
  { apply (read_map [(0, [64; 0])]); [discriminate|split; repeat constructor; discriminate|]. exists 0. split; [reflexivity|].
    intros (bm & [E|[]] & Hb). inversion E; subst. vm_compute in Hb. discriminate. }
  split; [exists [64; 0]; split; [left; reflexivity|reflexivity]|]. split; [constructor|]. split; reflexivity.
Qed.

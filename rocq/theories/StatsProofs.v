(** Proofs about the statistics of dnstable_lookup. *)
From Verif Require Import Str BaseFacts ModelIter ModelQuery ModelReader ModelSetters ModelFormat ModelLookup SpecDeadline SpecFormat SpecStats TextProofs LineProofs.
From Verif Require Import SpecLookup.

Lemma fold_total : forall A (f : A -> list N) (g : N -> A -> N) l t, (forall t s, g t s = (t + SpecFormat.sum (f s)) mod u64 \/ (f s = [] /\ g t s = t)) -> t < u64 ->
  fold_left g l t = (t + SpecFormat.sum (flat_map f l)) mod u64.
Proof.
  intros A f g l. assert (SA : forall a b, SpecFormat.sum (a ++ b) = SpecFormat.sum a + SpecFormat.sum b).
  { intros a b. unfold SpecFormat.sum. induction a as [|x a IH]; cbn [app fold_right]; lia. }
  induction l as [|s l IH]; intros t HG HT; cbn [fold_left flat_map].
  - cbn. rewrite N.add_0_r, N.mod_small by exact HT. reflexivity.
  - rewrite SA. destruct (HG t s) as [E|(E1 & E)]; rewrite E.
    + rewrite IH by (auto; apply N.mod_lt; discriminate). rewrite N.add_mod_idemp_l by discriminate. f_equal. lia.
    + rewrite IH by auto. rewrite E1. reflexivity.
Qed.

Lemma longest_width : forall l, longest l = fold_right Nat.max O (map (@length N) l).
Proof.
  intro l. unfold longest. assert (G : forall l m, fold_left (fun m s => Nat.max m (length s)) l m = Nat.max m (fold_right Nat.max O (map (@length N) l))).
  { clear. induction l as [|x l IH]; intro m; cbn [fold_left fold_right map]; [lia|]. rewrite IH. lia. }
  rewrite G. reflexivity.
Qed.

Lemma row_ok : forall w r, row_text w r (stat_line w (fst r) (snd r)).
Proof.
  intros w r. exists (printf_u (snd r)). split; [apply printf_u_decimal|]. unfold stat_line, pad_right, two_columns. rewrite <- !app_assoc. reflexivity.
Qed.
Lemma rows_ok : forall w l, exists rows, Forall2 (row_text w) l rows /\ flat_map (fun r => stat_line w (fst r) (snd r)) l = concat rows.
Proof.
  intros w l. exists (map (fun r => stat_line w (fst r) (snd r)) l). split; [|apply flat_map_concat_map].
  induction l as [|r l IH]; cbn [map]; constructor; [apply row_ok|exact IH].
Qed.

Lemma categories_ok : categories = map (fun c => (fst c, str (snd c))) category_names.
Proof. reflexivity. Qed.
Lemma stages_ok : stages = map (fun c => (fst c, str (snd c))) stage_names.
Proof. reflexivity. Qed.

Lemma flat_map_map : forall A B C (f : A -> B) (g : B -> list C) l, flat_map g (map f l) = flat_map (fun x => g (f x)) l.
Proof. intros. induction l as [|x l IH]; cbn; [reflexivity|rewrite IH; reflexivity]. Qed.
Lemma fold_left_map : forall A B C (f : A -> B) (g : C -> B -> C) l t, fold_left g (map f l) t = fold_left (fun t x => g t (f x)) l t.
Proof. intros A B C f g l. induction l as [|x l IH]; intro t; cbn; [reflexivity|apply IH]. Qed.

Definition rows_of (lv : N) (qi : qiter) (w : world) := if 1 <? lv then stats_by_stage qi w else stats_by_category qi w.
Lemma rows_of_ok : forall lv qi w, 0 < lv -> exists rows, Forall2 (row_text (width (statistics lv (qi, w)))) (statistics lv (qi, w)) rows /\
  rows_of lv qi w = (width (statistics lv (qi, w)), [10] ++ concat rows ++ [10]).
Proof.
  intros lv qi w HL. destruct (rows_ok (width (statistics lv (qi, w))) (statistics lv (qi, w))) as (rows & F & E). exists rows. split; [exact F|].
  unfold rows_of. rewrite <- E. clear F E rows. destruct (N.ltb_spec 1 lv) as [L|L].
  - assert (ES : statistics lv (qi, w) = flat_map (fun s => flat_map (fun c => let '(_, exists_, n) := iter_get_count qi w (fst s) (fst c) in
               if exists_ : bool then [(snd s ++ [32] ++ snd c, n)] else []) categories) stages).
    { unfold statistics. destruct (N.eqb_spec lv 1) as [|_]; [lia|]. rewrite stages_ok, flat_map_map. apply flat_map_ext. intros [st sn].
      rewrite categories_ok, flat_map_map. apply flat_map_ext. intros [c cn]. unfold reported. cbn [fst snd].
      destruct (iter_get_count qi w st c) as [[ok []] n]; reflexivity. }
    unfold stats_by_stage. rewrite <- ES. rewrite longest_width. unfold width. rewrite map_map. reflexivity.
  - assert (lv = 1) as -> by lia. unfold stats_by_category. rewrite longest_width.
    assert (ES : statistics 1 (qi, w) = map (fun c => (snd c, fold_left (fun t s => let '(_, exists_, n) := iter_get_count qi w (fst s) (fst c) in if exists_ : bool then (t + n) mod u64 else t) stages 0)) categories).
    { unfold statistics. change (1 =? 1) with true. cbn iota. rewrite categories_ok, map_map. apply map_ext. intros [c cn]. cbn [fst snd]. f_equal.
      rewrite stages_ok, fold_left_map. rewrite (fold_total _ (fun s => reported (qi, w) (fst s) c)); [rewrite N.add_0_l; reflexivity| |reflexivity].
      intros t [st sn]. cbn [fst snd]. unfold reported. cbn [fst snd]. destruct (iter_get_count qi w st c) as [[ok []] n]; [left|right; auto].
      cbn [SpecFormat.sum fold_right]. rewrite N.add_0_r. reflexivity. }
    rewrite ES. unfold width. rewrite !map_map. cbn [fst]. rewrite flat_map_map. cbn [fst snd]. reflexivity.
Qed.

Lemma padded_zeros : forall k n t, Forall digit t -> decimal_value t = n -> (length t <= k)%nat -> padded k n (repeat 48 (k - length t) ++ t).
Proof.
  intros k n t F V L. split; [|split].
  - apply Forall_app. split; [|exact F]. apply Forall_forall. intros x Hx. apply repeat_spec in Hx. subst. unfold digit. lia.
  - rewrite app_length, repeat_length. lia.
  - rewrite <- V. generalize (k - length t)%nat. intro m. unfold decimal_value. induction m as [|m IH]; [reflexivity|]. cbn [repeat app fold_left]. exact IH.
Qed.
Lemma decimal_length : forall s n, SpecFormat.decimal n s -> n < 1000000000 -> (length s <= 9)%nat.
Proof.
  intros s n (F & NE & Z & V) H. destruct (Nat.leb_spec (length s) 9) as [L|L]; [exact L|exfalso].
  destruct s as [|c s]; [cbn in L; lia|]. inversion F as [|? ? D F']; subst.
  assert (C : c <> 48). { intros ->. specialize (Z s eq_refl). subst s. cbn in L. lia. }
  assert (G : forall s v, v * 10 ^ N.of_nat (length s) <= fold_left (fun v c => 10 * v + (c - 48)) s v).
  { clear. induction s as [|x s IH]; intro v; [cbn; lia|]. cbn [length fold_left]. etransitivity; [|apply IH].
    rewrite Nat2N.inj_succ, N.pow_succ_r'. rewrite N.mul_assoc. apply N.mul_le_mono_r. lia. }
  unfold decimal_value in H. cbn [fold_left] in H. specialize (G s (10 * 0 + (c - 48))). unfold digit in D.
  assert (10 ^ 9 <= 10 ^ N.of_nat (length s)) by (apply N.pow_le_mono_r; [lia|cbn in L; lia]). change (10 ^ 9) with 1000000000 in *. nia.
Qed.
Lemma printf_09_ok : forall z, (0 <= z < 1000000000)%Z -> padded 9 (Z.to_N z) (printf_09 z).
Proof.
  intros z H. unfold printf_09. pose proof (printf_u_decimal (Z.to_N z)) as D. pose proof (decimal_length _ _ D ltac:(lia)) as L. destruct D as (F & _ & _ & V).
  apply padded_zeros; assumption.
Qed.

Lemma ts_sub_ok : forall a b, normal a -> normal b -> (nanos (ts_sub a b) = nanos b - nanos a)%Z /\ normal (ts_sub a b).
Proof.
  intros a b HA HB. unfold normal, nanos, ts_sub in *. destruct (tv_nsec b - tv_nsec a <? 0)%Z eqn:E; cbn [tv_sec tv_nsec]; lia.
Qed.

Lemma dump_stats_ok : forall lv qi w a k clk, 0 < lv -> normal a -> normal (clk O) -> (nanos a <= nanos (clk O))%Z ->
  exists t, report lv (qi, w) k a (clk O) t /\ dump_stats lv qi w a k clk = (t, later 1 clk).
Proof.
  intros lv qi w a k clk HL HA HB LE. unfold dump_stats. destruct (N.ltb_spec 0 lv) as [_|]; [|lia]. fold (rows_of lv qi w).
  destruct (rows_of_ok lv qi w HL) as (rows & F & ->). eexists. split; [|reflexivity].
  destruct (ts_sub_ok a (clk O) HA HB) as (EN & NN). set (el := ts_sub a (clk O)) in *.
  assert (PS : (0 <= tv_sec el)%Z) by (unfold nanos, normal in *; lia).
  exists rows, (printf_u k), (Z.to_N (tv_sec el)), (printf_d (tv_sec el)), (Z.to_N (tv_nsec el)), (printf_09 (tv_nsec el)).
  split; [exact F|]. split; [apply printf_u_decimal|]. split. { pose proof (printf_d_ok (Z.to_N (tv_sec el))) as P. rewrite Z2N.id in P by lia. exact P. }
  split; [apply printf_09_ok; exact NN|]. split; [unfold nanos, normal in *; lia|].
  unfold stat_line, pad_right, two_columns. rewrite <- !app_assoc. reflexivity.
Qed.
Lemma dump_stats_none : forall qi w a k clk, dump_stats 0 qi w a k clk = ([], clk).
Proof. reflexivity. Qed.

(** ** The loops *)

Lemma called_trans : forall fuel x k y, called fuel x k y -> forall k2 z, called fuel y k2 z -> called fuel x (k + k2) z.
Proof.
  intros fuel x k y H. induction H; intros k2 z H2; cbn [Nat.add].
  - exact H2.
  - eapply ca_entry; eauto.
  - eapply ca_end; eauto.
  - eapply ca_timeout; eauto.
  - eapply ca_deadline; eauto.
Qed.

Lemma dump_entries_called : forall n fuel lib o qi w count out timed count' out' qi' w',
  dump_entries n fuel lib o qi w count out = Ok (timed, count', out', qi', w') -> count < u64 ->
  exists k, called fuel (qi, w) k (qi', w') /\ count' = (count + N.of_nat k) mod u64.
Proof.
  induction n as [|n IH]; intros fuel lib o qi w count out timed count' out' qi' w' H HC; [discriminate|]. cbn [dump_entries] in H.
  destruct (qnext fuel qi w) as [[r qi1] w1] eqn:E. destruct r as [e| | | | |]; try discriminate.
  - destruct (print_entry lib o e) as [s| | | |]; try discriminate. cbn [bind] in H. destruct (IH _ _ _ _ _ _ _ _ _ _ _ _ H) as (k & C & ->); [apply N.mod_lt; discriminate|].
    exists (S k). split; [eapply ca_entry; [exact E|exact C]|]. rewrite N.add_mod_idemp_l by discriminate. f_equal. lia.
  - injection H as <- <- <- <- <-. exists O. split; [eapply ca_end; [exact E|apply ca_none]|]. rewrite N.add_0_r, N.mod_small by exact HC. reflexivity.
  - injection H as <- <- <- <- <-. exists O. split; [eapply ca_timeout; [exact E|apply ca_none]|]. rewrite N.add_0_r, N.mod_small by exact HC. reflexivity.
Qed.

Lemma reports_le : forall fuel lv a clk i x c ts n, reports fuel lv a clk i x c ts n -> forall i', (i' <= i)%nat -> reports fuel lv a clk i' x c ts n.
Proof.
  intros fuel lv a clk i x c ts n H i' L. destruct H as [i x c k y j t CA LE RT|i x c k y j t d ts n CA LE RT R].
  - apply (rp_last fuel lv a clk i' x c k y j); [exact CA|lia|exact RT].
  - apply (rp_more fuel lv a clk i' x c k y j t d); [exact CA|lia|exact RT|exact R].
Qed.

Lemma rounds_report : forall lv fuel lib o gd gi a clk0, (forall i, normal (clk0 i)) -> normal a -> 0 < lv ->
  forall rounds qi w clk i c out err out' err', (forall j, clk j = clk0 (i + j)%nat) -> (forall j, (i <= j)%nat -> nanos a <= nanos (clk0 j))%Z ->
  dump_rounds rounds fuel lib o lv gd gi a qi w clk (N.of_nat c mod u64) out err = Ok (out', err') ->
  exists ts n timed, reports fuel lv a clk0 i (qi, w) c ts n /\ err' = err ++ concat ts ++ summary lib o timed (N.of_nat n mod u64) /\
    (tv_sec gi = 0%Z -> length ts = 1%nat).
Proof.
  intros lv fuel lib o gd gi a clk0 HN HA HL. induction rounds as [|rounds IH]; intros qi w clk i c out err out' err' EC HM H; [discriminate|]. cbn [dump_rounds] in H.
  destruct (dump_entries fuel fuel lib o qi w (N.of_nat c mod u64) out) as [[[[[timed count'] out1] qi1] w1]| | | |] eqn:ED; try discriminate. cbn [bind] in H.
  destruct (dump_entries_called _ _ _ _ _ _ _ _ _ _ _ _ _ ED) as (k & CA & EK); [apply N.mod_lt; discriminate|].
  rewrite N.add_mod_idemp_l in EK by discriminate. replace (N.of_nat c + N.of_nat k) with (N.of_nat (c + k)) in EK by lia. subst count'.
  assert (E0 : clk O = clk0 i) by (rewrite EC; f_equal; lia).
  destruct (dump_stats_ok lv qi1 w1 a (N.of_nat (c + k) mod u64) clk HL HA) as (t & RT & ES); [rewrite E0; apply HN|rewrite E0; apply HM; lia|].
  rewrite ES in H. rewrite E0 in RT.
  assert (STOP : (out1, (err ++ t) ++ (if o_json o || o_Json o then [] else (if timed then str ";;; timed out" ++ [10] else []) ++
      str ";;; Dumped " ++ locale_uint64 lib (N.of_nat (c + k) mod u64) ++ str " entries." ++ [10])) = (out', err') ->
    exists ts n timed, reports fuel lv a clk0 i (qi, w) c ts n /\ err' = err ++ concat ts ++ summary lib o timed (N.of_nat n mod u64) /\ (tv_sec gi = 0%Z -> length ts = 1%nat)).
  { intro X. injection X as <- <-. exists [t], (c + k)%nat, timed. split; [eapply rp_last; [exact CA|apply Nat.le_refl|exact RT]|]. split; [|reflexivity].
    cbn [concat]. rewrite app_nil_r, <- app_assoc. reflexivity. }
  assert (OI : forall x y : bytes * bytes, Ok x = Ok y -> x = y) by congruence.
  destruct (negb timed); [apply OI in H; exact (STOP H)|]. destruct (Z.eqb_spec (tv_sec gi) 0) as [|NZ]; [apply OI in H; exact (STOP H)|].
  destruct (_ && _) in H; [apply OI in H; exact (STOP H)|]. clear STOP.
  match type of H with dump_rounds _ _ _ _ _ _ _ _ (set_timing (TDeadline ?d) _) _ ?clk' _ _ _ = _ => set (dl := d) in H; set (clk2 := clk') in H end.
  destruct (IH (set_timing (TDeadline dl) qi1) w1 clk2 (i + 2)%nat (c + k)%nat out1 (err ++ t) out' err') as (ts & n & timed' & R & E & _); [|intros j Hj; apply HM; lia|exact H|].
  { intro j. unfold clk2, later. rewrite EC. f_equal. lia. }
  exists (t :: ts), n, timed'. split; [|split; [|contradiction]].
  - eapply rp_more; [exact CA|apply Nat.le_refl|exact RT|]. cbn [fst snd]. eapply reports_le; [exact R|lia].
  - rewrite E. cbn [concat]. rewrite <- !app_assoc. reflexivity.
Qed.

Lemma rounds_silent : forall fuel lib o gd gi a rounds qi w clk c out err out' err',
  dump_rounds rounds fuel lib o 0 gd gi a qi w clk (N.of_nat c mod u64) out err = Ok (out', err') ->
  exists n timed, err' = err ++ summary lib o timed (N.of_nat n mod u64).
Proof.
  intros fuel lib o gd gi a. induction rounds as [|rounds IH]; intros qi w clk c out err out' err' H; [discriminate|]. cbn [dump_rounds] in H.
  destruct (dump_entries fuel fuel lib o qi w (N.of_nat c mod u64) out) as [[[[[timed count'] out1] qi1] w1]| | | |] eqn:ED; try discriminate. cbn [bind] in H.
  destruct (dump_entries_called _ _ _ _ _ _ _ _ _ _ _ _ _ ED) as (k & CA & EK); [apply N.mod_lt; discriminate|].
  rewrite N.add_mod_idemp_l in EK by discriminate. replace (N.of_nat c + N.of_nat k) with (N.of_nat (c + k)) in EK by lia. subst count'.
  rewrite dump_stats_none in H. rewrite app_nil_r in H.
  destruct (negb timed); [injection H as _ <-; eexists; exists timed; reflexivity|]. destruct (tv_sec gi =? 0)%Z; [injection H as _ <-; eexists; exists timed; reflexivity|].
  destruct (_ && _) in H; [injection H as _ <-; eexists; exists timed; reflexivity|]. apply IH in H. exact H.
Qed.

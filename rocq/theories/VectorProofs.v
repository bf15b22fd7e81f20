(** Growable arrays: the invariant, and what each call does to it. *)
From Verif Require Import Str ModelVector SpecVector.

Record inv (sz : N) (v : vec) (b : buffer) : Prop := {
  i_cells : exists rest, v_v v = map Some (elements b ++ written b) ++ rest;
  i_size : csize (v_v v) = v_alloced v;
  i_p : v_p v = Some (v_n v);
  i_n : v_n v = count (elements b);
  i_room : v_n v + room b <= v_alloced v;
  i_alloced : v_alloced v * sz <= ptrdiff_max;
  i_one : 1 <= v_alloced v;
  i_hint : 1 <= v_hint v /\ v_hint v * sz <= ptrdiff_max }.

Lemma u64_eq : u64 = 2 * (ptrdiff_max + 1). Proof. reflexivity. Qed.
Lemma count_app : forall a b, count (a ++ b) = count a + count b.
Proof. intros. unfold count. rewrite app_length. lia. Qed.
Lemma csize_app : forall a b, csize (a ++ b) = csize a + csize b.
Proof. intros. unfold csize. rewrite app_length. lia. Qed.
Lemma csize_map : forall l, csize (map Some l) = count l.
Proof. intros. unfold csize, count. rewrite map_length. reflexivity. Qed.
Lemma small : forall a sz, 0 < sz -> a * sz <= ptrdiff_max -> a <= ptrdiff_max.
Proof. intros. nia. Qed.
Lemma add64_small : forall a b, a + b < u64 -> add64 a b = a + b.
Proof. intros. unfold add64. apply N.mod_small. assumption. Qed.
Lemma sub64_small : forall a b, b <= a -> a < u64 -> sub64 a b = a - b.
Proof.
  intros a b H1 H2. unfold sub64. replace (a + u64 - b) with ((a - b) + 1 * u64) by lia.
  rewrite N.mod_add by (unfold u64; lia). apply N.mod_small. lia.
Qed.
Lemma mul64_small : forall a b, a * b < u64 -> mul64 a b = a * b.
Proof. intros. unfold mul64. apply N.mod_small. assumption. Qed.

Lemma pointer_ok : forall c i, i <= csize c -> pointer c i = Ok (Some i).
Proof. intros c i H. unfold pointer. apply N.leb_le in H. rewrite H. reflexivity. Qed.

(** The outcome [r] of a call on [v] that needs space for [d] elements. *)
Definition good (sz : N) (v : vec) (d : N) (r : res vec) (b' : buffer) : Prop :=
  match r with
  | Ok v' => inv sz v' b' /\ v_hint v' = v_hint v /\ (forall k, grants k (v_mem v) -> grants k (v_mem v'))
  | Fail => forall k, grants k (v_mem v) -> k <= ptrdiff_max -> v_hint v * sz <= k -> 2 * d * sz <= k -> False
  | _ => False
  end.

Lemma good_bind : forall sz v d d1 d2 r b1 f b2,
  good sz v d1 r b1 -> d1 <= d -> d2 <= d ->
  (forall v', inv sz v' b1 -> v_hint v' = v_hint v -> good sz v' d2 (f v') b2) ->
  good sz v d (let* x := r in f x) b2.
Proof.
  intros sz v d d1 d2 r b1 f b2 G L1 L2 H. destruct r as [v'| | | |]; cbn [bind good] in *; try contradiction.
  - destruct G as (I & E & M). specialize (H v' I E). destruct (f v') as [v''| | | |]; cbn [good] in *; try contradiction.
    + destruct H as (I2 & E2 & M2). split; [exact I2|]. split; [congruence|]. intros k K. apply M2. apply M. exact K.
    + intros k K P HK D. apply (H k); auto. * rewrite E. exact HK. * nia.
  - intros k K P HK D. apply (G k); auto. nia.
Qed.

Lemma alloc_cases : forall m b, my_alloc m b = Fail \/ (my_alloc m b = Ok (fun t => m (S t)) /\ b <= ptrdiff_max).
Proof.
  intros m b. unfold my_alloc. destruct (N.leb_spec b ptrdiff_max); cbn [andb]; [|left; reflexivity].
  destruct (m O b); [right; split; [reflexivity|assumption]|left; reflexivity].
Qed.
Lemma alloc_fail : forall m b k, my_alloc m b = Fail -> grants k m -> k <= ptrdiff_max -> b <= k -> False.
Proof.
  intros m b k H G K L. unfold my_alloc in H. rewrite (G O b L) in H. rewrite (proj2 (N.leb_le b ptrdiff_max)) in H by lia. discriminate.
Qed.
Lemma grants_later : forall k m, grants k m -> grants k (fun t => m (S t)).
Proof. intros k m H t b L. apply H. exact L. Qed.

Lemma grow_ok : forall sz v b, 0 < sz -> inv sz v b ->
  match grow sz v with
  | Ok v' => inv sz v' b /\ v_alloced v' = v_alloced v * 2 /\ v_n v' = v_n v /\ v_hint v' = v_hint v /\ (forall k, grants k (v_mem v) -> grants k (v_mem v'))
  | Fail => forall k, grants k (v_mem v) -> k <= ptrdiff_max -> v_alloced v * 2 * sz <= k -> False
  | _ => False
  end.
Proof.
  intros sz v b S I. destruct I as [[rest C] CS P N R A O H]. pose proof (small _ _ S A) as SA. pose proof u64_eq as U.
  unfold grow. rewrite (mul64_small (v_alloced v) 2) by lia.
  assert (W : v_alloced v * 2 * sz < u64) by nia. rewrite mul64_small by exact W.
  destruct (alloc_cases (v_mem v) (v_alloced v * 2 * sz)) as [E|[E L]]; rewrite E; cbn [bind].
  { intros k G K Q. exact (alloc_fail _ _ _ E G K Q). }
  assert (D : v_alloced v * 2 * sz / sz = v_alloced v * 2) by (apply N.div_mul; lia).
  assert (F : firstn (N.to_nat (v_alloced v * 2)) (v_v v) = v_v v) by (apply firstn_all2; unfold csize in CS; lia).
  unfold moved. rewrite D, F.
  set (c := v_v v ++ repeat None (N.to_nat (v_alloced v * 2) - length (v_v v))).
  assert (SC : csize c = v_alloced v * 2).
  { unfold c. rewrite csize_app, CS. unfold csize in *. rewrite repeat_length. lia. }
  rewrite pointer_ok by lia. cbn [bind v_v v_p v_n v_alloced v_hint v_mem].
  split; [|split; [reflexivity|split; [reflexivity|split; [reflexivity|]]]].
  - split; cbn [v_v v_p v_n v_alloced v_hint v_mem]; try assumption; try reflexivity; try lia.
    unfold c. rewrite C, <- app_assoc. eexists. reflexivity.
  - intros k G. apply grants_later. exact G.
Qed.

Lemma room_more : forall sz v l r w r', inv sz v (mkbuffer l r w) -> v_n v + r' <= v_alloced v -> inv sz v (mkbuffer l r' w).
Proof. intros sz v l r w r' [C CS P N R A O H] L. split; assumption. Qed.
Lemma room_forget : forall sz v l r w, inv sz v (mkbuffer l r w) -> inv sz v (holds l r).
Proof.
  intros sz v l r w [[rest C] CS P N R A O H]. split; try assumption. cbn [elements written holds] in *.
  exists (map Some w ++ rest). rewrite C, app_nil_r, map_app, <- app_assoc. reflexivity.
Qed.

Lemma reserve_loop_ok : forall sz k, 0 < sz -> forall rounds v l r w,
  inv sz v (mkbuffer l r w) -> ptrdiff_max + 1 <= v_alloced v * 2 ^ N.of_nat rounds ->
  good sz v (v_n v + k) (reserve_loop sz rounds k v) (mkbuffer l (N.max r k) w).
Proof.
  intros sz k S. induction rounds as [|n IH]; intros v l r w I L.
  - destruct I as [C CS P N R A O H]. pose proof (small _ _ S A). change (2 ^ N.of_nat 0) with 1 in L. lia.
  - cbn [reserve_loop]. pose proof I as [C CS P N R A O H]. pose proof (small _ _ S A) as SA. cbn [room] in R. pose proof u64_eq as U.
    rewrite sub64_small by lia. destruct (N.ltb_spec (v_alloced v - v_n v) k) as [T|T].
    + pose proof (grow_ok sz v _ S I) as G. destruct (grow sz v) as [v'| | | |]; cbn [bind]; try contradiction.
      * destruct G as (I' & A' & N' & H' & M'). specialize (IH v' l r w I'). rewrite <- N' in *.
        assert (L' : ptrdiff_max + 1 <= v_alloced v' * 2 ^ N.of_nat n).
        { rewrite A'. replace (N.of_nat (Datatypes.S n)) with (N.succ (N.of_nat n)) in L by lia. rewrite N.pow_succ_r' in L. lia. }
        specialize (IH L'). destruct (reserve_loop sz n k v') as [v''| | | |]; cbn [good] in *; try contradiction.
        { destruct IH as (I2 & H2 & M2). split; [exact I2|]. split; [congruence|]. intros j J. apply M2. apply M'. exact J. }
        intros j J K HK D. apply (IH j); auto. rewrite H'. exact HK.
      * cbn [good]. intros j J K HK D. apply (G j J K). assert (v_alloced v <= v_n v + k) by lia. nia.
    + cbn [good]. split; [|split; [reflexivity|auto]]. eapply room_more; [exact I|]. lia.
Qed.
Lemma reserve_ok : forall sz k v l r w, 0 < sz -> inv sz v (mkbuffer l r w) ->
  good sz v (count l + k) (vec_reserve sz k v) (mkbuffer l (N.max r k) w).
Proof.
  intros sz k v l r w S I. pose proof (i_n _ _ _ I) as N. cbn [elements] in N. rewrite <- N. apply reserve_loop_ok; [exact S|exact I|].
  pose proof (i_one _ _ _ I). change (2 ^ N.of_nat 65) with 36893488147419103232. unfold ptrdiff_max. lia.
Qed.
(** [add] grows as [reserve] for one element does. *)
Lemma add_loop_same : forall sz, 0 < sz -> forall rounds v b, inv sz v b -> add_loop sz rounds v = reserve_loop sz rounds 1 v.
Proof.
  intros sz S. induction rounds as [|n IH]; intros v b I; [reflexivity|]. cbn [add_loop reserve_loop].
  pose proof (small _ _ S (i_alloced _ _ _ I)). pose proof (i_room _ _ _ I). pose proof u64_eq.
  rewrite add64_small by (unfold ptrdiff_max in *; lia). rewrite sub64_small by lia.
  replace (v_alloced v - v_n v <? 1) with (v_alloced v <? v_n v + 1) by (destruct (N.ltb_spec (v_alloced v) (v_n v + 1)), (N.ltb_spec (v_alloced v - v_n v) 1); lia || reflexivity).
  destruct (v_alloced v <? v_n v + 1); [|reflexivity].
  pose proof (grow_ok sz v b S I) as G. destruct (grow sz v) as [v'| | | |]; cbn [bind]; try reflexivity. apply (IH v' b). apply G.
Qed.

Lemma blit_ok : forall (l s : list N) rest c, c = map Some l ++ rest -> count l + count s <= csize c ->
  exists rest', blit c (count l) s = Ok (map Some (l ++ s) ++ rest') /\ csize (map Some (l ++ s) ++ rest') = csize c.
Proof.
  intros l s rest c E L. unfold blit. fold (count s). rewrite (proj2 (N.leb_le _ _) L). exists (skipn (N.to_nat (count l) + length s) c).
  assert (F : firstn (N.to_nat (count l)) c = map Some l).
  { rewrite E. unfold count. rewrite Nat2N.id, firstn_app, map_length, Nat.sub_diag. cbn [firstn]. rewrite app_nil_r. apply firstn_all2. rewrite map_length. lia. }
  rewrite F, map_app, app_assoc. split; [reflexivity|].
  unfold csize, count in *. rewrite !app_length, !map_length, skipn_length. lia.
Qed.

(** Appending when there is room. *)
Lemma put_ok : forall sz v l r w s d, 0 < sz -> inv sz v (mkbuffer l r w) -> count s <= r ->
  good sz v d (let* c := blit (v_v v) (v_n v) s in let n := add64 (v_n v) (count s) in let* p := pointer c n in
               Ok (mkvec c p n (v_alloced v) (v_hint v) (v_mem v))) (holds (l ++ s) (r - count s)).
Proof.
  intros sz v l r w s d S I L. apply room_forget in I. destruct I as [[rest C] CS P N R A O H]. cbn [elements written room holds] in *. rewrite app_nil_r in C.
  pose proof (small _ _ S A) as SA. pose proof u64_eq as U.
  destruct (blit_ok l s rest (v_v v) C ltac:(lia)) as (rest' & E & CE). rewrite N, E. cbn [bind].
  rewrite add64_small by lia. rewrite pointer_ok by lia. cbn [bind good v_hint v_mem]. split; [|split; [reflexivity|auto]].
  split; cbn [v_v v_p v_n v_alloced v_hint elements written room holds]; try assumption; try lia.
  - exists rest'. rewrite app_nil_r. reflexivity.
  - reflexivity.
  - rewrite count_app. reflexivity.
Qed.
Lemma good_more : forall sz v d d' r b, d <= d' -> good sz v d r b -> good sz v d' r b.
Proof. intros sz v d d' r b L G. destruct r; cbn [good] in *; auto. intros k K P H D. apply (G k); auto. nia. Qed.
Lemma append_ok : forall sz s v l r w, 0 < sz -> inv sz v (mkbuffer l r w) ->
  good sz v (count l + count s) (vec_append sz s v) (holds (l ++ s) (r - count s)).
Proof.
  intros sz s v l r w S I. unfold vec_append. eapply good_bind with (d2 := 0); [apply reserve_ok; eassumption|fold (count s); lia|lia|].
  intros v' I' E. fold (count s) in *. replace (r - count s) with (N.max r (count s) - count s) by lia. apply put_ok with (w := w); [exact S|exact I'|lia].
Qed.
Lemma add_ok : forall sz a v l r w, 0 < sz -> inv sz v (mkbuffer l r w) ->
  good sz v (count l + 1) (vec_add sz a v) (holds (l ++ [a]) (r - 1)).
Proof.
  intros sz a v l r w S I. unfold vec_add. rewrite (add_loop_same sz S 65 v _ I). fold (vec_reserve sz 1 v).
  eapply good_bind with (d2 := 0); [apply reserve_ok; eassumption|lia|lia|].
  intros v' I' E. replace (r - 1) with (N.max r 1 - count [a]) by (cbn; lia). apply put_ok with (w := w) (s := [a]); [exact S|exact I'|cbn; lia].
Qed.

Lemma write_ok : forall sz v l r w s d, inv sz v (mkbuffer l r w) -> count s <= r ->
  good sz v d (vec_write s v) (mkbuffer l r s).
Proof.
  intros sz v l r w s d I L. apply room_forget in I. destruct I as [[rest C] CS P N R A O H]. cbn [elements written room holds] in *. rewrite app_nil_r in C.
  unfold vec_write. rewrite P. destruct (blit_ok l s rest (v_v v) C ltac:(lia)) as (rest' & E & CE). rewrite N, E. cbn [bind good v_hint v_mem].
  split; [|split; [reflexivity|auto]]. split; cbn [v_v v_p v_n v_alloced v_hint elements written room]; try assumption; try lia.
  - exists rest'. reflexivity.
  - reflexivity.
Qed.
Lemma advance_ok : forall sz v l r w1 w2 d, 0 < sz -> inv sz v (mkbuffer l r (w1 ++ w2)) ->
  good sz v d (vec_advance (count w1) v) (mkbuffer (l ++ w1) (r - count w1) w2).
Proof.
  intros sz v l r w1 w2 d S [[rest C] CS P N R A O H]. cbn [elements written room] in *. pose proof (small _ _ S A) as SA. pose proof u64_eq as U.
  assert (L : count l + count w1 <= v_alloced v).
  { rewrite <- CS, C, csize_app, csize_map, !count_app. lia. }
  unfold vec_advance. rewrite sub64_small by lia. rewrite (proj2 (N.leb_le _ _)) by lia. rewrite add64_small by lia. rewrite pointer_ok by lia. cbn [bind good v_hint v_mem].
  split; [|split; [reflexivity|auto]]. split; cbn [v_v v_p v_n v_alloced v_hint elements written room]; try assumption; try lia.
  - exists rest. rewrite <- app_assoc. exact C.
  - reflexivity.
  - rewrite count_app. lia.
Qed.
Lemma set_ok : forall sz v l1 x l2 r w a d, inv sz v (mkbuffer (l1 ++ x :: l2) r w) ->
  good sz v d (vec_set (count l1) a v) (mkbuffer (l1 ++ a :: l2) r w).
Proof.
  intros sz v l1 x l2 r w a d [[rest C] CS P N R A O H]. cbn [elements written room] in *. unfold vec_set. rewrite (proj2 (N.ltb_lt _ _)) by (rewrite N, count_app; unfold count; cbn [length]; lia).
  unfold blit. rewrite (proj2 (N.leb_le _ _)) by (rewrite C, csize_app, csize_map, !count_app; unfold count; cbn [length]; lia).
  assert (C' : v_v v = map Some l1 ++ Some x :: (map Some (l2 ++ w) ++ rest)) by (rewrite C, <- app_assoc, map_app, <- app_assoc; cbn [app map]; reflexivity).
  assert (F : firstn (N.to_nat (count l1)) (v_v v) ++ map Some [a] ++ skipn (N.to_nat (count l1) + length [a]) (v_v v) = map Some l1 ++ Some a :: (map Some (l2 ++ w) ++ rest)).
  { rewrite C'. unfold count. rewrite Nat2N.id, firstn_app, map_length, Nat.sub_diag. cbn [firstn]. rewrite app_nil_r, firstn_all2 by (rewrite map_length; lia).
    rewrite skipn_app, map_length. cbn [length]. rewrite skipn_all2 by (rewrite map_length; lia). replace (length l1 + 1 - length l1)%nat with 1%nat by lia. reflexivity. }
  rewrite F. cbn [bind good v_hint v_mem]. split; [|split; [reflexivity|auto]]. split; cbn [v_v v_p v_n v_alloced v_hint elements written room]; try assumption; try lia.
  - exists rest. rewrite !map_app, <- !app_assoc. cbn [map app]. reflexivity.
  - rewrite <- CS, C'. unfold csize. rewrite !app_length. reflexivity.
  - rewrite N. unfold count. rewrite !app_length. reflexivity.
Qed.
Lemma clip_ok : forall sz v l1 l2 r w d, inv sz v (mkbuffer (l1 ++ l2) r w) ->
  good sz v d (vec_clip (count l1) v) (holds l1 r).
Proof.
  intros sz v l1 l2 r w d I. unfold vec_clip. pose proof (i_n _ _ _ I) as N. cbn [elements] in N. rewrite N, count_app.
  destruct (N.ltb_spec (count l1) (count l1 + count l2)) as [T|T].
  - destruct I as [[rest C] CS P _ R A O H]. cbn [elements written room] in *. rewrite N, count_app in R. rewrite pointer_ok by lia. cbn [bind good v_hint v_mem].
    split; [|split; [reflexivity|auto]]. split; cbn [v_v v_p v_n v_alloced v_hint elements written room holds]; try assumption; try lia.
    + exists (map Some (l2 ++ w) ++ rest). rewrite C, app_nil_r, !map_app, <- !app_assoc. reflexivity.
    + reflexivity.
  - cbn [good]. split; [|split; [reflexivity|auto]]. destruct l2; [|cbn in T; lia]. rewrite app_nil_r in I. eapply room_forget. exact I.
Qed.
Lemma no_clip_ok : forall sz v k l r w d, inv sz v (mkbuffer l r w) -> count l <= k -> good sz v d (vec_clip k v) (holds l r).
Proof.
  intros sz v k l r w d I L. unfold vec_clip. pose proof (i_n _ _ _ I) as N. cbn [elements] in N. rewrite (proj2 (N.ltb_ge _ _)) by lia.
  cbn [good]. split; [|split; [reflexivity|auto]]. eapply room_forget. exact I.
Qed.

Lemma empty_inv : forall sz c a h m, csize c = a -> a * sz <= ptrdiff_max -> 1 <= a -> 1 <= h -> h * sz <= ptrdiff_max -> inv sz (mkvec c (Some 0) 0 a h m) empty.
Proof. intros. split; cbn [v_v v_p v_n v_alloced v_hint elements written room empty]; try assumption; try reflexivity; try lia; try (split; assumption). exists c. reflexivity. Qed.
Lemma fresh_size : forall sz k, 0 < sz -> csize (fresh sz (k * sz)) = k.
Proof. intros. unfold fresh, csize. rewrite N.div_mul, repeat_length by lia. lia. Qed.
Lemma reset_ok : forall sz v b d, 0 < sz -> inv sz v b -> good sz v d (vec_reset sz v) empty.
Proof.
  intros sz v b d S [[rest C] CS P N R A O [H1 H2]]. unfold vec_reset. pose proof u64_eq as U. destruct (N.ltb_spec (v_hint v) (v_alloced v)) as [T|T].
  - rewrite mul64_small by lia. destruct (alloc_cases (v_mem v) (v_hint v * sz)) as [E|[E L]]; rewrite E; cbn [bind good].
    + intros k G K HK D. exact (alloc_fail _ _ _ E G K HK).
    + unfold moved. rewrite N.div_mul by lia. rewrite pointer_ok by lia. cbn [bind good v_hint v_mem]. split; [|split; [reflexivity|intros k G; apply grants_later; exact G]].
      apply empty_inv; try assumption. unfold csize in *. rewrite app_length, firstn_length, repeat_length. lia.
  - rewrite pointer_ok by lia. cbn [bind good v_hint v_mem]. split; [|split; [reflexivity|auto]]. apply empty_inv; assumption.
Qed.

Lemma all_written_ok : forall l, all_written (map Some l) = Ok l.
Proof. induction l as [|a l IH]; [reflexivity|]. cbn [map all_written]. rewrite IH. reflexivity. Qed.
Lemma read_ok : forall sz v b, inv sz v b -> read_array (v_v v) (v_n v) = Ok (elements b).
Proof.
  intros sz v b [[rest C] CS P N R A O H]. unfold read_array. rewrite (proj2 (N.leb_le _ _)) by lia. rewrite C, N, map_app, <- app_assoc.
  unfold count. rewrite Nat2N.id, firstn_app, map_length, Nat.sub_diag. cbn [firstn]. rewrite app_nil_r, firstn_all2 by (rewrite map_length; lia). apply all_written_ok.
Qed.
Lemma value_ok : forall sz v l1 a l2 r w, inv sz v (mkbuffer (l1 ++ a :: l2) r w) -> vec_value (count l1) v = Ok a.
Proof.
  intros sz v l1 a l2 r w [[rest C] CS P N R A O H]. cbn [elements written] in *. unfold vec_value.
  rewrite (proj2 (N.ltb_lt _ _)) by (rewrite N, count_app; unfold count; cbn [length]; lia).
  rewrite C, map_app, map_app, <- !app_assoc. unfold count. rewrite Nat2N.id, nth_error_app2 by (rewrite map_length; lia). rewrite map_length, Nat.sub_diag. reflexivity.
Qed.
Lemma detach_ok : forall sz v b, 0 < sz -> inv sz v b ->
  match vec_detach sz v with
  | Ok (c, n, v') => read_array c n = Ok (elements b) /\ good sz v 0 (Ok v') empty
  | Fail => good sz v 0 Fail empty
  | _ => False
  end.
Proof.
  intros sz v b S I. pose proof I as [[rest C] CS P N R A O [H1 H2]]. unfold vec_detach. pose proof u64_eq as U. rewrite mul64_small by lia.
  destruct (alloc_cases (v_mem v) (v_hint v * sz)) as [E|[E L]]; rewrite E; cbn [bind].
  - intros k G K HK D. exact (alloc_fail _ _ _ E G K HK).
  - rewrite pointer_ok by lia. cbn [bind]. split; [eapply read_ok; exact I|]. cbn [good v_hint v_mem]. split; [|split; [reflexivity|intros k G; apply grants_later; exact G]].
    apply empty_inv; try assumption. apply fresh_size. exact S.
Qed.

Lemma chopped_ends : forall sz v l r w a l', inv sz v (mkbuffer l r w) -> chopped a l l' ->
  (ends_with a v = Ok true /\ l = l' ++ [a]) \/ (ends_with a v = Ok false /\ l' = l).
Proof.
  intros sz v l r w a l' I [E|[E1 E2]]; unfold ends_with; pose proof (i_n _ _ _ I) as N; cbn [elements] in N.
  - left. split; [|exact E]. subst l. rewrite N, count_app. rewrite (proj2 (N.ltb_lt _ _)) by (unfold count; cbn [length]; lia).
    replace (count l' + count [a] - 1) with (count l') by (unfold count; cbn [length]; lia). rewrite (value_ok _ _ _ _ _ _ _ I). cbn [bind]. rewrite N.eqb_refl. reflexivity.
  - right. split; [|exact E2]. subst l'. destruct (N.ltb_spec 0 (v_n v)) as [T|T]; [|reflexivity].
    destruct (exists_last (l := l)) as (l1 & x & EL). { intro Q. subst l. cbn in N. lia. }
    subst l. rewrite N, count_app. replace (count l1 + count [x] - 1) with (count l1) by (unfold count; cbn [length]; lia).
    rewrite (value_ok _ _ _ _ _ _ _ I). cbn [bind]. destruct (N.eqb_spec x a); [|reflexivity]. subst x. exfalso. apply E1. exists l1. reflexivity.
Qed.
Lemma drop_last_ok : forall sz v l r w a l' d, inv sz v (mkbuffer l r w) -> chopped a l l' -> good sz v d (drop_last a v) (holds l' r).
Proof.
  intros sz v l r w a l' d I C. unfold drop_last. pose proof (i_n _ _ _ I) as N. cbn [elements] in N. destruct (chopped_ends _ _ _ _ _ _ _ I C) as [[E L]|[E L]]; rewrite E; cbn [bind].
  - subst l. replace (v_n v - 1) with (count l') by (rewrite N, count_app; unfold count; cbn [length]; lia). eapply clip_ok. exact I.
  - subst l'. cbn [good]. split; [|split; [reflexivity|auto]]. eapply room_forget. exact I.
Qed.
Lemma chopped_count : forall a l l', chopped a l l' -> count l' <= count l.
Proof. intros a l l' [E|[_ E]]; subst; [rewrite count_app|]; lia. Qed.
Lemma room_less : forall sz v d r l k k', k' <= k -> good sz v d r (holds l k) -> good sz v d r (holds l k').
Proof.
  intros sz v d r l k k' L G. destruct r; cbn [good] in *; auto. destruct G as (I & E). split; [|exact E].
  eapply room_more; [exact I|]. pose proof (i_room _ _ _ I) as R. cbn [room holds] in R. lia.
Qed.
Lemma add_cstr_ok : forall v l r w s l', inv 1 v (mkbuffer l r w) -> chopped 0 l l' ->
  good 1 v (count l + count s) (ubuf_add_cstr s v) (holds (l' ++ s) 0).
Proof.
  intros v l r w s l' I C. unfold ubuf_add_cstr. pose proof (chopped_count _ _ _ C).
  eapply good_bind with (d1 := 0) (d2 := count l + count s); [eapply drop_last_ok; eassumption|lia|lia|].
  intros v' I' E. apply room_less with (k := r - count s); [lia|]. apply good_more with (d := count l' + count s); [lia|]. eapply append_ok; [lia|exact I'].
Qed.
Lemma cterm_ok : forall v l r w, inv 1 v (mkbuffer (l ++ [0]) r w) -> ubuf_cterm v = Ok v.
Proof.
  intros v l r w I. unfold ubuf_cterm. assert (C : chopped 0 (l ++ [0]) l) by (left; reflexivity).
  destruct (chopped_ends _ _ _ _ _ _ _ I C) as [[E L]|[E L]]; rewrite E; [reflexivity|]. exfalso. apply (f_equal (@length N)) in L. rewrite app_length in L. cbn in L. lia.
Qed.
Lemma cterm_add_ok : forall v l r w, inv 1 v (mkbuffer l r w) -> ~ last_is 0 l -> good 1 v (count l + 1) (ubuf_cterm v) (holds (l ++ [0]) 0).
Proof.
  intros v l r w I NL. unfold ubuf_cterm. assert (C : chopped 0 l l) by (right; split; [exact NL|reflexivity]).
  destruct (chopped_ends _ _ _ _ _ _ _ I C) as [[E L]|[E L]]; rewrite E; cbn [bind].
  - exfalso. apply (f_equal (@length N)) in L. rewrite app_length in L. cbn in L. lia.
  - apply room_less with (k := r - 1); [lia|]. eapply (append_ok 1 [0]); [lia|exact I].
Qed.
Lemma add_fmt_ok : forall v l r w s l', inv 1 v (mkbuffer l r w) -> count s < 2147483647 -> chopped 0 l l' ->
  good 1 v (2 * count l + count s + 1) (ubuf_add_fmt s v) (holds (l' ++ s) 0).
Proof.
  intros v l r w s l' I SM C. change 2147483647 with int_max in SM. unfold ubuf_add_fmt. pose proof (chopped_count _ _ _ C).
  eapply good_bind with (d1 := 0) (d2 := 2 * count l + count s + 1); [eapply drop_last_ok; eassumption|lia|lia|].
  intros v' I' E. fold (count s). rewrite (proj2 (N.ltb_ge _ _)) by lia.
  pose proof (i_n _ _ _ I') as N. cbn [elements holds] in N. pose proof (i_room _ _ _ I'). pose proof (small _ 1 eq_refl (i_alloced _ _ _ I')) as SA. pose proof u64_eq.
  assert (int_max < ptrdiff_max) by (unfold int_max, ptrdiff_max; lia).
  rewrite (add64_small (v_n v') (count s)) by lia. rewrite add64_small by lia. rewrite N.
  eapply good_bind with (d1 := count l' + (count l' + count s + 1)) (d2 := 0); [eapply reserve_ok; [lia|exact I']|lia|lia|].
  intros v2 I2 E2. rewrite (proj2 (N.eqb_neq (count s) int_max)) by lia.
  eapply good_bind with (d1 := 0) (d2 := 0); [eapply write_ok; [exact I2|]|lia|lia|].
  - rewrite count_app. change (count [0]) with 1. lia.
  - intros v3 I3 E3. pose proof (advance_ok 1 v3 l' _ s [0] 0 ltac:(lia) I3) as G.
    destruct (vec_advance (count s) v3) as [v4| | | |]; cbn [good] in *; auto. destruct G as (I4 & E4). split; [|exact E4].
    apply room_forget in I4. eapply room_more; [exact I4|]. pose proof (i_room _ _ _ I4) as R. cbn [room holds] in R. lia.
Qed.

(** One call, with its answer. *)
Lemma quiet_ok : forall sz v d r b, good sz v d r b ->
  match (let* v' := r in Ok (ANone, v')) with
  | Ok (a, v') => a = ANone /\ good sz v d (Ok v') b
  | Fail => good sz v d Fail b
  | _ => False
  end.
Proof. intros sz v d r b G. destruct r; cbn [bind good] in *; auto. Qed.
Lemma do_ok : forall sz c v b a b', 0 < sz -> (for_bytes c -> sz = 1) -> inv sz v b -> effect c b a b' ->
  match vec_do sz c v with
  | Ok (a', v') => a' = a /\ good sz v (demand c b) (Ok v') b'
  | Fail => good sz v (demand c b) Fail b'
  | _ => False
  end.
Proof.
  intros sz c v b a b' S B I E. destruct E; cbn [vec_do demand elements]; cbn [for_bytes] in B; try specialize (B Logic.I); try subst sz; try (apply quiet_ok).
  - apply add_ok with (w := w); assumption.
  - apply append_ok with (w := w); assumption.
  - apply reserve_ok; assumption.
  - eapply write_ok; eassumption.
  - apply advance_ok; assumption.
  - apply set_ok with (x := x); assumption.
  - subst k. eapply clip_ok. eassumption.
  - eapply no_clip_ok; eassumption.
  - eapply reset_ok; eassumption.
  - pose proof (detach_ok sz v b S I) as G. destruct (vec_detach sz v) as [[[c n] v']| | | |]; cbn [bind]; auto. destruct G as (R & G). rewrite R. cbn [bind]. split; [reflexivity|exact G].
  - rewrite (value_ok _ _ _ _ _ _ _ I). cbn [bind]. split; [reflexivity|]. cbn [good]. auto.
  - split; [rewrite (i_n _ _ _ I); reflexivity|]. cbn [good]. auto.
  - rewrite (read_ok _ _ _ I). cbn [bind]. split; [reflexivity|]. cbn [good]. auto.
  - eapply add_cstr_ok; eassumption.
  - rewrite (cterm_ok _ _ _ _ I). cbn [good]. auto.
  - eapply cterm_add_ok; eassumption.
  - eapply add_fmt_ok; eassumption.
  - eapply drop_last_ok; eassumption.
Qed.

Lemma run_ok : forall sz, 0 < sz -> forall cs b l b', effects cs b l b' -> (sz <> 1 -> Forall (fun c => ~ for_bytes c) cs) ->
  forall v, inv sz v b -> (vec_run sz cs v = Ok l \/ vec_run sz cs v = Fail) /\
    (forall d k, demands d cs b -> grants k (v_mem v) -> k <= ptrdiff_max -> v_hint v * sz <= k -> 2 * d * sz <= k -> vec_run sz cs v = Ok l).
Proof.
  intros sz S cs b l b' E. induction E as [b|c b a b1 cs l b2 E _ IH]; intros B v I.
  { split; [left; reflexivity|reflexivity]. }
  assert (BC : for_bytes c -> sz = 1). { intro F. destruct (N.eq_dec sz 1) as [Q|Q]; [exact Q|]. specialize (B Q). inversion B. contradiction. }
  assert (B' : sz <> 1 -> Forall (fun c => ~ for_bytes c) cs) by (intro Q; specialize (B Q); inversion B; assumption).
  pose proof (do_ok sz c v b a b1 S BC I E) as G. cbn [vec_run]. destruct (vec_do sz c v) as [[a' v']| | | |]; cbn [bind]; try contradiction.
  - destruct G as (-> & I' & H' & M'). destruct (IH B' v' I') as (R1 & R2). split.
    + destruct R1 as [R|R]; rewrite R; [left|right]; reflexivity.
    + intros d k [_ D] K P HK DK. rewrite (R2 d k); [reflexivity| | | | |]; auto. * exact (D _ _ E). * rewrite H'. exact HK.
  - split; [right; reflexivity|]. intros d k [D _] K P HK DK. exfalso. apply (G k K P HK). nia.
Qed.

Lemma init_ok : forall sz m hint, 0 < sz -> sz < 2147483648 ->
  match vec_init sz m hint with
  | Ok v => inv sz v empty /\ v_hint v = N.max 1 (hint mod u32) /\ (forall k, grants k m -> grants k (v_mem v))
  | Fail => forall k, grants k m -> k <= ptrdiff_max -> 40 <= k -> N.max 1 (hint mod u32) * sz <= k -> False
  | _ => False
  end.
Proof.
  intros sz m hint S S2. unfold vec_init. pose proof u64_eq as U.
  assert (HM : (if hint mod u32 =? 0 then 1 else hint mod u32) = N.max 1 (hint mod u32)) by (destruct (N.eqb_spec (hint mod u32) 0); lia).
  assert (HB : hint mod u32 < u32) by (apply N.mod_lt; unfold u32; lia).
  rewrite HM. set (h := N.max 1 (hint mod u32)) in *. assert (L : h * sz <= ptrdiff_max) by (unfold u32, ptrdiff_max in *; nia).
  destruct (alloc_cases m 40) as [E|[E _]]; rewrite E; cbn [bind].
  { intros k G K Q _. exact (alloc_fail _ _ _ E G K Q). }
  rewrite mul64_small by lia. destruct (alloc_cases (fun t => m (Datatypes.S t)) (h * sz)) as [E2|[E2 _]]; rewrite E2; cbn [bind].
  { intros k G K _ Q. exact (alloc_fail _ _ _ E2 (grants_later _ _ G) K Q). }
  rewrite pointer_ok by lia. cbn [bind v_hint v_mem]. split; [|split; [reflexivity|intros k G t b Q; apply G; exact Q]].
  apply empty_inv; try lia. apply fresh_size. exact S.
Qed.

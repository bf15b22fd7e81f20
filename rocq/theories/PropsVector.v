(** Theorems about growable arrays. *)
From Verif Require Import Str ModelVarint ModelWdns ModelQuery ModelVector SpecVector VectorProofs.

(** * C66: growable arrays *)

(** Whatever calls a program makes, as long as it follows the rules: the answers are those
    of a list, or the memory is exhausted.  No access is outside an array or goes through
    a pointer into a moved one, no other assertion fails, and every call returns. *)
Theorem growable_array : forall sz m hint cs answers b,
  0 < sz < 2147483648 -> (sz <> 1 -> Forall (fun c => ~ for_bytes c) cs) ->
  effects cs empty answers b ->
  vec_program sz m hint cs = Ok answers \/ vec_program sz m hint cs = Fail.
Proof.
  intros sz m hint cs answers b [S1 S2] B E. unfold vec_program. pose proof (init_ok sz m hint S1 S2) as I.
  destruct (vec_init sz m hint) as [v| | | |]; cbn [bind]; try contradiction; [|right; reflexivity].
  apply (run_ok sz S1 _ _ _ _ E B v). apply I.
Qed.
Print Assumptions growable_array.

(** The memory is exhausted only if a request is refused for as much memory as the
    program's hint or twice the elements it needs space for at a time. *)
Theorem growable_array_memory : forall sz m hint cs answers b d k,
  0 < sz < 2147483648 -> (sz <> 1 -> Forall (fun c => ~ for_bytes c) cs) ->
  effects cs empty answers b -> demands d cs empty ->
  grants k m -> k <= ptrdiff_max -> 40 <= k -> N.max 1 (hint mod u32) * sz <= k -> 2 * d * sz <= k ->
  vec_program sz m hint cs = Ok answers.
Proof.
  intros sz m hint cs answers b d k [S1 S2] B E D G K K1 K2 K3. unfold vec_program. pose proof (init_ok sz m hint S1 S2) as I.
  destruct (vec_init sz m hint) as [v| | | |]; cbn [bind]; try contradiction.
  - destruct I as (I & H & M). destruct (run_ok sz S1 _ _ _ _ E B v I) as (_ & R). apply (R d k); auto. rewrite H. exact K2.
  - exfalso. exact (I k G K K1 K2).
Qed.
Print Assumptions growable_array_memory.

(** What a list does to a call is one thing only. *)
Lemma chopped_one : forall a l x y, chopped a l x -> chopped a l y -> x = y.
Proof.
  intros a l x y [E|[N E]] [F|[M F]]; subst.
  - apply app_inj_tail in F. apply F.
  - exfalso. apply M. exists x. reflexivity.
  - exfalso. apply N. exists y. reflexivity.
  - reflexivity.
Qed.
Lemma count_split : forall a b c d, a ++ b = c ++ d -> count a = count c -> a = c /\ b = d.
Proof.
  intros a b c d E L. unfold count in L. apply Nat2N.inj in L. revert c E L. induction a as [|x a IH]; intros [|y c] E L; cbn in *; try discriminate.
  - split; [reflexivity|exact E].
  - inversion E. subst y. destruct (IH c H1 ltac:(lia)) as [-> ->]. split; reflexivity.
Qed.
Lemma effect_one : forall c b a1 b1 a2 b2, effect c b a1 b1 -> effect c b a2 b2 -> a1 = a2 /\ b1 = b2.
Proof.
  intros c b a1 b1 a2 b2 E F. destruct E; inversion F; subst; try (split; reflexivity);
    try match goal with H : ?a ++ ?b = ?c ++ ?d, L : count ?a = count ?c |- _ => destruct (count_split _ _ _ _ H L) as [? ?] end;
    try match goal with H : ?a ++ ?b = ?c ++ ?d, L : count ?c = count ?a |- _ => symmetry in L; destruct (count_split _ _ _ _ H L) as [? ?] end;
    try match goal with H : _ :: _ = _ :: _ |- _ => inversion H end; subst; try (split; reflexivity).
  all: try match goal with H : chopped ?a ?l ?x, K : chopped ?a ?l ?y |- _ => rewrite (chopped_one _ _ _ _ H K); split; reflexivity end.
  all: try (exfalso; match goal with H : ~ last_is 0 (?l ++ [0]) |- _ => apply H; exists l; reflexivity end).
  - rewrite count_app in *. destruct l2; [rewrite app_nil_r; split; reflexivity|]. unfold count in *. cbn [length] in *. lia.
  - rewrite count_app in *. destruct l2; [rewrite app_nil_r; split; reflexivity|]. unfold count in *. cbn [length] in *. lia.
Qed.
Theorem growable_array_answers_unique : forall cs b l1 b1 l2 b2, effects cs b l1 b1 -> effects cs b l2 b2 -> l1 = l2 /\ b1 = b2.
Proof.
  intros cs b l1 b1 l2 b2 E. revert l2 b2. induction E as [b|c b a b1 cs l b2 E _ IH]; intros l2 b3 F; inversion F; subst; [split; reflexivity|].
  match goal with X : effect c b ?x ?y |- _ => destruct (effect_one _ _ _ _ _ _ E X) as [-> ->] || fail end.
  match goal with X : effects cs _ _ _ |- _ => destruct (IH _ _ X) as [-> ->] end. split; reflexivity.
Qed.
Print Assumptions growable_array_answers_unique.

Lemma length_loop_pos : forall n v k, k <= varint_length_loop n v k.
Proof. induction n as [|n IH]; intros v k; cbn [varint_length_loop]; [lia|]. destruct (_ <=? _); [|lia]. eapply N.le_trans; [|apply IH]. lia. Qed.
Lemma encode32_room : forall t, t < u16 -> count (varint_encode32 t) <= varint_length t.
Proof.
  intros t H. unfold varint_encode32, varint_length. change (N.shiftl 1 7) with 128. change (N.shiftl 1 14) with 16384. change (N.shiftl 1 21) with 2097152.
  destruct (N.ltb_spec t 128). { change (count [to_byte t]) with 1. apply length_loop_pos. }
  destruct (N.ltb_spec t 16384).
  { change (varint_length_loop 10 t 1) with (if 128 <=? t then varint_length_loop 9 (N.shiftr t 7) 2 else 1). rewrite (proj2 (N.leb_le 128 t)) by assumption. change (count [_; _]) with 2. apply length_loop_pos. }
  destruct (N.ltb_spec t 2097152); [|unfold u16 in H; lia].
  change (varint_length_loop 10 t 1) with (if 128 <=? t then varint_length_loop 9 (N.shiftr t 7) 2 else 1).
  rewrite (proj2 (N.leb_le 128 t)) by assumption.
  change (varint_length_loop 9 (N.shiftr t 7) 2) with (if 128 <=? N.shiftr t 7 then varint_length_loop 8 (N.shiftr (N.shiftr t 7) 7) 3 else 2).
  rewrite (proj2 (N.leb_le 128 (N.shiftr t 7))) by (rewrite N.shiftr_div_pow2; change (2 ^ 7) with 128; apply N.div_le_lower_bound; lia).
  change (count [_; _; _]) with 3. apply length_loop_pos.
Qed.

Lemma reverse_length : forall f mem total len acc r, reverse_name_loop f mem total len acc = Ok r -> count acc = total + 1 -> count r = len.
Proof.
  induction f as [|f IH]; intros mem total len acc r H L; [discriminate|]. cbn [reverse_name_loop] in H. destruct mem as [|c rest]; [discriminate|].
  destruct (c =? 0). { destruct (N.eqb_spec (total + 1) len); inversion H. subst. exact L. }
  destruct (len <? total + (c + 1)); [discriminate|]. destruct (total + (c + 1) =? len); [discriminate|].
  destruct (N.ltb_spec (blen rest) c); [discriminate|]. apply (IH _ _ _ _ _ H). rewrite count_app. unfold count in *. cbn [length]. rewrite firstn_length. unfold blen in *. lia.
Qed.
Lemma reversed_count : forall mem len r, wdns_reverse_name mem len = Ok r -> count r = len.
Proof. intros mem len r H. unfold wdns_reverse_name in H. destruct (len =? 0); [discriminate|]. apply (reverse_length _ _ _ _ _ _ H). reflexivity. Qed.

Ltac fx c := eapply es_call; [eapply c|].
Lemma advance_all : forall s l r, effect (VAdvance (count s)) (mkbuffer l r s) ANone (mkbuffer (l ++ s) (r - count s) []).
Proof. intros s l r. rewrite <- (app_nil_r s) at 2. apply ef_advance. Qed.
Lemma clip0 : forall b, effect (VClip 0) b ANone (holds [] (room b)).
Proof. intros [l r w]. apply (ef_clip 0 [] l). reflexivity. Qed.
Lemma add_rrtype_effects : forall key r w t, t < u16 ->
  exists b', effects (calls_add_rrtype (count key) t) (mkbuffer key r w) [ANone; ANone; ANone] b' /\ elements b' = key ++ varint_encode32 t.
Proof.
  intros key r w t H. pose proof (encode32_room t H). eexists. split.
  - unfold calls_add_rrtype. fx ef_reserve. fx ef_write; [lia|]. fx advance_all. apply es_none.
  - reflexivity.
Qed.
Lemma effects_app : forall cs1 b l1 b1 cs2 l2 b2, effects cs1 b l1 b1 -> effects cs2 b1 l2 b2 -> effects (cs1 ++ cs2) b (l1 ++ l2) b2.
Proof. intros cs1 b l1 b1 cs2 l2 b2 E. revert cs2 l2 b2. induction E; intros cs2 l2 b3 F; [exact F|]. cbn [app]. eapply es_call; [eassumption|apply IHE; exact F]. Qed.

(** Everywhere the library writes behind the elements of a buffer it has reserved enough
    room, whatever the buffer was used for before, and the buffer holds the bytes that the
    other models compute with lists. *)
Theorem keys_have_room : forall b key t, t < u16 ->
  (forall k, add_rrtype_to_key (elements b) t = Ok k -> exists l b', effects (calls_add_rrtype (count (elements b)) t) b l b' /\ elements b' = k) /\
  (forall n, exists l b', effects (calls_next_label key n) b l b' /\ elements b' = firstn n key) /\
  (forall n k, (length key < n)%nat -> add_rrtype_to_key (key ++ repeat 0 (n - length key)) t = Ok k ->
     exists l b', effects (calls_short_key key n t) b l b' /\ elements b' = k) /\
  (forall llen rest, key = elements b ++ llen :: rest -> (length key < N.to_nat llen + 1 + length (elements b))%nat ->
     exists l b', effects (calls_long_label key (length (elements b)) llen) b l b' /\
       elements b' = key ++ repeat 0 (N.to_nat llen + 1 + length (elements b) - length key)) /\
  (forall tb name, wdns_reverse_name (skipn 1 key) (blen key - 1) = Ok name ->
     exists l b', effects (calls_index_key tb (blen key) name) b l b' /\ elements b' = tb :: name).
Proof.
  intros [l r w] key t H. cbn [elements]. split; [|split; [|split; [|split]]].
  - intros k E. unfold add_rrtype_to_key in E. destruct (t =? WDNS_TYPE_ANY); inversion E. subst k. eexists.
    destruct (add_rrtype_effects l r w t H) as (b' & F & EB). exists b'. split; [exact F|exact EB].
  - intro n. eexists. eexists. split; [unfold calls_next_label; fx clip0; fx ef_reserve; fx ef_append; apply es_none|reflexivity].
  - intros n k L E. unfold add_rrtype_to_key in E. destruct (t =? WDNS_TYPE_ANY); inversion E. subst k.
    set (z := repeat 0 (n - length key)) in *. assert (CZ : count z = N.of_nat (n - length key)) by (unfold z, count; rewrite repeat_length; reflexivity).
    assert (CN : N.of_nat n = count (key ++ z)) by (rewrite count_app, CZ; unfold count; lia).
    eexists. destruct (add_rrtype_effects (key ++ z) (N.max r (N.of_nat n) - count key - count z) [] t H) as (b' & F & EB). exists b'. split; [|exact EB].
    unfold calls_short_key. rewrite CN at 2. eapply effects_app; [|exact F].
    fx clip0. fx ef_reserve. fx ef_append. fx ef_write; [fold z; cbn [room]; rewrite CZ; unfold count; lia|]. fold z. rewrite <- CZ. fx advance_all. apply es_none.
  - intros llen rest EK L. assert (ES : skipn (length l) key = llen :: rest) by (rewrite EK, skipn_app, Nat.sub_diag, skipn_all; reflexivity).
    assert (LK : length key = (length l + S (length rest))%nat) by (rewrite EK, app_length; reflexivity).
    set (z := repeat 0 (N.to_nat llen + 1 + length l - length key)) in *. assert (CZ : count z = N.of_nat (N.to_nat llen + 1 + length l - length key)) by (unfold z, count; rewrite repeat_length; reflexivity).
    eexists. eexists. split.
    + unfold calls_long_label. rewrite ES. fx ef_reserve. fx ef_append. fold z. fx ef_write; [rewrite CZ; unfold count; cbn [length]; lia|]. rewrite <- CZ. fx advance_all. apply es_none.
    + cbn [elements]. rewrite <- EK. reflexivity.
  - intros tb name E. pose proof (reversed_count _ _ _ E) as C. eexists. eexists. split.
    + unfold calls_index_key. fx clip0. fx ef_reserve. fx ef_add. fx ef_write; [cbn [room]; lia|]. rewrite <- C. fx advance_all. apply es_none.
    + reflexivity.
Qed.
Print Assumptions keys_have_room.

(** A buffer of one byte that is grown, formatted to, terminated, written to in reserved
    room, cut and detached; and two rules that are needed. *)
Definition plenty : memory := fun _ b => b <=? 4096.
Example c66_case : let cs := [VAppend (str "ab"); VCterm; VAddFmt (str "cde"); VValue 4; VReserve 9; VWrite (str "fghi"); VAdvance 3; VSet 0 65; VSize; VRead; VClip 2; VCterm; VDetach; VSize] in
  let answers := [ANone; ANone; ANone; ANumber 101; ANone; ANone; ANone; ANone; ANumber 8; AElements (str "Abcdefgh"); ANone; ANone; AElements (str "Ab" ++ [0]); ANumber 0] in
  effects cs empty answers (mkbuffer [] 0 []) /\ vec_program 1 plenty 1 cs = Ok answers /\ vec_program 1 (fun t b => b <=? 10) 1 cs = Fail /\
  vec_program 1 plenty 1 [VReserve 1; VWrite (str "ab")] = UB /\
  vec_program 8 plenty 3 [VAdd 1; VAdd 2; VAdd 3; VAdd 4; VRead] = Ok [ANone; ANone; ANone; ANone; AElements [1; 2; 3; 4]] /\
  (let* v := vec_init 1 plenty 1 in let* v := vec_append 1 (str "abc") v in vec_extend_self 1 v) = UB.
Proof.
  cbn zeta. split; [|split; [vm_compute; reflexivity|split; [vm_compute; reflexivity|split; [vm_compute; reflexivity|split; vm_compute; reflexivity]]]].
  fx ef_append. fx ef_cterm_add. { intros [x E]. apply (f_equal (@rev N)) in E. rewrite (rev_app_distr x) in E. vm_compute in E. discriminate E. }
  fx ef_add_fmt; [reflexivity|left; reflexivity|]. fx (ef_value (str "abcd") 101 []). fx ef_reserve. fx ef_write; [vm_compute; discriminate|].
  fx (ef_advance (str "abcde") 9 (str "fgh") (str "i")). fx (ef_set 65 [] 97). fx ef_size. fx ef_read. fx (ef_clip 2 (str "Ab") (str "cdefgh")); [reflexivity|].
  fx ef_cterm_add. { intros [x E]. apply (f_equal (@rev N)) in E. rewrite (rev_app_distr x) in E. vm_compute in E. discriminate E. }
  fx ef_detach. fx ef_size. apply es_none.
Qed.

(** * Memory: buffers, vectors, queries and entries *)
From Coq Require Import Permutation.
From Verif Require Import Base ModelMemory HeapLogic.

Ltac start HP := eapply tri_perm; [exact HP|].
Ltac fin := apply tri_ret.

Lemma ubuf_write_ok rm u d H R : Permutation H (ubuf u d ++ R) -> tri rm H (ubuf_write u) (fun _ H' => exists d', Permutation H' (ubuf u d' ++ R)).
Proof.
  intro HP. start HP. unfold ubuf. simpl app. unfold ubuf_write. go. destruct b.
  - go. fin. exists p. unfold ubuf. simpl app. perm.
  - fin. exists d. reflexivity.
Qed.
Lemma ubuf_detach_ok rm u d H R : Permutation H (ubuf u d ++ R) ->
  tri rm H (ubuf_detach u) (fun s H' => s <> 0 /\ exists d', Permutation H' ((s, OBytes) :: ubuf u d' ++ R)).
Proof.
  intro HP. start HP. unfold ubuf. simpl app. unfold ubuf_detach. eapply tri_nz; [right; left; reflexivity|]. intro Hd. go.
  fin. split; [assumption|]. exists p. unfold ubuf. simpl app. perm.
Qed.
(** A buffer that may be absent. *)
Definition kbuf (u : N) (C : list cell) : Prop := (u = 0 /\ C = []) \/ (u <> 0 /\ exists d, C = ubuf u d).
Lemma ubuf_destroy_ok rm u C H R : kbuf u C -> Permutation H (C ++ R) -> tri rm H (ubuf_destroy u) (fun _ H' => Permutation H' R).
Proof.
  intros [[-> ->]|[Hu [d ->]]] HP; start HP; unfold ubuf_destroy.
  - simpl. fin. reflexivity.
  - apply N.eqb_neq in Hu. rewrite Hu. unfold ubuf. simpl app. go. fin. reflexivity.
Qed.

Definition vec (v d : N) (l : list N) : list cell := [(v, OVec d l); (d, OBytes)].
Lemma vec_init_ok rm H : tri rm H vec_init (fun v H' => v <> 0 /\ exists d, H' = vec v d [] ++ H).
Proof. unfold vec_init. go. fin. split; [assumption|]. eexists. reflexivity. Qed.
Lemma vec_add_ok rm v d l x H R : Permutation H (vec v d l ++ R) ->
  tri rm H (vec_add v x) (fun _ H' => exists d', Permutation H' (vec v d' (l ++ [x]) ++ R)).
Proof.
  intro HP. start HP. unfold vec. simpl app. unfold vec_add. go. destruct b; go; fin; [exists p|exists d]; unfold vec; simpl app; perm.
Qed.
Lemma vec_destroy_ok rm v d l H R : Permutation H (vec v d l ++ R) -> tri rm H (vec_destroy v) (fun _ H' => Permutation H' R).
Proof.
  intro HP. start HP. unfold vec. simpl app. unfold vec_destroy. eapply tri_nz; [left; reflexivity|]. intro Hv.
  apply N.eqb_neq in Hv. rewrite Hv. go. fin. reflexivity.
Qed.

Lemma for_each_ok {A} rm (l : list A) (f : A -> M unit) H (Inv : list A -> list cell -> Prop) :
  (forall x r H, Inv (x :: r) H -> tri rm H (f x) (fun _ H' => Inv r H')) ->
  Inv l H -> tri rm H (for_each l f) (fun _ H' => Inv [] H').
Proof.
  intro Hf. revert H. induction l as [|x r IH]; intros H HI; simpl.
  - fin. exact HI.
  - eapply tri_bind; [apply Hf, HI|]. intros u H' HI'. apply IH, HI'.
Qed.

(** ** Queries *)

Definition query_cells (q : N) (d : query_data) : list cell :=
  (q, OQuery d) :: blk (q_rdata d) ++ blk (q_name d) ++ blk (q_bailiwick d) ++ blk (q_err d).

(** Taking out a named piece. *)
Lemma takes_here {A} (c r : list A) : takes c (c ++ r) r.
Proof. unfold takes. reflexivity. Qed.
Lemma takes_end {A} (c : list A) : takes c c [].
Proof. unfold takes. rewrite app_nil_r. reflexivity. Qed.
Lemma takes_cons {A} (c : list A) y l r : takes c l r -> takes c (y :: l) (y :: r).
Proof. unfold takes. intro H. rewrite H. perm. Qed.
Lemma takes_left {A} (c a b r : list A) : takes c a r -> takes c (a ++ b) (r ++ b).
Proof. unfold takes. intro H. rewrite H. perm. Qed.
Lemma takes_right {A} (c a b r : list A) : takes c b r -> takes c (a ++ b) (a ++ r).
Proof. unfold takes. intro H. rewrite H. perm. Qed.
Ltac takes := first [ apply takes_here | apply takes_end | apply takes_cons; takes | apply takes_left; takes | apply takes_right; takes ].
Ltac fgo := repeat first [ step1 | lazymatch goal with |- tri _ _ (mbind (free _) _) _ => eapply tri_free_blk; [takes | tidy] end ].

Lemma query_init_ok rm k H : tri rm H (query_init k) (fun q H' => exists d, Permutation H' (query_cells q d ++ H) /\
   d = {| q_type := k; q_rdata := 0; q_name := 0; q_bailiwick := 0; q_stale := false; q_err := 0; q_do_timeout := false; q_do_deadline := false;
          q_aggregated := true; q_tfb := false; q_tfa := false; q_tlb := false; q_tla := false |}).
Proof. unfold query_init. go. fin. eexists. split; [|reflexivity]. reflexivity. Qed.

Lemma query_destroy_ok rm q d H R : Permutation H (query_cells q d ++ R) -> tri rm H (query_destroy q) (fun _ H' => Permutation H' R).
Proof.
  intro HP. start HP. unfold query_cells, query_destroy. simpl app. rewrite <- !app_assoc. eapply tri_nz; [left; reflexivity|]. intro Hq.
  apply N.eqb_neq in Hq. rewrite Hq. fgo. fin. perm.
Qed.

Lemma query_set_err_ok rm q d H R : Permutation H (query_cells q d ++ R) ->
  tri rm H (query_set_err q) (fun _ H' => exists e, Permutation H' (query_cells q (with_err e d) ++ R)).
Proof.
  intro HP. start HP. unfold query_cells, query_set_err. simpl app. rewrite <- !app_assoc. fgo. fin.
  exists p. simpl. rewrite (blk_nz p) by assumption. perm.
Qed.
Lemma with_err_id d : with_err (q_err d) d = d.
Proof. destruct d; reflexivity. Qed.
Lemma query_get_error_ok rm q d H R : Permutation H (query_cells q d ++ R) ->
  tri rm H (query_get_error q) (fun _ H' => exists e, Permutation H' (query_cells q (with_err e d) ++ R)).
Proof.
  intro HP. start HP. unfold query_cells, query_get_error. simpl app. rewrite <- !app_assoc. go.
  destruct (q_err d =? 0) eqn:E.
  - apply N.eqb_eq in E. rewrite E, blk_0. go. fin. exists p. simpl. rewrite (blk_nz p) by assumption. perm.
  - apply N.eqb_neq in E. rewrite (blk_nz (q_err d)) by assumption. go. fin. exists (q_err d). simpl.
    rewrite (blk_nz (q_err d)) by assumption. rewrite with_err_id. perm.
Qed.

(** The members the setters of names, data and record types leave alone. *)
Definition qflags (d : query_data) := (q_type d, q_do_timeout d, q_do_deadline d, q_aggregated d, (q_tfb d, q_tfa d, q_tlb d, q_tla d)).
Definition good_bailiwick (d : query_data) : bool := negb (q_bailiwick d =? 0) || negb (q_stale d).
Definition has_data (d : query_data) : Prop :=
  match q_type d with
  | ModelQuery.QRrset | ModelQuery.QRdataName => q_name d <> 0
  | ModelQuery.QRdataRaw => q_rdata d <> 0
  | _ => True
  end.

Ltac qperm :=
  unfold query_cells; simpl app;
  first [ perm
        | cbv [with_rdata with_name with_bailiwick with_err with_timeout with_deadline with_aggregated with_stale with_bound
               q_type q_rdata q_name q_bailiwick q_stale q_err q_do_timeout q_do_deadline q_aggregated q_tfb q_tfa q_tlb q_tla]; perm ].
Ltac cells := unfold query_cells; simpl app; rewrite <- ?app_assoc.

Lemma query_set_ok rm q d f H R : q_rdata (f d) = q_rdata d -> q_name (f d) = q_name d -> q_bailiwick (f d) = q_bailiwick d -> q_err (f d) = q_err d ->
  Permutation H (query_cells q d ++ R) -> tri rm H (query_set q f) (fun _ H' => Permutation H' (query_cells q (f d) ++ R)).
Proof.
  intros E1 E2 E3 E4 HP. start HP. unfold query_set. cells. go. fin. unfold query_cells. rewrite E1, E2, E3, E4. perm.
Qed.

Lemma load_name_name_ok rm q d null H R : Permutation H (query_cells q d ++ R) ->
  tri rm H (query_load_name q q_name with_name null) (fun r H' => exists x e, Permutation H' (query_cells q (with_err e (with_name x d)) ++ R) /\
     (r = true -> null = false -> x <> 0)).
Proof.
  intro HP. start HP. unfold query_load_name. cells. fgo. destruct null.
  - fin. exists 0, (q_err (with_name 0 d)). split; [|discriminate]. rewrite with_err_id. unfold query_cells. simpl. qperm.
  - fgo. destruct b.
    + fgo. fin. exists p, (q_err (with_name p d)). split; [|auto]. rewrite with_err_id. unfold query_cells. simpl. rewrite (blk_nz p) by assumption. qperm.
    + eapply tri_bind; [eapply (query_set_err_ok _ q (with_name 0 d) _ R)|].
      { unfold query_cells. simpl. qperm. }
      intros u H' (e & HP'). fin. exists 0, e. split; [exact HP'|discriminate].
Qed.
Lemma load_name_bailiwick_ok rm q d null H R : Permutation H (query_cells q d ++ R) ->
  tri rm H (query_load_name q q_bailiwick with_bailiwick null) (fun r H' => exists x e, Permutation H' (query_cells q (with_err e (with_bailiwick x d)) ++ R) /\
     (null = true -> r = true)).
Proof.
  intro HP. start HP. unfold query_load_name. cells. fgo. destruct null.
  - fin. exists 0, (q_err (with_bailiwick 0 d)). split; [|auto]. rewrite with_err_id. unfold query_cells. simpl. qperm.
  - fgo. destruct b.
    + fgo. fin. exists p, (q_err (with_bailiwick p d)). split; [|auto]. rewrite with_err_id. unfold query_cells. simpl. rewrite (blk_nz p) by assumption. qperm.
    + eapply tri_bind; [eapply (query_set_err_ok _ q (with_bailiwick 0 d) _ R)|].
      { unfold query_cells. simpl. qperm. }
      intros u H' (e & HP'). fin. exists 0, e. split; [exact HP'|discriminate].
Qed.

Lemma query_set_bailiwick_ok rm q d null H R : Permutation H (query_cells q d ++ R) ->
  tri rm H (query_set_bailiwick q null) (fun _ H' => exists d', Permutation H' (query_cells q d' ++ R) /\
     qflags d' = qflags d /\ q_rdata d' = q_rdata d /\ q_name d' = q_name d /\ (null = true -> good_bailiwick d = true -> good_bailiwick d' = true)).
Proof.
  intro HP. unfold query_set_bailiwick.
  assert (Hi : In (q, OQuery d) H) by (rewrite HP; left; reflexivity). go.
  assert (Hrr : tri rm H
    (let! r := query_load_name q q_bailiwick with_bailiwick null in
     let! d := as_query q in
     store q (OQuery (with_stale (negb r) d)) ;;
     let! d := as_query q in
     if negb r || (q_bailiwick d =? 0) then ret r
     else
       let! rev := malloc OBytes in
       as_bytes (q_bailiwick d) ;;
       let! reversed := choose in
       if reversed then
         free (q_bailiwick d) ;;
         store q (OQuery (with_bailiwick rev d)) ;;
         ret true
       else free rev ;; ret false)
     (fun _ H' => exists d', Permutation H' (query_cells q d' ++ R) /\
     qflags d' = qflags d /\ q_rdata d' = q_rdata d /\ q_name d' = q_name d /\ (null = true -> good_bailiwick d = true -> good_bailiwick d' = true))).
  { eapply tri_bind; [apply (load_name_bailiwick_ok _ q d null H R HP)|]. intros r H1 (x & e & HP1 & Hn).
    clear H HP Hi. start HP1. cells. go. simpl. destruct r; simpl.
    - destruct (x =? 0) eqn:Ex.
      + fin. exists (with_stale false (with_err e (with_bailiwick x d))). repeat apply conj; try reflexivity.
        * unfold query_cells. simpl. qperm.
        * intros _ _. unfold good_bailiwick. simpl. rewrite orb_true_r. reflexivity.
      + apply N.eqb_neq in Ex. rewrite (blk_nz x) by assumption. go. destruct b; go; fin.
        * exists (with_bailiwick p (with_stale false (with_err e (with_bailiwick x d)))). repeat apply conj; try reflexivity.
          -- unfold query_cells. simpl. rewrite (blk_nz p) by assumption. qperm.
          -- intros _ _. unfold good_bailiwick. simpl. rewrite orb_true_r. reflexivity.
        * exists (with_stale false (with_err e (with_bailiwick x d))). repeat apply conj; try reflexivity.
          -- unfold query_cells. simpl. rewrite (blk_nz x) by assumption. qperm.
          -- intros _ _. unfold good_bailiwick. simpl. rewrite orb_true_r. reflexivity.
    - fin. exists (with_stale true (with_err e (with_bailiwick x d))). repeat apply conj; try reflexivity.
      + unfold query_cells. simpl. qperm.
      + intro E. specialize (Hn E). discriminate. }
  destruct (q_type d); [exact Hrr|..];
    (eapply tri_bind; [apply (query_set_err_ok _ q d H R HP)|]; intros u H1 (e & HP1); fin; exists (with_err e d); repeat apply conj; auto).
Qed.

Lemma query_set_data_raw_ok rm q d null H R : Permutation H (query_cells q d ++ R) ->
  tri rm H (query_set_data_raw q null) (fun r H' => exists x, Permutation H' (query_cells q (with_rdata x d) ++ R) /\
     (r = true -> null = false -> x <> 0)).
Proof.
  intro HP. start HP. unfold query_set_data_raw. cells. fgo. destruct null.
  - fin. exists 0. split; [|discriminate]. unfold query_cells. simpl. qperm.
  - go. destruct b.
    + go. destruct b.
      * fin. exists p. split; [|auto]. unfold query_cells. simpl. rewrite (blk_nz p) by assumption. qperm.
      * go. fin. exists 0. split; [|discriminate]. unfold query_cells. simpl. qperm.
    + fin. exists 0. split; [|discriminate]. unfold query_cells. simpl. qperm.
Qed.

Lemma query_set_data_ip_ok rm q d null H R : Permutation H (query_cells q d ++ R) ->
  tri rm H (query_set_data_ip q null) (fun r H' => exists e, Permutation H' (query_cells q (with_err e d) ++ R)).
Proof.
  intro HP. unfold query_set_data_ip. destruct null.
  { fin. exists (q_err d). rewrite with_err_id. exact HP. }
  go. apply tri_bind with (P := fun s H' => Permutation H' (query_cells q d ++ blk s ++ R)).
  { destruct b; go; fin; simpl; [|exact HP]. rewrite (blk_nz p) by assumption. rewrite HP. qperm. }
  intros s H1 HP1. go.
  apply tri_bind with (P := fun _ H' => exists e, Permutation H' (query_cells q (with_err e d) ++ blk s ++ R)).
  - destruct b0.
    + fin. exists (q_err d). rewrite with_err_id. exact HP1.
    + go. destruct b0; [apply query_set_err_ok, HP1|]. fin. exists (q_err d). rewrite with_err_id. exact HP1.
  - intros u H2 (e & HP2). start HP2. fgo. fin. exists e. reflexivity.
Qed.

Lemma query_set_data_ok rm q d null H R : Permutation H (query_cells q d ++ R) ->
  tri rm H (query_set_data q null) (fun r H' => exists d', Permutation H' (query_cells q d' ++ R) /\
     qflags d' = qflags d /\ good_bailiwick d' = good_bailiwick d /\ (r = true -> null = false -> has_data d')).
Proof.
  intro HP. unfold query_set_data. assert (Hi : In (q, OQuery d) H) by (rewrite HP; left; reflexivity). go.
  destruct (q_type d) eqn:E.
  1,2: (eapply tri_post; [apply (load_name_name_ok _ q d null H R HP)|]; intros r H1 (x & e & HP1 & Hn);
        exists (with_err e (with_name x d)); repeat apply conj; [exact HP1|reflexivity|reflexivity|]; unfold has_data; simpl; rewrite E; exact Hn).
  - eapply tri_post; [apply (query_set_data_ip_ok _ q d null H R HP)|]. intros r H1 (e & HP1). exists (with_err e d).
    repeat apply conj; [exact HP1|reflexivity|reflexivity|]. unfold has_data. simpl. rewrite E. trivial.
  - eapply tri_post; [apply (query_set_data_raw_ok _ q d null H R HP)|]. intros r H1 (x & HP1 & Hn). exists (with_rdata x d).
    repeat apply conj; [exact HP1|reflexivity|reflexivity|]. unfold has_data. simpl. rewrite E. exact Hn.
  - fin. exists d. repeat apply conj; auto. unfold has_data. rewrite E. trivial.
  - fin. exists d. repeat apply conj; auto. unfold has_data. rewrite E. trivial.
  - destruct null; [|go]; fin; exists d; repeat apply conj; auto; unfold has_data; rewrite E; trivial.
Qed.

Lemma query_set_rrtype_ok rm q d null H R : Permutation H (query_cells q d ++ R) ->
  tri rm H (query_set_rrtype q null) (fun r H' => exists e, Permutation H' (query_cells q (with_err e d) ++ R)).
Proof.
  intro HP. unfold query_set_rrtype. assert (Hi : In (q, OQuery d) H) by (rewrite HP; left; reflexivity). go.
  destruct null; [|go; destruct b].
  1,2: (fin; exists (q_err d); rewrite with_err_id; exact HP).
  eapply tri_bind; [apply (query_set_err_ok _ q d H R HP)|]. intros u H1 (e & HP1). fin. exists e. exact HP1.
Qed.

(** ** Entries *)

Definition entry_members (k : entry_kind) (map info name bailiwick : N) : Prop :=
  match k with
  | ERrset => name <> 0 /\ bailiwick <> 0
  | ERdata | ERrsetName | ERdataName => name <> 0
  | ESourceInfo => info <> 0
  | _ => True
  end.
Definition rdata_cells (l : list N) : list cell := map (fun p => (p, OBytes)) l.
(** The blocks of an entry. *)
Inductive entry (e : N) (k : entry_kind) : list cell -> Prop :=
| entry_intro v d l map info name bailiwick Cm Ci :
    kbuf map Cm -> kbuf info Ci -> entry_members k map info name bailiwick ->
    entry e k ((e, OEntry k v map info name bailiwick) :: vec v d l ++ rdata_cells l ++ Cm ++ Ci ++ blk name ++ blk bailiwick).

Lemma tri_free_list rm l : forall H R, Permutation H (rdata_cells l ++ R) -> tri rm H (for_each l free) (fun _ H' => Permutation H' R).
Proof.
  induction l as [|x l IH]; intros H R HP; simpl.
  - fin. exact HP.
  - start HP. simpl. eapply tri_free; [focus|]. apply IH. reflexivity.
Qed.

Lemma entry_destroy_any rm e k v d l map info name bailiwick Cm Ci H R : kbuf map Cm -> kbuf info Ci ->
  Permutation H (((e, OEntry k v map info name bailiwick) :: vec v d l ++ rdata_cells l ++ Cm ++ Ci ++ blk name ++ blk bailiwick) ++ R) ->
  tri rm H (entry_destroy e) (fun _ H' => Permutation H' R).
Proof.
  intros Hm Hi HP. start HP. simpl app. rewrite <- ?app_assoc. unfold entry_destroy. eapply tri_nz; [left; reflexivity|]. intro He.
  apply N.eqb_neq in He. rewrite He. go.
  eapply tri_bind; [apply (tri_free_list _ l _ ((e, OEntry k v map info name bailiwick) :: vec v d l ++ Cm ++ Ci ++ blk name ++ blk bailiwick ++ R)); unfold vec; simpl app; perm|].
  intros u1 H1 HP1. cbv beta in HP1.
  eapply tri_bind; [apply (ubuf_destroy_ok _ map Cm _ ((e, OEntry k v map info name bailiwick) :: vec v d l ++ Ci ++ blk name ++ blk bailiwick ++ R) Hm); rewrite HP1; unfold vec; simpl app; perm|].
  intros u2 H2 HP2. cbv beta in HP2.
  eapply tri_bind; [apply (ubuf_destroy_ok _ info Ci _ ((e, OEntry k v map info name bailiwick) :: vec v d l ++ blk name ++ blk bailiwick ++ R) Hi); rewrite HP2; unfold vec; simpl app; perm|].
  intros u3 H3 HP3. cbv beta in HP3.
  eapply tri_bind; [apply (vec_destroy_ok _ v d l _ ((e, OEntry k v map info name bailiwick) :: blk name ++ blk bailiwick ++ R)); rewrite HP3; unfold vec; simpl app; perm|].
  intros u4 H4 HP4. cbv beta in HP4. start HP4. fgo. fin. reflexivity.
Qed.
Lemma entry_destroy_ok rm e k C H R : entry e k C -> Permutation H (C ++ R) -> tri rm H (entry_destroy e) (fun _ H' => Permutation H' R).
Proof. intros [v d l map info name bailiwick Cm Ci Hm Hi _] HP. eapply entry_destroy_any; [exact Hm|exact Hi|exact HP]. Qed.

Lemma decode_rdatas_ok rm n : forall v d l H R, Permutation H (vec v d l ++ rdata_cells l ++ R) ->
  tri rm H (decode_rdatas n v) (fun _ H' => exists d' l', Permutation H' (vec v d' l' ++ rdata_cells l' ++ R)).
Proof.
  induction n as [|n IH]; intros v d l H R HP; simpl; [apply tri_hang|]. go. destruct b.
  - go. destruct b.
    + go. eapply tri_bind; [apply (vec_add_ok _ v d l p _ ((p, OBytes) :: rdata_cells l ++ R)); rewrite HP; unfold vec; simpl app; perm|].
      intros u H1 (d' & HP1). cbv beta in HP1. apply (IH v d' (l ++ [p])). rewrite HP1. unfold rdata_cells. rewrite map_app. unfold vec. simpl app. simpl map. perm.
    + fin. exists d, l. exact HP.
  - fin. exists d, l. exact HP.
Qed.

Lemma rdata_cells_app l x : rdata_cells (l ++ [x]) = rdata_cells l ++ [(x, OBytes)].
Proof. unfold rdata_cells. rewrite map_app. reflexivity. Qed.

(** The blocks of an entry some of whose members are still missing. *)
Inductive partial_entry (e : N) (k : entry_kind) (v : N) : list cell -> Prop :=
| partial_intro d l map info name bailiwick Cm Ci :
    kbuf map Cm -> kbuf info Ci ->
    partial_entry e k v ((e, OEntry k v map info name bailiwick) :: vec v d l ++ rdata_cells l ++ Cm ++ Ci ++ blk name ++ blk bailiwick).
Lemma kbuf_0 : kbuf 0 [].
Proof. left. auto. Qed.

Lemma decode_as_ok rm n e k v d H R : Permutation H ((e, OEntry k v 0 0 0 0) :: vec v d [] ++ R) ->
  tri rm H (decode_as n k e v) (fun r H' => exists C, Permutation H' (C ++ R) /\ if r : bool then entry e k C else partial_entry e k v C).
Proof.
  intro HP.
  assert (Hstop : forall H name bailiwick d l, Permutation H ((e, OEntry k v 0 0 name bailiwick) :: vec v d l ++ rdata_cells l ++ blk name ++ blk bailiwick ++ R) ->
     exists C, Permutation H (C ++ R) /\ partial_entry e k v C).
  { intros H0 name bailiwick d0 l HP0. eexists. split; [|apply (partial_intro e k v d0 l 0 0 name bailiwick [] [] kbuf_0 kbuf_0)]. rewrite HP0. unfold vec. simpl app. perm. }
  assert (Hdone : forall H name bailiwick d l, entry_members k 0 0 name bailiwick -> Permutation H ((e, OEntry k v 0 0 name bailiwick) :: vec v d l ++ rdata_cells l ++ blk name ++ blk bailiwick ++ R) ->
     exists C, Permutation H (C ++ R) /\ entry e k C).
  { intros H0 name bailiwick d0 l He HP0. eexists. split; [|apply (entry_intro e k v d0 l 0 0 name bailiwick [] [] kbuf_0 kbuf_0 He)]. rewrite HP0. unfold vec. simpl app. perm. }
  assert (Hname : k = ERrsetName \/ k = ERdataName -> tri rm H
     (let! name := malloc OBytes in
      store e (OEntry k v 0 0 name 0) ;;
      let! ok := (match k with ERdataName => choose | _ => ret true end) in
      if negb ok then ret false
      else
        let! types := choose in
        (if types then
           let! u := ubuf_init in
           store e (OEntry k v u 0 name 0) ;;
           ubuf_write u
         else ret tt) ;;
        ret true) (fun r H' => exists C, Permutation H' (C ++ R) /\ if r : bool then entry e k C else partial_entry e k v C)).
  { intro Hk. start HP. unfold vec. simpl app. go.
    apply tri_bind with (P := fun ok H' => H' = (e, OEntry k v 0 0 p 0) :: (p, OBytes) :: (v, OVec d []) :: (d, OBytes) :: R).
    { destruct k; go; fin; reflexivity. }
    intros ok H1 ->. destruct ok; simpl negb; cbv iota.
    - go. destruct b.
      + go. use ubuf_init_ok. intros u H1 (Hu & d1 & ->). go.
        eapply tri_bind; [apply (ubuf_write_ok _ u d1 _ ((e, OEntry k v u 0 p 0) :: (p, OBytes) :: (v, OVec d []) :: (d, OBytes) :: R)); unfold ubuf; simpl app; perm|].
        intros u2 H2 (d2 & HP2). cbv beta in HP2. fin. eexists. split; [|apply (entry_intro e k v d [] u 0 p 0 (ubuf u d2) [])].
        * rewrite HP2. unfold vec, ubuf. simpl app. rewrite (blk_nz p) by assumption. simpl. perm.
        * right. eauto.
        * apply kbuf_0.
        * destruct Hk as [-> | ->]; exact Hp.
      + go. fin. apply (Hdone _ p 0 d []); [destruct Hk as [-> | ->]; exact Hp|]. rewrite (blk_nz p) by assumption. unfold vec. simpl. perm.
    - fin. apply (Hstop _ p 0 d []). rewrite (blk_nz p) by assumption. unfold vec. simpl. perm. }
  unfold decode_as. destruct k; try (apply Hname; auto); clear Hname.
  - (* an RRset *)
    start HP. unfold vec. simpl app. go. destruct b; simpl negb; cbv iota; [|fin; apply (Hstop _ 0 0 d []); reflexivity].
    go. destruct b; simpl negb; cbv iota; [|fin; apply (Hstop _ p 0 d []); rewrite (blk_nz p) by assumption; unfold vec; simpl; perm].
    go. eapply tri_bind; [apply (decode_rdatas_ok _ n v d [] _ ((e, OEntry ERrset v 0 0 p p0) :: (p, OBytes) :: (p0, OBytes) :: R)); unfold vec; simpl; perm|].
    intros ok H1 (d1 & l & HP1). cbv beta in HP1.
    assert (HP2 : Permutation H1 ((e, OEntry ERrset v 0 0 p p0) :: vec v d1 l ++ rdata_cells l ++ blk p ++ blk p0 ++ R)).
    { rewrite HP1. rewrite (blk_nz p), (blk_nz p0) by assumption. unfold vec. simpl app. perm. }
    destruct ok; simpl negb; cbv iota.
    + go. fin. destruct b; [apply (Hdone _ p p0 d1 l); [split; assumption|exact HP2]|apply (Hstop _ p p0 d1 l), HP2].
    + fin. apply (Hstop _ p p0 d1 l), HP2.
  - (* rdata *)
    start HP. unfold vec. simpl app. go. destruct b; simpl negb; cbv iota; [|fin; apply (Hstop _ 0 0 d []); reflexivity].
    go. destruct b; simpl negb; cbv iota; [|fin; apply (Hstop _ p 0 d []); rewrite (blk_nz p) by assumption; unfold vec; simpl; perm].
    go. eapply tri_bind; [apply (vec_add_ok _ v d [] p0 _ ((e, OEntry ERdata v 0 0 p 0) :: (p, OBytes) :: (p0, OBytes) :: R)); unfold vec; simpl; perm|].
    intros u H1 (d1 & HP1). cbv beta in HP1.
    assert (HP2 : Permutation H1 ((e, OEntry ERdata v 0 0 p 0) :: vec v d1 [p0] ++ rdata_cells [p0] ++ blk p ++ blk 0 ++ R)).
    { rewrite HP1. rewrite (blk_nz p) by assumption. unfold vec. simpl. perm. }
    go. fin. destruct b; [apply (Hdone _ p 0 d1 [p0]); [assumption|exact HP2]|apply (Hstop _ p 0 d1 [p0]), HP2].
  - go. fin. destruct b; [apply (Hdone _ 0 0 d [])|apply (Hstop _ 0 0 d [])]; try exact I; rewrite HP; reflexivity.
  - (* source information *)
    start HP. unfold vec. simpl app. use ubuf_init_ok. intros u H1 (Hu & d1 & ->). go.
    eapply tri_bind; [apply (ubuf_write_ok _ u d1 _ ((e, OEntry ESourceInfo v 0 u 0 0) :: (v, OVec d []) :: (d, OBytes) :: R)); unfold ubuf; simpl app; perm|].
    intros u2 H2 (d2 & HP2). cbv beta in HP2. fin. eexists. split; [|apply (entry_intro e ESourceInfo v d [] 0 u 0 0 [] (ubuf u d2))].
    + rewrite HP2. unfold vec, ubuf. simpl. perm.
    + apply kbuf_0.
    + right. eauto.
    + exact Hu.
  - go. fin. destruct b; [apply (Hdone _ 0 0 d [])|apply (Hstop _ 0 0 d [])]; try exact I; rewrite HP; reflexivity.
  - fin. apply (Hdone _ 0 0 d []); [exact I|]. rewrite HP. reflexivity.
Qed.

Lemma entry_decode_ok rm n H : tri rm H (entry_decode n) (fun e H' => (e = 0 /\ Permutation H' H) \/ (e <> 0 /\ exists k C, entry e k C /\ Permutation H' (C ++ H))).
Proof.
  unfold entry_decode. go. destruct (x =? 0); [fin; left; auto|]. use vec_init_ok. intros v H1 (Hv & d & ->). go.
  eapply tri_bind; [apply (decode_as_ok _ n p (entry_kind_of x) v d _ H); reflexivity|]. intros ok H1 (C & HP & Hok). cbv beta in HP. destruct ok.
  - fin. right. split; [assumption|]. eauto.
  - destruct Hok as [d' l map info name bailiwick Cm Ci Hm Hi].
    eapply tri_bind; [eapply entry_destroy_any; [exact Hm|exact Hi|exact HP]|]. intros u H2 HP2. fin. left. auto.
Qed.

Lemma for_each_bytes rm l : forall H, incl (rdata_cells l) H -> tri rm H (for_each l as_bytes) (fun _ H' => H' = H).
Proof.
  induction l as [|x l IH]; intros H Hi; simpl; [fin; reflexivity|].
  assert (Hx : In (x, OBytes) H) by (apply Hi; left; reflexivity). go. apply IH. intros y Hy. apply Hi. right. exact Hy.
Qed.
Lemma kbuf_read_ok rm u C H : kbuf u C -> incl C H -> tri rm H (if u =? 0 then ret tt else ubuf_read u) (fun _ H' => H' = H).
Proof.
  intros [[-> ->]|[Hu [d ->]]] Hi; [fin; reflexivity|]. apply N.eqb_neq in Hu. rewrite Hu. apply ubuf_read_ok with d. exact Hi.
Qed.
Lemma blk_read_ok rm p H : incl (blk p) H -> tri rm H (if p =? 0 then ret tt else as_bytes p) (fun _ H' => H' = H).
Proof.
  unfold blk. destruct (p =? 0); intro Hi; [fin; reflexivity|]. assert (Hx : In (p, OBytes) H) by (apply Hi; left; reflexivity).
  go. fin. reflexivity.
Qed.

Lemma entry_read_ok rm e k C H : entry e k C -> incl C H -> tri rm H (entry_read e) (fun _ H' => H' = H).
Proof.
  intros [v d l map info name bailiwick Cm Ci Hm Hi _] Hin. unfold entry_read.
  assert (H1 : In (e, OEntry k v map info name bailiwick) H) by (apply Hin; left; reflexivity).
  assert (H2 : incl (vec v d l ++ rdata_cells l ++ Cm ++ Ci ++ blk name ++ blk bailiwick) H) by (intros x Hx; apply Hin; right; exact Hx).
  apply incl_app_inv in H2 as [Hv H2]. apply incl_app_inv in H2 as [Hl H2]. apply incl_app_inv in H2 as [HCm H2].
  apply incl_app_inv in H2 as [HCi H2]. apply incl_app_inv in H2 as [Hn Hb].
  assert (H3 : In (v, OVec d l) H) by (apply Hv; left; reflexivity).
  assert (H4 : In (d, OBytes) H) by (apply Hv; right; left; reflexivity).
  go. eapply tri_bind; [apply for_each_bytes, Hl|]. intros u1 H' ->.
  eapply tri_bind; [apply (kbuf_read_ok _ _ _ _ Hm HCm)|]. intros u2 H' ->.
  eapply tri_bind; [apply (kbuf_read_ok _ _ _ _ Hi HCi)|]. intros u3 H' ->.
  eapply tri_bind; [apply (blk_read_ok _ _ _ Hn)|]. intros u4 H' ->.
  apply (blk_read_ok _ _ _ Hb).
Qed.
Lemma entry_known_ok rm e k C H : entry e k C -> incl C H ->
  tri rm H (entry_known e) (fun r H' => H' = H /\ r = match k with EUnknown => false | _ => true end).
Proof.
  intros [v d l map info name bailiwick Cm Ci Hm Hi _] Hin. unfold entry_known.
  assert (H1 : In (e, OEntry k v map info name bailiwick) H) by (apply Hin; left; reflexivity). go.
  destruct k; fin; auto.
Qed.
Lemma query_filter_ok rm q d e k C H : In (q, OQuery d) H -> incl (blk (q_bailiwick d)) H -> entry e k C -> incl C H ->
  tri rm H (query_filter q e) (fun _ H' => H' = H).
Proof.
  intros Hq Hb [v dd l map info name bailiwick Cm Ci Hm Hi _] Hin. unfold query_filter.
  assert (H1 : In (e, OEntry k v map info name bailiwick) H) by (apply Hin; left; reflexivity).
  assert (Hb2 : incl (blk bailiwick) H) by (intros x Hx; apply Hin; right; rewrite !in_app_iff; tauto). go.
  destruct (q_type d); try (fin; reflexivity).
  destruct (q_bailiwick d =? 0) eqn:E1; simpl; [fin; reflexivity|]. destruct (bailiwick =? 0) eqn:E2; simpl; [fin; reflexivity|].
  unfold blk in *. rewrite E1 in Hb. rewrite E2 in Hb2.
  assert (H2 : In (q_bailiwick d, OBytes) H) by (apply Hb; left; reflexivity).
  assert (H3 : In (bailiwick, OBytes) H) by (apply Hb2; left; reflexivity).
  go. destruct k; try (fin; reflexivity). destruct b; [go|]; fin; reflexivity.
Qed.

Lemma format_rdata_ok rm u d p H R : Permutation H (ubuf u d ++ R) -> In (p, OBytes) R ->
  tri rm H (format_rdata u p) (fun _ H' => exists d', Permutation H' (ubuf u d' ++ R)).
Proof.
  intros HP Hi. start HP. unfold format_rdata, ubuf. simpl app. go.
  eapply tri_bind; [apply (ubuf_write_ok _ u d _ ((p0, OBytes) :: R)); unfold ubuf; simpl app; perm|].
  intros u1 H1 (d' & HP1). cbv beta in HP1. start HP1. unfold ubuf. simpl app. go. fin. exists d'. reflexivity.
Qed.
Lemma format_raw_ok rm u d p H R : Permutation H (ubuf u d ++ R) -> In (p, OBytes) R ->
  tri rm H (format_raw u p) (fun _ H' => exists d', Permutation H' (ubuf u d' ++ R)).
Proof.
  intros HP Hi. start HP. unfold format_raw. use ubuf_init_ok. intros r H1 (Hr & dr & ->). go.
  eapply tri_bind; [apply (ubuf_write_ok _ r dr _ (ubuf u d ++ R)); perm|]. intros u1 H1 (d1 & HP1). cbv beta in HP1.
  eapply tri_bind; [apply (ubuf_detach_ok _ r d1 _ (ubuf u d ++ R)); exact HP1|]. intros s H2 (Hs & d2 & HP2). cbv beta in HP2.
  eapply tri_bind; [apply (ubuf_destroy_ok _ r (ubuf r d2) _ ((s, OBytes) :: ubuf u d ++ R)); [right; eauto|rewrite HP2; perm]|]. intros u3 H3 HP3. cbv beta in HP3.
  start HP3. go. eapply tri_bind; [apply (ubuf_write_ok _ u d _ ((s, OBytes) :: R)); perm|]. intros u4 H4 (d4 & HP4). cbv beta in HP4.
  start HP4. unfold ubuf. simpl app. go. fin. exists d4. reflexivity.
Qed.
Lemma for_each_format rm u (f : N -> N -> M unit) R l :
  (forall d p H, Permutation H (ubuf u d ++ R) -> In (p, OBytes) R -> tri rm H (f u p) (fun _ H' => exists d', Permutation H' (ubuf u d' ++ R))) ->
  incl (rdata_cells l) R -> forall d H, Permutation H (ubuf u d ++ R) -> tri rm H (for_each l (f u)) (fun _ H' => exists d', Permutation H' (ubuf u d' ++ R)).
Proof.
  intros Hf. induction l as [|x l IH]; intros Hi d H HP; simpl for_each; [fin; exists d; exact HP|].
  eapply tri_bind; [apply (Hf d x H HP), Hi; left; reflexivity|]. intros u1 H1 (d' & HP1). apply (IH (fun y Hy => Hi y (or_intror Hy)) d' H1 HP1).
Qed.

Lemma entry_format_ok rm json raw e k C H R : k <> EUnknown -> entry e k C -> Permutation H (C ++ R) ->
  tri rm H (entry_format json raw e) (fun s H' => exists C', entry e k C' /\ Permutation H' (blk s ++ C' ++ R)).
Proof.
  intros Hk HC HP. unfold entry_format. use ubuf_init_ok. intros u H1 (Hu & du & ->).
  destruct HC as [v d l map info name bailiwick Cm Ci Hm Hi Hmem].
  set (C := (e, OEntry k v map info name bailiwick) :: vec v d l ++ rdata_cells l ++ Cm ++ Ci ++ blk name ++ blk bailiwick) in *.
  assert (Hin : incl C H) by (intros x Hx; rewrite HP; apply in_or_app; left; exact Hx).
  assert (Hent : entry e k C) by (constructor; assumption).
  assert (H1 : In (e, OEntry k v map info name bailiwick) H) by (apply Hin; left; reflexivity).
  assert (H2 : incl (vec v d l ++ rdata_cells l ++ Cm ++ Ci ++ blk name ++ blk bailiwick) H) by (intros x Hx; apply Hin; right; exact Hx).
  apply incl_app_inv in H2 as [Hv H2]. apply incl_app_inv in H2 as [Hl H2]. apply incl_app_inv in H2 as [HCm H2].
  apply incl_app_inv in H2 as [HCi H2]. apply incl_app_inv in H2 as [Hn Hb].
  assert (H3 : In (v, OVec d l) H) by (apply Hv; left; reflexivity).
  assert (H4 : In (d, OBytes) H) by (apply Hv; right; left; reflexivity).
  go.
  apply tri_bind with (P := fun fine H' => exists C' du', entry e k C' /\ Permutation H' (ubuf u du' ++ C' ++ R)).
  - assert (HP' : Permutation (ubuf u du ++ H) (ubuf u du ++ C ++ R)) by (rewrite HP; perm).
    assert (Hkeep : forall H' du', Permutation H' (ubuf u du' ++ H) -> exists C' du', entry e k C' /\ Permutation H' (ubuf u du' ++ C' ++ R)).
    { intros H' du' HP2. exists C, du'. split; [exact Hent|]. rewrite HP2, HP. perm. }
    destruct k; try congruence.
    + (* an RRset *)
      destruct Hmem as [Hname Hbail]. rewrite (blk_nz _ Hname) in Hn. rewrite (blk_nz _ Hbail) in Hb.
      assert (Hn' : In (name, OBytes) H) by (apply Hn; left; reflexivity). assert (Hb' : In (bailiwick, OBytes) H) by (apply Hb; left; reflexivity).
      go. eapply tri_bind; [apply (ubuf_write_ok _ u du _ H); reflexivity|]. intros u1 H5 (d1 & HP1). cbv beta in HP1.
      eapply tri_bind; [apply (for_each_format _ u format_rdata H l (fun d p H0 => format_rdata_ok _ u d p H0 H) Hl d1 _ HP1)|].
      intros u2 H6 (d2 & HP2). cbv beta in HP2. go.
      apply tri_bind with (P := fun _ H' => exists d', Permutation H' (ubuf u d' ++ H)).
      * destruct (json && raw); [|fin; eauto]. apply (for_each_format _ u format_raw H l (fun d p H0 => format_raw_ok _ u d p H0 H) Hl d2 _ HP2).
      * intros u3 H7 (d3 & HP3). fin. eapply Hkeep, HP3.
    + (* names *)
      simpl in Hmem. rewrite (blk_nz _ Hmem) in Hn. assert (Hn' : In (name, OBytes) H) by (apply Hn; left; reflexivity).
      go. eapply tri_bind; [apply (kbuf_read_ok _ _ _ _ Hm); inclu|]. intros u1 H5 ->.
      eapply tri_bind; [apply (ubuf_write_ok _ u du _ H); reflexivity|]. intros u2 H6 (d1 & HP1). fin. eapply Hkeep, HP1.
    + (* rdata *)
      simpl in Hmem. rewrite (blk_nz _ Hmem) in Hn. assert (Hn' : In (name, OBytes) H) by (apply Hn; left; reflexivity).
      go. eapply tri_bind; [apply (ubuf_write_ok _ u du _ H); reflexivity|]. intros u2 H6 (d1 & HP1). cbv beta in HP1.
      destruct l as [|x [|y l]]; try (fin; eapply Hkeep, HP1).
      assert (Hx : In (x, OBytes) H) by (apply Hl; left; reflexivity).
      eapply tri_bind; [apply (format_rdata_ok _ u d1 x _ H HP1 Hx)|]. intros u3 H7 (d3 & HP3). cbv beta in HP3.
      apply tri_bind with (P := fun _ H' => exists d', Permutation H' (ubuf u d' ++ H)).
      * destruct (json && raw); [|fin; eauto]. apply (format_raw_ok _ u d3 x _ H HP3 Hx).
      * intros u4 H8 (d4 & HP4). fin. eapply Hkeep, HP4.
    + simpl in Hmem. rewrite (blk_nz _ Hmem) in Hn. assert (Hn' : In (name, OBytes) H) by (apply Hn; left; reflexivity).
      go. eapply tri_bind; [apply (kbuf_read_ok _ _ _ _ Hm); inclu|]. intros u1 H5 ->.
      eapply tri_bind; [apply (ubuf_write_ok _ u du _ H); reflexivity|]. intros u2 H6 (d1 & HP1). fin. eapply Hkeep, HP1.
    + eapply tri_bind; [apply (ubuf_write_ok _ u du _ H); reflexivity|]. intros u2 H6 (d1 & HP1). fin. eapply Hkeep, HP1.
    + (* source information *)
      simpl in Hmem. destruct Hi as [[-> _]|[_ [di ->]]]; [congruence|].
      set (rest := (e, OEntry ESourceInfo v map info name bailiwick) :: vec v d l ++ rdata_cells l ++ Cm ++ blk name ++ blk bailiwick ++ R).
      assert (HPi : Permutation (ubuf u du ++ H) (ubuf info di ++ ubuf u du ++ rest)).
      { rewrite HP'. unfold C, rest, vec, ubuf. simpl app. perm. }
      eapply tri_bind; [apply (ubuf_write_ok _ info di _ _ HPi)|]. intros u1 H5 (di' & HP1). cbv beta in HP1.
      eapply tri_bind; [apply (ubuf_read_ok _ info di'); intros x Hx; rewrite HP1; apply in_or_app; left; exact Hx|]. intros u2 H6 ->.
      eapply tri_bind; [apply (ubuf_write_ok _ u du _ (ubuf info di' ++ rest)); rewrite HP1; perm|]. intros u3 H7 (d3 & HP3). cbv beta in HP3. fin.
      exists ((e, OEntry ESourceInfo v map info name bailiwick) :: vec v d l ++ rdata_cells l ++ Cm ++ ubuf info di' ++ blk name ++ blk bailiwick), d3. split.
      * constructor; [exact Hm| |exact Hmem]. right. eauto.
      * rewrite HP3. unfold rest, vec, ubuf. simpl app. perm.
    + eapply tri_bind; [apply (ubuf_write_ok _ u du _ H); reflexivity|]. intros u2 H6 (d1 & HP1). fin. eapply Hkeep, HP1.
  - intros fine H5 (C' & du' & HC' & HP5). destruct fine.
    + eapply tri_bind; [apply (ubuf_write_ok _ u du' _ _ HP5)|]. intros u1 H6 (d6 & HP6). cbv beta in HP6.
      eapply tri_bind; [apply (ubuf_detach_ok _ u d6 _ _ HP6)|]. intros s H7 (Hs & d7 & HP7). cbv beta in HP7.
      eapply tri_bind; [apply (ubuf_destroy_ok _ u (ubuf u d7) _ ((s, OBytes) :: C' ++ R)); [right; eauto|rewrite HP7; perm]|]. intros u3 H8 HP8. fin.
      exists C'. split; [exact HC'|]. rewrite HP8, (blk_nz _ Hs). perm.
    + eapply tri_bind; [apply (ubuf_destroy_ok _ u (ubuf u du') _ (C' ++ R)); [right; eauto|exact HP5]|]. intros u3 H8 HP8. fin.
      exists C'. split; [exact HC'|]. rewrite HP8. reflexivity.
Qed.

(** Property C91: time bounds that split the time split the answers. *)
From Coq Require Import Permutation.
From Verif Require Import Base BaseFacts SpecMerge SpecName ModelEntry SpecEntry ModelIter SpecIter ModelQuery SpecQuery PropsQuery SelectProofs.
From Verif Require Import ModelReader SpecReader PropsReader ModelSetters ModelFileset SpecFileset FilesetProofs FilesetDirect FilesetQueries FilesetGrouped CompactionProofs SpecOrder Demo FilesetDemo PropsIter PropsFileset PropsGrow PropsNarrow.

(** [l] dealt out into two lists, each in the order of [l]. *)
Inductive dealt {A : Type} : list A -> list A -> list A -> Prop :=
| dealt_nil : dealt [] [] []
| dealt_left : forall x a b l, dealt a b l -> dealt (x :: a) b (x :: l)
| dealt_right : forall x a b l, dealt a b l -> dealt a (x :: b) (x :: l).

(** Every time that [q] lets through, exactly one of [q1] and [q2] lets through, and no other. *)
Definition bounds_split (q q1 q2 : query) : Prop :=
  forall o, (in_fence q o <-> in_fence q1 o \/ in_fence q2 o) /\ ~ (in_fence q1 o /\ in_fence q2 o).

Lemma dealt_app : forall (A : Type) (a b l a' b' l' : list A), dealt a b l -> dealt a' b' l' -> dealt (a ++ a') (b ++ b') (l ++ l').
Proof. intros A a b l a' b' l' H K. induction H; cbn [app]; [exact K|apply dealt_left; assumption|apply dealt_right; assumption]. Qed.
Lemma selects_dealt : forall (P P1 P2 : record -> Prop) l m m1 m2, (forall r, P r <-> P1 r \/ P2 r) -> (forall r, ~ (P1 r /\ P2 r)) ->
  selects P l m -> selects P1 l m1 -> selects P2 l m2 -> dealt m1 m2 m.
Proof.
  intros P P1 P2 l m m1 m2 H D S. revert m1 m2. induction S as [|x l m X S IH|x l m X S IH]; intros m1 m2 S1 S2;
    inversion S1 as [|? ? n1 X1 T1|? ? n1 X1 T1]; subst; inversion S2 as [|? ? n2 X2 T2|? ? n2 X2 T2]; subst; pose proof (H x) as Hx || idtac.
  - constructor.
  - exfalso. apply (D x). auto.
  - apply dealt_left. auto.
  - apply dealt_right. auto.
  - exfalso. apply H in X. tauto.
  - exfalso. apply X, H. auto.
  - exfalso. apply X, H. auto.
  - exfalso. apply X, H. auto.
  - auto.
Qed.
Lemma dealt_shows : forall o1 o2 o e1 e2 e, dealt o1 o2 o -> (forall r, In r o -> shown r) -> Forall2 shows o1 e1 -> Forall2 shows o2 e2 -> Forall2 shows o e -> dealt e1 e2 e.
Proof.
  intros o1 o2 o e1 e2 e H. revert e1 e2 e. induction H as [|x a b l H IH|x a b l H IH]; intros e1 e2 e SH W1 W2 W.
  - inversion W1; inversion W2; inversion W; subst. constructor.
  - inversion W1 as [|? y ? e1' Y1 W1']; subst. inversion W as [|? z ? e' Z W']; subst.
    assert (X : [y] = [z]) by (apply (shows_det [x]); [constructor; [apply SH; left; reflexivity|constructor]|constructor; [exact Y1|constructor]|constructor; [exact Z|constructor]]).
    injection X as <-. apply dealt_left. apply IH; auto. intros r Hr. apply SH. right. exact Hr.
  - inversion W2 as [|? y ? e2' Y2 W2']; subst. inversion W as [|? z ? e' Z W']; subst.
    assert (X : [y] = [z]) by (apply (shows_det [x]); [constructor; [apply SH; left; reflexivity|constructor]|constructor; [exact Y2|constructor]|constructor; [exact Z|constructor]]).
    injection X as <-. apply dealt_right. apply IH; auto. intros r Hr. apply SH. right. exact Hr.
Qed.
Lemma nearly_select_back : forall (P : record -> Prop) l l' m, Forall2 nearly l l' -> (forall x, P x -> shown x) -> selects P l' m -> selects P l m.
Proof.
  intros P l l' m HN HP. revert m. induction HN as [|x y l l' (SF & E) HN IH]; intros m S; inversion S as [|? ? n X T|? ? n X T]; subst; [constructor| |].
  - assert (Sx : shown x) by (pose proof (HP _ X) as Sy; destruct x, y; cbn in *; tauto). pose proof (E Sx) as <-. apply sel_yes; auto.
  - apply sel_no; [|auto]. intro Px. pose proof (E (HP _ Px)) as <-. contradiction.
Qed.
Lemma split_records : forall q q1 q2 (C M M1 M2 : record -> Prop), bounds_split q q1 q2 -> (forall r, C r -> shown r) -> fences q C M -> fences q1 C M1 -> fences q2 C M2 ->
  (forall r, M r <-> M1 r \/ M2 r) /\ (forall r, ~ (M1 r /\ M2 r)).
Proof.
  intros q q1 q2 C M M1 M2 HB HC H H1 H2.
  assert (K : forall r, C r -> (fenced_in q r <-> fenced_in q1 r \/ fenced_in q2 r) /\ ~ (fenced_in q1 r /\ fenced_in q2 r)).
  { intros r Hr. specialize (HC r Hr). destruct r; try contradiction; exact (HB o). }
  split; intro r; [rewrite (H r), (H1 r), (H2 r)|rewrite (H1 r), (H2 r)]; pose proof (K r); tauto.
Qed.
Lemma asks_split : forall q q1 q2 recs M, bounds_split q q1 q2 -> same_question q q1 -> same_question q q2 -> asks q recs M ->
  exists M1 M2, asks q1 recs M1 /\ asks q2 recs M2 /\ (forall r, M r <-> M1 r \/ M2 r) /\ (forall r, ~ (M1 r /\ M2 r)) /\ (forall r, M r -> shown r).
Proof.
  intros q q1 q2 recs M HB E1 E2 HA. destruct (asks_core q recs M HA) as (C & HF & HC). destruct (HC q1 E1) as (M1 & A1 & F1). destruct (HC q2 E2) as (M2 & A2 & F2).
  assert (SC : forall r, C r -> shown r).
  { destruct (HC (without_bounds q)) as (Mw & HAw & HFw); [repeat split; reflexivity|]. intros r Hr. apply (asks_shown _ _ _ r HAw). apply HFw. split; [exact Hr|]. destruct r; cbn [fenced_in]; trivial; apply fence_unbounded. }
  destruct (split_records q q1 q2 C M M1 M2 HB SC HF F1 F2) as [A B]. exists M1, M2. split; [exact A1|]. split; [exact A2|]. split; [exact A|]. split; [exact B|]. intros r Hr. apply SC. apply HF in Hr. tauto.
Qed.
Lemma grouped_split : forall q q1 q2 recs I B M, bounds_split q q1 q2 -> same_question q q1 -> same_question q q2 -> asks_grouped q recs I B M ->
  exists M1 M2, asks_grouped q1 recs I B M1 /\ asks_grouped q2 recs I B M2 /\ (forall r, M r <-> M1 r \/ M2 r) /\ (forall r, ~ (M1 r /\ M2 r)) /\ (forall r, M r -> shown r).
Proof.
  intros q q1 q2 recs I B M HB E1 E2 HA. destruct (asks_grouped_core q recs I B M HA) as (C & HF & HC). destruct (HC q1 E1) as (M1 & A1 & F1). destruct (HC q2 E2) as (M2 & A2 & F2).
  assert (SC : forall r, C r -> shown r).
  { destruct (HC (without_bounds q)) as (Mw & HAw & HFw); [repeat split; reflexivity|]. destruct (grouped_same _ _ _ _ _ (fence_unbounded q) HAw) as (_ & _ & _ & SSh).
    intros r Hr. apply SSh. apply HFw. split; [exact Hr|]. destruct r; cbn [fenced_in]; trivial; apply fence_unbounded. }
  destruct (split_records q q1 q2 C M M1 M2 HB SC HF F1 F2) as [A B']. exists M1, M2. split; [exact A1|]. split; [exact A2|]. split; [exact A|]. split; [exact B'|]. intros r Hr. apply SC. apply HF in Hr. tauto.
Qed.

(** ** C91 *)
(** Two queries whose time bounds split those of a third get each answer of the third, one or
    the other of them, in its order. *)
Theorem time_split : forall q q1 q2 t recs M, database recs t -> bounds_split q q1 q2 -> same_question q q1 -> same_question q q2 -> asks q recs M ->
  exists es es1 es2, lists q (dnstable_query_iter q t) es /\ lists q1 (dnstable_query_iter q1 t) es1 /\ lists q2 (dnstable_query_iter q2 t) es2 /\ dealt es1 es2 es.
Proof.
  intros q q1 q2 t recs M HD HB E1 E2 HA. destruct (asks_split q q1 q2 recs M HB E1 E2 HA) as (M1 & M2 & A1 & A2 & HM & HX & SH).
  destruct (query_returns q t recs M HD HA) as (out & es & S & W & L). destruct (query_returns q1 t recs M1 HD A1) as (out1 & es1 & S1 & W1 & L1). destruct (query_returns q2 t recs M2 HD A2) as (out2 & es2 & S2 & W2 & L2).
  exists es, es1, es2. split; [exact L|]. split; [exact L1|]. split; [exact L2|].
  apply (dealt_shows out1 out2 out); auto; [exact (selects_dealt M M1 M2 recs _ _ _ HM HX S S1 S2)|]. intros r Hr. apply SH. apply (selects_in _ _ _ _ S r Hr).
Qed.
Print Assumptions time_split.

(** The same over a set of files, where each of the queries searches other files. *)
Theorem time_split_files : forall lib q q1 q2 files recss M, merges lib files -> Forall file_ok files -> Forall2 database recss files ->
  q_aggregated q = true -> q_aggregated q1 = true -> q_aggregated q2 = true -> bounds_split q q1 q2 -> same_question q q1 -> same_question q q2 -> asks q (concat recss) M ->
  exists es es1 es2, lists q (dnstable_reader_query lib (dnstable_reader_init_setfile files) q) es /\ lists q1 (dnstable_reader_query lib (dnstable_reader_init_setfile files) q1) es1 /\
    lists q2 (dnstable_reader_query lib (dnstable_reader_init_setfile files) q2) es2 /\ dealt es1 es2 es.
Proof.
  intros lib q q1 q2 files recss M HL HO HD HG HG1 HG2 HB E1 E2 HA. destruct (asks_split q q1 q2 _ M HB E1 E2 HA) as (M1 & M2 & A1 & A2 & HM & HX & SH).
  destruct (fileset_query lib q files recss M HL HO HD HG HA) as (recs & out & es & D & S & W & L & _).
  destruct (fileset_query lib q1 files recss M1 HL HO HD HG1 A1) as (recs1 & out1 & es1 & D1 & S1 & W1 & L1 & _).
  destruct (fileset_query lib q2 files recss M2 HL HO HD HG2 A2) as (recs2 & out2 & es2 & D2 & S2 & W2 & L2 & _).
  pose proof (nearly_records _ _ _ _ (alike_refl _) (proj1 D) (proj1 D1)) as N1. pose proof (nearly_records _ _ _ _ (alike_refl _) (proj1 D) (proj1 D2)) as N2.
  apply (nearly_select_back _ _ _ _ N1) in S1; [|intros r Hr; apply SH, HM; auto]. apply (nearly_select_back _ _ _ _ N2) in S2; [|intros r Hr; apply SH, HM; auto].
  exists es, es1, es2. split; [exact L|]. split; [exact L1|]. split; [exact L2|].
  apply (dealt_shows out1 out2 out); auto; [exact (selects_dealt M M1 M2 recs _ _ _ HM HX S S1 S2)|]. intros r Hr. apply SH. apply (selects_in _ _ _ _ S r Hr).
Qed.
Print Assumptions time_split_files.

(** Through an index. *)
Theorem time_split_grouped : forall q q1 q2 t recs I B M, database recs t -> strict t -> bounds_split q q1 q2 -> same_question q q1 -> same_question q q2 -> asks_grouped q recs I B M ->
  exists es es1 es2, lists q (dnstable_query_iter q t) es /\ lists q1 (dnstable_query_iter q1 t) es1 /\ lists q2 (dnstable_query_iter q2 t) es2 /\ dealt es1 es2 es.
Proof.
  intros q q1 q2 t recs I B M HD HS HB E1 E2 HA. destruct (grouped_split q q1 q2 recs I B M HB E1 E2 HA) as (M1 & M2 & A1 & A2 & HM & HX & SH).
  destruct (query_returns_grouped q t recs I B M HD HS HA) as (heads & outs & es & all & S & G & Al & P & W & L).
  destruct (query_returns_grouped q1 t recs I B M1 HD HS A1) as (heads1 & outs1 & es1 & all1 & S1 & G1 & _ & _ & W1 & L1).
  destruct (query_returns_grouped q2 t recs I B M2 HD HS A2) as (heads2 & outs2 & es2 & all2 & S2 & G2 & _ & _ & W2 & L2).
  pose proof (selects_det _ _ _ _ _ S S1) as <-. pose proof (selects_det _ _ _ _ _ S S2) as <-.
  exists es, es1, es2. split; [exact L|]. split; [exact L1|]. split; [exact L2|].
  apply (dealt_shows (concat outs1) (concat outs2) (concat outs)); auto.
  - clear -G G1 G2 HM HX. revert outs1 outs2 G1 G2. induction G as [|h out heads outs X G IH]; intros outs1 outs2 G1 G2; inversion G1 as [|? o1 ? os1 X1 G1']; subst; inversion G2 as [|? o2 ? os2 X2 G2']; subst; cbn [concat]; [constructor|].
    apply dealt_app; [|apply IH; assumption]. refine (selects_dealt _ _ _ recs _ _ _ _ _ X X1 X2); intro r; [pose proof (HM r); tauto|pose proof (HX r); tauto].
  - intros r Hr. apply SH. apply (Permutation_in _ P) in Hr. apply (selects_in _ _ _ _ Al r Hr).
Qed.
Print Assumptions time_split_grouped.

(** Through the index of a set of files. *)
Theorem time_split_files_grouped : forall lib q q1 q2 files recss I B M, merges lib files -> Forall file_ok files -> Forall2 database recss files ->
  q_aggregated q = true -> q_aggregated q1 = true -> q_aggregated q2 = true -> Forall indexed recss -> parts_index_safe lib q files ->
  bounds_split q q1 q2 -> same_question q q1 -> same_question q q2 -> asks_grouped q (concat recss) I B M ->
  exists es es1 es2, lists q (dnstable_reader_query lib (dnstable_reader_init_setfile files) q) es /\ lists q1 (dnstable_reader_query lib (dnstable_reader_init_setfile files) q1) es1 /\
    lists q2 (dnstable_reader_query lib (dnstable_reader_init_setfile files) q2) es2 /\ dealt es1 es2 es.
Proof.
  intros lib q q1 q2 files recss I B M HL HO HD HG HG1 HG2 HI HS HB E1 E2 HA. destruct (grouped_split q q1 q2 _ I B M HB E1 E2 HA) as (M1 & M2 & A1 & A2 & HM & HX & SH).
  assert (PS : forall q', same_question q q' -> parts_index_safe lib q' files).
  { intros q' (_ & X & Y & _). unfold parts_index_safe. rewrite X, Y. exact HS. }
  destruct (fileset_query_grouped lib q files recss I B M HL HO HD HG HI HS HA) as (recs & heads & outs & all & es & D & S & G & Al & P & W & L & _).
  destruct (fileset_query_grouped lib q1 files recss I B M1 HL HO HD HG1 HI (PS q1 E1) A1) as (recs1 & heads1 & outs1 & all1 & es1 & D1 & S1 & G1 & _ & _ & W1 & L1 & _).
  destruct (fileset_query_grouped lib q2 files recss I B M2 HL HO HD HG2 HI (PS q2 E2) A2) as (recs2 & heads2 & outs2 & all2 & es2 & D2 & S2 & G2 & _ & _ & W2 & L2 & _).
  destruct (grouped_unbounded q _ I B M HA) as (Mu & HAu & _). destruct (grouped_same _ _ _ _ _ (fence_unbounded q) HAu) as (SI & SB & _ & _).
  pose proof (nearly_records _ _ _ _ (alike_refl _) (proj1 D) (proj1 D1)) as N1. pose proof (nearly_records _ _ _ _ (alike_refl _) (proj1 D) (proj1 D2)) as N2.
  pose proof (nearly_heads I recs recs1 heads heads1 SI N1 S S1) as H1. pose proof (nearly_heads I recs recs2 heads heads2 SI N2 S S2) as H2.
  assert (BK : forall recs' (M' : record -> Prop) h h' out, Forall2 nearly recs recs' -> (forall r, M' r -> shown r) -> same_fields h h' -> selects (fun r => B h' r /\ M' r) recs' out -> selects (fun r => B h r /\ M' r) recs out).
  { intros recs' M' h h' out HN HSh SF X. apply (nearly_select_back _ _ _ _ HN); [intros r [_ Y]; auto|].
    clear -X SB SF. induction X as [|x a m Y X IH|x a m Y X IH]; [constructor| |].
    - apply sel_yes; [|exact IH]. destruct Y as [Y1 Y2]. split; [exact (SB h' h x x (same_sym _ _ SF) (same_refl x) Y1)|exact Y2].
    - apply sel_no; [|exact IH]. intros [Y1 Y2]. apply Y. split; [exact (SB h h' x x SF (same_refl x) Y1)|exact Y2]. }
  assert (SH1 : forall r, M1 r -> shown r) by (intros r Hr; apply SH, HM; auto). assert (SH2 : forall r, M2 r -> shown r) by (intros r Hr; apply SH, HM; auto).
  exists es, es1, es2. split; [exact L|]. split; [exact L1|]. split; [exact L2|].
  apply (dealt_shows (concat outs1) (concat outs2) (concat outs)); auto.
  - clear -G G1 G2 HM HX H1 H2 BK N1 N2 SH1 SH2. revert heads1 heads2 outs1 outs2 G1 G2 H1 H2. induction G as [|h out heads outs X G IH]; intros heads1 heads2 outs1 outs2 G1 G2 H1 H2.
    + inversion H1; subst. inversion H2; subst. inversion G1; subst. inversion G2; subst. constructor.
    + inversion H1 as [|? h1 ? hs1 F1 H1']; subst. inversion H2 as [|? h2 ? hs2 F2 H2']; subst. inversion G1 as [|? o1 ? os1 X1 G1']; subst. inversion G2 as [|? o2 ? os2 X2 G2']; subst. cbn [concat].
      apply dealt_app; [|apply (IH hs1 hs2); assumption].
      refine (selects_dealt _ _ _ recs _ _ _ _ _ X (BK recs1 M1 h h1 o1 N1 SH1 F1 X1) (BK recs2 M2 h h2 o2 N2 SH2 F2 X2)); intro r; [pose proof (HM r); tauto|pose proof (HX r); tauto].
  - intros r Hr. apply SH. apply (Permutation_in _ P) in Hr. apply (selects_in _ _ _ _ Al r Hr).
Qed.
Print Assumptions time_split_files_grouped.

(** First seen before 100 or from 101 on. *)
Definition Q91 := ask QRrset None (Some (wire [[star_sign]; L_ex; L_com])) None None [] [] 0 None None None None.
Definition Q91a := ask QRrset None (Some (wire [[star_sign]; L_ex; L_com])) None None [] [] 0 None (Some 100) None None.
Definition Q91b := ask QRrset None (Some (wire [[star_sign]; L_ex; L_com])) None None [] [] 0 (Some 101) None None None.
Example c91_case : database demo demo_table /\ bounds_split Q91 Q91a Q91b /\ same_question Q91 Q91a /\ same_question Q91 Q91b /\ asks Q91 demo (below_rrset Q91 star_sign [L_ex; L_com] None) /\
  seen_by 3 Q91a demo_table = [Some (0, Ok (wire [L_www; L_ex; L_com]), Ok 1); Some (0, Ok (wire [L_www; L_ex; L_com]), Ok 28); None] /\
  seen_by 3 Q91b demo_table = [Some (0, Ok (wire [L_ex; L_com]), Ok 15); Some (0, Ok (wire [L_mx; L_ex; L_com]), Ok 1); None] /\
  merges lib0 demo_files /\ Forall file_ok demo_files /\ Forall2 database demo_recss demo_files /\ asks Q91 (concat demo_recss) (below_rrset Q91 star_sign [L_ex; L_com] None) /\
  q_aggregated Q91 = true /\ q_aggregated Q91a = true /\ q_aggregated Q91b = true /\
  seen_in 3 Q91a demo_files = [Some (Ok (wire [L_mx; L_ex; L_com]), Ok 10, Ok 400, Ok 8); Some (Ok (wire [L_www; L_ex; L_com]), Ok 60, Ok 400, Ok 8); None] /\
  seen_in 1 Q91b demo_files = [None].
Proof.
  split; [apply demo_database|]. split.
  { intro o. assert (A : in_fence Q91 o) by (unfold in_fence; repeat split; intro H; discriminate H).
    assert (B : in_fence Q91a o <-> o_first o <= 100) by (split; [intros (_ & X & _); exact (X eq_refl)|intro X; split; [|split; [|split]]; intro H; try discriminate H; exact X]).
    assert (C : in_fence Q91b o <-> 101 <= o_first o) by (split; [intros (X & _); exact (X eq_refl)|intro X; split; [|split; [|split]]; intro H; try discriminate H; exact X]).
    rewrite B, C. split; [split; [intros _; lia|auto]|lia]. }
  split; [repeat (split; [reflexivity|]); reflexivity|]. split; [repeat (split; [reflexivity|]); reflexivity|].
  split; [apply asks_below_rrset; auto; split; try reflexivity; apply name_okb_ok; reflexivity|]. split; [vm_compute; reflexivity|]. split; [vm_compute; reflexivity|].
  split; [apply demo_merges|]. split; [exact demo_files_ok|]. split; [apply demo_databases|].
  split; [apply asks_below_rrset; auto; split; try reflexivity; apply name_okb_ok; reflexivity|]. split; [reflexivity|]. split; [reflexivity|]. split; [reflexivity|]. split; vm_compute; reflexivity.
Qed.
Definition Q91ga := ask QRrset (Some 1) (Some (wire [L_www; [star_sign]])) None None [] [] 0 None (Some 100) None None.
Definition Q91gb := ask QRrset (Some 1) (Some (wire [L_www; [star_sign]])) None None [] [] 0 (Some 101) None None None.
Example c91_grouped_case : database demo demo_table /\ strict demo_table /\ bounds_split Q90i Q91ga Q91gb /\ same_question Q90i Q91ga /\ same_question Q90i Q91gb /\
  asks_grouped Q90i demo (after_index star_sign [L_www]) same_owner (after_rrset Q90i star_sign [L_www] None) /\
  seen_by 2 Q91ga demo_table = [Some (0, Ok (wire [L_www; L_ex; L_com]), Ok 1); None] /\ seen_by 1 Q91gb demo_table = [None].
Proof.
  split; [apply demo_database|]. split; [apply demo_database|]. split.
  { intro o. assert (A : in_fence Q90i o) by (unfold in_fence; repeat split; intro H; discriminate H).
    assert (B : in_fence Q91ga o <-> o_first o <= 100) by (split; [intros (_ & X & _); exact (X eq_refl)|intro X; split; [|split; [|split]]; intro H; try discriminate H; exact X]).
    assert (C : in_fence Q91gb o <-> 101 <= o_first o) by (split; [intros (X & _); exact (X eq_refl)|intro X; split; [|split; [|split]]; intro H; try discriminate H; exact X]).
    rewrite B, C. split; [split; [intros _; lia|auto]|lia]. }
  split; [repeat (split; [reflexivity|]); reflexivity|]. split; [repeat (split; [reflexivity|]); reflexivity|].
  split; [apply c90_grouped_case|]. split; vm_compute; reflexivity.
Qed.
Example c91_files_grouped_case : merges lib0 demo_files /\ Forall file_ok demo_files /\ Forall2 database demo_recss demo_files /\ Forall indexed demo_recss /\ parts_index_safe lib0 Q90i demo_files /\
  asks_grouped Q90i (concat demo_recss) (after_index star_sign [L_www]) same_owner (after_rrset Q90i star_sign [L_www] None) /\
  seen_in 2 Q91ga demo_files = [Some (Ok (wire [L_www; L_ex; L_com]), Ok 60, Ok 400, Ok 8); None] /\ seen_in 1 Q91gb demo_files = [None].
Proof.
  split; [apply demo_merges|]. split; [exact demo_files_ok|]. split; [apply demo_databases|]. split; [apply demo_files_indexed|]. split; [apply demo_parts_safe; reflexivity|].
  split; [apply demo_grouped_ask; reflexivity|]. split; vm_compute; reflexivity.
Qed.

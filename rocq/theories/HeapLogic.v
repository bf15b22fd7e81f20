(** * A small program logic for the memory model

    [tri rm H c Q]: run with exactly the blocks [H] (and, if [rm], some lost byte blocks),
    [c] does nothing undefined, and ends with blocks [H'] such that [Q] holds of its
    result and [H']. *)
From Coq Require Import Permutation.
From Verif Require Import Base ModelMemory.

Notation cell := (N * obj)%type.

(** ** Permutations of lists put together from the same pieces *)

Inductive pieces := PNil | PAtom (i : nat) | PApp (a b : pieces).
Section Pieces.
  Context {A : Type} (env : list (list A)).
  Fixpoint den (e : pieces) : list A :=
    match e with PNil => [] | PAtom i => nth i env [] | PApp a b => den a ++ den b end.
  Fixpoint flat (e : pieces) : list nat :=
    match e with PNil => [] | PAtom i => [i] | PApp a b => flat a ++ flat b end.
  Fixpoint ins (x : nat) (l : list nat) : list nat :=
    match l with [] => [x] | y :: r => if Nat.leb x y then x :: l else y :: ins x r end.
  Fixpoint isort (l : list nat) : list nat := match l with [] => [] | x :: r => ins x (isort r) end.
  Fixpoint same_list (a b : list nat) : bool :=
    match a, b with [], [] => true | x :: a, y :: b => Nat.eqb x y && same_list a b | _, _ => false end.
  Lemma ins_perm x l : Permutation (x :: l) (ins x l).
  Proof.
    induction l as [|y r IH]; simpl; [reflexivity|].
    destruct (Nat.leb x y); [reflexivity|]. rewrite perm_swap. constructor. exact IH.
  Qed.
  Lemma isort_perm l : Permutation l (isort l).
  Proof. induction l as [|x r IH]; simpl; [reflexivity|]. rewrite <- ins_perm. constructor. exact IH. Qed.
  Lemma den_flat e : den e = concat (map (fun i => nth i env []) (flat e)).
  Proof. induction e; simpl; [reflexivity|rewrite app_nil_r; reflexivity|]. rewrite map_app, concat_app. congruence. Qed.
  Lemma concat_perm (l l' : list (list A)) : Permutation l l' -> Permutation (concat l) (concat l').
  Proof.
    induction 1; simpl; [reflexivity|apply Permutation_app_head; assumption| |etransitivity; eassumption].
    rewrite !app_assoc. apply Permutation_app_tail, Permutation_app_comm.
  Qed.
  Lemma same_list_eq a b : same_list a b = true -> a = b.
  Proof.
    revert b; induction a as [|x a IH]; intros [|y b]; simpl; try discriminate; [reflexivity|].
    intro H. apply andb_true_iff in H as [H1 H2]. apply Nat.eqb_eq in H1. subst. f_equal. apply IH, H2.
  Qed.
  Lemma pieces_perm e1 e2 : same_list (isort (flat e1)) (isort (flat e2)) = true -> Permutation (den e1) (den e2).
  Proof.
    intro H. apply same_list_eq in H. rewrite !den_flat. apply concat_perm, Permutation_map.
    rewrite (isort_perm (flat e1)), (isort_perm (flat e2)), H. reflexivity.
  Qed.
End Pieces.

Ltac piece_index x env :=
  match env with
  | x :: _ => constr:(O)
  | _ :: ?r => let n := piece_index x r in constr:(S n)
  end.
Ltac piece_env t env :=
  match t with
  | @nil _ => env
  | ?a ++ ?b => let env := piece_env a env in piece_env b env
  | ?x :: @nil _ => match env with context [t :: _] => env | _ => constr:(t :: env) end
  | ?x :: ?b => let env := piece_env (x :: nil) env in piece_env b env
  | _ => match env with context [t :: _] => env | _ => constr:(t :: env) end
  end.
Ltac piece_reify t env :=
  match t with
  | @nil _ => constr:(PNil)
  | ?a ++ ?b => let x := piece_reify a env in let y := piece_reify b env in constr:(PApp x y)
  | ?x :: @nil _ => let i := piece_index t env in constr:(PAtom i)
  | ?x :: ?b => let h := constr:(x :: nil) in let i := piece_index h env in let y := piece_reify b env in constr:(PApp (PAtom i) y)
  | _ => let i := piece_index t env in constr:(PAtom i)
  end.
Ltac perm :=
  match goal with
  | |- @Permutation ?A ?a ?b =>
      let env := piece_env a (@nil (list A)) in
      let env := piece_env b env in
      let x := piece_reify a env in
      let y := piece_reify b env in
      change (Permutation (den env x) (den env y)); apply pieces_perm; reflexivity
  end.

Example perm_test (A : Type) (x y : A) (a b c : list A) : Permutation (x :: a ++ [y] ++ b ++ c) ((c ++ y :: b) ++ a ++ [x]).
Proof. perm. Qed.

(** Taking one element out. *)
Definition focus {A} (x : A) (l r : list A) : Prop := Permutation l (x :: r).
Lemma focus_here {A} (x : A) r : focus x (x :: r) r.
Proof. unfold focus. reflexivity. Qed.
Lemma focus_cons {A} (x y : A) l r : focus x l r -> focus x (y :: l) (y :: r).
Proof. unfold focus. intro H. rewrite H. apply perm_swap. Qed.
Lemma focus_left {A} (x : A) a b r : focus x a r -> focus x (a ++ b) (r ++ b).
Proof. unfold focus. intro H. rewrite H. reflexivity. Qed.
Lemma focus_right {A} (x : A) a b r : focus x b r -> focus x (a ++ b) (a ++ r).
Proof. unfold focus. intro H. rewrite H. rewrite Permutation_middle. reflexivity. Qed.
Ltac focus := first [ apply focus_here | apply focus_cons; focus | apply focus_left; focus | apply focus_right; focus ].

(** Membership and inclusion. *)
Ltac mem :=
  first [ eassumption
        | apply in_eq
        | apply in_cons; mem
        | apply in_or_app; first [ left; mem | right; mem ]
        | match goal with H : incl ?F _ |- In _ _ => apply H; mem end ].
Ltac inclu :=
  first [ assumption
        | apply incl_refl
        | apply incl_nil_l
        | apply incl_tl; inclu
        | apply incl_appl; inclu
        | apply incl_appr; inclu
        | apply incl_app; [inclu|inclu]
        | apply incl_cons; [mem|inclu] ].

(** ** Heaps *)

Definition wf (m : memory) : Prop := 0 < next m /\ NoDup (map fst (cells m)) /\ Forall (fun c => 0 < fst c < next m) (cells m).
Definition bytes (l : list cell) : Prop := Forall (fun c => snd c = OBytes) l.
Definition spill (rm : bool) (l : list cell) : Prop := bytes l /\ (rm = false -> l = []).
Definition holds (rm : bool) (H : list cell) (m : memory) : Prop := wf m /\ exists L, spill rm L /\ Permutation (cells m) (H ++ L).

Lemma lookup_in p o l : NoDup (map fst l) -> In (p, o) l -> lookup p l = Some o.
Proof.
  induction l as [|[a x] r IH]; simpl; [easy|]. intros Hd [E|Hi].
  - injection E as -> ->. rewrite N.eqb_refl. reflexivity.
  - apply NoDup_cons_iff in Hd as [Hn Hd]. destruct (a =? p) eqn:E.
    + apply N.eqb_eq in E. subst. exfalso. apply Hn. apply (in_map fst) in Hi. exact Hi.
    + apply IH; assumption.
Qed.
Lemma update_perm p o o' r l : NoDup (map fst l) -> Permutation l ((p, o) :: r) -> Permutation (update p o' l) ((p, o') :: r).
Proof.
  revert r. induction l as [|[a x] l IH]; intros r Hd Hp.
  - apply Permutation_nil in Hp. discriminate.
  - simpl in *. apply NoDup_cons_iff in Hd as [Hn Hd]. destruct (a =? p) eqn:E.
    + apply N.eqb_eq in E. subst.
      assert (Hi : In (p, o) ((p, x) :: l)) by (rewrite Hp; apply in_eq).
      destruct Hi as [Hi|Hi].
      * injection Hi as ->. constructor. eapply Permutation_cons_inv. exact Hp.
      * exfalso. apply Hn. apply (in_map fst) in Hi. exact Hi.
    + apply N.eqb_neq in E.
      assert (Hi : In (a, x) ((p, o) :: r)) by (rewrite <- Hp; apply in_eq).
      destruct Hi as [Hi|Hi]; [congruence|].
      apply in_split in Hi as (r1 & r2 & ->).
      assert (Hp' : Permutation l ((p, o) :: r1 ++ r2)).
      { eapply Permutation_cons_inv with (a := (a, x)). rewrite Hp. perm. }
      rewrite (IH _ Hd Hp'). perm.
Qed.
Lemma delete_perm p o r l : NoDup (map fst l) -> Permutation l ((p, o) :: r) -> Permutation (delete p l) r.
Proof.
  revert r. induction l as [|[a x] l IH]; intros r Hd Hp.
  - apply Permutation_nil in Hp. discriminate.
  - simpl in *. apply NoDup_cons_iff in Hd as [Hn Hd]. destruct (a =? p) eqn:E.
    + apply N.eqb_eq in E. subst.
      assert (Hi : In (p, o) ((p, x) :: l)) by (rewrite Hp; apply in_eq).
      destruct Hi as [Hi|Hi].
      * injection Hi as ->. eapply Permutation_cons_inv. exact Hp.
      * exfalso. apply Hn. apply (in_map fst) in Hi. exact Hi.
    + apply N.eqb_neq in E.
      assert (Hi : In (a, x) ((p, o) :: r)) by (rewrite <- Hp; apply in_eq).
      destruct Hi as [Hi|Hi]; [congruence|].
      apply in_split in Hi as (r1 & r2 & ->).
      assert (Hp' : Permutation l ((p, o) :: r1 ++ r2)).
      { eapply Permutation_cons_inv with (a := (a, x)). rewrite Hp. perm. }
      rewrite (IH _ Hd Hp'). perm.
Qed.

Lemma holds_perm rm H H' m : Permutation H H' -> holds rm H m -> holds rm H' m.
Proof. intros HP (Hw & L & HL & Hc). split; [exact Hw|]. exists L. split; [exact HL|]. rewrite <- HP. exact Hc. Qed.
Lemma holds_leak H B m : bytes B -> holds true (B ++ H) m -> holds true H m.
Proof.
  intros HB (Hw & L & HL & Hc). split; [exact Hw|]. exists (B ++ L). split.
  - split; [|discriminate]. apply Forall_app. split; [exact HB|apply HL].
  - rewrite Hc. perm.
Qed.
Lemma holds_in rm H m p o : holds rm H m -> In (p, o) H -> lookup p (cells m) = Some o /\ p <> 0.
Proof.
  intros ((_ & Hd & Hf) & L & HL & Hc) Hi. assert (Hi' : In (p, o) (cells m)) by (rewrite Hc; mem). split.
  - apply lookup_in; assumption.
  - rewrite Forall_forall in Hf. specialize (Hf _ Hi'). simpl in Hf. lia.
Qed.

(** ** Programs *)

Definition tri {A} (rm : bool) (H : list cell) (c : M A) (Q : A -> list cell -> Prop) : Prop :=
  forall m, holds rm H m ->
    match c m with Ok (a, m') => exists H', Q a H' /\ holds rm H' m' | Hang => True | _ => False end.

Section Rules.
  Context {A B : Type} (rm : bool).
  Implicit Types (Q : B -> list cell -> Prop) (H R : list cell).

  Lemma tri_ret (a : A) H (Q : A -> list cell -> Prop) : Q a H -> tri rm H (ret a) Q.
  Proof. intros HQ m Hm. simpl. exists H. auto. Qed.
  Lemma tri_hang H (Q : A -> list cell -> Prop) : tri rm H hang Q.
  Proof. intros m Hm. exact I. Qed.
  Lemma tri_bind H (c : M A) (k : A -> M B) (P : A -> list cell -> Prop) Q :
    tri rm H c P -> (forall a H', P a H' -> tri rm H' (k a) Q) -> tri rm H (mbind c k) Q.
  Proof.
    intros Hc Hk m Hm. unfold mbind. specialize (Hc m Hm). destruct (c m) as [[a m']| | | |]; try exact Hc.
    destruct Hc as (H' & HP & Hm'). exact (Hk a H' HP m' Hm').
  Qed.
  Lemma tri_post H (c : M A) (P Q : A -> list cell -> Prop) : tri rm H c P -> (forall a H', P a H' -> Q a H') -> tri rm H c Q.
  Proof.
    intros Hc HQ m Hm. specialize (Hc m Hm). destruct (c m) as [[a m']| | | |]; try exact Hc.
    destruct Hc as (H' & HP & Hm'). exists H'. auto.
  Qed.
  Lemma tri_perm H H' (c : M A) (Q : A -> list cell -> Prop) : Permutation H H' -> tri rm H' c Q -> tri rm H c Q.
  Proof. intros HP Hc m Hm. apply Hc. eapply holds_perm; eassumption. Qed.
  Lemma tri_leak H R L (c : M A) (Q : A -> list cell -> Prop) : rm = true -> bytes L -> Permutation H (L ++ R) -> tri rm R c Q -> tri rm H c Q.
  Proof. intros -> HL HP Hc m Hm. apply Hc. apply holds_leak with L; [exact HL|]. eapply holds_perm; eassumption. Qed.
  Lemma tri_tail H (c : M A) (Q : A -> list cell -> Prop) : tri rm H (mbind c ret) Q -> tri rm H c Q.
  Proof. intros Hc m Hm. specialize (Hc m Hm). unfold mbind, ret in Hc. destruct (c m) as [[a m']| | | |]; exact Hc. Qed.
  Lemma tri_nz p o H (c : M A) (Q : A -> list cell -> Prop) : In (p, o) H -> (p <> 0 -> tri rm H c Q) -> tri rm H c Q.
  Proof. intros Hi Hc m Hm. apply Hc; [|exact Hm]. eapply holds_in; eassumption. Qed.

  Lemma tri_malloc o H k Q : (forall p, p <> 0 -> tri rm ((p, o) :: H) (k p) Q) -> tri rm H (mbind (malloc o) k) Q.
  Proof.
    intros Hk m ((H0 & Hd & Hf) & L & HL & Hc). unfold mbind, malloc. apply Hk; [lia|].
    split; [|exists L; split; [exact HL|]; simpl; constructor; exact Hc].
    split; [simpl; lia|]. simpl. split.
    - constructor; [|exact Hd]. intro Hi. apply in_map_iff in Hi as ([a x] & E & Hi). simpl in E. subst a.
      rewrite Forall_forall in Hf. specialize (Hf _ Hi). simpl in Hf. lia.
    - constructor; [simpl; lia|]. eapply Forall_impl; [|exact Hf]. simpl. intros; lia.
  Qed.
  Lemma tri_free p o H R k Q : focus (p, o) H R -> tri rm R (k tt) Q -> tri rm H (mbind (free p) k) Q.
  Proof.
    unfold focus. intros HP Hk m Hm. pose proof (holds_in _ _ _ p o Hm) as Hl. destruct Hl as [Hl Hz].
    { rewrite HP. apply in_eq. }
    unfold mbind, free. apply N.eqb_neq in Hz. rewrite Hz, Hl. apply Hk. clear Hk Hz Hl.
    destruct Hm as ((H0 & Hd & Hf) & L & HL & Hc).
    assert (Hp : Permutation (delete p (cells m)) (R ++ L)).
    { apply delete_perm with o; [exact Hd|]. rewrite Hc, HP. reflexivity. }
    assert (Hp2 : Permutation (cells m) ((p, o) :: delete p (cells m))) by (rewrite Hp, Hc, HP; reflexivity).
    split; [|exists L; split; [exact HL|exact Hp]]. split; [exact H0|]. simpl. split.
    - rewrite Hp2 in Hd. simpl in Hd. apply NoDup_cons_iff in Hd. apply Hd.
    - rewrite Hp2 in Hf. apply Forall_inv_tail in Hf. exact Hf.
  Qed.
  Lemma tri_free0 H k Q : tri rm H (k tt) Q -> tri rm H (mbind (free 0) k) Q.
  Proof. intros Hk m Hm. unfold mbind, free. simpl. apply Hk, Hm. Qed.
  Lemma tri_load p o H k Q : In (p, o) H -> (p <> 0 -> tri rm H (k o) Q) -> tri rm H (mbind (load p) k) Q.
  Proof.
    intros Hi Hk m Hm. destruct (holds_in _ _ _ _ _ Hm Hi) as [Hl Hz]. unfold mbind, load. rewrite Hl.
    apply Hk; assumption.
  Qed.
  Lemma tri_store p o o' H R k Q : focus (p, o) H R -> tri rm ((p, o') :: R) (k tt) Q -> tri rm H (mbind (store p o') k) Q.
  Proof.
    unfold focus. intros HP Hk m Hm. pose proof (holds_in _ _ _ p o Hm) as Hl. destruct Hl as [Hl Hz].
    { rewrite HP. apply in_eq. }
    unfold mbind, store. rewrite Hl. apply Hk. clear Hk Hz Hl.
    destruct Hm as ((H0 & Hd & Hf) & L & HL & Hc).
    assert (Hp0 : Permutation (cells m) ((p, o) :: R ++ L)) by (rewrite Hc, HP; reflexivity).
    pose proof (update_perm p o o' _ _ Hd Hp0) as Hp.
    split; [|exists L; split; [exact HL|exact Hp]]. split; [exact H0|]. simpl. split.
    - rewrite Hp. rewrite Hp0 in Hd. exact Hd.
    - rewrite Hp. rewrite Hp0 in Hf. apply Forall_cons_iff in Hf as [Hf1 Hf2]. constructor; assumption.
  Qed.
  Lemma tri_pick H k Q : (forall x, tri rm H (k x) Q) -> tri rm H (mbind pick k) Q.
  Proof.
    intros Hk m (Hw & L & HL & Hc). unfold mbind, pick. destruct (choices m); apply Hk; split; eauto.
  Qed.
End Rules.
Lemma tri_choose {B} rm H k (Q : B -> list cell -> Prop) : (forall b, tri rm H (k b) Q) -> tri rm H (mbind choose k) Q.
Proof.
  intros Hk. eapply tri_bind with (P := fun b H' => H' = H).
  - unfold choose. apply tri_pick. intro x. apply tri_ret. reflexivity.
  - intros b H' ->. apply Hk.
Qed.
Lemma tri_assoc {A B C} rm H (c : M A) (k : A -> M B) (k2 : B -> M C) Q :
  tri rm H (mbind c (fun a => mbind (k a) k2)) Q -> tri rm H (mbind (mbind c k) k2) Q.
Proof. intros Hc m Hm. specialize (Hc m Hm). unfold mbind in *. destruct (c m) as [[a m']| | | |]; exact Hc. Qed.
Lemma tri_ret_bind {A B} rm H (a : A) (k : A -> M B) Q : tri rm H (k a) Q -> tri rm H (mbind (ret a) k) Q.
Proof. intros Hc. exact Hc. Qed.

(** ** Steps *)

Lemma tri_if {A} rm H (b : bool) (c d : M A) Q : (b = true -> tri rm H c Q) -> (b = false -> tri rm H d Q) -> tri rm H (if b then c else d) Q.
Proof. destruct b; auto. Qed.
Lemma tri_if_bind {A B} rm H (b : bool) (c d : M A) (k : A -> M B) Q :
  (b = true -> tri rm H (mbind c k) Q) -> (b = false -> tri rm H (mbind d k) Q) -> tri rm H (mbind (if b then c else d) k) Q.
Proof. destruct b; auto. Qed.

Ltac tidy := cbv beta iota.
Ltac as_step u := unfold u at 1; apply tri_assoc; eapply tri_load; [mem | intros _]; tidy; apply tri_ret_bind; tidy.
Ltac is_op c :=
  match c with
  | malloc _ => idtac | free _ => idtac | load _ => idtac | store _ _ => idtac | pick => idtac | choose => idtac
  | as_bytes _ => idtac | as_ubuf _ => idtac | as_vec _ => idtac | as_query _ => idtac | as_source _ => idtac
  | as_filter _ => idtac | as_timeout _ => idtac | as_ljoin _ => idtac | as_remove _ => idtac | as_fileset _ => idtac
  | as_merger _ => idtac | as_iter _ => idtac | as_filter_iter _ => idtac | as_timeout_iter _ => idtac
  | as_ljoin_iter _ => idtac | as_remove_iter _ => idtac | as_entries _ => idtac | as_query_iter _ => idtac
  | as_iterator _ => idtac | as_reader _ => idtac | as_reader_iter _ => idtac | as_formatter _ => idtac
  end.
Ltac step1 :=
  lazymatch goal with
  | |- tri _ _ (mbind (mbind _ _) _) _ => apply tri_assoc
  | |- tri _ _ (mbind (ret _) _) _ => apply tri_ret_bind; tidy
  | |- tri _ _ (mbind (malloc _) _) _ => apply tri_malloc; let p := fresh "p" in let Hp := fresh "Hp" in intros p Hp; tidy
  | |- tri _ _ (mbind (free 0) _) _ => apply tri_free0; tidy
  | |- tri _ _ (mbind (free _) _) _ => eapply tri_free; [focus | tidy]
  | |- tri _ _ (mbind (load _) _) _ => eapply tri_load; [mem | intros _; tidy]
  | |- tri _ _ (mbind (store _ _) _) _ => eapply tri_store; [focus | tidy]
  | |- tri _ _ (mbind pick _) _ => apply tri_pick; let x := fresh "x" in intro x; tidy
  | |- tri _ _ (mbind choose _) _ => apply tri_choose; let b := fresh "b" in intro b; tidy
  | |- tri _ _ (mbind (as_bytes _) _) _ => as_step @as_bytes
  | |- tri _ _ (mbind (as_ubuf _) _) _ => as_step @as_ubuf
  | |- tri _ _ (mbind (as_vec _) _) _ => as_step @as_vec
  | |- tri _ _ (mbind (as_query _) _) _ => as_step @as_query
  | |- tri _ _ (mbind (as_source _) _) _ => as_step @as_source
  | |- tri _ _ (mbind (as_filter _) _) _ => as_step @as_filter
  | |- tri _ _ (mbind (as_timeout _) _) _ => as_step @as_timeout
  | |- tri _ _ (mbind (as_ljoin _) _) _ => as_step @as_ljoin
  | |- tri _ _ (mbind (as_remove _) _) _ => as_step @as_remove
  | |- tri _ _ (mbind (as_fileset _) _) _ => as_step @as_fileset
  | |- tri _ _ (mbind (as_merger _) _) _ => as_step @as_merger
  | |- tri _ _ (mbind (as_iter _) _) _ => as_step @as_iter
  | |- tri _ _ (mbind (as_filter_iter _) _) _ => as_step @as_filter_iter
  | |- tri _ _ (mbind (as_timeout_iter _) _) _ => as_step @as_timeout_iter
  | |- tri _ _ (mbind (as_ljoin_iter _) _) _ => as_step @as_ljoin_iter
  | |- tri _ _ (mbind (as_remove_iter _) _) _ => as_step @as_remove_iter
  | |- tri _ _ (mbind (as_entries _) _) _ => as_step @as_entries
  | |- tri _ _ (mbind (as_query_iter _) _) _ => as_step @as_query_iter
  | |- tri _ _ (mbind (as_iterator _) _) _ => as_step @as_iterator
  | |- tri _ _ (mbind (as_reader _) _) _ => as_step @as_reader
  | |- tri _ _ (mbind (as_reader_iter _) _) _ => as_step @as_reader_iter
  | |- tri _ _ (mbind (as_formatter _) _) _ => as_step @as_formatter
  | |- tri _ _ ?c _ => is_op c; apply tri_tail
  end.
Ltac go := repeat step1.
(** Use what is known about a function, then go on. *)
Tactic Notation "use" uconstr(L) := first [ eapply tri_bind; [eapply L|] | eapply tri_post; [eapply L|] ].

(** ** Buffers, vectors and queries *)

Definition blk (p : N) : list cell := if p =? 0 then [] else [(p, OBytes)].
Lemma blk_0 : blk 0 = [].
Proof. reflexivity. Qed.
Lemma blk_nz p : p <> 0 -> blk p = [(p, OBytes)].
Proof. intro H. unfold blk. apply N.eqb_neq in H. rewrite H. reflexivity. Qed.
Lemma blk_bytes p : bytes (blk p).
Proof. unfold blk. destruct (p =? 0); repeat constructor. Qed.
Definition takes {A} (c : list A) (l r : list A) : Prop := Permutation l (c ++ r).
Lemma tri_free_blk {B} rm p H R k (Q : B -> list cell -> Prop) : takes (blk p) H R -> tri rm R (k tt) Q -> tri rm H (mbind (free p) k) Q.
Proof.
  unfold takes, blk. destruct (p =? 0) eqn:E; intros HP Hk.
  - apply N.eqb_eq in E. subst. apply tri_free0. eapply tri_perm; [exact HP|exact Hk].
  - eapply tri_free; [exact HP|exact Hk].
Qed.

Definition ubuf (u d : N) : list cell := [(u, OUbuf d); (d, OBytes)].
Lemma ubuf_init_ok rm H : tri rm H ubuf_init (fun u H' => u <> 0 /\ exists d, H' = ubuf u d ++ H).
Proof. unfold ubuf_init. go. apply tri_ret. split; [assumption|]. eexists. reflexivity. Qed.
Lemma ubuf_read_ok rm u d H : incl (ubuf u d) H -> tri rm H (ubuf_read u) (fun _ H' => H' = H).
Proof. intro Hi. unfold ubuf_read. go. apply tri_ret. reflexivity. Qed.

(** A way to build well-formed tables, for the examples. *)
From Verif Require Import Base BaseFacts ModelVarint VarintProofs SpecMerge MergeProofs SpecUnion SpecName NameFacts.
From Verif Require Import ModelEntry SpecEntry PropsEntry ModelIter SpecIter ModelQuery SpecQuery.

Definition put_obs (o : obs) : bytes := varint_encode64 (o_first o) ++ varint_encode64 (o_last o) ++ varint_encode64 (o_count o).

Definition put (r : record) : kv :=
  match r with
  | RRset ow ty bw rs o =>
      (ENTRY_TYPE_RRSET :: rwire ow ++ varint_encode64 ty ++ rwire bw ++ flat_map (fun r => varint_encode64 (blen r) ++ r) rs, put_obs o)
  | RData ow ty head tail o =>
      (ENTRY_TYPE_RDATA :: tail ++ varint_encode64 ty ++ rwire ow ++ head ++ enc_le16 (blen tail), put_obs o)
  | OwnerIndex ow m => (rrset_name_key ow, m)
  | RdataIndex n m => (rdata_name_key n, m)
  | Other k v => (k, v)
  end.

Definition bytes_okb (l : bytes) : bool := forallb (fun b => b <? 256) l.
Definition name_okb (n : list bytes) : bool :=
  forallb (fun l => (1 <=? blen l) && (blen l <=? 63) && bytes_okb l) n && (blen (wire n) <=? 255).
Definition obs_okb (o : obs) : bool := (o_first o <? u64) && (o_last o <? u64) && (o_count o <? u64).
Definition put_okb (r : record) : bool :=
  bytes_okb (fst (put r)) &&
  match r with
  | RRset ow ty bw rs o => name_okb ow && name_okb bw && (ty <? 65536) && obs_okb o && forallb (fun r => blen r <=? 65535) rs
  | RData ow ty head tail o => name_okb ow && (ty <? 65536) && obs_okb o && (blen head + blen tail <=? 65535)
  | OwnerIndex n m | RdataIndex n m => name_okb n
  | Other k v => match k with t :: _ => 4 <=? t | [] => false end
  end.

Lemma bytes_okb_ok : forall l, bytes_okb l = true -> bytes_ok l.
Proof. intros l H. apply Forall_forall. intros x Hx. unfold bytes_okb in H. rewrite forallb_forall in H. apply H in Hx. unfold byte_ok. lia. Qed.
Lemma name_okb_ok : forall n, name_okb n = true -> name_ok n.
Proof.
  intros n H. unfold name_okb in H. apply andb_prop in H. destruct H as [H1 H2]. split; [|unfold blen in H2; lia].
  apply Forall_forall. intros l Hl. rewrite forallb_forall in H1. specialize (H1 l Hl). apply andb_prop in H1. destruct H1 as [A B].
  apply andb_prop in A. destruct A as [A1 A2]. split; [unfold blen in *; lia|apply bytes_okb_ok; exact B].
Qed.
Lemma obs_okb_ok : forall o, obs_okb o = true -> obs_ok o.
Proof. intros o H. unfold obs_okb in H. unfold obs_ok. lia. Qed.

Lemma put_obs_ok : forall o, obs_ok o -> obs_value o (put_obs o).
Proof.
  intros o (A & B & C). exists (varint_encode64 (o_first o)), (varint_encode64 (o_last o)), (varint_encode64 (o_count o)).
  split; [apply leb128_encode64; auto|]. split; [apply leb128_encode64; auto|]. split; [apply leb128_encode64; auto|reflexivity].
Qed.

Lemma put_ok : forall r, put_okb r = true -> encodes r (put r).
Proof.
  intros r H. unfold put_okb in H. apply andb_prop in H. destruct H as [HB H]. split; [apply bytes_okb_ok; exact HB|].
  destruct r as [ow ty bw rs o|ow ty hd tl o|ow m|n m|k v].
  - do 4 (apply andb_prop in H; destruct H as [H ?]).
    split; [apply name_okb_ok; auto|]. split; [apply name_okb_ok; auto|]. split; [lia|]. split; [apply obs_okb_ok; auto|].
    split; [|apply put_obs_ok; apply obs_okb_ok; auto].
    eexists _, _. split; [apply leb128_encode64; unfold u64; lia|]. split; [|reflexivity].
    match goal with X : forallb _ rs = true |- _ => revert X end. clear.
    induction rs as [|r rs IH]; intro H; [constructor|]. cbn [forallb] in H. apply andb_prop in H. destruct H as [H1 H2].
    cbn [flat_map]. rewrite <- app_assoc. constructor; [lia|apply leb128_encode64; unfold u64; lia|auto].
  - do 3 (apply andb_prop in H; destruct H as [H ?]).
    split; [apply name_okb_ok; auto|]. split; [lia|]. split; [apply obs_okb_ok; auto|]. split; [lia|].
    split; [|apply put_obs_ok; apply obs_okb_ok; auto]. eexists. split; [apply leb128_encode64; unfold u64; lia|reflexivity].
  - split; [apply name_okb_ok; auto|reflexivity].
  - split; [apply name_okb_ok; auto|reflexivity].
  - split; [reflexivity|]. destruct k as [|x k]; [discriminate|]. exists x, k. split; [reflexivity|lia].
Qed.

Fixpoint strictb (t : table) : bool :=
  match t with
  | [] => true
  | e :: r => forallb (fun e' => blt (fst e) (fst e')) r && strictb r
  end.

Lemma strictb_ok : forall t, strictb t = true -> strict t /\ sorted t.
Proof.
  induction t as [|e t IH]; intro H; [split; constructor|]. cbn in H. apply andb_prop in H. destruct H as [H1 H2].
  destruct (IH H2) as [A B]. rewrite forallb_forall in H1. split; constructor; auto; apply Forall_forall; intros e' He'; specialize (H1 e' He'); auto.
  unfold blt, ble in *. destruct (bytes_compare (fst e) (fst e')); congruence.
Qed.

Lemma demo_ok : forall recs, forallb put_okb recs = true -> strictb (map put recs) = true ->
  database recs (map put recs) /\ strict (map put recs).
Proof.
  intros recs H1 H2. destruct (strictb_ok _ H2) as [A B]. split; [split; [|exact B]|exact A].
  clear H2 A B. induction recs as [|r recs IH]; [constructor|]. cbn [forallb] in H1. apply andb_prop in H1. destruct H1 as [H1 H1'].
  constructor; [apply put_ok; exact H1|apply IH; exact H1'].
Qed.

(** ** A small database *)

Definition L_com : bytes := [99; 111; 109].
Definition L_net : bytes := [110; 101; 116].
Definition L_ex : bytes := [101; 120].
Definition L_www : bytes := [119; 119; 119].
Definition L_mx : bytes := [109; 120].

Definition ob (a b c : N) : obs := {| o_first := a; o_last := b; o_count := c |}.

Definition demo : list record :=
  [ RRset [L_ex; L_com] 15 [L_com] [[0; 10; 2; 109; 120; 2; 101; 120; 3; 99; 111; 109; 0]] (ob 120 250 3);
    RRset [L_mx; L_ex; L_com] 1 [L_ex; L_com] [[10; 0; 0; 2]] (ob 130 260 5);
    RRset [L_www; L_ex; L_com] 1 [L_ex; L_com] [[10; 0; 0; 1]; [10; 0; 0; 3]] (ob 100 200 7);
    RRset [L_www; L_ex; L_com] 28 [L_ex; L_com] [[32; 1; 13; 184; 0; 0; 0; 0; 0; 0; 0; 0; 0; 0; 0; 1]] (ob 100 0 1);
    RRset [L_www; L_net] 5 [L_net] [[3; 119; 119; 119; 2; 101; 120; 3; 99; 111; 109; 0]] (ob 90 95 2);
    OwnerIndex [L_ex; L_com] [0; 2; 0; 1];
    OwnerIndex [L_mx; L_ex; L_com] [0; 1; 64];
    OwnerIndex [L_www; L_ex; L_com] [0; 4; 64; 0; 0; 8];
    OwnerIndex [L_www; L_net] [0; 1; 4];
    RData [L_ex; L_com] 15 [0; 10] (wire [L_mx; L_ex; L_com]) (ob 120 250 3);
    RData [L_www; L_net] 5 [] (wire [L_www; L_ex; L_com]) (ob 90 95 2);
    RData [L_www; L_ex; L_com] 1 [] [10; 0; 0; 1] (ob 100 200 7);
    RData [L_mx; L_ex; L_com] 1 [] [10; 0; 0; 2] (ob 130 260 5);
    RData [L_ex; L_com] 16 [] [10; 0; 0; 2; 1; 97; 98; 99; 100; 101; 102] (ob 1 2 3);
    RData [L_www; L_ex; L_com] 1 [] [10; 0; 0; 3] (ob 100 200 7);
    RData [L_www; L_ex; L_com] 28 [] [32; 1; 13; 184; 0; 0; 0; 0; 0; 0; 0; 0; 0; 0; 0; 1] (ob 100 0 1);
    RdataIndex [L_mx; L_ex; L_com] [0; 2; 0; 1];
    RdataIndex [L_www; L_ex; L_com] [5];
    Other [254] [90; 132; 2] ].
Definition demo_table : table := map put demo.

Lemma demo_database : database demo demo_table /\ strict demo_table.
Proof. apply demo_ok; vm_compute; reflexivity. Qed.

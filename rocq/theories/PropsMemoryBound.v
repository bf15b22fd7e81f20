(** * C81: how much memory is in use

    [in_use m] counts the blocks of memory, open files left out; [shares m c] adds up what
    the things a client holds may take: 2 blocks for a reader, 5 for a query, 143 for an
    iterator, 9 and one for each datum for an entry, one for a string or a formatter. *)
From Verif Require Import Base ModelMemory SpecMemory SpecMemoryBound HeapLogic MemoryProofs MemoryBoundProofs PropsMemory.

(** At every moment of every history that follows the rules, the memory in use is bounded by
    what the client holds: nothing piles up, however many queries were run, entries returned
    and index entries followed before. *)
Theorem memory_bounded : forall (fuel : nat) (choices : list N) (l : list call) (c : client) (m : memory),
  follows fuel [] (start choices) l -> never_strict fuel [] (start choices) l ->
  make_all fuel [] l (start choices) = Ok (c, m) -> (in_use m <= shares m c)%nat.
Proof.
  intros fuel choices l c m Hf Hn E. pose proof (run_ok false fuel choices l Hf (fun _ => Hn)) as Hr. rewrite E in Hr.
  destruct Hr as (H & HK & Hm). exact (kept_size c H m HK Hm).
Qed.

(** So for a client that has given back its entries a fixed amount for each thing it holds
    is enough, whatever it did before. *)
Theorem iteration_bounded : forall (fuel : nat) (choices : list N) (l : list call) (c : client) (m : memory),
  follows fuel [] (start choices) l -> never_strict fuel [] (start choices) l ->
  make_all fuel [] l (start choices) = Ok (c, m) ->
  (forall h, In h c -> match h with HEntry _ _ => False | _ => True end) -> (in_use m <= 143 * length c)%nat.
Proof.
  intros fuel choices l c m Hf Hn E Hc. eapply Nat.le_trans; [exact (memory_bounded fuel choices l c m Hf Hn E)|]. clear - Hc.
  unfold shares. induction c as [|h c IH]; [apply Nat.le_refl|]. assert (share m h <= 143)%nat by (specialize (Hc h (or_introl eq_refl)); destruct h; simpl; try contradiction; lia).
  change (share m h + list_sum (map (share m) c) <= 143 * S (length c))%nat. assert (list_sum (map (share m) c) <= 143 * length c)%nat by (apply IH; intros x Hx; apply Hc; right; exact Hx). lia.
Qed.

(** Without the restriction it is false: an aggregated query with a strict time bound over a
    set file leaves blocks behind. *)
Theorem memory_bounded_refuted : exists (fuel : nat) (choices : list N) (l : list call) (c : client) (m : memory),
  follows fuel [] (start choices) l /\ make_all fuel [] l (start choices) = Ok (c, m) /\ (shares m c < in_use m)%nat.
Proof.
  exists 60%nat, strict_choices, strict_end. eexists. eexists. split; [walk|]. split; [vm_compute; reflexivity|]. vm_compute. lia.
Qed.

(** An iterator over two filters, a timeout and a time bound, and an entry it returned. *)
Example c81_case : follows 60 [] (start story_choices) (firstn 13 story) /\ never_strict 60 [] (start story_choices) (firstn 13 story) /\
  exists c m, make_all 60 [] (firstn 13 story) (start story_choices) = Ok (c, m) /\ in_use m = 50%nat /\ shares m c = 158%nat.
Proof. split; [simpl; walk|split; [simpl; walk|]]. eexists. eexists. split; [vm_compute; reflexivity|]. split; vm_compute; reflexivity. Qed.

Print Assumptions memory_bounded.
Print Assumptions iteration_bounded.
Print Assumptions memory_bounded_refuted.

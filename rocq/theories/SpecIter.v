(** What iterating a sorted table means, independently of the program.
    Definitions only. *)
From Coq Require Export Sorted.
From Verif Require Import Base ModelIter.

(** Keys ascend; duplicates allowed. *)
Definition sorted (t : table) : Prop := StronglySorted (fun a b => ble (fst a) (fst b) = true) t.
(** Keys strictly ascend: every mtbl file and every merged source. *)
Definition strict (t : table) : Prop := StronglySorted (fun a b => blt (fst a) (fst b) = true) t.

Definition has_key (k : bytes) (t : table) : Prop := exists v, In (k, v) t.

(** The entries at or after [k]. *)
Definition from (k : bytes) (t : table) : table := filter (fun e => ble k (fst e)) t.

(** Calls made on an iterator, and what an ideal cursor over the list [full],
    standing before [rest], answers: one answer for each [Next]. *)
Inductive op := Next | Seek (k : bytes).

Fixpoint cursor (full rest : table) (ops : list op) : list (option kv) :=
  match ops with
  | [] => []
  | Next :: ops' =>
      match rest with
      | [] => None :: cursor full [] ops'
      | e :: r => Some e :: cursor full r ops'
      end
  | Seek k :: ops' => cursor full (from k full) ops'
  end.

Definition answer (o : option kv) : out := match o with Some e => OOk e | None => OFail end.

(** The answers the program gives to the same calls. *)
Fixpoint run (fuel : nat) (it : iter) (w : world) (ops : list op) : list out :=
  match ops with
  | [] => []
  | Next :: ops' => let '(o, it', w') := next fuel it w in o :: run fuel it' w' ops'
  | Seek k :: ops' => let '(_, it', w') := seek k it w in run fuel it' w' ops'
  end.

(** [eventually P]: true of all large enough step bounds, i.e. the computation
    terminates and [P] is about its result. *)
Definition eventually (P : nat -> Prop) : Prop := exists F, forall fuel, (F <= fuel)%nat -> P fuel.

(** The iterator behaves like a cursor over [full] for every sequence of calls. *)
Definition behaves_as (it : iter) (full : table) : Prop :=
  forall w ops, eventually (fun fuel => run fuel it w ops = map answer (cursor full full ops)).

(** A filter function decides membership by [p], keeps its hands off the shared
    state, and only ever seeks or stops where it skips nothing wanted. *)
Definition good_filter (f : filter_fn) (p : kv -> bool) (t : table) : Prop :=
  forall w k v, In (k, v) t ->
    snd (f w k v) = w /\
    match fst (f w k v) with
    | FMatch => p (k, v) = true
    | FSkip => p (k, v) = false
    | FSeek k' => blt k k' = true /\
        (forall e, In e t -> ble k (fst e) = true -> blt (fst e) k' = true -> p e = false)
    | FStop => forall e, In e t -> ble k (fst e) = true -> p e = false
    | FAbort | FUB => False
    end.

(** [j] is [l] with each value merged with the value of the same key in [r], if any. *)
Definition left_join (mf : merge_fn) (r : table) (l j : table) : Prop :=
  Forall2 (fun e e' => fst e' = fst e /\
             ((~ has_key (fst e) r /\ snd e' = snd e) \/
              (exists rv, In (fst e, rv) r /\ mf (fst e) (snd e) rv = Ok (snd e')))) l j.

(** Calling next until the iterator is exhausted: the entries and the final state. *)
Fixpoint drain (fuel n : nat) (it : iter) (w : world) : option (list kv * world) :=
  match n with
  | O => None
  | S n' =>
      match next fuel it w with
      | (OOk e, it', w') =>
          match drain fuel n' it' w' with Some (l, w'') => Some (e :: l, w'') | None => None end
      | (OFail, _, w') => Some ([], w')
      | _ => None
      end
  end.

(** The counters agree with the history of what the stages did. *)
Definition event_is (s : stage) (c : category) (e : event) : bool :=
  match e, c with
  | EvReject s' _ _, CFiltered => stage_eqb s s'
  | EvMerge s' _, CMerged => stage_eqb s s'
  | EvSeek s' _, CSeek => stage_eqb s s'
  | _, _ => false
  end.
Definition counters_match (w : world) : Prop :=
  forall s c, w_cnt w s c = N.of_nat (length (filter (event_is s c) (w_log w))).

(** The filter functions of an iterator touch neither counters nor history. *)
Fixpoint quiet (it : iter) : Prop :=
  match it with
  | IBase _ => True
  | ITimeout u | IRemove _ _ u | ILjoin _ _ _ _ u => quiet u
  | IFilter _ f u => (forall w k v, w_cnt (snd (f w k v)) = w_cnt w /\ w_log (snd (f w k v)) = w_log w) /\ quiet u
  end.

(** State after a sequence of calls, whatever they answered. *)
Fixpoint state_after (fuel : nat) (it : iter) (w : world) (ops : list op) : world :=
  match ops with
  | [] => w
  | Next :: ops' => let '(_, it', w') := next fuel it w in state_after fuel it' w' ops'
  | Seek k :: ops' => let '(_, it', w') := seek k it w in state_after fuel it' w' ops'
  end.

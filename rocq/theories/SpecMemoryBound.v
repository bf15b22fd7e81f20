(** * How much memory a client may find in use

    Blocks are counted, not bytes, and open files are left out. *)
From Verif Require Import Base ModelMemory.

Definition not_a_file (c : N * obj) : bool := match snd c with OSource SBase => false | _ => true end.
Definition in_use (m : memory) : nat := length (filter not_a_file (cells m)).

(** The number of data of the entry [e]. *)
Definition data_of (m : memory) (e : ptr) : nat :=
  match lookup e (cells m) with
  | Some (OEntry _ v _ _ _ _) => match lookup v (cells m) with Some (OVec _ l) => length l | _ => 0%nat end
  | _ => 0%nat
  end.

(** What each thing the client holds may take. *)
Definition share (m : memory) (h : handle) : nat :=
  match h with
  | HSource _ => 0%nat
  | HReader _ _ => 2%nat
  | HQuery _ _ => 5%nat
  | HIter _ _ => 143%nat
  | HEntry e _ => (9 + data_of m e)%nat
  | HString _ | HFormatter _ => 1%nat
  end.
Definition shares (m : memory) (c : client) : nat := list_sum (map (share m) c).

(** What may be done to a query while iterators of it are in use.  Definitions only. *)
From Verif Require Import Base SpecName SpecEntry SpecDecode SpecQuery SpecLookup SpecReader SpecSettings ModelIter ModelQuery ModelSetters ModelFileset ModelLive SpecSound.

(** What one of the iterators answered. *)
Fixpoint gave (i : nat) (l : list act) (rs : list answer) : list qres :=
  match l, rs with
  | ANext j :: l', AGave r :: rs' => if Nat.eqb i j then r :: gave i l' rs' else gave i l' rs'
  | _ :: l', _ :: rs' => gave i l' rs'
  | _, _ => []
  end.

(** Names with a "*" or "+" in front, or at the end. *)
Definition begins_wild (q : query) : bool := is_some (is_left_wildcard (name_data q)).
Definition ends_wild (q : query) : bool := is_some (is_right_wildcard (name_data q)).

(** Iterators that go on looking at the type, the bailiwick, the time bounds of their query. *)
Definition watches_type (q : query) : bool :=
  match q_type q with
  | QRrset => if begins_wild q then q_do_rrtype q else ends_wild q
  | QRdataName => q_do_rrtype q || (begins_wild q && negb (ends_wild q))
  | QRdataIp => true
  | QRdataRaw => q_do_rrtype q
  | _ => false
  end.
Definition watches_bailiwick (q : query) : bool :=
  match q_type q with
  | QRrset => is_some (q_bailiwick q) && (begins_wild q || ends_wild q || negb (q_do_rrtype q))
  | _ => false
  end.
Definition watches_times (q : query) : bool := q_do_tfa q || q_do_tlb q || q_do_tfb q || q_do_tla q.

(** Settings that leave an iterator made of [made] alone. *)
Definition harmless (ev : env) (made : query) (c : setting) : Prop :=
  match c with
  | SetAggregated _ | SetCaseSensitive _ | SetOffset _ | SetTimeout _ | SetDeadline _ => True
  | SetData s =>
      q_type made = QRdataIp -> forall x n lo hi, s = Some x -> denotes ev x n lo hi -> q_do_rrtype made = true /\ q_rrtype made = (if Nat.eqb n 4 then 1 else 28)
  | SetRrtype _ => watches_type made = false
  | SetBailiwick _ => watches_bailiwick made = false
  | SetFilterParameter _ _ _ => watches_times made = false
  end.
Definition leaves_alone (ev : env) (made : query) (a : act) : Prop := match a with ASet c => harmless ev made c | _ => True end.

(** Iterators that filter by the type of their query. *)
Definition filters_type (made : query) : bool :=
  q_do_rrtype made &&
  match q_type made with
  | QRrset => begins_wild made || ends_wild made
  | QRdataName | QRdataIp | QRdataRaw => true
  | _ => false
  end.

(** An entry that an iterator made of [made] may return while the query is [now]. *)
Definition obeys (made now : query) (c : content) : Prop :=
  match c with
  | CRrset _ ty bw _ f l _ =>
      (filters_type made = true -> ty = q_rrtype now) /\
      (watches_bailiwick made = true -> forall b, q_bailiwick now = option_map rwire b -> (forall x, b = Some x -> name_ok x) -> b = Some bw) /\
      (watches_times made = true -> bounds_kept now f l)
  | CRdata _ ty _ f l _ =>
      (filters_type made = true -> ty = q_rrtype now) /\ (watches_times made = true -> bounds_kept now f l)
  | _ => True
  end.

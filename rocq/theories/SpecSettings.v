(** What query parameters mean, independently of how the setters compute it.
    Definitions only. *)
From Verif Require Import Str SpecName ModelIter ModelQuery SpecQuery ModelSetters.

(** ** Addresses *)

(** The bits of a byte string, most significant first. *)
Definition byte_bits (b : N) : list bool := map (N.testbit b) [7; 6; 5; 4; 3; 2; 1; 0].
Definition bits (l : bytes) : list bool := flat_map byte_bits l.

(** [x] and [a] share the first [p] bits. *)
Definition same_block (p : nat) (a x : bytes) : Prop := firstn p (bits x) = firstn p (bits a).

(** The addresses from [lo] to [hi] are those that share the first [p] bits with [a]. *)
Definition is_block (n : nat) (p : nat) (a lo hi : bytes) : Prop :=
  length lo = n /\ bytes_ok lo /\ length hi = n /\ bytes_ok hi /\
  forall x, length x = n -> bytes_ok x -> (ip_value lo <= ip_value x <= ip_value hi <-> same_block p a x).

(** Decimal digits. *)
Inductive decimal : bytes -> N -> Prop :=
| dec_one : forall d, d < 10 -> decimal [48 + d] d
| dec_more : forall s v d, decimal s v -> d < 10 -> decimal (s ++ [48 + d]) (10 * v + d).

(** ** Hexadecimal *)

Definition hex_digit (c x : N) : Prop :=
  nth_error (str "0123456789abcdef") (N.to_nat x) = Some c \/
  nth_error (str "0123456789ABCDEF") (N.to_nat x) = Some c.
Inductive hex_spells : bytes -> bytes -> Prop :=
| hs_nil : hex_spells [] []
| hs_cons : forall a b x y s l, hex_digit a x -> hex_digit b y -> hex_spells s l ->
    hex_spells (a :: b :: s) (16 * x + y :: l).

(** ** What the text-parsing functions outside dnstable are assumed to give *)

Definition env_ok (ev : env) : Prop :=
  (forall s n, str_to_name ev s = Some n -> exists ls, name_ok ls /\ n = wire ls) /\
  (forall s, str_to_rrtype ev s < 65536) /\
  (forall s a, pton4 ev s = Some a -> length a = 4%nat /\ bytes_ok a) /\
  (forall s a, pton6 ev s = Some a -> length a = 16%nat /\ bytes_ok a).

(** ** Histories of calls with their results *)

Definition history := list (setting * bool).

(** The value given by the last successful call that sets the parameter. *)
Definition last_set {A} (sets : setting -> option A) (init : A) (h : history) : A :=
  fold_left (fun cur (cb : setting * bool) =>
               if snd cb then match sets (fst cb) with Some v => v | None => cur end else cur) h init.

(** Which parameter a call sets, and to what. *)
Definition sets_offset (c : setting) : option N := match c with SetOffset n => Some n | _ => None end.
Definition sets_aggregated (c : setting) : option bool := match c with SetAggregated b => Some b | _ => None end.
Definition sets_case (c : setting) : option bool := match c with SetCaseSensitive b => Some b | _ => None end.
Definition sets_timeout (c : setting) : option (option timespec) := match c with SetTimeout t => Some t | _ => None end.
Definition sets_deadline (c : setting) : option (option timespec) := match c with SetDeadline t => Some t | _ => None end.
Definition sets_bound (p : N) (c : setting) : option (option N) :=
  match c with SetFilterParameter p' v _ => if p' =? p then Some v else None | _ => None end.
(** NULL, "ANY", "TYPE255" and "ANY-DNSSEC" (in any case) mean no restriction to a type. *)
Definition lower_letter (c : N) : N := if (65 <=? c) && (c <=? 90) then c + 32 else c.
Definition any_type (s : bytes) : bool :=
  existsb (fun x => if list_eq_dec N.eq_dec (map lower_letter s) x then true else false)
    [str "any"; str "type255"; str "any-dnssec"].
Definition sets_rrtype (ev : env) (c : setting) : option (option N) :=
  match c with
  | SetRrtype None => Some None
  | SetRrtype (Some s) => Some (if any_type s then None else Some (str_to_rrtype ev s))
  | _ => None
  end.

(** Equal but for the case of ASCII letters. *)
Definition same_letter (a b : N) : Prop :=
  a = b \/ (65 <= a <= 90 /\ b = a + 32) \/ (65 <= b <= 90 /\ a = b + 32).
Definition caseless (a b : bytes) : Prop := Forall2 same_letter a b.

(** The parameters a query carries. *)
Definition opt {A} (b : bool) (v : A) : option A := if b then Some v else None.
Definition timeout_of (q : query) : option timespec := opt (q_do_timeout q) (q_timeout q).
Definition deadline_of (q : query) : option timespec := opt (q_do_deadline q) (q_deadline q).
Definition rrtype_of (q : query) : option N := opt (q_do_rrtype q) (q_rrtype q).
(** Time bounds by parameter number: first-before, first-after, last-before, last-after. *)
Definition bound_of (p : N) (q : query) : option N :=
  if p =? 0 then opt (q_do_tfb q) (q_tfb q)
  else if p =? 1 then opt (q_do_tfa q) (q_tfa q)
  else if p =? 2 then opt (q_do_tlb q) (q_tlb q)
  else opt (q_do_tla q) (q_tla q).

(** Everything but the data asked for. *)
Definition same_but_data (q q' : query) : Prop :=
  q_type q' = q_type q /\ q_offset q' = q_offset q /\ q_aggregated q' = q_aggregated q /\
  q_case_sensitive q' = q_case_sensitive q /\ timeout_of q' = timeout_of q /\ deadline_of q' = deadline_of q /\
  q_bailiwick q' = q_bailiwick q /\ (forall p, bound_of p q' = bound_of p q).

(** Labels in lower case. *)
Definition lower_name (ls : list bytes) : list bytes := map (map lower_letter) ls.

(** ** The address text of an rdata-ip query *)

Definition no_char (d : N) (s : bytes) : Prop := Forall (fun c => c <> d) s.
Definition dash : N := 45.
Definition slash : N := 47.
Definition plain (s : bytes) : Prop := s <> [] /\ no_char dash s /\ no_char slash s.

(** Text of one address: its length and bytes. *)
Inductive address (ev : env) (s : bytes) : nat -> bytes -> Prop :=
| addr4 : forall a, pton4 ev s = Some a -> address ev s 4 a
| addr6 : forall a, pton4 ev s = None -> pton6 ev s = Some a -> address ev s 16 a.

(** [s] is [a] and [b] with one or more characters [c] between them; more of these may
    stand in front and behind. *)
Definition two_parts (c : N) (s a b : bytes) : Prop :=
  exists i j k, s = repeat c i ++ a ++ repeat c (S j) ++ b ++ repeat c k /\
    a <> [] /\ b <> [] /\ no_char c a /\ no_char c b.
(** A prefix length: digits, with blanks and a plus sign in front if one likes. *)
Definition blank (c : N) : Prop := c = 32 \/ 9 <= c <= 13.
Definition prefix_length (s : bytes) (p : N) : Prop :=
  exists blanks sign ds, s = blanks ++ sign ++ ds /\ Forall blank blanks /\ (sign = [] \/ sign = str "+") /\ decimal ds p.

(** Prefix lengths the code handles: not 0 and 1 for IPv4, not 0 and 64 for IPv6. *)
Definition handled_prefix (n : nat) (p : N) : Prop := (n = 4%nat /\ 2 <= p <= 32) \/ (n = 16%nat /\ 1 <= p <= 128 /\ p <> 64).
Definition mishandled_prefix (n : nat) (p : N) : Prop := (n = 4%nat /\ p < 2) \/ (n = 16%nat /\ (p = 0 \/ p = 64)).

(** Text of a range of addresses: "A", "A-B" and "A/LEN". *)
Inductive denotes (ev : env) : bytes -> nat -> bytes -> bytes -> Prop :=
| den_address : forall s n a, no_char dash s -> no_char slash s -> address ev s n a -> denotes ev s n a a
| den_range : forall s s1 s2 n a1 a2, two_parts dash s s1 s2 -> address ev s1 n a1 -> address ev s2 n a2 -> denotes ev s n a1 a2
| den_prefix : forall s s1 s2 n a p lo hi, no_char dash s -> two_parts slash s s1 s2 -> address ev s1 n a -> prefix_length s2 p ->
    handled_prefix n p -> is_block n (N.to_nat p) a lo hi -> denotes ev s n lo hi.
(** "A/LEN" with one of the lengths that are left out there. *)
Definition mishandled (ev : env) (s : bytes) : Prop :=
  no_char dash s /\ exists s1 s2 n a p, two_parts slash s s1 s2 /\ address ev s1 n a /\ prefix_length s2 p /\ mishandled_prefix n p.

(** Calls that concern the data asked for. *)
Definition is_data (c : setting) : Prop := match c with SetData _ => True | _ => False end.
Definition is_type (c : setting) : Prop := match c with SetRrtype _ => True | _ => False end.
Definition is_bailiwick (c : setting) : Prop := match c with SetBailiwick _ => True | _ => False end.

(** ** Names in the interface *)

(** dnstable.h:69-87: the numbers of stages and categories, and what they are called. *)
Definition stage_number (st : stage) : Z :=
  match st with
  | StFileset => 0 | StSingleLabel => 1 | StRrtype => 2 | StBailiwick => 3 | StTimePrefilter => 4
  | StRemoveStrict => 5 | StFillMerger => 6 | StLjoin => 7 | StTime => 8 | StOffset => 9
  end%Z.
Definition stage_label (st : stage) : bytes :=
  match st with
  | StFileset => str "fileset" | StSingleLabel => str "single label" | StRrtype => str "rrtype"
  | StBailiwick => str "bailiwick" | StTimePrefilter => str "time prefilter" | StRemoveStrict => str "remove strict"
  | StFillMerger => str "fill merger" | StLjoin => str "left join" | StTime => str "time" | StOffset => str "offset"
  end.
Definition category_number (c : category) : Z :=
  match c with CFiltered => 0 | CMerged => 1 | CSeek => 2 | CFiles => 3 end%Z.
Definition category_label (c : category) : bytes :=
  match c with CFiltered => str "filtered" | CMerged => str "merged" | CSeek => str "seek" | CFiles => str "files" end.

(** dnstable-encoding(5): entry types by number. *)
Definition entry_labels : list (N * bytes) :=
  [(0, str "rrset"); (1, str "rrset_name"); (2, str "rdata"); (3, str "rdata_name");
   (253, str "source_info"); (254, str "time_range"); (255, str "version")].

(** What dnstable_lookup and dnstable_dump should print, independently of the program.
    Definitions only. *)
From Verif Require Import Str ModelEntry ModelIter ModelQuery SpecIter SpecMerge SpecName SpecEntry SpecQuery SpecFormat ModelSetters ModelFormat ModelFileset ModelLookup SpecDeadline SpecSettings SpecReader PropsFormat.

(** ** Output *)

(** The line or lines for one entry: nothing with -n; with -j or -J the JSON object (dates
    as seconds or as RFC 3339 timestamps, raw rdata with -R) and a line break; otherwise
    the text form, and an empty line after an RRset. *)
Definition entry_output (lib : fmtlib) (o : opts) (e : entry) (s : bytes) : Prop :=
  if o_count o then s = []
  else if o_Json o || o_json o then
    exists t, dnstable_entry_format lib (json_formatter (if o_json o then DateUnix else DateRfc3339) false (o_raw o)) e = Ok (Some t) /\
      t <> [] /\ s = t ++ [10]
  else
    exists t, dnstable_entry_to_text lib e = Ok (Some t) /\ t <> [] /\
      s = t ++ (if get_type e =? ENTRY_TYPE_RRSET then [10] else []).

(** The last lines on stderr, for text output only. *)
Definition summary (lib : fmtlib) (o : opts) (timed_out : bool) (count : N) : bytes :=
  if o_json o || o_Json o then []
  else (if timed_out then str ";;; timed out" ++ [10] else []) ++
       str ";;; Dumped " ++ locale_uint64 lib count ++ str " entries." ++ [10].

(** ** Time bounds *)

(** A bound given by an option; 0 is "not given". *)
Definition at_least (bound x : N) : Prop := bound = 0 \/ bound <= x.
Definition at_most (bound x : N) : Prop := bound = 0 \/ x <= bound.

(** -a and -B bound the first-seen time, -A and -b the last-seen time. *)
Definition within (o : opts) (first last : N) : Prop :=
  at_least (o_tfa o) first /\ at_most (o_tfb o) first /\ at_least (o_tla o) last /\ at_most (o_tlb o) last.
(** With -c all four bound the whole interval from first to last. *)
Definition completely_within (o : opts) (first last : N) : Prop :=
  at_least (o_tfa o) first /\ at_least (o_tla o) first /\ at_most (o_tfb o) last /\ at_most (o_tlb o) last.

(** ** The command line, dnstable_lookup(1) *)

Definition code (c : string) : N := hd 0 (str c).
(** The option is given. *)
Definition given (c : string) (l : list (N * bytes)) : Prop := exists arg, In (code c, arg) l.
(** [arg], the argument of the option number [i], is the last one given for it. *)
Definition last_given (c : string) (l : list (N * bytes)) (i : nat) (arg : bytes) : Prop :=
  nth_error l i = Some (code c, arg) /\ forall j x, nth_error l j = Some (code c, x) -> (j <= i)%nat.
(** The option's value is that of the last one given, 0 if there is none; all are valid. *)
Definition time_option (now : nat -> Z) (l : list (N * bytes)) (c : string) (v : N) : Prop :=
  (forall i arg, nth_error l i = Some (code c, arg) -> exists t, parse_time (now i) arg = Ok t /\ t <> 0) /\
  (~ given c l -> v = 0) /\ (forall i arg, last_given c l i arg -> parse_time (now i) arg = Ok v).
Definition number_option (l : list (N * bytes)) (c : string) (v : Z) : Prop :=
  (forall i arg, nth_error l i = Some (code c, arg) -> (0 < atoi arg)%Z) /\
  (~ given c l -> v = 0%Z) /\ (forall i arg, last_given c l i arg -> atoi arg = v).

(** What the options say: the flags given, the last value of those with one, and how
    many times -s is given. *)
Record options_mean (now : nat -> Z) (l : list (N * bytes)) (o : opts) : Prop := {
  om_known : Forall (fun p => In (fst p) (str "aAbBcCijJnRstuO")) l;
  om_a : time_option now l "a" (o_tfa o);
  om_A : time_option now l "A" (o_tla o);
  om_b : time_option now l "b" (o_tlb o);
  om_B : time_option now l "B" (o_tfb o);
  om_c : o_strict o = true <-> given "c" l;
  om_C : o_case o = true <-> given "C" l;
  om_i : number_option l "i" (o_interval o);
  om_j : o_json o = true <-> given "j" l;
  om_J : o_Json o = true <-> given "J" l;
  om_n : o_count o = true <-> given "n" l;
  om_R : o_raw o = true <-> given "R" l;
  om_s : o_stats o = N.of_nat (length (filter (fun p => fst p =? code "s") l));
  om_t : number_option l "t" (o_timeout o);
  om_u : o_aggregate o = false <-> given "u" l;
  om_O : number_option l "O" (o_offset o)
}.

(** The arguments behind the options: rrset OWNER [TYPE [BAILIWICK]], rdata ip ADDRESS,
    rdata raw HEX [TYPE], rdata name NAME [TYPE], version [KIND], time_range. *)
Inductive command_means : list bytes -> command -> Prop :=
| cm_rrset : forall owner, ~ In (code "/") owner -> command_means [str "rrset"; owner] (cmd QRrset (Some owner) None None)
| cm_rrset_type : forall owner t, ~ In (code "/") owner ->
    command_means [str "rrset"; owner; t] (cmd QRrset (Some owner) (Some t) None)
| cm_rrset_bailiwick : forall owner t b, ~ In (code "/") owner ->
    command_means [str "rrset"; owner; t; b] (cmd QRrset (Some owner) (Some t) (Some b))
| cm_ip : forall d, command_means [str "rdata"; str "ip"; d] (cmd QRdataIp (Some d) None None)
| cm_raw : forall d, command_means [str "rdata"; str "raw"; d] (cmd QRdataRaw (Some d) None None)
| cm_raw_type : forall d t, command_means [str "rdata"; str "raw"; d; t] (cmd QRdataRaw (Some d) (Some t) None)
| cm_name : forall d, command_means [str "rdata"; str "name"; d] (cmd QRdataName (Some d) None None)
| cm_name_type : forall d t, command_means [str "rdata"; str "name"; d; t] (cmd QRdataName (Some d) (Some t) None)
| cm_version : command_means [str "version"] (cmd QVersion None None None)
| cm_version_kind : forall k, command_means [str "version"; k] (cmd QVersion (Some k) None None)
| cm_time_range : command_means [str "time_range"] (cmd QTimeRange None None None).

(** Options that go together and with the command: no -O and -R for metadata, no output
    options with -n, only one of -j and -J, -R only with one of them. *)
Record allowed (o : opts) (c : command) : Prop := {
  al_metadata : c_type c = QVersion \/ c_type c = QTimeRange -> o_offset o = 0%Z /\ o_raw o = false;
  al_count : o_count o = true -> o_json o = false /\ o_Json o = false /\ o_raw o = false;
  al_one : o_json o = false \/ o_Json o = false;
  al_raw : o_raw o = true -> o_json o = true \/ o_Json o = true
}.

(** ** The query *)

(** Names, types, addresses and hexadecimal data that can be made sense of. *)
Definition accepted (ev : env) (c : command) : Prop :=
  (forall s, c_rrtype c = Some s -> any_type s = true \/ str_to_rrtype ev s <> 0) /\
  (forall s, c_bailiwick c = Some s -> str_to_name ev s <> None) /\
  match c_data c with
  | None => True
  | Some d =>
      match c_type c with
      | QRrset | QRdataName => str_to_name ev d <> None
      | QRdataRaw => d <> [] /\ exists l, hex_spells d l
      | QRdataIp => exists n lo hi, denotes ev d n lo hi
      | QVersion => In d [str "rrset"; str "rrset_name"; str "rdata"; str "rdata_name"]
      | _ => True
      end
  end.

(** When the query is to stop for the first time, in nanoseconds: -t seconds after the
    program's first reading of the clock, or -i seconds after the second (the first
    without -t), whatever is earlier. *)
Definition seconds (z : Z) : Z := (z * 1000000000)%Z.
Definition first_stop (o : opts) (clk : clock) : option Z :=
  if (o_timeout o =? 0)%Z then
    if (o_interval o =? 0)%Z then None else Some (nanos (clk 0%nat) + seconds (o_interval o))%Z
  else
    let total := (nanos (clk 0%nat) + seconds (o_timeout o))%Z in
    Some (if (o_interval o =? 0)%Z then total else Z.min (nanos (clk 1%nat) + seconds (o_interval o)) total)%Z.
Definition clock_ok (clk : clock) : Prop := forall n, normal (clk n) /\ (0 <= tv_sec (clk n))%Z.

(** [q] asks what the command and the options say. *)
Record question (ev : env) (o : opts) (c : command) (clk : clock) (q : query) : Prop := {
  qs_type : q_type q = c_type c;
  qs_offset : Z.of_N (q_offset q) = o_offset o;
  qs_aggregated : q_aggregated q = o_aggregate o;
  qs_timeout : timeout_of q = None;
  qs_deadline : option_map nanos (deadline_of q) = first_stop o clk;
  qs_rrtype : c_type c <> QRdataIp -> rrtype_of q =
    match c_rrtype c with None => None | Some s => if any_type s then None else Some (str_to_rrtype ev s) end;
  qs_bailiwick : match c_bailiwick c with
    | None => asks_bailiwick q None
    | Some x => exists ls, str_to_name ev x = Some (wire ls) /\ asks_bailiwick q (Some (lower_name ls))
    end;
  qs_data : match c_type c, c_data c with
    | QRrset, Some d | QRdataName, Some d =>
        exists ls, str_to_name ev d = Some (wire ls) /\ asks_name q (if o_case o then ls else lower_name ls)
    | QRdataRaw, Some d => exists l, hex_spells d l /\ q_rdata q = Some l /\ q_len_rdata q = blen l
    | QRdataIp, Some d => forall n lo hi, denotes ev d n lo hi -> asks_range q n (if Nat.eqb n 4 then 1 else 28) lo hi
    | QVersion, Some d => exists ty, In (d, ty) [(str "rrset", 0); (str "rrset_name", 1); (str "rdata", 2); (str "rdata_name", 3)] /\
        q_has_v_type q = true /\ q_v_type q = ty
    | QVersion, None => q_has_v_type q = false
    | QTimeRange, None => True
    | _, _ => False
    end;
  qs_metadata : c_type c = QVersion \/ c_type c = QTimeRange -> no_bounds q;
  qs_bounds : c_type c <> QVersion -> c_type c <> QTimeRange -> forall ob,
    if o_strict o then o_first ob <= o_last ob -> (in_fence q ob <-> completely_within o (o_first ob) (o_last ob))
    else (in_fence q ob <-> within o (o_first ob) (o_last ob))
}.

(** The database: exactly one of DNSTABLE_FNAME and DNSTABLE_SETFILE is set, -u only with
    the latter. *)
Inductive opened (v : vars) (o : opts) : reader -> Prop :=
| op_file : forall t, v_fname v = Some (Some t) -> v_setfile v = None -> o_aggregate o = true -> opened v o (dnstable_reader_init t)
| op_set : forall files, v_fname v = None -> v_setfile v = Some files -> opened v o (dnstable_reader_init_setfile files).

(** A command line that can be carried out. *)
Record understood (ev : env) (now : nat -> Z) (options : list (N * bytes)) (args : list bytes) (v : vars)
  (o : opts) (c : command) (d : reader) : Prop := {
  un_options : options_mean now options o;
  un_command : command_means args c;
  un_allowed : allowed o c;
  un_accepted : accepted ev c;
  un_opened : opened v o d
}.

(** Arguments for which the behaviour is undefined: times whose computation overflows, and
    the prefix lengths of [mishandled]. *)
Definition undefined_time (now : nat -> Z) (l : list (N * bytes)) : Prop :=
  exists i ch arg, nth_error l i = Some (ch, arg) /\ In ch (str "aAbB") /\ parse_time (now i) arg = UB.
Definition undefined_address (ev : env) (args : list bytes) : Prop :=
  exists d, args = [str "rdata"; str "ip"; d] /\ mishandled ev d.

(** ** What a command line asks for, in terms of the stored records *)

(** The name that is meant: in lower case unless -C is given. *)
Definition name_of (ev : env) (o : opts) (d : bytes) (name : list bytes) : Prop :=
  exists ls, name_ok ls /\ str_to_name ev d = Some (wire ls) /\ name = if o_case o then ls else lower_name ls.

(** "*" in front stands for any labels, also none, "+" for one label; so at the end. *)
Inductive fits : list bytes -> list bytes -> Prop :=
| fits_itself : forall n, not_left_wild n -> not_right_wild n -> fits n n
| fits_below : forall c x y, c = star_sign \/ c = plus_sign -> not_right_wild ([c] :: x) -> (c = plus_sign -> length y = 1%nat) -> fits ([c] :: x) (y ++ x)
| fits_after : forall c x y, c = star_sign \/ c = plus_sign -> not_left_wild (x ++ [[c]]) -> (c = plus_sign -> length y = 1%nat) -> fits (x ++ [[c]]) (x ++ y).
(** Names with a wildcard at most at one end, and not of the kind the library takes for
    one by mistake (see [odd_last]). *)
Inductive one_sided : list bytes -> Prop :=
| os_plain : forall n, not_left_wild n -> not_right_wild n -> one_sided n
| os_below : forall c x, c = star_sign \/ c = plus_sign -> not_right_wild ([c] :: x) -> one_sided ([c] :: x)
| os_after : forall c x, c = star_sign \/ c = plus_sign -> not_left_wild (x ++ [[c]]) -> one_sided (x ++ [[c]]).

Definition type_wanted (ev : env) (c : command) (ty : N) : Prop :=
  forall s, c_rrtype c = Some s -> any_type s = false -> ty = str_to_rrtype ev s.
Definition bailiwick_wanted (ev : env) (c : command) (b : list bytes) : Prop :=
  forall s, c_bailiwick c = Some s -> exists ls, name_ok ls /\ str_to_name ev s = Some (wire ls) /\ b = lower_name ls.
Definition time_wanted (o : opts) (ob : obs) : Prop :=
  if o_strict o then completely_within o (o_first ob) (o_last ob) else within o (o_first ob) (o_last ob).

Definition wanted (ev : env) (o : opts) (c : command) (r : record) : Prop :=
  match c_type c, c_data c, r with
  | QRrset, Some d, RRset ow ty b _ ob =>
      (exists name, name_of ev o d name /\ fits name ow) /\ type_wanted ev c ty /\ bailiwick_wanted ev c b /\ time_wanted o ob
  | QRdataName, Some d, RData ow ty head tail ob =>
      (exists name n extra, name_of ev o d name /\ fits name n /\ name_ok n /\ tail = wire n ++ extra) /\
      bears_name ty /\ type_wanted ev c ty /\ time_wanted o ob
  | QRdataRaw, Some d, RData ow ty head tail ob =>
      (exists raw rest, hex_spells d raw /\ rdata_key ow ty head tail (ENTRY_TYPE_RDATA :: raw ++ rest)) /\
      type_wanted ev c ty /\ time_wanted o ob
  | QRdataIp, Some d, RData ow ty head tail ob =>
      (exists n lo hi, denotes ev d n lo hi /\ ty = (if Nat.eqb n 4 then 1 else 28) /\ ip_value lo <= ip_value tail <= ip_value hi) /\
      time_wanted o ob
  | _, _, _ => False
  end.

(** The records meant for -c: those with first <= last. *)
Definition timely (o : opts) (r : record) : Prop :=
  o_strict o = true -> match r with RRset _ _ _ _ ob | RData _ _ _ _ ob => o_first ob <= o_last ob | _ => True end.

(** Conditions on the database and the command for the theorems about this. *)
Record findable (ev : env) (o : opts) (c : command) (recs : list record) : Prop := {
  fi_name : forall d name, c_data c = Some d -> c_type c = QRrset \/ c_type c = QRdataName -> name_of ev o d name -> one_sided name;
  fi_type : forall s, c_rrtype c = Some s -> any_type s = false ->
    match c_type c with QRrset => str_to_rrtype ev s <> 255 | QRdataName => bears_name (str_to_rrtype ev s) | _ => True end;
  fi_owners : c_type c = QRrset -> owners_indexed recs;
  fi_owner_index : forall s ow m, c_type c = QRrset -> c_rrtype c = Some s -> In (OwnerIndex ow m) recs -> index_safe m (str_to_rrtype ev s);
  fi_names : c_type c = QRdataName -> names_canonical recs /\ rdata_names_indexed recs;
  fi_name_index : forall s n m, c_type c = QRdataName -> c_rrtype c = Some s -> In (RdataIndex n m) recs -> index_safe m (str_to_rrtype ev s);
  fi_addresses : forall n ty, c_type c = QRdataIp -> ip_kind n ty -> addresses_canonical recs n ty /\ no_overread recs n ty
}.

(** The name has a wildcard. *)
Definition wildcard (ev : env) (o : opts) (c : command) : Prop :=
  exists d name, c_data c = Some d /\ (c_type c = QRrset \/ c_type c = QRdataName) /\ name_of ev o d name /\ ~ (not_left_wild name /\ not_right_wild name).

(** ** What the program does *)

(** The total time is up, by the clock. *)
Definition past_total (o : opts) (clk : clock) (i : nat) : Prop :=
  o_timeout o <> 0%Z /\ (nanos (clk 0%nat) + seconds (o_timeout o) < nanos (clk i))%Z.

(** [run] (with a bound on the number of intervals waited for, and fuel) prints the first
    [k] of [texts] and says so; [timed]: it says that time ran out. *)
Definition prints_first (lib : fmtlib) (o : opts) (run : nat -> nat -> res (bytes * bytes)) (texts : list bytes)
  (k : nat) (timed : bool) (rounds : nat) : Prop :=
  eventually (fun fuel => exists stats, (o_stats o = 0 -> o_interval o = 0%Z -> stats = []) /\
    run rounds fuel = Ok (concat (firstn k texts), stats ++ summary lib o timed (N.of_nat k mod u64))).

(** - Without -t and -i the program ends and has printed all of [texts], in order, and
      their number.
    - With -t, -i or both, if it ends, it has printed that or a beginning of it; a
      beginning only if time ran out with -t, and then it says so.
    - With -t it does end, without -i after one round, with -i once the time is up by
      the clock. *)
Record delivers (lib : fmtlib) (o : opts) (clk : clock) (run : nat -> nat -> res (bytes * bytes)) (texts : list bytes) : Prop := {
  de_all : o_timeout o = 0%Z -> o_interval o = 0%Z -> forall rounds, prints_first lib o run texts (length texts) false (S rounds);
  de_beginning : forall rounds,
    (exists k timed, prints_first lib o run texts k timed rounds /\ (k <= length texts)%nat /\ (timed = false -> k = length texts) /\
      (timed = true -> (o_timeout o <> 0%Z /\ o_interval o = 0%Z) \/ exists i, past_total o clk i)) \/
    eventually (fun fuel => run rounds fuel = Hang);
  de_once : o_timeout o <> 0%Z -> o_interval o = 0%Z -> forall rounds, exists k timed, prints_first lib o run texts k timed (S rounds);
  de_ends : forall n, (forall i, (n <= i)%nat -> past_total o clk i) -> exists rounds k timed, prints_first lib o run texts k timed rounds
}.

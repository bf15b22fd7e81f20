(** Model of the command line tools src/dnstable_lookup.c and src/dnstable_dump.c.
    Definitions only. *)
From Verif Require Import Str ModelVarint ModelWdns ModelUnion ModelMerge ModelEntry ModelIter ModelQuery ModelReader ModelSetters ModelNames ModelFormat ModelFileset.

(** ** C library functions *)

(** The digits at the start of a string, behind the value [v]: value and rest. *)
Fixpoint digits_prefix (v : N) (s : bytes) : N * bytes :=
  match s with
  | c :: r => if isdigit c then digits_prefix (10 * v + (c - 48)) r else (v, s)
  | [] => (v, [])
  end.
Definition starts_digit (s : bytes) : bool := match s with c :: _ => isdigit c | [] => false end.

(** strtoll(s, &endp, 10): the value, clipped to the range of a long long, and endp;
    strtol is the same function on the supported platforms. *)
Definition strtoll (s : bytes) : Z * bytes :=
  let s1 := skip_space s in
  let '(neg, ds) := match s1 with
                    | 45 :: r => (true, r)
                    | 43 :: r => (false, r)
                    | _ => (false, s1)
                    end in
  if starts_digit ds then
    let (v, r) := digits_prefix 0 ds in
    ((if neg then Z.max (-9223372036854775808) (- Z.of_N v) else Z.min 9223372036854775807 (Z.of_N v))%Z, r)
  else (0%Z, s).

(** atoi: strtol converted to int. *)
Definition atoi (s : bytes) : Z := ((fst (strtoll s) + 2147483648) mod 4294967296 - 2147483648)%Z.

(** The GNU C library's strptime, for the conversions that occur.  get_number(from, to, n)
    skips blanks, needs a digit and takes up to [n] digits while ten times the value is
    not above [to]. *)
Fixpoint skip_blanks (s : bytes) : bytes := match s with c :: r => if c =? 32 then skip_blanks r else s | [] => [] end.
Fixpoint more_digits (n : nat) (to v : N) (s : bytes) : N * bytes :=
  match n, s with
  | S n', c :: r => if (10 * v <=? to) && isdigit c then more_digits n' to (10 * v + (c - 48)) r else (v, s)
  | _, _ => (v, s)
  end.
Definition get_number (from to : N) (n : nat) (s : bytes) : option (N * bytes) :=
  match skip_blanks s with
  | c :: r =>
      if isdigit c then
        let (v, r) := more_digits (n - 1) to (c - 48) r in
        if (from <=? v) && (v <=? to) then Some (v, r) else None
      else None
  | [] => None
  end.
(** An ordinary character of the format. *)
Definition literal (c : N) (s : bytes) : option bytes :=
  match s with x :: r => if x =? c then Some r else None | [] => None end.

(** "%F" is "%Y-%m-%d", "%T" is "%H:%M:%S". *)
Definition strptime_F (s : bytes) : option (N * N * N * bytes) :=
  match get_number 0 9999 4 s with
  | Some (y, s) =>
      match literal 45 s with
      | Some s =>
          match get_number 1 12 2 s with
          | Some (m, s) =>
              match literal 45 s with
              | Some s => match get_number 1 31 2 s with Some (d, s) => Some (y, m, d, s) | None => None end
              | None => None
              end
          | None => None
          end
      | None => None
      end
  | None => None
  end.
Definition strptime_T (s : bytes) : option (N * N * N * bytes) :=
  match get_number 0 23 2 s with
  | Some (h, s) =>
      match literal 58 s with
      | Some s =>
          match get_number 0 59 2 s with
          | Some (m, s) =>
              match literal 58 s with
              | Some s => match get_number 0 61 2 s with Some (x, s) => Some (h, m, x, s) | None => None end
              | None => None
              end
          | None => None
          end
      | None => None
      end
  | None => None
  end.

(** timegm of these fields: days from 1970-01-01 in the proleptic Gregorian calendar
    (years counted from March), a day of the month too large runs into the next month. *)
Definition days_civil (y m d : Z) : Z :=
  let y' := if (m <=? 2)%Z then (y - 1)%Z else y in
  let era := (y' / 400)%Z in
  let yoe := (y' mod 400)%Z in
  let mp := if (m <=? 2)%Z then (m + 9)%Z else (m - 3)%Z in
  let doy := ((153 * mp + 2) / 5 + (d - 1))%Z in
  let doe := (yoe * 365 + yoe / 4 - yoe / 100 + doy)%Z in
  (era * 146097 + doe - 719468)%Z.
Definition timegm (ymd hms : N * N * N) : Z :=
  let '(y, m, d) := ymd in
  let '(h, mi, s) := hms in
  (86400 * days_civil (Z.of_N y) (Z.of_N m) (Z.of_N d) + 3600 * Z.of_N h + 60 * Z.of_N mi + Z.of_N s)%Z.

(** ** dnstable_lookup: times *)

(** dnstable_lookup.c:209-215: the four formats; each must match the whole string. *)
Definition parse_date (s : bytes) : option Z :=
  match strptime_F s with
  | None => None
  | Some (y, m, d, r) =>
      let time (r : bytes) (tail : bytes -> bool) : option Z :=
        match strptime_T r with
        | Some (h, mi, x, r) => if tail r then Some (timegm (y, m, d) (h, mi, x)) else None
        | None => None
        end in
      let at_end (r : bytes) : bool := match r with [] => true | _ => false end in
      let at_Z (r : bytes) : bool := match literal 90 r with Some [] => true | _ => false end in
      if at_end r then Some (timegm (y, m, d) (0, 0, 0))
      else
        match time (skip_space r) at_end with
        | Some t => Some t
        | None =>
            match literal 84 r with
            | None => None
            | Some r => match time r at_end with Some t => Some t | None => time r at_Z end
            end
        end
  end.

(** A product or sum of long longs. *)
Definition ll (z : Z) : res Z := if (-9223372036854775808 <=? z)%Z && (z <=? 9223372036854775807)%Z then Ok z else UB.

(** dnstable_lookup.c:235-254: the switch with its fall-throughs; [Fail] is the default
    case.  [None] is the terminating NUL. *)
Definition unit_seconds (c : option N) (n : Z) : res Z :=
  match c with
  | None => Ok n
  | Some c =>
      let is (a : N) := (c =? a) || (c =? a + 32) in
      if is 87 || is 68 || is 72 || is 77 || is 83 then
        let* n := if is 87 then ll (n * 7)%Z else Ok n in
        let* n := if is 87 || is 68 then ll (n * 24)%Z else Ok n in
        let* n := if is 87 || is 68 || is 72 then ll (n * 60)%Z else Ok n in
        if is 87 || is 68 || is 72 || is 77 then ll (n * 60)%Z else Ok n
      else Fail
  end.

(** dnstable_lookup.c:230-259: the loop; [Ok None] is "return 0". *)
Fixpoint relative (fuel : nat) (s : bytes) (total : Z) : res (option Z) :=
  match s, fuel with
  | [], _ => Ok (Some total)
  | _, O => Hang
  | _, S f =>
      let (n, endp) := strtoll s in
      if (n <=? 0)%Z then Ok None
      else
        match unit_seconds (hd_error endp) n with
        | Ok n => let* total := ll (total + n)%Z in relative f (tl endp) total
        | Fail => Ok None
        | Abort => Abort | UB => UB | Hang => Hang
        end
  end.

(** dnstable_lookup.c:200-262 parse_time; [now] is the reading of CLOCK_REALTIME in
    seconds. *)
Definition parse_time (now : Z) (s : bytes) : res N :=
  match parse_date s with
  | Some t => Ok (to_uint64 t)
  | None =>
      match strtoll s with
      | (n, []) =>
          if (n <? 0)%Z then
            let* x := ll (n + now)%Z in
            if (x <? 0)%Z then Ok 0 else Ok (to_uint64 x)
          else Ok (to_uint64 n)
      | _ =>
          let* t := relative (S (length s)) s 0 in
          match t with
          | None => Ok 0
          | Some total => if (now <? total)%Z then Ok 0 else Ok (to_uint64 (now - total))
          end
      end
  end.

(** ** dnstable_lookup: options *)

(** dnstable_lookup.c:34-43, 311-317: the variables the options set. *)
Record opts := {
  o_tfa : N; o_tla : N; o_tlb : N; o_tfb : N;   (* time_first_after, last_after, last_before, first_before *)
  o_strict : bool; o_case : bool;
  o_interval : Z; o_timeout : Z;
  o_json : bool; o_Json : bool; o_count : bool; o_raw : bool;
  o_stats : N; o_aggregate : bool; o_offset : Z
}.
Definition opts0 : opts :=
  {| o_tfa := 0; o_tla := 0; o_tlb := 0; o_tfb := 0; o_strict := false; o_case := false; o_interval := 0; o_timeout := 0;
     o_json := false; o_Json := false; o_count := false; o_raw := false; o_stats := 0; o_aggregate := true; o_offset := 0 |}.
Definition with_o_tfa (x : N) (o : opts) : opts :=
  {| o_tfa := x; o_tla := o_tla o; o_tlb := o_tlb o; o_tfb := o_tfb o; o_strict := o_strict o; o_case := o_case o; o_interval := o_interval o; o_timeout := o_timeout o; o_json := o_json o; o_Json := o_Json o; o_count := o_count o; o_raw := o_raw o; o_stats := o_stats o; o_aggregate := o_aggregate o; o_offset := o_offset o |}.
Definition with_o_tla (x : N) (o : opts) : opts :=
  {| o_tfa := o_tfa o; o_tla := x; o_tlb := o_tlb o; o_tfb := o_tfb o; o_strict := o_strict o; o_case := o_case o; o_interval := o_interval o; o_timeout := o_timeout o; o_json := o_json o; o_Json := o_Json o; o_count := o_count o; o_raw := o_raw o; o_stats := o_stats o; o_aggregate := o_aggregate o; o_offset := o_offset o |}.
Definition with_o_tlb (x : N) (o : opts) : opts :=
  {| o_tfa := o_tfa o; o_tla := o_tla o; o_tlb := x; o_tfb := o_tfb o; o_strict := o_strict o; o_case := o_case o; o_interval := o_interval o; o_timeout := o_timeout o; o_json := o_json o; o_Json := o_Json o; o_count := o_count o; o_raw := o_raw o; o_stats := o_stats o; o_aggregate := o_aggregate o; o_offset := o_offset o |}.
Definition with_o_tfb (x : N) (o : opts) : opts :=
  {| o_tfa := o_tfa o; o_tla := o_tla o; o_tlb := o_tlb o; o_tfb := x; o_strict := o_strict o; o_case := o_case o; o_interval := o_interval o; o_timeout := o_timeout o; o_json := o_json o; o_Json := o_Json o; o_count := o_count o; o_raw := o_raw o; o_stats := o_stats o; o_aggregate := o_aggregate o; o_offset := o_offset o |}.
Definition with_o_strict (x : bool) (o : opts) : opts :=
  {| o_tfa := o_tfa o; o_tla := o_tla o; o_tlb := o_tlb o; o_tfb := o_tfb o; o_strict := x; o_case := o_case o; o_interval := o_interval o; o_timeout := o_timeout o; o_json := o_json o; o_Json := o_Json o; o_count := o_count o; o_raw := o_raw o; o_stats := o_stats o; o_aggregate := o_aggregate o; o_offset := o_offset o |}.
Definition with_o_case (x : bool) (o : opts) : opts :=
  {| o_tfa := o_tfa o; o_tla := o_tla o; o_tlb := o_tlb o; o_tfb := o_tfb o; o_strict := o_strict o; o_case := x; o_interval := o_interval o; o_timeout := o_timeout o; o_json := o_json o; o_Json := o_Json o; o_count := o_count o; o_raw := o_raw o; o_stats := o_stats o; o_aggregate := o_aggregate o; o_offset := o_offset o |}.
Definition with_o_interval (x : Z) (o : opts) : opts :=
  {| o_tfa := o_tfa o; o_tla := o_tla o; o_tlb := o_tlb o; o_tfb := o_tfb o; o_strict := o_strict o; o_case := o_case o; o_interval := x; o_timeout := o_timeout o; o_json := o_json o; o_Json := o_Json o; o_count := o_count o; o_raw := o_raw o; o_stats := o_stats o; o_aggregate := o_aggregate o; o_offset := o_offset o |}.
Definition with_o_timeout (x : Z) (o : opts) : opts :=
  {| o_tfa := o_tfa o; o_tla := o_tla o; o_tlb := o_tlb o; o_tfb := o_tfb o; o_strict := o_strict o; o_case := o_case o; o_interval := o_interval o; o_timeout := x; o_json := o_json o; o_Json := o_Json o; o_count := o_count o; o_raw := o_raw o; o_stats := o_stats o; o_aggregate := o_aggregate o; o_offset := o_offset o |}.
Definition with_o_json (x : bool) (o : opts) : opts :=
  {| o_tfa := o_tfa o; o_tla := o_tla o; o_tlb := o_tlb o; o_tfb := o_tfb o; o_strict := o_strict o; o_case := o_case o; o_interval := o_interval o; o_timeout := o_timeout o; o_json := x; o_Json := o_Json o; o_count := o_count o; o_raw := o_raw o; o_stats := o_stats o; o_aggregate := o_aggregate o; o_offset := o_offset o |}.
Definition with_o_Json (x : bool) (o : opts) : opts :=
  {| o_tfa := o_tfa o; o_tla := o_tla o; o_tlb := o_tlb o; o_tfb := o_tfb o; o_strict := o_strict o; o_case := o_case o; o_interval := o_interval o; o_timeout := o_timeout o; o_json := o_json o; o_Json := x; o_count := o_count o; o_raw := o_raw o; o_stats := o_stats o; o_aggregate := o_aggregate o; o_offset := o_offset o |}.
Definition with_o_count (x : bool) (o : opts) : opts :=
  {| o_tfa := o_tfa o; o_tla := o_tla o; o_tlb := o_tlb o; o_tfb := o_tfb o; o_strict := o_strict o; o_case := o_case o; o_interval := o_interval o; o_timeout := o_timeout o; o_json := o_json o; o_Json := o_Json o; o_count := x; o_raw := o_raw o; o_stats := o_stats o; o_aggregate := o_aggregate o; o_offset := o_offset o |}.
Definition with_o_raw (x : bool) (o : opts) : opts :=
  {| o_tfa := o_tfa o; o_tla := o_tla o; o_tlb := o_tlb o; o_tfb := o_tfb o; o_strict := o_strict o; o_case := o_case o; o_interval := o_interval o; o_timeout := o_timeout o; o_json := o_json o; o_Json := o_Json o; o_count := o_count o; o_raw := x; o_stats := o_stats o; o_aggregate := o_aggregate o; o_offset := o_offset o |}.
Definition with_o_stats (x : N) (o : opts) : opts :=
  {| o_tfa := o_tfa o; o_tla := o_tla o; o_tlb := o_tlb o; o_tfb := o_tfb o; o_strict := o_strict o; o_case := o_case o; o_interval := o_interval o; o_timeout := o_timeout o; o_json := o_json o; o_Json := o_Json o; o_count := o_count o; o_raw := o_raw o; o_stats := x; o_aggregate := o_aggregate o; o_offset := o_offset o |}.
Definition with_o_aggregate (x : bool) (o : opts) : opts :=
  {| o_tfa := o_tfa o; o_tla := o_tla o; o_tlb := o_tlb o; o_tfb := o_tfb o; o_strict := o_strict o; o_case := o_case o; o_interval := o_interval o; o_timeout := o_timeout o; o_json := o_json o; o_Json := o_Json o; o_count := o_count o; o_raw := o_raw o; o_stats := o_stats o; o_aggregate := x; o_offset := o_offset o |}.
Definition with_o_offset (x : Z) (o : opts) : opts :=
  {| o_tfa := o_tfa o; o_tla := o_tla o; o_tlb := o_tlb o; o_tfb := o_tfb o; o_strict := o_strict o; o_case := o_case o; o_interval := o_interval o; o_timeout := o_timeout o; o_json := o_json o; o_Json := o_Json o; o_count := o_count o; o_raw := o_raw o; o_stats := o_stats o; o_aggregate := o_aggregate o; o_offset := x |}.

(** dnstable_lookup.c:320-395: the cases of the switch.  An option is the character and
    the argument getopt finds ([None] for options without one); usage() is [Fail]. *)
Definition valid_time (now : Z) (arg : bytes) : res N := let* t := parse_time now arg in if t =? 0 then Fail else Ok t.
Definition positive (arg : bytes) : res Z := if (atoi arg <=? 0)%Z then Fail else Ok (atoi arg).
Definition take_option (now : Z) (ch : N) (arg : bytes) (o : opts) : res opts :=
  if ch =? 97 then let* t := valid_time now arg in Ok (with_o_tfa t o)            (* a *)
  else if ch =? 65 then let* t := valid_time now arg in Ok (with_o_tla t o)       (* A *)
  else if ch =? 98 then let* t := valid_time now arg in Ok (with_o_tlb t o)       (* b *)
  else if ch =? 66 then let* t := valid_time now arg in Ok (with_o_tfb t o)       (* B *)
  else if ch =? 99 then Ok (with_o_strict true o)                                 (* c *)
  else if ch =? 67 then Ok (with_o_case true o)                                   (* C *)
  else if ch =? 105 then let* n := positive arg in Ok (with_o_interval n o)       (* i *)
  else if ch =? 106 then Ok (with_o_json true o)                                  (* j *)
  else if ch =? 74 then Ok (with_o_Json true o)                                   (* J *)
  else if ch =? 110 then Ok (with_o_count true o)                                 (* n *)
  else if ch =? 82 then Ok (with_o_raw true o)                                    (* R *)
  else if ch =? 115 then Ok (with_o_stats (o_stats o + 1) o)                      (* s *)
  else if ch =? 116 then let* n := positive arg in Ok (with_o_timeout n o)        (* t *)
  else if ch =? 117 then Ok (with_o_aggregate false o)                            (* u *)
  else if ch =? 79 then let* n := positive arg in Ok (with_o_offset n o)          (* O *)
  else Fail.
(** [now i] is the time at the i-th option. *)
Fixpoint take_options (now : nat -> Z) (l : list (N * bytes)) (o : opts) : res opts :=
  match l with
  | [] => Ok o
  | (ch, arg) :: r => let* o := take_option (now O) ch arg o in take_options (fun i => now (S i)) r o
  end.

(** dnstable_lookup.c:397-444: the arguments behind the options. *)
Record command := { c_type : qtype; c_data : option bytes; c_rrtype : option bytes; c_bailiwick : option bytes }.
Definition cmd (t : qtype) (d r b : option bytes) : command := {| c_type := t; c_data := d; c_rrtype := r; c_bailiwick := b |}.
Definition take_command (args : list bytes) : res command :=
  match args with
  | [] => Fail
  | a :: rest =>
      if beq a (str "rrset") then
        match rest with
        | [] => Fail
        | owner :: more =>
            match more with
            | _ :: _ :: _ :: _ => Fail
            | _ =>
                if has_char 47 owner then Fail
                else Ok (cmd QRrset (Some owner) (nth_error more 0) (nth_error more 1))
            end
        end
      else if beq a (str "rdata") then
        match rest with
        | [k; d] =>
            if beq k (str "ip") then Ok (cmd QRdataIp (Some d) None None)
            else if beq k (str "raw") then Ok (cmd QRdataRaw (Some d) None None)
            else if beq k (str "name") then Ok (cmd QRdataName (Some d) None None)
            else Fail
        | [k; d; t] =>
            if beq k (str "raw") then Ok (cmd QRdataRaw (Some d) (Some t) None)
            else if beq k (str "name") then Ok (cmd QRdataName (Some d) (Some t) None)
            else Fail
        | _ => Fail
        end
      else if beq a (str "version") then
        match rest with
        | [] => Ok (cmd QVersion None None None)
        | [t] => Ok (cmd QVersion (Some t) None None)
        | _ => Fail
        end
      else if beq a (str "time_range") then
        match rest with [] => Ok (cmd QTimeRange None None None) | _ => Fail end
      else Fail
  end.

Definition metadata (c : command) : bool := match c_type c with QVersion | QTimeRange => true | _ => false end.

(** dnstable_lookup.c:446-471: combinations that are refused. *)
Definition check_options (o : opts) (c : command) : res unit :=
  if metadata c && (negb (o_offset o =? 0)%Z || o_raw o) then Fail
  else if o_count o && (o_Json o || o_json o || o_raw o) then Fail
  else if o_Json o && o_json o then Fail
  else if negb (o_Json o || o_json o) && o_raw o then Fail
  else Ok tt.

(** dnstable_lookup.c:472-494: the database.  [v_fname] is DNSTABLE_FNAME: unset, or
    the table in that file, [Some None] if it cannot be opened; [v_setfile] the tables of
    the set file named by DNSTABLE_SETFILE. *)
Record vars := { v_fname : option (option table); v_setfile : option (list table) }.
Definition open_database (v : vars) (o : opts) : res reader :=
  match v_fname v, v_setfile v with
  | None, None | Some _, Some _ => Fail
  | None, Some files => Ok (dnstable_reader_init_setfile files)
  | Some f, None =>
      if negb (o_aggregate o) then Fail
      else match f with Some t => Ok (dnstable_reader_init t) | None => Fail end
  end.

(** ** dnstable_lookup: the query *)

(** A setter whose failure ends the program. *)
Definition must (r : res (bool * query)) : res query := let* x := r in if fst x then Ok (snd x) else Fail.

(** dnstable_lookup.c:499-543. *)
Definition query_data (ev : env) (c : command) (q : query) : res query :=
  match c_type c with
  | QRrset =>
      let* q := must (set_data ev (c_data c) q) in
      let* q := must (Ok (set_rrtype ev (c_rrtype c) q)) in
      must (set_bailiwick ev (c_bailiwick c) q)
  | QRdataIp | QRdataName | QRdataRaw =>
      let* q := must (set_data ev (c_data c) q) in
      match c_rrtype c with
      | Some t => must (Ok (set_rrtype ev (Some t) q))
      | None => Ok q
      end
  | QVersion => must (set_data ev (c_data c) q)
  | _ => Ok q
  end.

(** dnstable_lookup.c:547-559: -c. *)
Definition strict_bounds (o : opts) : opts :=
  if o_strict o then
    let o := if o_tfa o <? o_tla o then with_o_tla 0 (with_o_tfa (o_tla o) o) else o in
    if (0 <? o_tfb o) && ((o_tlb o =? 0) || (o_tfb o <? o_tlb o)) then with_o_tfb 0 (with_o_tlb (o_tfb o) o) else o
  else o.
(** dnstable_lookup.c:545-580; the results of these calls are not looked at. *)
Definition set_bound (p v : N) (q : query) : query := if v =? 0 then q else snd (set_filter_parameter p (Some v) 8 q).
Definition query_bounds (o : opts) (c : command) (q : query) : query :=
  if metadata c then q
  else
    let o := strict_bounds o in
    set_bound 2 (o_tlb o) (set_bound 3 (o_tla o) (set_bound 0 (o_tfb o) (set_bound 1 (o_tfa o) q))).

(** The program's own readings of CLOCK_MONOTONIC: [clk n] is the n-th. *)
Definition clock := nat -> timespec.
Definition later (n : nat) (clk : clock) : clock := fun i => clk (n + i)%nat.

(** dnstable_lookup.c:590-598, 600-613: g_deadline, g_interval, the query, and the
    clock from then on.  g_deadline.tv_sec 0 means no deadline. *)
Definition no_time : timespec := {| tv_sec := 0; tv_nsec := 0 |}.
Definition query_deadline (o : opts) (clk : clock) (q : query) : timespec * clock * query :=
  if (o_timeout o =? 0)%Z then (no_time, clk, q)
  else
    let d := {| tv_sec := (tv_sec (clk O) + o_timeout o)%Z; tv_nsec := tv_nsec (clk O) |} in
    (d, later 1 clk, snd (set_deadline_to (Some d) q)).
Definition query_interval (o : opts) (g_deadline : timespec) (clk : clock) (q : query) : timespec * clock * query :=
  if (o_interval o =? 0)%Z then (no_time, clk, q)
  else
    let g := {| tv_sec := o_interval o; tv_nsec := 0 |} in
    let next := ts_add g (clk O) in
    (g, later 1 clk,
     if (tv_sec g_deadline =? 0)%Z || (match ts_cmp next g_deadline with Lt => true | _ => false end)
     then snd (set_deadline_to (Some next) q) else q).

(** dnstable_lookup.c:495-622: the query all this makes. *)
Definition build_query (ev : env) (o : opts) (c : command) (clk : clock) : res (timespec * timespec * clock * query) :=
  let* q := dnstable_query_init (c_type c) in
  let q := snd (set_case_sensitive (o_case o) q) in
  let* q := query_data ev c q in
  let q := query_bounds o c q in
  let q := if (o_offset o =? 0)%Z then q else snd (set_offset_to (to_uint64 (o_offset o)) q) in
  let '(g_deadline, clk, q) := query_deadline o clk q in
  let '(g_interval, clk, q) := query_interval o g_deadline clk q in
  let q := snd (set_aggregated (o_aggregate o) q) in
  Ok (g_deadline, g_interval, clk, q).

(** ** dnstable_lookup: output *)

(** dnstable_lookup.c:45-74 print_entry: what goes to stdout. *)
Definition print_entry (lib : fmtlib) (o : opts) (e : entry) : res bytes :=
  if o_count o then Ok []
  else
    let* s :=
      if o_Json o || o_json o then
        let f := set_output_format dnstable_formatter_init OutJson in
        let f := set_date_format f (if o_json o then DateUnix else DateRfc3339) in
        let f := set_raw_rdata f (o_raw o) in
        dnstable_entry_format lib f e
      else dnstable_entry_to_text lib e in
    match s with
    | None => Abort
    | Some [] => Ok []
    | Some s => Ok (s ++ if o_Json o || o_json o || (get_type e =? ENTRY_TYPE_RRSET) then [10] else [])
    end.

(** "%-*s : %" PRIu64 "\n". *)
Definition pad_right (n : nat) (s : bytes) : bytes := s ++ repeat 32 (n - length s).
Definition stat_line (n : nat) (s : bytes) (v : N) : bytes := pad_right n s ++ str " : " ++ printf_u v ++ [10].
(** The stages and categories, in the order of dnstable.h:69-87 and with the names of
    dnstable_stat_stage_to_str and dnstable_stat_category_to_str. *)
Definition stages : list (stage * bytes) :=
  combine [StFileset; StSingleLabel; StRrtype; StBailiwick; StTimePrefilter; StRemoveStrict; StFillMerger; StLjoin; StTime; StOffset] stage_strs.
Definition categories : list (category * bytes) := combine [CFiltered; CMerged; CSeek; CFiles] category_strs.
Definition longest (l : list bytes) : nat := fold_left (fun m s => Nat.max m (length s)) l O.

(** dnstable_lookup.c:76-106 do_dump_stats_stage: (max, what goes to stderr). *)
Definition stats_by_category (qi : qiter) (w : world) : nat * bytes :=
  let m := longest (map snd categories) in
  let total (c : category) :=
    fold_left (fun t s => let '(_, exists_, n) := iter_get_count qi w (fst s) c in if exists_ : bool then (t + n) mod u64 else t) stages 0 in
  (m, [10] ++ flat_map (fun c => stat_line m (snd c) (total (fst c))) categories ++ [10]).

(** dnstable_lookup.c:108-141 do_dump_stats_category. *)
Definition stats_by_stage (qi : qiter) (w : world) : nat * bytes :=
  let all := flat_map (fun s => flat_map (fun c =>
               let '(_, exists_, n) := iter_get_count qi w (fst s) (fst c) in
               if exists_ : bool then [(snd s ++ [32] ++ snd c, n)] else []) categories) stages in
  let m := longest (map fst all) in
  (m, [10] ++ flat_map (fun p => stat_line m (fst p) (snd p)) all ++ [10]).

(** my_time.h:42-51 my_timespec_sub(a, b): b -= a. *)
Definition ts_sub (a b : timespec) : timespec :=
  let s := (tv_sec b - tv_sec a)%Z in
  let ns := (tv_nsec b - tv_nsec a)%Z in
  if (ns <? 0)%Z then {| tv_sec := s - 1; tv_nsec := ns + 1000000000 |} else {| tv_sec := s; tv_nsec := ns |}.
(** printf of %09ld of a number that is not negative. *)
Definition printf_09 (z : Z) : bytes := let s := printf_u (Z.to_N z) in repeat 48 (9 - length s) ++ s.

(** dnstable_lookup.c:164-176: the statistics of one round, with the clock from then on. *)
Definition dump_stats (stats : N) (qi : qiter) (w : world) (start : timespec) (count : N) (clk : clock) : bytes * clock :=
  if 0 <? stats then
    let (m, s) := if 1 <? stats then stats_by_stage qi w else stats_by_category qi w in
    let elapsed := ts_sub start (clk O) in
    (s ++ stat_line m (str "entries") count ++
     pad_right m (str "elapsed") ++ str " : " ++ printf_d (tv_sec elapsed) ++ str "." ++ printf_09 (tv_nsec elapsed) ++ str "s" ++ [10],
     later 1 clk)
  else ([], clk).

(** dnstable_lookup.c:156-162: the inner loop.  Why it ended, entries so far, stdout so
    far, iterator, state.  [n] bounds the number of calls. *)
Fixpoint dump_entries (n fuel : nat) (lib : fmtlib) (o : opts) (qi : qiter) (w : world) (count : N) (out : bytes)
  : res (bool * N * bytes * qiter * world) :=
  match n with
  | O => Hang
  | S n' =>
      match qnext fuel qi w with
      | (QEntry e, qi', w') =>
          let* s := print_entry lib o e in
          dump_entries n' fuel lib o qi' w' ((count + 1) mod u64) (out ++ s)
      | (QEnd, qi', w') => Ok (false, count, out, qi', w')
      | (QTimeout, qi', w') => Ok (true, count, out, qi', w')
      | (QAbort, _, _) => Abort
      | (QUB, _, _) => UB
      | (QHang, _, _) => Hang
      end
  end.

(** dnstable_lookup.c:143-198 do_dump: (stdout, stderr).  [rounds] bounds the outer loop. *)
Fixpoint dump_rounds (rounds fuel : nat) (lib : fmtlib) (o : opts) (stats : N) (g_deadline g_interval start : timespec)
  (qi : qiter) (w : world) (clk : clock) (count : N) (out err : bytes) : res (bytes * bytes) :=
  match rounds with
  | O => Hang
  | S r =>
      let* x := dump_entries fuel fuel lib o qi w count out in
      let '(timed_out, count, out, qi, w) := x in
      let (st, clk) := dump_stats stats qi w start count clk in
      let err := err ++ st in
      let finish :=
        (out, err ++ if o_json o || o_Json o then []
                     else (if timed_out : bool then str ";;; timed out" ++ [10] else []) ++
                          str ";;; Dumped " ++ locale_uint64 lib count ++ str " entries." ++ [10]) in
      let past (t : timespec) :=
        negb (tv_sec g_deadline =? 0)%Z && (match ts_cmp t g_deadline with Gt => true | _ => false end) in
      if negb timed_out then Ok finish
      else if (tv_sec g_interval =? 0)%Z then Ok finish
      else if past (clk O) then Ok finish
      else
        let next := ts_add g_interval (clk O) in
        let next := if past next then g_deadline else next in
        dump_rounds r fuel lib o stats g_deadline g_interval start (set_timing (TDeadline next) qi) w (later 1 clk) count out err
  end.
Definition do_dump (rounds fuel : nat) (lib : fmtlib) (o : opts) (g_deadline g_interval : timespec)
  (qi : qiter) (w : world) (clk : clock) : res (bytes * bytes) :=
  let stats := if (o_interval o =? 0)%Z then o_stats o else if o_stats o =? 0 then 1 else o_stats o in   (* 615 *)
  dump_rounds rounds fuel lib o stats g_deadline g_interval (clk O) qi w (later 1 clk) 0 [] [].

(** dnstable_lookup.c:295-638 main: what goes to stdout and stderr if the exit status is
    EXIT_SUCCESS; [Fail] is EXIT_FAILURE, what is printed then is not modelled.
    [options] and [args] are what getopt makes of the command line. *)
Definition dnstable_lookup (rounds fuel : nat) (lib : fmtlib) (ev : env) (ml : libmtbl) (v : vars)
  (options : list (N * bytes)) (args : list bytes) (now : nat -> Z) (clk : clock) (w : world) : res (bytes * bytes) :=
  let* o := take_options now options opts0 in
  let* c := take_command args in
  let* _ := check_options o c in
  let* d := open_database v o in
  let* x := build_query ev o c clk in
  let '(g_deadline, g_interval, clk, q) := x in
  let* it := dnstable_reader_query ml d q in
  do_dump rounds fuel lib o g_deadline g_interval it (load_offset q w) clk.

(** ** dnstable_dump *)

(** dnstable_dump.c:34-43, 47-121: the options; argv_process is in ModelArgv.v. *)
Record dump_opts := { d_json : bool; d_raw : bool; d_rrset : bool; d_rdata : bool; d_rrset_names : bool; d_rdata_names : bool;
  d_time_range : bool; d_version : bool; d_source_info : bool }.

(** dnstable_dump.c:123-150 print_entry. *)
Definition dump_print_entry (lib : fmtlib) (o : dump_opts) (e : entry) : res bytes :=
  if existsb (N.eqb (get_type e)) [ENTRY_TYPE_RRSET; ENTRY_TYPE_RRSET_NAME_FWD; ENTRY_TYPE_RDATA; ENTRY_TYPE_RDATA_NAME_REV;
       ENTRY_TYPE_TIME_RANGE; ENTRY_TYPE_SOURCE_INFO; ENTRY_TYPE_VERSION] then
    let* s := if d_json o then
                dnstable_entry_format lib
                  (set_raw_rdata (set_date_format (set_output_format dnstable_formatter_init OutJson) DateUnix) (d_raw o)) e
              else dnstable_entry_to_text lib e in
    match s with
    | None => Ok []
    | Some s => Ok (s ++ if negb (negb (d_json o) && (get_type e =? ENTRY_TYPE_RDATA)) then [10] else [])
    end
  else Ok [].

(** dnstable_dump.c:152-162 do_dump. *)
Fixpoint dump_reader (n fuel : nat) (lib : fmtlib) (o : dump_opts) (b : base_it) (out : bytes) : res bytes :=
  match n with
  | O => Hang
  | S n' =>
      match reader_next fuel b with
      | (QEntry e, b') => let* s := dump_print_entry lib o e in dump_reader n' fuel lib o b' (out ++ s)
      | (QEnd, _) | (QTimeout, _) => Ok out
      | (QAbort, _) => Abort
      | (QUB, _) => UB
      | (QHang, _) => Hang
      end
  end.

(** dnstable_dump.c:164-227 main; [None] is a file that cannot be opened. *)
Definition dnstable_dump (fuel : nat) (lib : fmtlib) (o : dump_opts) (file : option table) : res bytes :=
  if d_raw o && negb (d_rdata o || d_rrset o) then Fail
  else if d_raw o && negb (d_json o) then Fail
  else
    match file with
    | None => Fail
    | Some t =>
        let it :=
          if d_rrset o then Some (reader_iter_rrset t)
          else if d_rdata o then Some (reader_iter_rdata t)
          else if d_rrset_names o then Some (reader_iter_rrset_names t)
          else if d_rdata_names o then Some (reader_iter_rdata_names t)
          else if d_time_range o then Some (reader_iter_time_range t)
          else if d_version o then Some (reader_iter_version t)
          else if d_source_info o then Some (reader_iter_source_info t)
          else None in
        match it with
        | None => Abort
        | Some b => dump_reader fuel fuel lib o b []
        end
    end.

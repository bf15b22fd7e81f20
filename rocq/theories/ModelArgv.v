(** The command line library libmy/argv.c, as far as dnstable_dump uses it, and
    dnstable_dump from its command line on.  Definitions only.

    Simplifications: messages on stderr and the types of variables that dnstable_dump does
    not use are left out; memory does not run out; argv[0] is there. *)
From Verif Require Import Str ModelIter ModelQuery ModelReader ModelFileset ModelFormat ModelLookup.

(** argv.h:113-151: special values of ar_short_arg. *)
Definition ARGV_LAST : N := 255.
Definition ARGV_MAND : N := 254.
Definition ARGV_MAYBE : N := 253.
Definition ARGV_OR : N := 252.
Definition ARGV_XOR : N := 251.

(** argv.h:157-178: the types used, and type 0 of entries that are { ARGV_ONE_OF }. *)
Inductive argtype := TNone | TBool | TCharP.

(** argv.h:72-79 argv_t with ARGV_FLAG_USED of ar_type (argv_loc.h:76) and the variable that
    ar_variable points to, a bool or a string. *)
Record argv_t := { ar_short : N; ar_long : option bytes; ar_type : argtype; ar_used : bool; ar_bool : bool; ar_str : option bytes }.

(** dnstable_dump.c:34-121: the table, before any option. *)
Definition flag_arg (c : N) (name : bytes) : argv_t :=
  {| ar_short := c; ar_long := Some name; ar_type := TBool; ar_used := false; ar_bool := false; ar_str := None |}.
Definition bare_arg (c : N) (t : argtype) : argv_t :=
  {| ar_short := c; ar_long := None; ar_type := t; ar_used := false; ar_bool := false; ar_str := None |}.
Definition dump_args : list argv_t :=
  [flag_arg 106 (str "json"); flag_arg 82 (str "raw"); flag_arg 114 (str "rrset_full"); bare_arg ARGV_XOR TNone;
   flag_arg 100 (str "rdata_full"); bare_arg ARGV_XOR TNone; flag_arg 0 (str "rrset_names"); bare_arg ARGV_XOR TNone;
   flag_arg 0 (str "rdata_names"); bare_arg ARGV_XOR TNone; flag_arg 116 (str "time_range"); bare_arg ARGV_XOR TNone;
   flag_arg 118 (str "version_entries"); bare_arg ARGV_XOR TNone; flag_arg 115 (str "source_info_entries");
   bare_arg ARGV_MAND TCharP; bare_arg ARGV_LAST TNone].

(** argv.c:95-130: the global settings that matter here. *)
Record settings := { s_close : bool; s_toggle : bool; s_multi : bool; s_env : bool; s_after : bool }.
Definition default_settings : settings := {| s_close := true; s_toggle := false; s_multi := true; s_env := true; s_after := false |}.

(** strsep called until it returns NULL, empty tokens skipped (argv.c:372-426, 2922-2930). *)
Fixpoint strsep_all (seps : bytes) (s cur : bytes) : list bytes :=
  let word := match cur with [] => [] | _ => [rev cur] end in
  match s with
  | [] => word
  | c :: r => if existsb (N.eqb c) seps then word ++ strsep_all seps r [] else strsep_all seps r (c :: cur)
  end.

(** argv.c:2897-3085 process_env, token by token; settings of messages are left out. *)
Definition is_off (t : bytes) : bool := existsb (beq t) [str "disable"; str "off"; str "no"; str "0"].
Definition is_on (t : bytes) : bool := existsb (beq t) [str "enable"; str "on"; str "yes"; str "1"].
Definition env_token (s : settings) (t : bytes) : settings :=
  if is_prefix (str "close=") t then
    let t := skipn 6 t in
    if is_off t then {| s_close := false; s_toggle := s_toggle s; s_multi := s_multi s; s_env := s_env s; s_after := s_after s |}
    else if is_on t then {| s_close := true; s_toggle := s_toggle s; s_multi := s_multi s; s_env := s_env s; s_after := s_after s |}
    else s
  else if is_prefix (str "lasttog=") t then
    let t := skipn 8 t in
    if is_off t then {| s_close := s_close s; s_toggle := false; s_multi := s_multi s; s_env := s_env s; s_after := s_after s |}
    else if is_on t then {| s_close := s_close s; s_toggle := true; s_multi := s_multi s; s_env := s_env s; s_after := s_after s |}
    else s
  else if is_prefix (str "env=") t then
    let t := skipn 4 t in
    if beq t (str "none") then {| s_close := s_close s; s_toggle := s_toggle s; s_multi := s_multi s; s_env := false; s_after := false |}
    else if beq t (str "before") then {| s_close := s_close s; s_toggle := s_toggle s; s_multi := s_multi s; s_env := true; s_after := false |}
    else if beq t (str "after") then {| s_close := s_close s; s_toggle := s_toggle s; s_multi := s_multi s; s_env := true; s_after := true |}
    else s
  else if is_prefix (str "multi=") t then
    let t := skipn 6 t in
    if beq t (str "reject") then {| s_close := s_close s; s_toggle := s_toggle s; s_multi := false; s_env := s_env s; s_after := s_after s |}
    else if beq t (str "accept") then {| s_close := s_close s; s_toggle := s_toggle s; s_multi := true; s_env := s_env s; s_after := s_after s |}
    else s
  else s.
Definition process_env (global : option bytes) : settings :=
  match global with
  | None => default_settings
  | Some v => fold_left env_token (strsep_all (str " ,:" ++ [9]) v []) default_settings
  end.

(** The state of do_list: the table, the queue of entries that wait for a value ([None] is
    the file argument) from tail to head, how many were ever queued, okay_b, and what
    standard input still holds. *)
Record astate := { a_grid : list argv_t; a_queue : list (option nat); a_head : N; a_okay : bool; a_stdin : bytes }.
Definition set_grid (s : astate) (g : list argv_t) : astate :=
  {| a_grid := g; a_queue := a_queue s; a_head := a_head s; a_okay := a_okay s; a_stdin := a_stdin s |}.
Definition not_okay (s : astate) : astate :=
  {| a_grid := a_grid s; a_queue := a_queue s; a_head := a_head s; a_okay := false; a_stdin := a_stdin s |}.

Fixpoint update {A} (l : list A) (i : nat) (f : A -> A) : list A :=
  match l, i with
  | [], _ => []
  | x :: r, O => f x :: r
  | x :: r, S j => x :: update r j f
  end.
Definition mark_used (a : argv_t) : argv_t :=
  {| ar_short := ar_short a; ar_long := ar_long a; ar_type := ar_type a; ar_used := true; ar_bool := ar_bool a; ar_str := ar_str a |}.
Definition put_bool (b : bool) (a : argv_t) : argv_t :=
  {| ar_short := ar_short a; ar_long := ar_long a; ar_type := ar_type a; ar_used := ar_used a; ar_bool := b; ar_str := ar_str a |}.
Definition put_str (v : bytes) (a : argv_t) : argv_t :=
  {| ar_short := ar_short a; ar_long := ar_long a; ar_type := ar_type a; ar_used := ar_used a; ar_bool := ar_bool a; ar_str := Some v |}.
Definition entry_at (g : list argv_t) (i : nat) : res argv_t := match nth_error g i with Some a => Ok a | None => UB end.

(** argv.c:1199-1300 string_to_value for the types used; type 0 is an error. *)
Definition string_to_value (arg : option bytes) (i : nat) (s : astate) : res astate :=
  let* a := entry_at (a_grid s) i in
  match ar_type a with
  | TNone => Ok (not_okay s)
  | TBool =>
      let b := match arg with
               | None => true
               | Some (c :: _) => existsb (N.eqb c) (str "tTyY1")
               | Some [] => false
               end in
      Ok (set_grid s (update (a_grid s) i (put_bool b)))
  | TCharP =>
      match arg with
      | None => UB
      | Some v => Ok (set_grid s (update (a_grid s) i (put_str v)))
      end
  end.

(** argv.c:1858-1940 check_or, up to the messages: is another of the alternatives used? *)
Definition is_or (a : argv_t) : bool := (ar_short a =? ARGV_OR) || (ar_short a =? ARGV_XOR).
Fixpoint or_below (g : list argv_t) (i : nat) : res bool :=
  match i with
  | S (S j) =>
      let* sep := entry_at g (S j) in
      if negb (is_or sep) then Ok false
      else let* a := entry_at g j in if ar_used a then Ok true else or_below g j
  | _ => Ok false
  end.
Fixpoint or_above (fuel : nat) (g : list argv_t) (i : nat) : res bool :=
  match fuel with
  | O => Hang
  | S fuel =>
      let* a := entry_at g (i + 2)%nat in
      if ar_short a =? ARGV_LAST then Ok false
      else
        let* sep := entry_at g (i + 1)%nat in
        if ar_short sep =? ARGV_LAST then Ok false
        else if negb (is_or sep) then Ok false
        else if ar_used a then Ok true
        else or_above fuel g (i + 2)%nat
  end.
Definition check_or (g : list argv_t) (i : nat) : res bool :=
  let* b := or_below g i in
  if b then Ok true else or_above (S (length g)) g i.

(** argv_loc.h:137-141 HAS_ARG. *)
Definition has_arg (t : argtype) : bool := match t with TBool => false | _ => true end.

(** Writing to the queue, which has [cap] places (argv.c:3193). *)
Definition enqueue (cap : N) (x : option nat) (s : astate) : res astate :=
  if a_head s <? cap then
    Ok {| a_grid := a_grid s; a_queue := a_queue s ++ [x]; a_head := a_head s + 1; a_okay := a_okay s; a_stdin := a_stdin s |}
  else UB.

(** argv.c:2302-2358 do_arg. *)
Definition do_arg (cfg : settings) (cap : N) (i : nat) (close : option bytes) (s : astate) : res astate :=
  let* a := entry_at (a_grid s) i in
  let s := if negb (s_multi cfg) && ar_used a then not_okay s else s in
  let s := set_grid s (update (a_grid s) i mark_used) in
  let* bad := check_or (a_grid s) i in
  let s := if bad then not_okay s else s in
  match close with
  | Some v => string_to_value (Some v) i s
  | None => if negb (has_arg (ar_type a)) then string_to_value None i s else enqueue cap (Some i) s
  end.

(** argv.c:2371-2394 is_number. *)
Definition is_number (w : bytes) : bool :=
  match w with [] => false | _ => forallb (fun c => existsb (N.eqb c) (str "0123456789+-.")) w end.

(** argv.c:2472-2480, 2637-2645: the word up to '=' and the value behind it. *)
Fixpoint split_equals (w : bytes) : bytes * option bytes :=
  match w with
  | [] => ([], None)
  | c :: r => if c =? 61 then ([], Some r) else let (a, v) := split_equals r in (c :: a, v)
  end.
Definition close_value (cfg : settings) (w : bytes) : bytes * option bytes := if s_close cfg then split_equals w else (w, None).

(** argv.c:2494-2521: the entries whose long name begins with [name]; the loop stops at the
    second. *)
Inductive match_long := NoMatch | OneMatch (i : nat) | TwoMatches.
Fixpoint find_long (g : list argv_t) (name : bytes) (i : nat) (found : option nat) : match_long :=
  match g with
  | [] => match found with None => NoMatch | Some j => OneMatch j end
  | a :: r =>
      if ar_short a =? ARGV_LAST then match found with None => NoMatch | Some j => OneMatch j end
      else
        match ar_long a with
        | Some l =>
            if is_prefix name l then match found with Some _ => TwoMatches | None => find_long r name (S i) (Some i) end
            else find_long r name (S i) found
        | None => find_long r name (S i) found
        end
  end.

(** argv.c:2664-2669: the first entry with this letter. *)
Fixpoint find_short (g : list argv_t) (c : N) (i : nat) : option nat :=
  match g with
  | [] => None
  | a :: r => if ar_short a =? ARGV_LAST then None else if ar_short a =? c then Some i else find_short r c (S i)
  end.

(** The program goes on, or has called exit. *)
Inductive progress (A : Type) := Exit (code : N) | Go (a : A).
Arguments Exit {A} code.
Arguments Go {A} a.

(** argv.c:2661-2724: the letters of a word. *)
Fixpoint do_letters (cfg : settings) (cap : N) (w : bytes) (first : bool) (letters : bytes) (close : option bytes) (s : astate) : res (progress astate) :=
  match letters with
  | [] => Ok (Go s)
  | c :: r =>
      match find_short (a_grid s) c 0 with
      | Some i => let* s := do_arg cfg cap i close s in do_letters cfg cap w false r close s
      | None =>
          if c =? 63 then Ok (Exit 0)
          else
            let go := do_letters cfg cap w false r close (not_okay s) in
            if first && is_number w then
              match a_queue s with
              | None :: _ => UB
              | _ => go
              end
            else go
      end
  end.

(** argv.c:2737-2776: the next mandatory or optional argument in the table. *)
Fixpoint find_unused (g : list argv_t) (kind : N) (i : nat) : option nat :=
  match g with
  | [] => None
  | a :: r => if ar_short a =? ARGV_LAST then None else if (ar_short a =? kind) && negb (ar_used a) then Some i else find_unused r kind (S i)
  end.
Definition absorb (i : nat) (w : bytes) (s : astate) : res astate :=
  let* s := string_to_value (Some w) i s in
  Ok (set_grid s (update (a_grid s) i mark_used)).

(** argv.c:2444-2783: one word; [file] is file_args.  The first part of the result is
    last_arg_b. *)
Definition go_on {A} (x : A) (r : res (progress astate)) : res (progress (A * astate)) :=
  let* p := r in
  match p with Exit c => Ok (Exit c) | Go s => Ok (Go (x, s)) end.
Definition do_word (cfg : settings) (cap : N) (file : bytes -> astate -> res (progress astate)) (w : bytes) (last : bool) (s : astate)
  : res (progress (bool * astate)) :=
  if beq w (str "--") && negb last then Ok (Go (true, s))
  else if beq w (str "--") && s_toggle cfg then Ok (Go (false, s))
  else if negb last && is_prefix (str "--") w then
    let (w, close) := close_value cfg w in
    let name := skipn 2 w in
    match name with
    | [] => Ok (Go (last, not_okay s))
    | _ =>
        match find_long (a_grid s) name 0 None with
        | TwoMatches => Ok (Go (last, not_okay s))
        | OneMatch i => let* s := do_arg cfg cap i close s in Ok (Go (last, s))
        | NoMatch =>
            if is_prefix name (str "argv-file") then
              match close with
              | Some path => go_on last (file path s)
              | None => let* s := enqueue cap None s in Ok (Go (last, s))
              end
            else if existsb (is_prefix name) [str "usage"; str "help"; str "usage-short"; str "usage-long"; str "usage-all"; str "version"; str "argv-display"]
            then Ok (Exit 0)
            else Ok (Go (last, not_okay s))
        end
    end
  else if negb last && is_prefix (str "-") w && negb (beq w (str "-")) then
    let (w, close) := close_value cfg w in
    match skipn 1 w with
    | [] => Ok (Go (last, not_okay s))
    | letters => go_on last (do_letters cfg cap w true letters close s)
    end
  else
    match a_queue s with
    | x :: q =>
        let s := {| a_grid := a_grid s; a_queue := q; a_head := a_head s; a_okay := a_okay s; a_stdin := a_stdin s |} in
        match x with
        | None => go_on last (file w s)
        | Some i => let* s := string_to_value (Some w) i s in Ok (Go (last, s))
        end
    | [] =>
        match find_unused (a_grid s) ARGV_MAND 0 with
        | Some i => let* s := absorb i w s in Ok (Go (last, s))
        | None =>
            match find_unused (a_grid s) ARGV_MAYBE 0 with
            | Some i => let* s := absorb i w s in Ok (Go (last, s))
            | None => Ok (Go (last, not_okay s))
            end
        end
    end.

(** argv.c:2435-2790 do_list. *)
Fixpoint do_words (cfg : settings) (cap : N) (file : bytes -> astate -> res (progress astate)) (ws : list bytes) (last : bool) (s : astate)
  : res (progress astate) :=
  match ws with
  | [] => Ok (Go s)
  | w :: rest =>
      let* p := do_word cfg cap file w last s in
      match p with
      | Exit c => Ok (Exit c)
      | Go (last, s) => do_words cfg cap file rest last s
      end
  end.

(** fgets with a buffer of 1024 bytes (argv_loc.h:65) until the end of the file, each piece
    cut at its first newline or NUL, empty ones skipped (argv.c:2214-2227). *)
Fixpoint fgets_pieces (s cur : bytes) (room : nat) : list bytes :=
  match s with
  | [] => match cur with [] => [] | _ => [rev cur] end
  | c :: r =>
      match room with
      | S (S room') => if c =? 10 then rev (c :: cur) :: fgets_pieces r [] 1023 else fgets_pieces r (c :: cur) (S room')
      | _ => rev (c :: cur) :: fgets_pieces r [] 1023
      end
  end.
Fixpoint cut_line (l : bytes) : bytes :=
  match l with
  | [] => []
  | c :: r => if (c =? 10) || (c =? 0) then [] else c :: cut_line r
  end.
Definition file_lines (s : bytes) : list bytes :=
  filter (fun l => match l with [] => false | _ => true end) (map cut_line (fgets_pieces s [] 1023)).

(** argv.c:2166-2281 file_args.  [files] are the files that can be opened, with their
    contents; no more than [depth] of them at a time.  Standard input is read to its end.  *)
Fixpoint file_args (cfg : settings) (cap : N) (files : bytes -> option bytes) (depth : nat) (path : bytes) (s : astate) : res (progress astate) :=
  match depth with
  | O => Ok (Exit 1)
  | S depth =>
      if beq path (str "-") then
        do_words cfg cap (file_args cfg cap files depth) (file_lines (a_stdin s)) false
          {| a_grid := a_grid s; a_queue := a_queue s; a_head := a_head s; a_okay := a_okay s; a_stdin := [] |}
      else
        match files path with
        | None => Ok (Exit 1)
        | Some content => do_words cfg cap (file_args cfg cap files depth) (file_lines content) false s
        end
  end.

(** argv.c:2049-2087 check_mand; nothing has ARGV_FLAG_MAND. *)
Definition check_mand (g : list argv_t) : bool := existsb (fun a => (ar_short a =? ARGV_MAND) && negb (ar_used a)) g.

(** argv.c:1954-2000 check_xor: is there a chain of alternatives none of which is used?
    First the inner loop, then the outer. *)
Fixpoint xor_chain (fuel : nat) (g : list argv_t) (i : nat) (none : bool) : res (bool * nat) :=
  match fuel with
  | O => Hang
  | S fuel =>
      let* a := entry_at g (S i) in
      let none := none && negb (ar_used a) in
      let* b := entry_at g (S (S i)) in
      if ar_short b =? ARGV_XOR then xor_chain fuel g (S (S i)) none else Ok (none, S i)
  end.
Fixpoint check_xor (fuel : nat) (g : list argv_t) (i : nat) : res bool :=
  match fuel with
  | O => Hang
  | S fuel =>
      let* a := entry_at g i in
      if ar_short a =? ARGV_LAST then Ok false
      else if negb (ar_short a =? ARGV_XOR) then check_xor fuel g (S i)
      else
        match i with
        | O => UB
        | S j =>
            let* before := entry_at g j in
            let* x := xor_chain (length g) g i (negb (ar_used before)) in
            let (none, i) := x in
            if none then Ok true else check_xor fuel g (S i)
        end
  end.

(** argv.c:3113-3250 argv_process_no_env, 3276-3292 argv_process.  [global] and [own] are the
    variables GLOBAL_ARGV and ARGV_DNSTABLE_DUMP of the environment (2846-2878), [words] the
    arguments without argv[0]. *)
Definition and_then (p : res (progress astate)) (f : astate -> res (progress astate)) : res (progress astate) :=
  let* p := p in match p with Exit c => Ok (Exit c) | Go s => f s end.
Definition argv_process (files : bytes -> option bytes) (depth : nat) (global own : option bytes) (stdin : bytes) (words : list bytes)
  : res (progress (list argv_t)) :=
  let cfg := process_env global in
  let env := match own with None => [] | Some v => strsep_all (str " " ++ [9]) v [] end in
  let cap := N.of_nat (S (length words) + length env) in
  let list ws s := do_words cfg cap (file_args cfg cap files depth) ws false s in
  let s := {| a_grid := dump_args; a_queue := []; a_head := 0; a_okay := true; a_stdin := stdin |} in
  let r := if s_env cfg && negb (s_after cfg) then list env s else Ok (Go s) in
  let r := and_then r (list words) in
  let r := if s_env cfg && s_after cfg then and_then r (list env) else r in
  let* p := r in
  match p with
  | Exit c => Ok (Exit c)
  | Go s =>
      let* xor := check_xor (S (length (a_grid s))) (a_grid s) 0 in
      if a_okay s && negb (check_mand (a_grid s)) && (match a_queue s with [] => true | _ => false end) && negb xor
      then Ok (Go (a_grid s)) else Ok (Exit 1)
  end.

(** The variables of dnstable_dump.c:34-43 that the table points to. *)
Definition bool_at (g : list argv_t) (i : nat) : bool := match nth_error g i with Some a => ar_bool a | None => false end.
Definition grid_opts (g : list argv_t) : dump_opts :=
  {| d_json := bool_at g 0; d_raw := bool_at g 1; d_rrset := bool_at g 2; d_rdata := bool_at g 4; d_rrset_names := bool_at g 6;
     d_rdata_names := bool_at g 8; d_time_range := bool_at g 10; d_version := bool_at g 12; d_source_info := bool_at g 14 |}.
Definition grid_file (g : list argv_t) : option bytes := match nth_error g 15 with Some a => ar_str a | None => None end.

(** dnstable_dump.c:164-227 main.  [db]: the files that are databases.  The result is [None]
    when the program exits with success after printing help. *)
Definition dump_main (fuel : nat) (lib : fmtlib) (db : bytes -> option table) (files : bytes -> option bytes) (depth : nat)
  (global own : option bytes) (stdin : bytes) (words : list bytes) : res (option bytes) :=
  let* p := argv_process files depth global own stdin words in
  match p with
  | Exit 0 => Ok None
  | Exit _ => Fail
  | Go g =>
      match grid_file g with
      | None => UB
      | Some f => let* out := dnstable_dump fuel lib (grid_opts g) (db f) in Ok (Some out)
      end
  end.

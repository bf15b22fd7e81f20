(** The command lines of dnstable_dump, as dnstable_dump(1) and its usage message describe
    them.  Definitions only. *)
From Verif Require Import Str ModelLookup SpecLookup.

Inductive dopt := Json | Raw | Rrset | Rdata | RrsetNames | RdataNames | TimeRange | Version | SourceInfo.

(** Which letter and which name an option has. *)
Definition option_letters : list (dopt * N) :=
  [(Json, code "j"); (Raw, code "R"); (Rrset, code "r"); (Rdata, code "d"); (TimeRange, code "t"); (Version, code "v"); (SourceInfo, code "s")].
Definition option_names : list (dopt * bytes) :=
  [(Json, str "json"); (Raw, str "raw"); (Rrset, str "rrset_full"); (Rdata, str "rdata_full"); (RrsetNames, str "rrset_names");
   (RdataNames, str "rdata_names"); (TimeRange, str "time_range"); (Version, str "version_entries"); (SourceInfo, str "source_info_entries")].
Definition is_section (o : dopt) : Prop := o <> Json /\ o <> Raw.

(** A name can be abbreviated as long as it is the beginning of no other name. *)
Definition begins (name w : bytes) : Prop := exists rest, name = w ++ rest.
Definition abbreviates (w : bytes) (o : dopt) : Prop :=
  w <> [] /\ (exists name, In (o, name) option_names /\ begins name w) /\
  forall o' name, In (o', name) option_names -> begins name w -> o' = o.

(** The value behind a '=': yes, true, 1 ... switch an option on, all others off. *)
Definition switches (value : bytes) (b : bool) : Prop := b = true <-> exists c r, value = c :: r /\ In c (str "tTyY1").

(** How words are taken: whether a '=' gives a value, whether a second "--" takes options up
    again, whether an option may be given more than once, and whether and when the words of
    the environment are taken. *)
Inductive when := Never | Before | After.
Record ways := { values : bool; resumes : bool; repeats : bool; environment : when }.

(** One word that is an option, or several. *)
Inductive option_word (y : ways) : bytes -> list (dopt * bool) -> Prop :=
| ow_letters : forall os letters, os <> [] -> Forall2 (fun o c => In (o, c) option_letters) os letters ->
    option_word y (str "-" ++ letters) (map (fun o => (o, true)) os)
| ow_letters_value : forall os letters value b, values y = true -> os <> [] -> Forall2 (fun o c => In (o, c) option_letters) os letters -> switches value b ->
    option_word y (str "-" ++ letters ++ str "=" ++ value) (map (fun o => (o, b)) os)
| ow_name : forall o name, abbreviates name o -> option_word y (str "--" ++ name) [(o, true)]
| ow_name_value : forall o name value b, values y = true -> abbreviates name o -> switches value b ->
    option_word y (str "--" ++ name ++ str "=" ++ value) [(o, b)].

Definition argument_word (w : bytes) : Prop := w = [] \/ w = str "-" \/ exists c r, c <> code "-" /\ w = c :: r.
(** A word that is an argument when options have been ended ([e]) or not. *)
Definition is_argument (y : ways) (e : bool) (w : bytes) : Prop := argument_word w \/ (e = true /\ (resumes y = true -> w <> str "--")).

(** --argv-file and its abbreviations. *)
Definition file_name (name : bytes) : Prop := name <> [] /\ begins (str "argv-file") name.

(** The words in a file: its lines, without the empty ones.  A line of more than 1023 bytes
    counts as several; what follows a NUL in a line is left out. *)
Definition line_max : nat := 1023.
Inductive pieces : bytes -> list bytes -> Prop :=
| pc_none : pieces [] []
| pc_last : forall p, p <> [] -> ~ In 10 p -> (length p <= line_max)%nat -> pieces p [p]
| pc_line : forall p text ps, ~ In 10 p -> (length p < line_max)%nat -> pieces text ps -> pieces (p ++ 10 :: text) (p :: ps)
| pc_long : forall p text ps, ~ In 10 p -> length p = line_max -> pieces text ps -> pieces (p ++ text) (p :: ps).
Definition before_nul (p w : bytes) : Prop := ~ In 0 w /\ (p = w \/ exists rest, p = w ++ 0 :: rest).
Inductive lines_of : list bytes -> list bytes -> Prop :=
| lo_none : lines_of [] []
| lo_empty : forall p ps ws, before_nul p [] -> lines_of ps ws -> lines_of (p :: ps) ws
| lo_word : forall p w ps ws, w <> [] -> before_nul p w -> lines_of ps ws -> lines_of (p :: ps) (w :: ws).
Definition text_words (text : bytes) (ws : list bytes) : Prop := exists ps, pieces text ps /\ lines_of ps ws.

(** What is read from [path] when standard input holds [sd], and what standard input holds
    then. *)
Definition contents (files : bytes -> option bytes) (sd path text sd' : bytes) : Prop :=
  (path = str "-" /\ text = sd /\ sd' = []) \/ (path <> str "-" /\ files path = Some text /\ sd' = sd).

(** A list of words, the options it gives and the arguments it leaves.

    [reads y files d e p sd ws o a p' sd' k]: no more than [d] files can be opened; [e] tells
    whether the options have been ended; before the words [p] uses of "--argv-file" wait for
    their file and standard input holds [sd], after them [p'] wait and it holds [sd'];
    [k] times "--argv-file" was used without "=". *)
Inductive reads (y : ways) (files : bytes -> option bytes) : nat -> bool -> nat -> bytes -> list bytes -> list (dopt * bool) -> list bytes -> nat -> bytes -> N -> Prop :=
| rd_none : forall d e p sd, reads y files d e p sd [] [] [] p sd 0
| rd_end : forall d p sd ws o a p' sd' k, reads y files d true p sd ws o a p' sd' k -> reads y files d false p sd (str "--" :: ws) o a p' sd' k
| rd_resume : forall d p sd ws o a p' sd' k, resumes y = true -> reads y files d false p sd ws o a p' sd' k -> reads y files d true p sd (str "--" :: ws) o a p' sd' k
| rd_arg : forall d e sd w ws o a p' sd' k, is_argument y e w -> reads y files d e 0 sd ws o a p' sd' k -> reads y files d e 0 sd (w :: ws) o (w :: a) p' sd' k
| rd_option : forall d p sd w x ws o a p' sd' k, option_word y w x -> reads y files d false p sd ws o a p' sd' k -> reads y files d false p sd (w :: ws) (x ++ o) a p' sd' k
| rd_file : forall d p sd name path text sd1 lines o1 a1 p1 sd2 k1 ws o2 a2 p2 sd3 k2,
    values y = true -> file_name name -> contents files sd path text sd1 -> text_words text lines ->
    reads y files d false p sd1 lines o1 a1 p1 sd2 k1 -> reads y files (S d) false p1 sd2 ws o2 a2 p2 sd3 k2 ->
    reads y files (S d) false p sd ((str "--" ++ name ++ str "=" ++ path) :: ws) (o1 ++ o2) (a1 ++ a2) p2 sd3 (k1 + k2)
| rd_ask : forall d p sd name ws o a p' sd' k, file_name name -> reads y files d false (S p) sd ws o a p' sd' k -> reads y files d false p sd ((str "--" ++ name) :: ws) o a p' sd' (1 + k)
| rd_asked : forall d e p sd path text sd1 lines o1 a1 p1 sd2 k1 ws o2 a2 p2 sd3 k2,
    is_argument y e path -> contents files sd path text sd1 -> text_words text lines ->
    reads y files d false p sd1 lines o1 a1 p1 sd2 k1 -> reads y files (S d) e p1 sd2 ws o2 a2 p2 sd3 k2 ->
    reads y files (S d) e (S p) sd (path :: ws) (o1 ++ o2) (a1 ++ a2) p2 sd3 (k1 + k2).

Definition used (o : dopt) (l : list (dopt * bool)) : Prop := exists b, In (o, b) l.
(** The last setting of an option counts. *)
Definition setting (o : dopt) (l : list (dopt * bool)) (b : bool) : Prop :=
  (exists before after, l = before ++ (o, b) :: after /\ ~ used o after) \/ (~ used o l /\ b = false).
Definition one_section (l : list (dopt * bool)) : Prop :=
  exists s, is_section s /\ used s l /\ forall s', is_section s' -> used s' l -> s' = s.
Definition settings_of (l : list (dopt * bool)) (o : dump_opts) : Prop :=
  setting Json l (d_json o) /\ setting Raw l (d_raw o) /\ setting Rrset l (d_rrset o) /\ setting Rdata l (d_rdata o) /\
  setting RrsetNames l (d_rrset_names o) /\ setting RdataNames l (d_rdata_names o) /\ setting TimeRange l (d_time_range o) /\
  setting Version l (d_version o) /\ setting SourceInfo l (d_source_info o).

(** Words separated by certain bytes. *)
Inductive separated (sep : N -> Prop) : bytes -> list bytes -> Prop :=
| se_none : separated sep [] []
| se_skip : forall c s ws, sep c -> separated sep s ws -> separated sep (c :: s) ws
| se_last : forall w, w <> [] -> Forall (fun c => ~ sep c) w -> separated sep w [w]
| se_word : forall w c s ws, w <> [] -> Forall (fun c => ~ sep c) w -> sep c -> separated sep s ws -> separated sep (w ++ c :: s) (w :: ws).
(** The words of the environment variable ARGV_DNSTABLE_DUMP, separated by blanks. *)
Definition blank (c : N) : Prop := c = 32 \/ c = 9.
Definition environment_words (v : option bytes) (ws : list bytes) : Prop :=
  match v with None => ws = [] | Some s => separated blank s ws end.

(** The environment variable GLOBAL_ARGV: the last word of a kind that is understood counts. *)
Definition off_words : list bytes := [str "disable"; str "off"; str "no"; str "0"].
Definition on_words : list bytes := [str "enable"; str "on"; str "yes"; str "1"].
Definition switch (name : bytes) : list (bytes * bool) := map (fun w => (name ++ w, false)) off_words ++ map (fun w => (name ++ w, true)) on_words.
Definition last_choice {A} (choices : list (bytes * A)) (default : A) (ws : list bytes) (x : A) : Prop :=
  let chosen w := exists x, In (w, x) choices in
  (exists before w after, ws = before ++ w :: after /\ In (w, x) choices /\ Forall (fun w => ~ chosen w) after) \/
  (Forall (fun w => ~ chosen w) ws /\ x = default).
Definition global_ways (v : option bytes) (y : ways) : Prop :=
  exists ws, (match v with None => ws = [] | Some s => separated (fun c => blank c \/ c = code "," \/ c = code ":") s ws end) /\
    last_choice (switch (str "close=")) true ws (values y) /\
    last_choice (switch (str "lasttog=")) false ws (resumes y) /\
    last_choice [(str "multi=reject", false); (str "multi=accept", true)] true ws (repeats y) /\
    last_choice [(str "env=none", Never); (str "env=before", Before); (str "env=after", After)] Before ws (environment y).

(** Words without the codes that mark the special entries of the table. *)
Definition ordinary (w : bytes) : Prop := (exists c r, c <> code "-" /\ w = c :: r) \/ Forall (fun c => 0 < c /\ c < 251) w.
(** "--argv-file" without "=", and words like "-5". *)
Definition asks_file (w : bytes) : Prop := exists name, file_name name /\ w = str "--" ++ name.
Definition number_word (w : bytes) : Prop :=
  exists c r rest, w = str "-" ++ (c :: r) ++ rest /\ In c (str "0123456789+.") /\ Forall (fun c => In c (str "0123456789+.-")) r /\ (rest = [] \/ begins rest (str "=")).

(** All words and all lines are ordinary, no file uses "--argv-file" without "=", and if the
    command line does, there are no words like "-5". *)
Definition tame (files : bytes -> option bytes) (sd : bytes) (ws : list bytes) : Prop :=
  let lines P := forall text ls, text = sd \/ (exists path, files path = Some text) -> text_words text ls -> Forall P ls in
  Forall ordinary ws /\ lines ordinary /\ lines (fun w => ~ asks_file w) /\
  (Forall (fun w => ~ asks_file w) ws \/ (Forall (fun w => ~ number_word w) ws /\ lines (fun w => ~ number_word w))).

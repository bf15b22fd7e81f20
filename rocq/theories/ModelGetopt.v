(** The C library's getopt, as dnstable_lookup calls it, and the program from its command
    line on.  Definitions only. *)
From Verif Require Import Str ModelIter ModelQuery ModelReader ModelFileset ModelFormat ModelSetters ModelLookup.

(** The option string of dnstable_lookup.c:320, "a:A:b:B:cCi:njJRst:uO:": the letters, and
    those with an argument. *)
Definition opt_letters : bytes := str "aAbBcCinjJRstuO".
Definition opt_with_arg : bytes := str "aAbBitO".
Definition member (c : N) (l : bytes) : bool := existsb (N.eqb c) l.
(** What getopt returns for a letter it does not know and for a missing argument. *)
Definition question_mark : N * bytes := (63, []).

(** The letters of a word behind its '-'.  The second part is a letter whose argument is
    the next word. *)
Fixpoint word_letters (s : bytes) : list (N * bytes) * option N :=
  match s with
  | [] => ([], None)
  | c :: r =>
      if negb (member c opt_letters) then let (l, x) := word_letters r in (question_mark :: l, x)
      else if member c opt_with_arg then
        match r with
        | [] => ([], Some c)
        | _ => ([(c, r)], None)
        end
      else let (l, x) := word_letters r in ((c, []) :: l, x)
  end.

(** Is this word one with options?  Not "-". *)
Definition has_options (w : bytes) : bool := match w with 45 :: _ :: _ => true | _ => false end.

(** getopt called until it returns -1 (dnstable_lookup.c:320), and the words from optind on
    (397-398).  [permute]: whether getopt looks for options behind other words, moving these
    to the end, as that of the GNU library does unless POSIXLY_CORRECT is set. *)
Fixpoint getopt_all (permute : bool) (words : list bytes) : list (N * bytes) * list bytes :=
  match words with
  | [] => ([], [])
  | w :: rest =>
      if beq w [45; 45] then ([], rest)
      else if has_options w then
        match word_letters (skipn 1 w) with
        | (l, None) => let (o, a) := getopt_all permute rest in (l ++ o, a)
        | (l, Some c) =>
            match rest with
            | [] => (l ++ [question_mark], [])
            | x :: rest' => let (o, a) := getopt_all permute rest' in (l ++ (c, x) :: o, a)
            end
        end
      else if permute then let (o, a) := getopt_all permute rest in (o, w :: a)
      else ([], words)
  end.

(** dnstable_lookup.c:295-638 main; [words] is argv without the name of the program. *)
Definition lookup_main (permute : bool) (rounds fuel : nat) (lib : fmtlib) (ev : env) (ml : libmtbl) (v : vars)
  (words : list bytes) (now : nat -> Z) (clk : clock) (w : world) : res (bytes * bytes) :=
  let (options, args) := getopt_all permute words in
  dnstable_lookup rounds fuel lib ev ml v options args now clk w.

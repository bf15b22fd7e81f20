(** Model of the command dnstable_merge, src/dnstable_merge.sh.in:1-11, as /bin/sh runs
    it.  Definitions only.

    Simplified: the name of the library that the build puts in place of
    @LIBDNSTABLE_DLNAME@ is a parameter (dlname); the text of the usage message is left
    out; "[ -z $1 -o -z $2 ]" is read as two tests joined by "or", which a shell may not do
    if $1 is itself an operator of test, such as "=".  Which file names a pattern stands
    for is a parameter (glob). *)
From Verif Require Import Str.

(** How the script ends: with an exit status, or by becoming another program, given its
    name, its arguments and the variables that the script has exported. *)
Inductive script_end :=
| Exit (status : N)
| Exec (program : bytes) (args : list bytes) (exported : list (bytes * bytes)).

(** The characters of IFS, which a shell sets to blank, tab and newline at the start. *)
Definition ifs (c : N) : bool := (c =? 32) || (c =? 9) || (c =? 10).
(** Field splitting of one argument in the expansion of an unquoted $@, line 11; [cur] is
    the field so far, in reverse. *)
Fixpoint split_fields (s cur : bytes) : list bytes :=
  match s with
  | [] => match cur with [] => [] | _ => [rev cur] end
  | c :: r =>
      if ifs c then match cur with [] => split_fields r [] | _ => rev cur :: split_fields r [] end
      else split_fields r (c :: cur)
  end.
Definition empty (s : bytes) : bool := match s with [] => true | _ => false end.
(** dnstable_merge.sh.in:1-11. *)
Definition dnstable_merge_script (dlname : bytes) (glob : bytes -> list bytes) (args : list bytes) : script_end :=
  let exported := [(str "MTBL_MERGE_DSO", dlname); (str "MTBL_MERGE_FUNC_PREFIX", str "dnstable_merge")] in
  if empty (nth 0 args []) || empty (nth 1 args []) then Exit 1
  else Exec (str "mtbl_merge") (flat_map glob (flat_map (fun a => split_fields a []) args)) exported.

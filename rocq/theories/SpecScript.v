(** What dnstable_merge(1) promises of its arguments: "[mtbl_merge options] INPUT [INPUT]...
    OUTPUT", which "may be specified", go to mtbl_merge.  Definitions only. *)
From Verif Require Import Str ModelScript.

Definition space (c : N) : Prop := c = 32 \/ c = 9 \/ c = 10.
(** A word: not empty and without white space. *)
Definition a_word (w : bytes) : Prop := w <> [] /\ Forall (fun c => ~ space c) w.
(** The words of a text. *)
Inductive words_of : bytes -> list bytes -> Prop :=
| wo_none : words_of [] []
| wo_space : forall c s ws, space c -> words_of s ws -> words_of (c :: s) ws
| wo_last : forall w, a_word w -> words_of w [w]
| wo_word : forall w c s ws, a_word w -> space c -> words_of s ws -> words_of (w ++ c :: s) (w :: ws).
(** The characters that make a pattern of a word, and what a shell makes of words without
    them: themselves. *)
Definition pattern_char (c : N) : Prop := In c (str "*?[\").
Definition shell_glob (glob : bytes -> list bytes) : Prop :=
  forall w, Forall (fun c => ~ pattern_char c) w -> glob w = [w].
(** The settings with which mtbl_merge merges by dnstable_merge_func: it joins the prefix,
    an underscore and "func" and looks that up in the library. *)
Definition merges_by_dnstable (dlname : bytes) (exported : list (bytes * bytes)) : Prop :=
  exists prefix, In (str "MTBL_MERGE_DSO", dlname) exported /\ In (str "MTBL_MERGE_FUNC_PREFIX", prefix) exported /\
    prefix ++ str "_func" = str "dnstable_merge_func" /\ NoDup (map fst exported).
(** The promise: mtbl_merge runs with just the given arguments. *)
Definition handed_on (dlname : bytes) (args : list bytes) (e : script_end) : Prop :=
  exists exported, e = Exec (str "mtbl_merge") args exported /\ merges_by_dnstable dlname exported.

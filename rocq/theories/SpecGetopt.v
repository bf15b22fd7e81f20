(** How options and arguments are spelled on a command line.  Definitions only. *)
From Verif Require Import Str SpecLookup.

Definition flag (c : N) : Prop := In c (str "cCnjJRsu").
Definition valued (c : N) : Prop := In c (str "aAbBitO").
Definition plain_word (w : bytes) : Prop := w = [] \/ w = str "-" \/ exists c r, c <> code "-" /\ w = c :: r.

(** The words of a command line, the options they give and the arguments they leave.
    Flags can be put together in one word, behind them an option with its value, which is
    the rest of the word or else the next word.  All words behind "--" are arguments.  A
    word that is none with options is an argument; whether options can follow it depends
    on the C library ([permute]). *)
Inductive spells (permute : bool) : list bytes -> list (N * bytes) -> list bytes -> Prop :=
| sp_none : spells permute [] [] []
| sp_end : forall ws, spells permute (str "--" :: ws) [] ws
| sp_arg : forall w ws o a, permute = true -> plain_word w -> spells permute ws o a -> spells permute (w :: ws) o (w :: a)
| sp_args : forall w ws, permute = false -> plain_word w -> spells permute (w :: ws) [] (w :: ws)
| sp_flags : forall fs ws o a, fs <> [] -> Forall flag fs -> spells permute ws o a ->
    spells permute ((str "-" ++ fs) :: ws) (map (fun c => (c, [])) fs ++ o) a
| sp_value : forall fs c x ws o a, Forall flag fs -> valued c -> x <> [] -> spells permute ws o a ->
    spells permute ((str "-" ++ fs ++ c :: x) :: ws) (map (fun c => (c, [])) fs ++ (c, x) :: o) a
| sp_next : forall fs c x ws o a, Forall flag fs -> valued c -> spells permute ws o a ->
    spells permute ((str "-" ++ fs ++ [c]) :: x :: ws) (map (fun c => (c, [])) fs ++ (c, x) :: o) a.

(** Model of the name tables: dnstable/entry.c:879-927, dnstable/util.c:19-88.
    Definitions only. *)
From Verif Require Import Str.

(** tolower and strcasecmp of the C library, in the C locale. *)
Definition tolower (c : N) : N := if (65 <=? c) && (c <=? 90) then c + 32 else c.
Definition strcaseeq (a b : bytes) : bool := beq (map tolower a) (map tolower b).

(** entry.c:879-899 dnstable_entry_type_to_string; [None] is NULL. *)
Definition entry_type_to_string (t : N) : option bytes :=
  if t =? ENTRY_TYPE_RRSET then Some (str "rrset")
  else if t =? ENTRY_TYPE_RRSET_NAME_FWD then Some (str "rrset_name")
  else if t =? ENTRY_TYPE_RDATA then Some (str "rdata")
  else if t =? ENTRY_TYPE_RDATA_NAME_REV then Some (str "rdata_name")
  else if t =? ENTRY_TYPE_TIME_RANGE then Some (str "time_range")
  else if t =? ENTRY_TYPE_SOURCE_INFO then Some (str "source_info")
  else if t =? ENTRY_TYPE_VERSION then Some (str "version")
  else None.

(** entry.c:906-918. *)
Definition entry_types : list (bytes * N) :=
  [(str "rrset", ENTRY_TYPE_RRSET); (str "rrset_name", ENTRY_TYPE_RRSET_NAME_FWD);
   (str "rdata", ENTRY_TYPE_RDATA); (str "rdata_name", ENTRY_TYPE_RDATA_NAME_REV);
   (str "time_range", ENTRY_TYPE_TIME_RANGE); (str "source_info", ENTRY_TYPE_SOURCE_INFO);
   (str "version", ENTRY_TYPE_VERSION)].

(** entry.c:901-927 dnstable_entry_type_from_string; [None] is failure.  [s] is a
    C string (its NUL is not included). *)
Definition entry_type_from_string (s : bytes) : option N :=
  match find (fun e => beq s (fst e)) entry_types with
  | Some e => Some (snd e)
  | None => None
  end.

(** util.c:19-31, 35-40. *)
Definition stage_strs : list bytes :=
  [str "fileset"; str "single label"; str "rrtype"; str "bailiwick"; str "time prefilter";
   str "remove strict"; str "fill merger"; str "left join"; str "time"; str "offset"].
Definition category_strs : list bytes := [str "filtered"; str "merged"; str "seek"; str "files"].

(** util.c:43-49, 67-73. *)
Definition to_str (tab : list bytes) (n : Z) : option bytes :=
  if (n <? 0)%Z || (Z.of_nat (length tab) <=? n)%Z then None else nth_error tab (Z.to_nat n).
Definition stat_stage_to_str := to_str stage_strs.
Definition stat_category_to_str := to_str category_strs.

(** util.c:57-63, 81-87: the loops. *)
Fixpoint index_of (tab : list bytes) (s : bytes) (i : Z) : option Z :=
  match tab with
  | [] => None
  | x :: r => if strcaseeq x s then Some i else index_of r s (i + 1)%Z
  end.

(** util.c:51-65, 75-89; a NULL argument is [None]. *)
Definition str_to (tab : list bytes) (s : option bytes) : option Z :=
  match s with
  | None => None
  | Some [] => None
  | Some s => index_of tab s 0
  end.
Definition stat_str_to_stage := str_to stage_strs.
Definition stat_str_to_category := str_to category_strs.

(** What formatted output means, independently of the program: JSON (RFC 8259),
    decimal numbers, RFC 3339 timestamps.  Definitions only. *)
From Verif Require Import Str ModelEntry SpecMerge SpecUnion SpecName SpecQuery.

(** ** Numbers *)

Definition digit (c : N) : Prop := 48 <= c <= 57.
Definition decimal_value (s : bytes) : N := fold_left (fun v c => 10 * v + (c - 48)) s 0.
(** The decimal representation of [n]: no sign, no superfluous zeros. *)
Definition decimal (n : N) (s : bytes) : Prop :=
  Forall digit s /\ s <> [] /\ (forall r, s = 48 :: r -> r = []) /\ decimal_value s = n.

(** [n] with exactly [k] digits. *)
Definition padded (k : nat) (n : N) (s : bytes) : Prop :=
  Forall digit s /\ length s = k /\ decimal_value s = n.

(** Hexadecimal digits. *)
Definition hex_value (c : N) (v : N) : Prop :=
  (48 <= c <= 57 /\ v = c - 48) \/ (97 <= c <= 102 /\ v = c - 87) \/ (65 <= c <= 70 /\ v = c - 55).

(** The bytes [s] in hexadecimal. *)
Inductive hex_of : bytes -> bytes -> Prop :=
| hex_nil : hex_of [] []
| hex_cons : forall c s hi lo h l t, hex_value hi h -> hex_value lo l -> c = 16 * h + l -> hex_of s t -> hex_of (c :: s) (hi :: lo :: t).

(** ** JSON *)

Inductive jv :=
| JNum (n : N)
| JStr (s : bytes)
| JArr (l : list jv)
| JObj (m : list (bytes * jv)).

(** RFC 8259 section 7: two-character escapes and what they stand for. *)
Definition short_escapes : list (N * N) :=
  [(34, 34); (92, 92); (47, 47); (98, 8); (102, 12); (110, 10); (114, 13); (116, 9)].

(** [json_chars t s]: the characters [t] of a JSON string denote [s].  Of the escapes
    with \u only those for code points below 128 are covered. *)
Inductive json_chars : bytes -> bytes -> Prop :=
| jc_nil : json_chars [] []
| jc_plain : forall c t s, 32 <= c -> c <> 34 -> c <> 92 -> json_chars t s -> json_chars (c :: t) (c :: s)
| jc_escape : forall x c t s, In (x, c) short_escapes -> json_chars t s -> json_chars (92 :: x :: t) (c :: s)
| jc_code : forall a b c d va vb vc vd t s,
    hex_value a va -> hex_value b vb -> hex_value c vc -> hex_value d vd ->
    4096 * va + 256 * vb + 16 * vc + vd < 128 ->
    json_chars t s -> json_chars (92 :: 117 :: a :: b :: c :: d :: t) (4096 * va + 256 * vb + 16 * vc + vd :: s).

Definition json_string (s t : bytes) : Prop := exists i, json_chars i s /\ t = 34 :: i ++ [34].

(** [json v t]: [t] is a JSON text for [v]; no whitespace between tokens. *)
Inductive json : jv -> bytes -> Prop :=
| j_num : forall n t, decimal n t -> json (JNum n) t
| j_str : forall s t, json_string s t -> json (JStr s) t
| j_arr : forall l t, json_elements l t -> json (JArr l) (91 :: t ++ [93])
| j_obj : forall m t, json_members m t -> json (JObj m) (123 :: t ++ [125])
with json_elements : list jv -> bytes -> Prop :=
| je_none : json_elements [] []
| je_last : forall v t, json v t -> json_elements [v] t
| je_more : forall v w l t t', json v t -> json_elements (w :: l) t' -> json_elements (v :: w :: l) (t ++ 44 :: t')
with json_members : list (bytes * jv) -> bytes -> Prop :=
| jm_none : json_members [] []
| jm_last : forall k v tk t, json_string k tk -> json v t -> json_members [(k, v)] (tk ++ 58 :: t)
| jm_more : forall k v p m tk t t', json_string k tk -> json v t -> json_members (p :: m) t' ->
    json_members ((k, v) :: p :: m) (tk ++ 58 :: t ++ 44 :: t').

(** No control characters, so no line breaks and no NUL. *)
Definition one_line (t : bytes) : Prop := Forall (fun c => 32 <= c) t.

(** UTF-8 (RFC 3629), which RFC 8259 section 8.1 requires. *)
Definition tail_byte (c : N) : Prop := 128 <= c <= 191.
Inductive utf8 : bytes -> Prop :=
| u8_nil : utf8 []
| u8_1 : forall a t, a < 128 -> utf8 t -> utf8 (a :: t)
| u8_2 : forall a b t, 194 <= a <= 223 -> tail_byte b -> utf8 t -> utf8 (a :: b :: t)
| u8_3 : forall a b c t, 224 <= a <= 239 -> tail_byte b -> tail_byte c ->
    (a = 224 -> 160 <= b) -> (a = 237 -> b <= 159) -> utf8 t -> utf8 (a :: b :: c :: t)
| u8_4 : forall a b c d t, 240 <= a <= 244 -> tail_byte b -> tail_byte c -> tail_byte d ->
    (a = 240 -> 144 <= b) -> (a = 244 -> b <= 143) -> utf8 t -> utf8 (a :: b :: c :: d :: t).

(** ** Times *)

Definition leap (y : N) : bool := (y mod 4 =? 0) && (negb (y mod 100 =? 0) || (y mod 400 =? 0)).
Definition month_lengths (y : N) : list N := [31; if leap y then 29 else 28; 31; 30; 31; 30; 31; 31; 30; 31; 30; 31].
Definition sum (l : list N) : N := fold_right N.add 0 l.
(** Days from 1970-01-01 to the first of January [n] years later, year by year. *)
Fixpoint days_to_year (n : nat) : N :=
  match n with
  | O => 0
  | S k => days_to_year k + sum (month_lengths (1970 + N.of_nat k))
  end.
(** Days from 1970-01-01 to a date. *)
Definition days_to (y m d : N) : N :=
  days_to_year (N.to_nat (y - 1970)) + sum (firstn (N.to_nat (m - 1)) (month_lengths y)) + (d - 1).

(** [s] is the timestamp YYYY-MM-DDThh:mm:ssZ of the second [v] since 1970. *)
Definition rfc3339 (s : bytes) (v : N) : Prop :=
  exists y mo d h mi se ty tmo td th tmi tse,
    1970 <= y <= 9999 /\ 1 <= mo <= 12 /\ 1 <= d <= nth (N.to_nat (mo - 1)) (month_lengths y) 0 /\
    h < 24 /\ mi < 60 /\ se < 60 /\
    padded 4 y ty /\ padded 2 mo tmo /\ padded 2 d td /\ padded 2 h th /\ padded 2 mi tmi /\ padded 2 se tse /\
    s = ty ++ str "-" ++ tmo ++ str "-" ++ td ++ str "T" ++ th ++ str ":" ++ tmi ++ str ":" ++ tse ++ str "Z" /\
    v = 86400 * days_to y mo d + 3600 * h + 60 * mi + se.

(** The strings that occur in a value, keys included. *)
Fixpoint jv_strings (v : jv) : list bytes :=
  match v with
  | JNum _ => []
  | JStr s => [s]
  | JArr l => flat_map jv_strings l
  | JObj m => flat_map (fun p => fst p :: jv_strings (snd p)) m
  end.

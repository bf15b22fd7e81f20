(** Model of dnstable/query.c:130-514 (query creation and parameters),
    libmy/ip_arith.h and libmy/hex_decode.h.  Definitions only. *)
From Verif Require Import Str ModelWdns ModelIter ModelQuery ModelNames.

(** ** libmy/ip_arith.h *)

(** Big-endian numbers, as htobe32/be32toh/htobe64 see them. *)
Definition be_num (l : bytes) : N := fold_left (fun v b => 256 * v + b) l 0.
Fixpoint be_bytes (n : nat) (v : N) : bytes :=
  match n with
  | O => []
  | S m => be_bytes m (v / 256) ++ [v mod 256]
  end.

(** ip_arith.h:38, 48: [1 << (32 - prefix_len)] less one, with unsigned 32-bit
    subtraction and int shift: shifting by 32 or more is undefined, shifting by 31
    overflows. *)
Definition ip4_hostmask (p : N) : res N :=
  let s := (u32 + 32 - p) mod u32 in
  if 31 <=? s then UB else Ok (N.shiftl 1 s - 1).

(** ip_arith.h:34-40, 44-50. *)
Definition ip4_lower (a : bytes) (p : N) : res bytes :=
  let* m := ip4_hostmask p in Ok (be_bytes 4 (N.land (be_num a) (u32 - 1 - m))).
Definition ip4_upper (a : bytes) (p : N) : res bytes :=
  let* m := ip4_hostmask p in Ok (be_bytes 4 (N.lor (be_num a) m)).

(** ip_arith.h:69, 74: [((1ULL << p) - 1) << (64 - p)]; shifting by 64 is undefined. *)
Definition ip6_half (p : N) : res N :=
  if p =? 0 then UB else Ok (N.shiftl (N.shiftl 1 p - 1) (64 - p) mod u64).

(** ip_arith.h:68-77: the two halves of the mask. *)
Definition ip6_masks (p : N) : res (N * N) :=
  if p <? 64 then let* m := ip6_half p in Ok (m, 0)
  else if p <? 128 then let* m := ip6_half (p - 64) in Ok (u64 - 1, m)
  else Ok (u64 - 1, u64 - 1).

(** ip_arith.h:64-82, 87-105. *)
Definition ip6_lower (a : bytes) (p : N) : res bytes :=
  let* m := ip6_masks p in
  Ok (be_bytes 8 (N.land (be_num (firstn 8 a)) (fst m)) ++
      be_bytes 8 (N.land (be_num (skipn 8 a)) (snd m))).
Definition ip6_upper (a : bytes) (p : N) : res bytes :=
  let* m := ip6_masks p in
  Ok (be_bytes 8 (N.lor (be_num (firstn 8 a)) (u64 - 1 - fst m)) ++
      be_bytes 8 (N.lor (be_num (skipn 8 a)) (u64 - 1 - snd m))).

(** ** libmy/hex_decode.h *)

Definition toupper (c : N) : N := if (97 <=? c) && (c <=? 122) then c - 32 else c.

(** hex_decode.h:27-56 hex_to_int. *)
Definition hex_to_int (c : N) : option N :=
  let h := toupper c in
  if (48 <=? h) && (h <=? 57) then Some (h - 48)
  else if (65 <=? h) && (h <=? 70) then Some (h - 55)
  else None.

(** hex_decode.h:69-84. *)
Fixpoint hex_bytes (hex : bytes) : option bytes :=
  match hex with
  | a :: b :: r =>
      match hex_to_int a, hex_to_int b, hex_bytes r with
      | Some x, Some y, Some l => Some (N.lor (N.shiftl x 4) y :: l)
      | _, _, _ => None
      end
  | _ => Some []
  end.

(** hex_decode.h:58-90 hex_decode on C strings: (success, *raw, *len); *raw and
    *len keep what they were if the length is wrong, *raw is freed (NULL) after a
    bad digit. *)
Definition hex_decode (hex : bytes) (raw : option bytes) (len : N) : bool * option bytes * N :=
  let hexlen := length hex in
  if Nat.eqb hexlen 0 || negb (Nat.eqb (Nat.modulo hexlen 2) 0) then (false, raw, len)
  else
    match hex_bytes hex with
    | Some l => (true, Some l, N.of_nat (Nat.div hexlen 2))
    | None => (false, None, N.of_nat (Nat.div hexlen 2))
    end.

(** ** C library string functions *)

(** strtok_r called until it returns NULL: the maximal runs of bytes other than [d]. *)
Fixpoint split_on (d : N) (cur : bytes) (s : bytes) : list bytes :=
  match s with
  | [] => [cur]
  | c :: r => if c =? d then cur :: split_on d [] r else split_on d (cur ++ [c]) r
  end.
Definition strtok_all (d : N) (s : bytes) : list bytes :=
  filter (fun t => negb (Nat.eqb (length t) 0)) (split_on d [] s).

Definition has_char (d : N) (s : bytes) : bool := existsb (N.eqb d) s.   (* strchr *)

Definition isspace (c : N) : bool := ((9 <=? c) && (c <=? 13)) || (c =? 32).
Definition isdigit (c : N) : bool := (48 <=? c) && (c <=? 57).
Fixpoint skip_space (s : bytes) : bytes :=
  match s with c :: r => if isspace c then skip_space r else s | [] => [] end.
Fixpoint digits_value (v : N) (s : bytes) : option N :=
  match s with
  | [] => Some v
  | c :: r => if isdigit c then digits_value (10 * v + (c - 48)) r else None
  end.

(** strtol(s, &end, 10) with errno and *end checked as at query.c:309-311: the
    number if the whole string is one, in the range of a 64-bit long. *)
Definition strtol_all (s : bytes) : option Z :=
  let s1 := skip_space s in
  let '(neg, ds) := match s1 with
                    | 45 :: r => (true, r)
                    | 43 :: r => (false, r)
                    | _ => (false, s1)
                    end in
  match ds with
  | [] => None
  | _ =>
      match digits_value 0 ds with
      | None => None
      | Some v =>
          let z := if neg then (- Z.of_N v)%Z else Z.of_N v in
          if (-9223372036854775808 <=? z)%Z && (z <=? 9223372036854775807)%Z then Some z else None
      end
  end.

(** ** Text parsing outside dnstable *)

(** What libwdns and the C library make of strings: wdns_str_to_name_case (a name in
    wire form), wdns_str_to_rrtype (0 if unknown), inet_pton for AF_INET and AF_INET6. *)
Record env := {
  str_to_name : bytes -> option bytes;
  str_to_rrtype : bytes -> N;
  pton4 : bytes -> option bytes;
  pton6 : bytes -> option bytes
}.

(** ** Field updates *)

Definition with_name (n : option bytes) (q : query) : query :=
  {| q_type := q_type q; q_do_rrtype := q_do_rrtype q; q_rrtype := q_rrtype q;
     q_do_timeout := q_do_timeout q; q_timeout := q_timeout q; q_do_deadline := q_do_deadline q; q_deadline := q_deadline q;
     q_aggregated := q_aggregated q; q_case_sensitive := q_case_sensitive q;
     q_do_tfb := q_do_tfb q; q_tfb := q_tfb q; q_do_tfa := q_do_tfa q; q_tfa := q_tfa q;
     q_do_tlb := q_do_tlb q; q_tlb := q_tlb q; q_do_tla := q_do_tla q; q_tla := q_tla q;
     q_name := n; q_bailiwick := q_bailiwick q;
     q_len_ip1 := q_len_ip1 q; q_len_ip2 := q_len_ip2 q; q_ip1 := q_ip1 q; q_ip2 := q_ip2 q;
     q_len_rdata := q_len_rdata q; q_rdata := q_rdata q; q_offset := q_offset q;
     q_has_v_type := q_has_v_type q; q_v_type := q_v_type q |}.
Definition with_bailiwick (n : option bytes) (q : query) : query :=
  {| q_type := q_type q; q_do_rrtype := q_do_rrtype q; q_rrtype := q_rrtype q;
     q_do_timeout := q_do_timeout q; q_timeout := q_timeout q; q_do_deadline := q_do_deadline q; q_deadline := q_deadline q;
     q_aggregated := q_aggregated q; q_case_sensitive := q_case_sensitive q;
     q_do_tfb := q_do_tfb q; q_tfb := q_tfb q; q_do_tfa := q_do_tfa q; q_tfa := q_tfa q;
     q_do_tlb := q_do_tlb q; q_tlb := q_tlb q; q_do_tla := q_do_tla q; q_tla := q_tla q;
     q_name := q_name q; q_bailiwick := n;
     q_len_ip1 := q_len_ip1 q; q_len_ip2 := q_len_ip2 q; q_ip1 := q_ip1 q; q_ip2 := q_ip2 q;
     q_len_rdata := q_len_rdata q; q_rdata := q_rdata q; q_offset := q_offset q;
     q_has_v_type := q_has_v_type q; q_v_type := q_v_type q |}.
Definition with_rrtype (r : option N) (q : query) : query :=
  {| q_type := q_type q; q_do_rrtype := match r with Some _ => true | None => false end;
     q_rrtype := match r with Some n => n | None => q_rrtype q end;
     q_do_timeout := q_do_timeout q; q_timeout := q_timeout q; q_do_deadline := q_do_deadline q; q_deadline := q_deadline q;
     q_aggregated := q_aggregated q; q_case_sensitive := q_case_sensitive q;
     q_do_tfb := q_do_tfb q; q_tfb := q_tfb q; q_do_tfa := q_do_tfa q; q_tfa := q_tfa q;
     q_do_tlb := q_do_tlb q; q_tlb := q_tlb q; q_do_tla := q_do_tla q; q_tla := q_tla q;
     q_name := q_name q; q_bailiwick := q_bailiwick q;
     q_len_ip1 := q_len_ip1 q; q_len_ip2 := q_len_ip2 q; q_ip1 := q_ip1 q; q_ip2 := q_ip2 q;
     q_len_rdata := q_len_rdata q; q_rdata := q_rdata q; q_offset := q_offset q;
     q_has_v_type := q_has_v_type q; q_v_type := q_v_type q |}.
Definition with_ip1 (len : N) (ip : bytes) (q : query) : query :=
  {| q_type := q_type q; q_do_rrtype := q_do_rrtype q; q_rrtype := q_rrtype q;
     q_do_timeout := q_do_timeout q; q_timeout := q_timeout q; q_do_deadline := q_do_deadline q; q_deadline := q_deadline q;
     q_aggregated := q_aggregated q; q_case_sensitive := q_case_sensitive q;
     q_do_tfb := q_do_tfb q; q_tfb := q_tfb q; q_do_tfa := q_do_tfa q; q_tfa := q_tfa q;
     q_do_tlb := q_do_tlb q; q_tlb := q_tlb q; q_do_tla := q_do_tla q; q_tla := q_tla q;
     q_name := q_name q; q_bailiwick := q_bailiwick q;
     q_len_ip1 := len; q_len_ip2 := q_len_ip2 q; q_ip1 := ip; q_ip2 := q_ip2 q;
     q_len_rdata := q_len_rdata q; q_rdata := q_rdata q; q_offset := q_offset q;
     q_has_v_type := q_has_v_type q; q_v_type := q_v_type q |}.
Definition with_ip2 (len : N) (ip : bytes) (q : query) : query :=
  {| q_type := q_type q; q_do_rrtype := q_do_rrtype q; q_rrtype := q_rrtype q;
     q_do_timeout := q_do_timeout q; q_timeout := q_timeout q; q_do_deadline := q_do_deadline q; q_deadline := q_deadline q;
     q_aggregated := q_aggregated q; q_case_sensitive := q_case_sensitive q;
     q_do_tfb := q_do_tfb q; q_tfb := q_tfb q; q_do_tfa := q_do_tfa q; q_tfa := q_tfa q;
     q_do_tlb := q_do_tlb q; q_tlb := q_tlb q; q_do_tla := q_do_tla q; q_tla := q_tla q;
     q_name := q_name q; q_bailiwick := q_bailiwick q;
     q_len_ip1 := q_len_ip1 q; q_len_ip2 := len; q_ip1 := q_ip1 q; q_ip2 := ip;
     q_len_rdata := q_len_rdata q; q_rdata := q_rdata q; q_offset := q_offset q;
     q_has_v_type := q_has_v_type q; q_v_type := q_v_type q |}.
Definition with_rdata (len : N) (r : option bytes) (q : query) : query :=
  {| q_type := q_type q; q_do_rrtype := q_do_rrtype q; q_rrtype := q_rrtype q;
     q_do_timeout := q_do_timeout q; q_timeout := q_timeout q; q_do_deadline := q_do_deadline q; q_deadline := q_deadline q;
     q_aggregated := q_aggregated q; q_case_sensitive := q_case_sensitive q;
     q_do_tfb := q_do_tfb q; q_tfb := q_tfb q; q_do_tfa := q_do_tfa q; q_tfa := q_tfa q;
     q_do_tlb := q_do_tlb q; q_tlb := q_tlb q; q_do_tla := q_do_tla q; q_tla := q_tla q;
     q_name := q_name q; q_bailiwick := q_bailiwick q;
     q_len_ip1 := q_len_ip1 q; q_len_ip2 := q_len_ip2 q; q_ip1 := q_ip1 q; q_ip2 := q_ip2 q;
     q_len_rdata := len; q_rdata := r; q_offset := q_offset q;
     q_has_v_type := q_has_v_type q; q_v_type := q_v_type q |}.
Definition with_v_type (t : N) (q : query) : query :=
  {| q_type := q_type q; q_do_rrtype := q_do_rrtype q; q_rrtype := q_rrtype q;
     q_do_timeout := q_do_timeout q; q_timeout := q_timeout q; q_do_deadline := q_do_deadline q; q_deadline := q_deadline q;
     q_aggregated := q_aggregated q; q_case_sensitive := q_case_sensitive q;
     q_do_tfb := q_do_tfb q; q_tfb := q_tfb q; q_do_tfa := q_do_tfa q; q_tfa := q_tfa q;
     q_do_tlb := q_do_tlb q; q_tlb := q_tlb q; q_do_tla := q_do_tla q; q_tla := q_tla q;
     q_name := q_name q; q_bailiwick := q_bailiwick q;
     q_len_ip1 := q_len_ip1 q; q_len_ip2 := q_len_ip2 q; q_ip1 := q_ip1 q; q_ip2 := q_ip2 q;
     q_len_rdata := q_len_rdata q; q_rdata := q_rdata q; q_offset := q_offset q;
     q_has_v_type := true; q_v_type := t |}.
Definition with_flags (aggregated case_sensitive : bool) (offset : N) (q : query) : query :=
  {| q_type := q_type q; q_do_rrtype := q_do_rrtype q; q_rrtype := q_rrtype q;
     q_do_timeout := q_do_timeout q; q_timeout := q_timeout q; q_do_deadline := q_do_deadline q; q_deadline := q_deadline q;
     q_aggregated := aggregated; q_case_sensitive := case_sensitive;
     q_do_tfb := q_do_tfb q; q_tfb := q_tfb q; q_do_tfa := q_do_tfa q; q_tfa := q_tfa q;
     q_do_tlb := q_do_tlb q; q_tlb := q_tlb q; q_do_tla := q_do_tla q; q_tla := q_tla q;
     q_name := q_name q; q_bailiwick := q_bailiwick q;
     q_len_ip1 := q_len_ip1 q; q_len_ip2 := q_len_ip2 q; q_ip1 := q_ip1 q; q_ip2 := q_ip2 q;
     q_len_rdata := q_len_rdata q; q_rdata := q_rdata q; q_offset := offset;
     q_has_v_type := q_has_v_type q; q_v_type := q_v_type q |}.
(** The time bounds; [None] leaves one alone. *)
Definition with_bounds (tfb tfa tlb tla : option (option N)) (q : query) : query :=
  let do_ (b : bool) (p : option (option N)) := match p with Some x => is_some x | None => b end in
  let va (v : N) (p : option (option N)) := match p with Some x => val_or v x | None => v end in
  {| q_type := q_type q; q_do_rrtype := q_do_rrtype q; q_rrtype := q_rrtype q;
     q_do_timeout := q_do_timeout q; q_timeout := q_timeout q; q_do_deadline := q_do_deadline q; q_deadline := q_deadline q;
     q_aggregated := q_aggregated q; q_case_sensitive := q_case_sensitive q;
     q_do_tfb := do_ (q_do_tfb q) tfb; q_tfb := va (q_tfb q) tfb; q_do_tfa := do_ (q_do_tfa q) tfa; q_tfa := va (q_tfa q) tfa;
     q_do_tlb := do_ (q_do_tlb q) tlb; q_tlb := va (q_tlb q) tlb; q_do_tla := do_ (q_do_tla q) tla; q_tla := va (q_tla q) tla;
     q_name := q_name q; q_bailiwick := q_bailiwick q;
     q_len_ip1 := q_len_ip1 q; q_len_ip2 := q_len_ip2 q; q_ip1 := q_ip1 q; q_ip2 := q_ip2 q;
     q_len_rdata := q_len_rdata q; q_rdata := q_rdata q; q_offset := q_offset q;
     q_has_v_type := q_has_v_type q; q_v_type := q_v_type q |}.

(** ** Query parameters.  Every setter answers (success, query), where a failure may
    leave the query changed. *)

(** query.c:158-173 dnstable_query_init; [None] is the failed assertion. *)
Definition ts0 : timespec := {| tv_sec := 0; tv_nsec := 0 |}.
Definition dnstable_query_init (t : qtype) : res query :=
  match t with
  | QSourceInfo => Abort
  | _ => Ok
  {| q_type := t; q_do_rrtype := false; q_rrtype := 0;
     q_do_timeout := false; q_timeout := ts0; q_do_deadline := false; q_deadline := ts0;
     q_aggregated := true; q_case_sensitive := false;
     q_do_tfb := false; q_tfb := 0; q_do_tfa := false; q_tfa := 0;
     q_do_tlb := false; q_tlb := 0; q_do_tla := false; q_tla := 0;
     q_name := None; q_bailiwick := None;
     q_len_ip1 := 0; q_len_ip2 := 0; q_ip1 := repeat 0 16; q_ip2 := repeat 0 16;
     q_len_rdata := 0; q_rdata := None; q_offset := 0; q_has_v_type := false; q_v_type := 0 |}
  end.

(** wdns_downcase_name (libwdns): label lengths are below 'A'. *)
Definition wdns_downcase_name (n : bytes) : bytes := map tolower n.

(** query.c:130-144 query_load_name: (success, new name).  A C string argument is
    [Some s], NULL is [None]. *)
Definition query_load_name (ev : env) (s : option bytes) (case_sensitive : bool) : bool * option bytes :=
  match s with
  | None => (true, None)
  | Some s =>
      match str_to_name ev s with
      | None => (false, None)
      | Some n => (true, Some (if case_sensitive then n else wdns_downcase_name n))
      end
  end.

(** query.c:146-156 query_load_address into a 16-byte buffer: (success, length, buffer). *)
Definition query_load_address (ev : env) (s : bytes) (buf : bytes) : bool * N * bytes :=
  match pton4 ev s with
  | Some a => (true, 4, a ++ skipn 4 buf)
  | None =>
      match pton6 ev s with
      | Some a => (true, 16, a)
      | None => (false, 0, buf)
      end
  end.

(** query.c:193-198. *)
Definition set_case_sensitive (b : bool) (q : query) : bool * query :=
  (true, with_flags (q_aggregated q) b (q_offset q) q).

(** query.c:200-221. *)
Definition set_bailiwick (ev : env) (s : option bytes) (q : query) : res (bool * query) :=
  match q_type q with
  | QRrset =>
      match query_load_name ev s false with
      | (ok, None) => Ok (ok, with_bailiwick None q)
      | (_, Some n) =>
          match wdns_reverse_name n (blen n) with
          | Ok r => Ok (true, with_bailiwick (Some r) q)
          | Fail => Ok (false, with_bailiwick (Some n) q)
          | Abort => Abort
          | UB => UB
          | Hang => Hang
          end
      end
  | _ => Ok (false, q)
  end.

(** query.c:223-227, 229-233. *)
Definition set_data_name (ev : env) (s : option bytes) (q : query) : bool * query :=
  let (ok, n) := query_load_name ev s (q_case_sensitive q) in (ok, with_name n q).

(** query.c:235-242. *)
Definition set_data_rdata_raw (s : option bytes) (q : query) : bool * query :=
  match s with
  | None => (true, with_rdata (q_len_rdata q) None q)
  | Some s =>
      let '(ok, raw, len) := hex_decode s None (q_len_rdata q) in (ok, with_rdata len raw q)
  end.

(** query.c:263-268, 318-319, 325-326, 340-344: the type that goes with an address. *)
Definition ip_rrtype (len : N) (q : query) : query :=
  with_rrtype (Some (if len =? 4 then WDNS_TYPE_A else if len =? 16 then WDNS_TYPE_AAAA else q_rrtype q)) q.

(** query.c:244-278. *)
Definition set_data_ip_range (ev : env) (s : bytes) (q : query) : bool * query :=
  match strtok_all 45 s with
  | [a1; a2] =>
      let '(ok1, len1, ip1) := query_load_address ev a1 (q_ip1 q) in
      let q1 := with_ip1 len1 ip1 q in
      if ok1 then
        let '(ok2, len2, ip2) := query_load_address ev a2 (q_ip2 q1) in
        let q2 := with_ip2 len2 ip2 q1 in
        if ok2 then
          if len1 =? len2 then (true, ip_rrtype len1 q2) else (false, q2)
        else (false, q2)
      else (false, q1)
  | _ => (false, q)
  end.

(** A long passed as unsigned (query.c:321-322, 328-329). *)
Definition as_unsigned (z : Z) : N := Z.to_N (z mod 4294967296)%Z.

(** query.c:280-332.  Local variable [ip] starts out indeterminate; the bytes not
    written are never used. *)
Definition set_data_ip_prefix (ev : env) (s : bytes) (q : query) : res (bool * query) :=
  match strtok_all 47 s with
  | [a; p] =>
      let '(ok, len, ip) := query_load_address ev a [] in
      if negb ok then Ok (false, q)
      else
        match strtol_all p with
        | None => Ok (false, q)
        | Some plen =>
            if ((len =? 4) && (32 <? plen)%Z) || ((len =? 16) && (128 <? plen)%Z) then Ok (false, q)
            else if len =? 4 then
              let* lo := ip4_lower ip (as_unsigned plen) in
              let* hi := ip4_upper ip (as_unsigned plen) in
              Ok (true, with_ip2 len (hi ++ skipn 4 (q_ip2 q))
                          (with_ip1 len (lo ++ skipn 4 (q_ip1 q)) (ip_rrtype len q)))
            else
              let* lo := ip6_lower ip (as_unsigned plen) in
              let* hi := ip6_upper ip (as_unsigned plen) in
              Ok (true, with_ip2 len hi (with_ip1 len lo (ip_rrtype len q)))
        end
  | _ => Ok (false, q)
  end.

(** query.c:334-346. *)
Definition set_data_ip_address (ev : env) (s : bytes) (q : query) : bool * query :=
  let q0 := with_ip2 0 (q_ip2 q) q in
  let '(ok, len, ip) := query_load_address ev s (q_ip1 q0) in
  let q1 := with_ip1 len ip q0 in
  if ok then (true, ip_rrtype len q1) else (false, q1).

(** query.c:348-364. *)
Definition set_data_rdata_ip (ev : env) (s : option bytes) (q : query) : res (bool * query) :=
  match s with
  | None => Ok (true, with_ip1 0 (q_ip1 q) (with_ip2 0 (q_ip2 q) q))
  | Some s =>
      if has_char 45 s then Ok (set_data_ip_range ev s q)
      else if has_char 47 s then set_data_ip_prefix ev s q
      else Ok (set_data_ip_address ev s q)
  end.

(** query.c:366-390. *)
Definition set_version_type (s : option bytes) (q : query) : bool * query :=
  match s with
  | None => (true, q)
  | Some s =>
      match entry_type_from_string s with
      | None => (false, q)
      | Some t =>
          if existsb (N.eqb t) [ENTRY_TYPE_RRSET; ENTRY_TYPE_RRSET_NAME_FWD; ENTRY_TYPE_RDATA; ENTRY_TYPE_RDATA_NAME_REV]
          then (true, with_v_type t q) else (false, q)
      end
  end.

(** query.c:392-408 dnstable_query_set_data. *)
Definition set_data (ev : env) (s : option bytes) (q : query) : res (bool * query) :=
  match q_type q with
  | QRrset | QRdataName => Ok (set_data_name ev s q)
  | QRdataIp => set_data_rdata_ip ev s q
  | QRdataRaw => Ok (set_data_rdata_raw s q)
  | QVersion => Ok (set_version_type s q)
  | _ => Ok (false, q)
  end.

(** query.c:410-437 dnstable_query_set_rrtype. *)
Definition set_rrtype (ev : env) (s : option bytes) (q : query) : bool * query :=
  match s with
  | None => (true, with_rrtype None q)
  | Some s =>
      if strcaseeq s (str "ANY") || strcaseeq s (str "TYPE255") || strcaseeq s (str "ANY-DNSSEC")
      then (true, with_rrtype None q)
      else
        let t := str_to_rrtype ev s mod u16 in
        if t =? 0 then (false, q) else (true, with_rrtype (Some t) q)
  end.

(** query.c:439-444, 446-451, 453-464, 466-477. *)
Definition set_offset_to (n : N) (q : query) : bool * query := (true, with_flags (q_aggregated q) (q_case_sensitive q) n q).
Definition set_aggregated (b : bool) (q : query) : bool * query := (true, with_flags b (q_case_sensitive q) (q_offset q) q).
Definition set_timeout (t : option timespec) (q : query) : bool * query := (true, with_timeout t q).
Definition set_deadline_to (t : option timespec) (q : query) : bool * query := (true, with_deadline t q).

(** dnstable.h dnstable_filter_parameter_type: TIME_FIRST_BEFORE 0, TIME_FIRST_AFTER 1,
    TIME_LAST_BEFORE 2, TIME_LAST_AFTER 3.
    query.c:479-514 dnstable_query_set_filter_parameter; [v] is the 64-bit number at
    [param] if [len] is 8, [None] if [param] is NULL. *)
Definition set_filter_parameter (p_type : N) (v : option N) (len : N) (q : query) : bool * query :=
  if negb (len =? 8) then (false, q)
  else if p_type =? 0 then (true, with_bounds (Some v) None None None q)
  else if p_type =? 1 then (true, with_bounds None (Some v) None None q)
  else if p_type =? 2 then (true, with_bounds None None (Some v) None q)
  else if p_type =? 3 then (true, with_bounds None None None (Some v) q)
  else (false, q).

(** ** Histories *)

Inductive setting :=
| SetData (s : option bytes)
| SetRrtype (s : option bytes)
| SetBailiwick (s : option bytes)
| SetOffset (n : N)
| SetAggregated (b : bool)
| SetCaseSensitive (b : bool)
| SetTimeout (t : option timespec)
| SetDeadline (t : option timespec)
| SetFilterParameter (p_type : N) (v : option N) (len : N).

Definition apply_setting (ev : env) (c : setting) (q : query) : res (bool * query) :=
  match c with
  | SetData s => set_data ev s q
  | SetRrtype s => Ok (set_rrtype ev s q)
  | SetBailiwick s => set_bailiwick ev s q
  | SetOffset n => Ok (set_offset_to n q)
  | SetAggregated b => Ok (set_aggregated b q)
  | SetCaseSensitive b => Ok (set_case_sensitive b q)
  | SetTimeout t => Ok (set_timeout t q)
  | SetDeadline t => Ok (set_deadline_to t q)
  | SetFilterParameter p v len => Ok (set_filter_parameter p v len q)
  end.

(** The answers of a sequence of calls and the query they leave. *)
Fixpoint apply_settings (ev : env) (cs : list setting) (q : query) : res (list bool * query) :=
  match cs with
  | [] => Ok ([], q)
  | c :: r =>
      let* x := apply_setting ev c q in
      let* y := apply_settings ev r (snd x) in
      Ok (fst x :: fst y, snd y)
  end.

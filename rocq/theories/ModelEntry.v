(** Model of dnstable/entry.c:37-48, 609-1094: decoding entries and reading them
    back.  Definitions only. *)
From Verif Require Import Base ModelVarint ModelWdns.

(** entry.c:37-48 struct dnstable_entry.  A wdns_name_t is [None] when its data
    pointer is NULL.  Each rdata is the byte string an accessor hands out:
    [len] bytes of [data]. *)
Record entry := {
  e_type : N;
  e_name : option bytes;
  e_bailiwick : option bytes;
  e_rrtype : N;
  e_rdatas : list bytes;
  e_rrtype_map : option bytes;
  e_source_info : option bytes;
  e_time_first : N;
  e_time_last : N;
  e_count : N;
  e_v_type : N;
  e_version : N;
  e_iszone : bool
}.

(** my_calloc(1, sizeof *e) at entry.c:820. *)
Definition entry0 : entry :=
  {| e_type := 0; e_name := None; e_bailiwick := None; e_rrtype := 0; e_rdatas := [];
     e_rrtype_map := None; e_source_info := None; e_time_first := 0; e_time_last := 0;
     e_count := 0; e_v_type := 0; e_version := 0; e_iszone := false |}.

(** Name fields of entry.c:637-645, 654-662, 744-752: length, reversal, copy.
    [mem] is the memory from p on, [avail] the bytes between p and end. *)
Definition decode_rev_name (mem : bytes) (avail : nat) : res (nat * bytes) :=
  let* len := wdns_len_uname (firstn avail mem) in
  let* name := wdns_reverse_name mem (N.of_nat len) in
  Ok (len, name).

(** entry.c:665-683: the rdata array loop; [l] is the bytes between p and end. *)
Fixpoint decode_rdatas (fuel : nat) (l : bytes) : res (list bytes) :=
  match fuel with
  | O => Hang
  | S f =>
      match l with
      | [] => Ok []
      | _ =>
          let* r := varint_decode32 l in
          let p := skipn (fst r) l in
          let len_rdata := snd r in
          if 65535 <? len_rdata then Fail
          else if blen p <? len_rdata then Fail
          else
            let* rest := decode_rdatas f (skipn (N.to_nat len_rdata) p) in
            Ok (firstn (N.to_nat len_rdata) p :: rest)
      end
  end.

(** entry.c:628-686 decode_rrset: (owner, rrtype, bailiwick, rdatas).  A varint
    that starts before [end] is read to its last byte, so [p > end] can only
    follow a read past the key ([UB]). *)
Definition decode_rrset_fuel (fuel : nat) (buf : bytes) : res (bytes * N * bytes * list bytes) :=
  let* n := decode_rev_name buf (length buf) in
  let p1 := skipn (fst n) buf in
  let* t := varint_decode32 p1 in
  let p2 := skipn (fst t) p1 in
  let* b := decode_rev_name p2 (length p2) in
  let p3 := skipn (fst b) p2 in
  let* rs := decode_rdatas fuel p3 in
  Ok (snd n, snd t, snd b, rs).
(** The loop removes at least one byte per round unless it is stuck for ever. *)
Definition decode_rrset (buf : bytes) : res (bytes * N * bytes * list bytes) :=
  decode_rrset_fuel (S (length buf)) buf.

(** entry.c:717-776 decode_rdata: (owner, rrtype, rdata).  [end] is two bytes
    before the end of the key; rdata->len is a uint16_t, so a joined rdata of
    65536 bytes or more is cut to its length modulo 65536. *)
Definition decode_rdata (buf : bytes) : res (bytes * N * bytes) :=
  if blen buf <? 2 then Fail
  else
    let body := (length buf - 2)%nat in
    let* lo := rd buf body in
    let* hi := rd buf (S body) in
    let len_data := lo + 256 * hi in
    if N.of_nat body <? len_data then Fail
    else
      let data := firstn (N.to_nat len_data) buf in
      let p1 := skipn (N.to_nat len_data) buf in
      let* t := varint_decode32 p1 in
      let off2 := (N.to_nat len_data + fst t)%nat in
      if Nat.ltb body off2 then Fail
      else
        let p2 := skipn off2 buf in
        let* n := decode_rev_name p2 (body - off2) in
        let off3 := (off2 + fst n)%nat in
        let slice := firstn (body - off3) (skipn off3 buf) in
        let joined := slice ++ data in
        Ok (snd n, snd t, firstn (N.to_nat (blen joined mod 65536)) joined).

(** entry.c:609-626 decode_val_triplet, including the fixups. *)
Definition decode_val_triplet (val : bytes) : res (N * N * N) :=
  let* r := triplet_unpack val in
  let '(tf, tl, c) := r in
  Ok (tf, (if tl =? 0 then tf else tl), (if c =? 0 then 1 else c)).

Definition opt_map (val : bytes) : option bytes :=
  match val with [] => None | _ => Some val end.

(** entry.c:813-860 dnstable_entry_decode; [Fail] is the NULL return. *)
Definition entry_decode (key val : bytes) : res entry :=
  match key with
  | [] => Fail
  | k :: buf =>
      if k =? ENTRY_TYPE_RRSET then
        let* r := decode_rrset buf in
        let '(nm, ty, bw, rs) := r in
        let* v := decode_val_triplet val in
        let '(tf, tl, c) := v in
        Ok {| e_type := ENTRY_TYPE_RRSET; e_name := Some nm; e_bailiwick := Some bw;
              e_rrtype := ty; e_rdatas := rs; e_rrtype_map := None; e_source_info := None;
              e_time_first := tf; e_time_last := tl; e_count := c;
              e_v_type := 0; e_version := 0; e_iszone := false |}
      else if k =? ENTRY_TYPE_RRSET_NAME_FWD then
        (* entry.c:688-699 *)
        Ok {| e_type := ENTRY_TYPE_RRSET_NAME_FWD; e_name := Some buf; e_bailiwick := None;
              e_rrtype := 0; e_rdatas := []; e_rrtype_map := opt_map val; e_source_info := None;
              e_time_first := 0; e_time_last := 0; e_count := 0;
              e_v_type := 0; e_version := 0; e_iszone := false |}
      else if k =? ENTRY_TYPE_RDATA then
        let* r := decode_rdata buf in
        let '(nm, ty, rdata) := r in
        let* v := decode_val_triplet val in
        let '(tf, tl, c) := v in
        Ok {| e_type := ENTRY_TYPE_RDATA; e_name := Some nm; e_bailiwick := None;
              e_rrtype := ty; e_rdatas := [rdata]; e_rrtype_map := None; e_source_info := None;
              e_time_first := tf; e_time_last := tl; e_count := c;
              e_v_type := 0; e_version := 0; e_iszone := false |}
      else if k =? ENTRY_TYPE_RDATA_NAME_REV then
        (* entry.c:701-715 *)
        let* nm := wdns_reverse_name buf (blen buf) in
        Ok {| e_type := ENTRY_TYPE_RDATA_NAME_REV; e_name := Some nm; e_bailiwick := None;
              e_rrtype := 0; e_rdatas := []; e_rrtype_map := opt_map val; e_source_info := None;
              e_time_first := 0; e_time_last := 0; e_count := 0;
              e_v_type := 0; e_version := 0; e_iszone := false |}
      else if k =? ENTRY_TYPE_TIME_RANGE then
        (* entry.c:778-782 *)
        let* r := pair_unpack val in
        Ok {| e_type := ENTRY_TYPE_TIME_RANGE; e_name := None; e_bailiwick := None;
              e_rrtype := 0; e_rdatas := []; e_rrtype_map := None; e_source_info := None;
              e_time_first := fst r; e_time_last := snd r; e_count := 0;
              e_v_type := 0; e_version := 0; e_iszone := false |}
      else if k =? ENTRY_TYPE_SOURCE_INFO then
        (* entry.c:784-793 *)
        Ok {| e_type := ENTRY_TYPE_SOURCE_INFO; e_name := None; e_bailiwick := None;
              e_rrtype := 0; e_rdatas := []; e_rrtype_map := None; e_source_info := Some buf;
              e_time_first := 0; e_time_last := 0; e_count := 0;
              e_v_type := 0; e_version := 0; e_iszone := false |}
      else if k =? ENTRY_TYPE_VERSION then
        (* entry.c:795-811 *)
        match buf, val with
        | [vt], _ :: _ =>
            let* r := varint_decode32 val in
            if Nat.eqb (fst r) (length val) then
              Ok {| e_type := ENTRY_TYPE_VERSION; e_name := None; e_bailiwick := None;
                    e_rrtype := 0; e_rdatas := []; e_rrtype_map := None; e_source_info := None;
                    e_time_first := 0; e_time_last := 0; e_count := 0;
                    e_v_type := vt; e_version := snd r; e_iszone := false |}
            else Fail
        | _, _ => Fail
        end
      else Ok entry0   (* no default case in the switch *)
  end.

(** ** Accessors, entry.c:929-1094.  [Fail] is dnstable_res_failure. *)

Definition is_type (e : entry) (ts : list N) : bool := existsb (N.eqb (e_type e)) ts.

(** entry.c:929-933, 935-939. *)
Definition get_type (e : entry) : N := e_type e.

(** A pointer/length pair handed to the caller: NULL reads as the empty string. *)
Definition name_bytes (o : option bytes) : bytes := match o with Some b => b | None => [] end.

(** entry.c:941-954. *)
Definition get_rrname (e : entry) : res bytes :=
  if is_type e [ENTRY_TYPE_RRSET; ENTRY_TYPE_RRSET_NAME_FWD; ENTRY_TYPE_RDATA]
  then Ok (name_bytes (e_name e)) else Fail.

(** entry.c:956-967. *)
Definition get_bailiwick (e : entry) : res bytes :=
  if is_type e [ENTRY_TYPE_RRSET] then Ok (name_bytes (e_bailiwick e)) else Fail.

(** entry.c:969-979. *)
Definition get_rrtype (e : entry) : res N :=
  if is_type e [ENTRY_TYPE_RRSET; ENTRY_TYPE_RDATA] then Ok (e_rrtype e mod u16) else Fail.

(** entry.c:981-991. *)
Definition get_num_rdata (e : entry) : res N :=
  if is_type e [ENTRY_TYPE_RRSET; ENTRY_TYPE_RDATA]
  then Ok (N.of_nat (length (e_rdatas e))) else Fail.

(** entry.c:993-1007; rdata_vec_value (libmy/vector.h) asserts i < size. *)
Definition get_rdata (e : entry) (i : N) : res bytes :=
  if is_type e [ENTRY_TYPE_RRSET; ENTRY_TYPE_RDATA] then
    if N.of_nat (length (e_rdatas e)) <? i then Fail
    else match nth_error (e_rdatas e) (N.to_nat i) with
         | Some r => Ok r
         | None => Abort
         end
  else Fail.

(** entry.c:1009-1020. *)
Definition get_rdata_name (e : entry) : res bytes :=
  if is_type e [ENTRY_TYPE_RDATA_NAME_REV] then Ok (name_bytes (e_name e)) else Fail.

(** entry.c:1022-1032, 1034-1044, 1046-1055. *)
Definition get_time_first (e : entry) : res N :=
  if is_type e [ENTRY_TYPE_RRSET; ENTRY_TYPE_RDATA; ENTRY_TYPE_TIME_RANGE] then Ok (e_time_first e) else Fail.
Definition get_time_last (e : entry) : res N :=
  if is_type e [ENTRY_TYPE_RRSET; ENTRY_TYPE_RDATA; ENTRY_TYPE_TIME_RANGE] then Ok (e_time_last e) else Fail.
Definition get_count (e : entry) : res N :=
  if is_type e [ENTRY_TYPE_RRSET; ENTRY_TYPE_RDATA] then Ok (e_count e) else Fail.

(** A C string: the bytes before the first NUL. *)
Fixpoint cstr (l : bytes) : bytes :=
  match l with
  | [] => []
  | b :: t => if b =? 0 then [] else b :: cstr t
  end.

(** entry.c:1057-1065; the ubuf holds the key bytes and a terminating NUL. *)
Definition get_source_info (e : entry) : res bytes :=
  if is_type e [ENTRY_TYPE_SOURCE_INFO] then Ok (cstr (name_bytes (e_source_info e))) else Fail.

(** entry.c:1067-1075, 1077-1092. *)
Definition get_version (e : entry) : res N :=
  if is_type e [ENTRY_TYPE_VERSION] then Ok (e_version e) else Fail.
Definition get_version_type (e : entry) : res N :=
  if is_type e [ENTRY_TYPE_VERSION] then Ok (e_v_type e) else Fail.

(** Model of the RRtype-union code: dnstable/entry.c:1098-1249 and
    dnstable/merge.c:27-180.  Definitions only. *)
From Verif Require Import Base.

(** dnstable/dnstable-private.h:121. *)
Definition MAX_RRTYPES_MAPPABLE : N := 65535.

(** le16toh of two bytes in memory order (entry.c:1109, 1176; merge.c:99-100). *)
Definition le16 (lo hi : N) : N := lo + 256 * hi.

(** entry.c:1136-1148: the types named by the bits of one bitmap byte [a], most
    significant bit first, [lo] being the running counter of the C code. *)
Fixpoint unpack_bits (js : list N) (w a lo : N) : list N :=
  match js with
  | [] => []
  | j :: js' =>
      (if N.land a (N.shiftl 1 (8 - j)) =? 0 then [] else [N.lor (N.shiftl w 8) lo])
      ++ unpack_bits js' w a (lo + 1)
  end.
Definition one_to_eight : list N := [1; 2; 3; 4; 5; 6; 7; 8].

(** entry.c:1134-1149: one window block. *)
Fixpoint unpack_block (w lo : N) (bm : bytes) : list N :=
  match bm with
  | [] => []
  | a :: bm' => unpack_bits one_to_eight w a lo ++ unpack_block w (lo + 8) bm'
  end.

(** entry.c:1118-1155: the loop over window blocks.  [None] is the C return
    value -1.  [fuel] bounds the number of blocks. *)
Fixpoint unpack_blocks (fuel : nat) (prev : option N) (m : bytes) : res (option (list N)) :=
  match fuel with
  | O => Hang
  | S f =>
      match m with
      | w :: bl :: rest =>
          if match prev with Some p => w <=? p | None => false end then Ok None
          else if (bl <? 1) || (blen rest <? bl) then Ok None
          else
            let* r := unpack_blocks f (Some w) (skipn (N.to_nat bl) rest) in
            match r with
            | None => Ok None
            | Some l => Ok (Some (unpack_block w 0 (firstn (N.to_nat bl) rest) ++ l))
            end
      | [] => Ok (Some [])
      | _ :: [] => Ok None
      end
  end.

(** entry.c:1098-1158 rrtype_union_unpack.  [None] is -1.  The C code stops with
    -1 when a 65536th type is met; here the count is checked at the end, which
    gives the same result because every other early exit also returns -1. *)
Definition rrtype_union_unpack (m : bytes) : res (option (list N)) :=
  match m with
  | [] => Ok (Some [])
  | [b] => Ok (Some [b])
  | [lo; hi] => Ok (Some [le16 lo hi])
  | _ =>
      let* r := unpack_blocks (S (length m)) None m in
      match r with
      | None => Ok None
      | Some l => if MAX_RRTYPES_MAPPABLE <? N.of_nat (length l) then Ok None else Ok (Some l)
      end
  end.

(** entry.c:1188-1215: the loop of rrtype_union_check.  [rd rest byte] is the
    access [rrtype_map[byte]] at line 1205, [UB] when past the end of the map. *)
Fixpoint union_check_blocks (fuel : nat) (want byte bit : N) (m : bytes) : res bool :=
  match fuel with
  | O => Hang
  | S f =>
      match m with
      | w :: bl :: rest =>
          if blen rest <? bl then Ok true
          else if negb (w =? want) then
            union_check_blocks f want byte bit (skipn (N.to_nat bl) rest)
          else if bl <? byte then Ok false
          else
            let* a := rd rest (N.to_nat byte) in
            Ok (negb (N.land a (N.shiftr 128 bit) =? 0))
      | [] => Ok false
      | _ :: [] => Ok true
      end
  end.

(** entry.c:1168-1216 rrtype_union_check ([rrtype] is a uint16_t). *)
Definition rrtype_union_check (rrtype : N) (m : bytes) : res bool :=
  match m with
  | [] => Ok true
  | [b] => Ok (rrtype =? b)
  | [lo; hi] => Ok (rrtype =? le16 lo hi)
  | _ =>
      union_check_blocks (S (length m)) (rrtype / 256) (rrtype mod 256 / 8)
                         (rrtype mod 256 mod 8) m
  end.

(** entry.c:1232-1235: NS CNAME SOA PTR MX SRV DNAME SVCB HTTPS. *)
Definition all_rrtypes_for_RDATA_NAME_REV : list N := [2; 5; 6; 12; 15; 33; 39; 64; 65].

(** entry.c:1218-1249 rrtype_test. [e_type] is the entry type's number, which
    equals its type byte. *)
Definition rrtype_test (e_type rrtype : N) (m : bytes) : res bool :=
  match m with
  | [] =>
      if e_type =? ENTRY_TYPE_RRSET_NAME_FWD then Ok true
      else if e_type =? ENTRY_TYPE_RDATA_NAME_REV
      then Ok (existsb (N.eqb rrtype) all_rrtypes_for_RDATA_NAME_REV)
      else rrtype_union_check rrtype m
  | _ => rrtype_union_check rrtype m
  end.

(** merge.c:27-57 sorted_merge_dedup; [max] is max_output. *)
Fixpoint sorted_merge_dedup (max : nat) (l1 l2 : list N) : list N :=
  match max with
  | O => []
  | S m =>
      match l1, l2 with
      | [], [] => []
      | [], y :: l2' => y :: sorted_merge_dedup m [] l2'
      | x :: l1', [] => x :: sorted_merge_dedup m l1' []
      | x :: l1', y :: l2' =>
          if y <? x then y :: sorted_merge_dedup m l1 l2'
          else if x <? y then x :: sorted_merge_dedup m l1' l2
          else y :: sorted_merge_dedup m l1' l2'
      end
  end.

(** Assignment to an array element. *)
Fixpoint set_nth (n : nat) (v : N) (l : list N) : list N :=
  match n, l with
  | _, [] => []
  | O, _ :: t => v :: t
  | S n', x :: t => x :: set_nth n' v t
  end.

(** Local variables of merge.c:119-124. *)
Record bmstate := { bm_bitmap : bytes; bm_window : N; bm_len : N; bm_result : bytes }.

Definition zero_bitmap : bytes := repeat 0 32.

(** merge.c:133-134 and 162-163: [sizeof(result_data)/sizeof(&result_data[0])]
    is 8192 divided by the size of a pointer (8). *)
Definition bm_assert_limit : N := 8192 / 8.

(** merge.c:133-145 / 162-172: append one window block to the result. *)
Definition bm_flush (s : bmstate) : res bytes :=
  if blen (bm_result s) + 1 + 1 + bm_len s <? bm_assert_limit
  then Ok (bm_result s ++ bm_window s :: bm_len s :: firstn (N.to_nat (bm_len s)) (bm_bitmap s))
  else Abort.

(** merge.c:126-159: one iteration of the loop. *)
Definition bm_step (s : bmstate) (t : N) : res bmstate :=
  let cur := t / 256 in
  let* s1 :=
    (if negb (cur =? bm_window s) then
       let* r := (if 0 <? bm_len s then bm_flush s else Ok (bm_result s)) in
       Ok {| bm_bitmap := zero_bitmap; bm_window := cur;
             bm_len := (if 0 <? bm_len s then 0 else bm_len s); bm_result := r |}
     else Ok s) in
  let byte := t mod 256 / 8 in
  let bit := t mod 256 mod 8 in
  let old := nth (N.to_nat byte) (bm_bitmap s1) 0 in
  Ok {| bm_bitmap := set_nth (N.to_nat byte) (N.lor old (N.shiftr 128 bit)) (bm_bitmap s1);
        bm_window := bm_window s1; bm_len := 1 + byte; bm_result := bm_result s1 |}.

Fixpoint bm_loop (s : bmstate) (l : list N) : res bmstate :=
  match l with
  | [] => Ok s
  | t :: l' => let* s' := bm_step s t in bm_loop s' l'
  end.

Definition bm_init : bmstate :=
  {| bm_bitmap := zero_bitmap; bm_window := 0; bm_len := 0; bm_result := [] |}.

(** merge.c:118-175: form the new bitmap union from the sorted types. *)
Definition build_bitmap (l : list N) : res bytes :=
  let* s := bm_loop bm_init l in
  if negb (bm_len s =? 0) then bm_flush s else Ok (bm_result s).

(** merge.c:74-180 merge_rrtype_bitmaps.  [Fail] is the NULL return, which makes
    the enclosing mtbl iteration fail. *)
Definition merge_rrtype_bitmaps (val0 val1 : bytes) : res bytes :=
  match val0, val1 with
  | [], _ => Ok []
  | _, [] => Ok []
  | _, _ =>
      if beq val0 val1 then Ok val0
      else
        let* sets :=
          match val0, val1 with
          | [b0], [b1] => Ok ([b0], [b1])
          | [lo0; hi0], [lo1; hi1] => Ok ([le16 lo0 hi0], [le16 lo1 hi1])
          | _, _ =>
              let* u0 := rrtype_union_unpack val0 in
              match u0 with
              | None => Fail
              | Some s0 =>
                  let* u1 := rrtype_union_unpack val1 in
                  match u1 with
                  | None => Fail
                  | Some s1 => Ok (s0, s1)
                  end
              end
          end in
        build_bitmap (sorted_merge_dedup (N.to_nat MAX_RRTYPES_MAPPABLE) (fst sets) (snd sets))
  end.

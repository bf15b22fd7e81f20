(** Model of libmy/varint.c and dnstable/triplet.c.  Definitions only.
    dnstable calls the mtbl_varint_* functions of libmtbl; libmy/varint.c is the
    same code and is what is modelled here. *)
From Verif Require Import Base.

(** libmy/varint.c:77-86 varint_length.  [n] bounds the loop: a uint64_t needs
    at most 10 steps. *)
Fixpoint varint_length_loop (n : nat) (v : N) (len : N) : N :=
  match n with
  | O => len
  | S n' => if 128 <=? v then varint_length_loop n' (N.shiftr v 7) (len + 1) else len
  end.
Definition varint_length (v : N) : N := varint_length_loop 10 v 1.

(** libmy/varint.c:88-101 varint_length_packed: index of the first byte without
    the continuation bit among the first [n], plus one; 0 if there is none.
    Reading past the end of the buffer [data] is [UB]. *)
Fixpoint varint_length_packed_from (n : nat) (i : nat) (data : bytes) : res nat :=
  match n with
  | O => Ok 0%nat
  | S n' =>
      match data with
      | [] => UB
      | b :: rest =>
          if N.land b 128 =? 0 then Ok (S i) else varint_length_packed_from n' (S i) rest
      end
  end.
Definition varint_length_packed (data : bytes) (n : nat) : res nat :=
  varint_length_packed_from n 0 data.

Definition to_byte (v : N) : N := v mod 256.

(** libmy/varint.c:103-130 varint_encode32 (argument below 2^32; storing to a
    uint8_t truncates). *)
Definition varint_encode32 (v : N) : bytes :=
  if v <? N.shiftl 1 7 then [to_byte v]
  else if v <? N.shiftl 1 14 then
    [to_byte (N.lor v 128); to_byte (N.shiftr v 7)]
  else if v <? N.shiftl 1 21 then
    [to_byte (N.lor v 128); to_byte (N.lor (N.shiftr v 7) 128); to_byte (N.shiftr v 14)]
  else if v <? N.shiftl 1 28 then
    [to_byte (N.lor v 128); to_byte (N.lor (N.shiftr v 7) 128);
     to_byte (N.lor (N.shiftr v 14) 128); to_byte (N.shiftr v 21)]
  else
    [to_byte (N.lor v 128); to_byte (N.lor (N.shiftr v 7) 128);
     to_byte (N.lor (N.shiftr v 14) 128); to_byte (N.lor (N.shiftr v 21) 128);
     to_byte (N.shiftr v 28)].

(** libmy/varint.c:132-143 varint_encode64.  [n] bounds the loop (10 suffices
    for a uint64_t). *)
Fixpoint varint_encode64_loop (n : nat) (v : N) : bytes :=
  match n with
  | O => [to_byte v]
  | S n' =>
      if 128 <=? v
      then N.lor (N.land v 127) 128 :: varint_encode64_loop n' (N.shiftr v 7)
      else [to_byte v]
  end.
Definition varint_encode64 (v : N) : bytes := varint_encode64_loop 10 v.

(** libmy/varint.c:145-163 varint_decode32: (bytes consumed, value).
    [data[4] << 28] is computed in int and stored to uint32_t; modelled as
    truncation to 32 bits (the signed overflow for data[4] >= 8 is in libmtbl's
    copy, outside this repository's control). *)
Definition varint_decode32 (data : bytes) : res (nat * N) :=
  let* len := varint_length_packed data 5 in
  let* b0 := rd data 0 in
  let v0 := N.land b0 127 in
  if Nat.ltb 1 len then
    let* b1 := rd data 1 in
    let v1 := N.lor v0 (N.shiftl (N.land b1 127) 7) in
    if Nat.ltb 2 len then
      let* b2 := rd data 2 in
      let v2 := N.lor v1 (N.shiftl (N.land b2 127) 14) in
      if Nat.ltb 3 len then
        let* b3 := rd data 3 in
        let v3 := N.lor v2 (N.shiftl (N.land b3 127) 21) in
        if Nat.ltb 4 len then
          let* b4 := rd data 4 in
          Ok (len, N.lor v3 (N.shiftl b4 28 mod u32))
        else Ok (len, v3)
      else Ok (len, v2)
    else Ok (len, v1)
  else Ok (len, v0).

(** The loop at libmy/varint.c:182-186: [data] starts at index 4, [k] bytes remain. *)
Fixpoint varint_decode64_loop (k : nat) (data : bytes) (shift : N) (val : N) : res N :=
  match k with
  | O => Ok val
  | S k' =>
      match data with
      | [] => UB
      | b :: rest =>
          varint_decode64_loop k' rest (shift + 7)
            (N.lor val (N.shiftl (N.land b 127) shift mod u64))
      end
  end.

(** libmy/varint.c:165-189 varint_decode64. *)
Definition varint_decode64 (data : bytes) : res (nat * N) :=
  let* len := varint_length_packed data 10 in
  if Nat.ltb len 5 then varint_decode32 data
  else
    let* b0 := rd data 0 in
    let* b1 := rd data 1 in
    let* b2 := rd data 2 in
    let* b3 := rd data 3 in
    let val := N.lor (N.lor (N.lor (N.land b0 127) (N.shiftl (N.land b1 127) 7))
                            (N.shiftl (N.land b2 127) 14))
                     (N.shiftl (N.land b3 127) 21) in
    let* v := varint_decode64_loop (len - 4) (skipn 4 data) 28 val in
    Ok (len, v).

(** dnstable/triplet.c:19-27. *)
Definition triplet_pack (a b c : N) : bytes :=
  varint_encode64 a ++ varint_encode64 b ++ varint_encode64 c.

(** dnstable/triplet.c:29-39.  [buf] is exactly the value passed in, so reading
    past it is [UB]. *)
Definition triplet_unpack (buf : bytes) : res (N * N * N) :=
  let* r1 := varint_decode64 buf in
  let n1 := fst r1 in
  let* r2 := varint_decode64 (skipn n1 buf) in
  let n2 := (n1 + fst r2)%nat in
  let* r3 := varint_decode64 (skipn n2 buf) in
  let n3 := (n2 + fst r3)%nat in
  if Nat.eqb n3 (length buf) then Ok (snd r1, snd r2, snd r3) else Fail.

(** dnstable/triplet.c:41-48. *)
Definition pair_pack (a b : N) : bytes := varint_encode64 a ++ varint_encode64 b.

(** dnstable/triplet.c:50-59. *)
Definition pair_unpack (buf : bytes) : res (N * N) :=
  let* r1 := varint_decode64 buf in
  let n1 := fst r1 in
  let* r2 := varint_decode64 (skipn n1 buf) in
  let n2 := (n1 + fst r2)%nat in
  if Nat.eqb n2 (length buf) then Ok (snd r1, snd r2) else Fail.

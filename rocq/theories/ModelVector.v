(** libmy/vector.h and libmy/ubuf.h: growable arrays, with the arithmetic of their
    capacity and the pointers into them.  Definitions only.

    Elements are numbers: bytes for ubuf, pointers for rdata_vec (dnstable/entry.c:21) and
    source_vec (dnstable/query_mtbl.c:576); [sz] is sizeof(type).  [UB] is an access
    outside the array, or through a pointer into an array that was moved; [Fail] is the
    failure of the assertion of my_alloc.h that there was memory left, [Abort] that of
    any other; [Hang] an endless loop. *)
From Verif Require Import Str ModelVarint ModelWdns ModelQuery.

(** Arithmetic of size_t. *)
Definition add64 (a b : N) : N := (a + b) mod u64.
Definition sub64 (a b : N) : N := (a + u64 - b) mod u64.
Definition mul64 (a b : N) : N := (a * b) mod u64.

(** The allocator: whether it grants its t-th request, for that many bytes.  No object is
    larger than PTRDIFF_MAX = 2^63 - 1. *)
Definition memory := nat -> N -> bool.
Definition ptrdiff_max : N := 9223372036854775807.

(** A cell is [None] before it is written to. *)
Definition cells := list (option N).
Definition csize (c : cells) : N := N.of_nat (length c).

(** vector.h:22-26.  [v_p] is the index _p points to, [None] if it points into an array
    that is gone; [v_mem] is the allocator from now on. *)
Record vec := mkvec { v_v : cells; v_p : option N; v_n : N; v_alloced : N; v_hint : N; v_mem : memory }.

(** libmy/my_alloc.h:8-38: malloc, calloc and realloc whose result is asserted to be there. *)
Definition my_alloc (m : memory) (bytes : N) : res memory :=
  if (bytes <=? ptrdiff_max) && m O bytes then Ok (fun t => m (S t)) else Fail.
Definition fresh (sz bytes : N) : cells := repeat None (N.to_nat (bytes / sz)).
Definition moved (sz bytes : N) (c : cells) : cells :=
  firstn (N.to_nat (bytes / sz)) c ++ repeat None (N.to_nat (bytes / sz) - length c).

(** &(vec->_v[i]). *)
Definition pointer (c : cells) (i : N) : res (option N) := if i <=? csize c then Ok (Some i) else UB.
(** memcpy or memset to the cells from the i-th on. *)
Definition blit (c : cells) (i : N) (l : list N) : res cells :=
  if i + N.of_nat (length l) <=? csize c
  then Ok (firstn (N.to_nat i) c ++ map Some l ++ skipn (N.to_nat i + length l) c)
  else UB.

(** vector.h:27-38 init; the hint is an unsigned int, the struct has 40 bytes. *)
Definition vec_init (sz : N) (m : memory) (hint : N) : res vec :=
  let* m1 := my_alloc m 40 in
  let hint := hint mod u32 in
  let hint := if hint =? 0 then 1 else hint in
  let bytes := mul64 hint sz in
  let* m2 := my_alloc m1 bytes in
  let c := fresh sz bytes in
  let* p := pointer c 0 in
  Ok (mkvec c p 0 hint hint m2).

(** vector.h:49-58 detach: the array, the number of its elements, and a new vector. *)
Definition vec_detach (sz : N) (v : vec) : res (cells * N * vec) :=
  let bytes := mul64 (v_hint v) sz in
  let* m := my_alloc (v_mem v) bytes in
  let c := fresh sz bytes in
  let* p := pointer c 0 in
  Ok (v_v v, v_n v, mkvec c p 0 (v_hint v) (v_hint v) m).

(** The body of the loops in vector.h:69-88: twice the capacity. *)
Definition grow (sz : N) (v : vec) : res vec :=
  let a := mul64 (v_alloced v) 2 in
  let bytes := mul64 a sz in
  let* m := my_alloc (v_mem v) bytes in
  let c := moved sz bytes (v_v v) in
  let* p := pointer c (v_n v) in
  Ok (mkvec c p (v_n v) a (v_hint v) m).

(** vector.h:70-79 reserve, the loop.  After 64 rounds the capacity would be 0 and stay
    so. *)
Fixpoint reserve_loop (sz : N) (rounds : nat) (n_elems : N) (v : vec) : res vec :=
  match rounds with
  | O => Hang
  | S r => if sub64 (v_alloced v) (v_n v) <? n_elems
           then let* v' := grow sz v in reserve_loop sz r n_elems v'
           else Ok v
  end.
Definition vec_reserve (sz n_elems : N) (v : vec) : res vec := reserve_loop sz 65 n_elems v.

(** vector.h:80-92 add. *)
Fixpoint add_loop (sz : N) (rounds : nat) (v : vec) : res vec :=
  match rounds with
  | O => Hang
  | S r => if v_alloced v <? add64 (v_n v) 1
           then let* v' := grow sz v in add_loop sz r v'
           else Ok v
  end.
Definition vec_add (sz elem : N) (v : vec) : res vec :=
  let* v := add_loop sz 65 v in
  let* c := blit (v_v v) (v_n v) [elem] in
  let n := add64 (v_n v) 1 in
  let* p := pointer c n in
  Ok (mkvec c p n (v_alloced v) (v_hint v) (v_mem v)).

(** vector.h:93-101 append, of elements outside the array. *)
Definition vec_append (sz : N) (elems : list N) (v : vec) : res vec :=
  let* v := vec_reserve sz (N.of_nat (length elems)) v in
  let* c := blit (v_v v) (v_n v) elems in
  let n := add64 (v_n v) (N.of_nat (length elems)) in
  let* p := pointer c n in
  Ok (mkvec c p n (v_alloced v) (v_hint v) (v_mem v)).

(** vector.h:102-107 extend, of a vector by itself: the address of the elements is
    taken before the array is moved. *)
Definition vec_extend_self (sz : N) (v : vec) : res vec :=
  let* v' := vec_reserve sz (v_n v) v in
  if v_alloced v' =? v_alloced v then
    let* c := blit (v_v v') (v_n v') (map (fun x => match x with Some a => a | None => 0 end) (firstn (N.to_nat (v_n v)) (v_v v))) in
    let n := add64 (v_n v') (v_n v) in
    let* p := pointer c n in
    Ok (mkvec c p n (v_alloced v') (v_hint v') (v_mem v'))
  else UB.

(** vector.h:108-119 reset. *)
Definition vec_reset (sz : N) (v : vec) : res vec :=
  if v_hint v <? v_alloced v then
    let bytes := mul64 (v_hint v) sz in
    let* m := my_alloc (v_mem v) bytes in
    let c := moved sz bytes (v_v v) in
    let* p := pointer c 0 in
    Ok (mkvec c p 0 (v_hint v) (v_hint v) m)
  else
    let* p := pointer (v_v v) 0 in
    Ok (mkvec (v_v v) p 0 (v_alloced v) (v_hint v) (v_mem v)).

(** vector.h:120-128 clip. *)
Definition vec_clip (n_elems : N) (v : vec) : res vec :=
  if n_elems <? v_n v then
    let* p := pointer (v_v v) n_elems in
    Ok (mkvec (v_v v) p n_elems (v_alloced v) (v_hint v) (v_mem v))
  else Ok v.

(** vector.h:141-147 value. *)
Definition vec_value (i : N) (v : vec) : res N :=
  if i <? v_n v then
    match nth_error (v_v v) (N.to_nat i) with Some (Some a) => Ok a | _ => UB end
  else Abort.

(** Writing through what vector.h:148-153 ptr returns: vsnprintf, memset,
    mtbl_varint_encode32 or wdns_reverse_name put [l] there. *)
Definition vec_write (l : list N) (v : vec) : res vec :=
  match v_p v with
  | None => UB
  | Some p => let* c := blit (v_v v) p l in Ok (mkvec c (v_p v) (v_n v) (v_alloced v) (v_hint v) (v_mem v))
  end.
(** Storing an element through vector.h:154-159 data (increment_key, query.c:622-633). *)
Definition vec_set (i a : N) (v : vec) : res vec :=
  if i <? v_n v then let* c := blit (v_v v) i [a] in Ok (mkvec c (v_p v) (v_n v) (v_alloced v) (v_hint v) (v_mem v)) else UB.
(** Reading the elements of the array vector.h:154-159 data returns. *)
Fixpoint all_written (c : cells) : res (list N) :=
  match c with
  | [] => Ok []
  | Some a :: r => let* l := all_written r in Ok (a :: l)
  | None :: _ => UB
  end.
Definition read_array (c : cells) (n : N) : res (list N) :=
  if n <=? csize c then all_written (firstn (N.to_nat n) c) else UB.

(** vector.h:160-167 advance. *)
Definition vec_advance (x : N) (v : vec) : res vec :=
  if x <=? sub64 (v_alloced v) (v_n v) then
    let n := add64 (v_n v) x in
    let* p := pointer (v_v v) n in
    Ok (mkvec (v_v v) p n (v_alloced v) (v_hint v) (v_mem v))
  else Abort.

(** ubuf.h: the test of 51, 72 and 101 for a last byte, and removing it. *)
Definition ends_with (a : N) (v : vec) : res bool :=
  if 0 <? v_n v then let* x := vec_value (v_n v - 1) v in Ok (x =? a) else Ok false.
Definition drop_last (a : N) (v : vec) : res vec :=
  let* b := ends_with a v in
  if (b : bool) then vec_clip (v_n v - 1) v else Ok v.

(** ubuf.h:48-54 ubuf_add_cstr; [s] without its NUL. *)
Definition ubuf_add_cstr (s : list N) (v : vec) : res vec :=
  let* v := drop_last 0 v in vec_append 1 s v.
(** ubuf.h:56-64 ubuf_cterm. *)
Definition ubuf_cterm (v : vec) : res vec :=
  let* b := ends_with 0 v in
  if (b : bool) then Ok v else vec_append 1 [0] v.
(** ubuf.h:73-96 ubuf_add_fmt; [s] is the formatted text, whose length vsnprintf gives as
    an int, -1 if it is none. *)
Definition int_max : N := 2147483647.
Definition ubuf_add_fmt (s : list N) (v : vec) : res vec :=
  let* v := drop_last 0 v in
  let needed := N.of_nat (length s) in
  if int_max <? needed then Abort else
  let* v := vec_reserve 1 (add64 (add64 (v_n v) needed) 1) v in
  if needed =? int_max then UB (* needed + 1 *) else
  let* v := vec_write (s ++ [0]) v in
  vec_advance needed v.
(** ubuf.h:98-107 ubuf_rstrip. *)
Definition ubuf_rstrip (a : N) (v : vec) : res vec := drop_last a v.

(** A program's calls; the last four are for vectors of bytes only. *)
Inductive vcall : Type :=
| VAdd (a : N) | VAppend (l : list N) | VReserve (k : N) | VWrite (l : list N) | VAdvance (k : N)
| VSet (i a : N) | VClip (k : N) | VReset | VDetach | VValue (i : N) | VSize | VRead
| VAddCstr (s : list N) | VCterm | VAddFmt (s : list N) | VRstrip (a : N).
Inductive vanswer : Type := ANone | ANumber (a : N) | AElements (l : list N).

Definition vec_do (sz : N) (c : vcall) (v : vec) : res (vanswer * vec) :=
  let quiet r := let* v' := r in Ok (ANone, v') in
  match c with
  | VAdd a => quiet (vec_add sz a v)
  | VAppend l => quiet (vec_append sz l v)
  | VReserve k => quiet (vec_reserve sz k v)
  | VWrite l => quiet (vec_write l v)
  | VAdvance k => quiet (vec_advance k v)
  | VSet i a => quiet (vec_set i a v)
  | VClip k => quiet (vec_clip k v)
  | VReset => quiet (vec_reset sz v)
  | VDetach => let* (c, n, v') := vec_detach sz v in let* l := read_array c n in Ok (AElements l, v')
  | VValue i => let* a := vec_value i v in Ok (ANumber a, v)
  | VSize => Ok (ANumber (v_n v), v)
  | VRead => let* l := read_array (v_v v) (v_n v) in Ok (AElements l, v)
  | VAddCstr s => quiet (ubuf_add_cstr s v)
  | VCterm => quiet (ubuf_cterm v)
  | VAddFmt s => quiet (ubuf_add_fmt s v)
  | VRstrip a => quiet (ubuf_rstrip a v)
  end.
Fixpoint vec_run (sz : N) (cs : list vcall) (v : vec) : res (list vanswer) :=
  match cs with
  | [] => Ok []
  | c :: r => let* (a, v') := vec_do sz c v in let* l := vec_run sz r v' in Ok (a :: l)
  end.
(** All calls on a new vector. *)
Definition vec_program (sz : N) (m : memory) (hint : N) (cs : list vcall) : res (list vanswer) :=
  let* v := vec_init sz m hint in vec_run sz cs v.

(** The places in dnstable/query.c that write through ubuf_ptr or ubuf_data, as the calls
    they make; [size] is the number of bytes in the buffer before.
    query.c:614-620 add_rrtype_to_key. *)
Definition calls_add_rrtype (size rrtype : N) : list vcall :=
  [VReserve (size + varint_length rrtype); VWrite (varint_encode32 rrtype); VAdvance (N.of_nat (length (varint_encode32 rrtype)))].
(** query.c:717-721 filter_single_label, before the last byte is incremented. *)
Definition calls_next_label (key : bytes) (next_len : nat) : list vcall :=
  [VClip 0; VReserve (N.of_nat next_len); VAppend (firstn next_len key)].
(** query.c:1115-1131 filter_rrtype_ip, for a key that is too short for an address. *)
Definition calls_short_key (key : bytes) (key_prefix_len : nat) (rrtype : N) : list vcall :=
  [VClip 0; VReserve (N.of_nat key_prefix_len); VAppend key;
   VWrite (repeat 0 (key_prefix_len - length key)); VAdvance (N.of_nat (key_prefix_len - length key))]
  ++ calls_add_rrtype (N.of_nat key_prefix_len) rrtype.
(** query.c:1280-1287 filter_rrtype_ip, for a label that is longer than the key. *)
Definition calls_long_label (key : bytes) (size : nat) (llen : N) : list vcall :=
  let extra := (N.to_nat llen + 1 + size - length key)%nat in
  [VReserve (llen + 1); VAppend (skipn size key); VWrite (repeat 0 extra); VAdvance (N.of_nat extra)].
(** query.c:1362-1371 query_iter_next_name_indirect: the reversed name is written behind the
    type byte. *)
Definition calls_index_key (type_byte : N) (len_key : N) (reversed : bytes) : list vcall :=
  [VClip 0; VReserve (len_key + 12); VAdd type_byte; VWrite reversed; VAdvance (len_key - 1)].

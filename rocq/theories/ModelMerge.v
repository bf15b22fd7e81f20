(** Model of dnstable/merge.c:182-272 dnstable_merge_func.  Definitions only. *)
From Verif Require Import Base ModelVarint ModelUnion.

(** An [assert(res == dnstable_res_success)] on the result of an unpack. *)
Definition assert_ok {A} (r : res A) : res A :=
  match r with Fail => Abort | _ => r end.

(** merge.c:192-208: RRset and RData values. *)
Definition merge_triplets (v0 v1 : bytes) : res bytes :=
  match v0, v1 with
  | [], _ => Abort
  | _, [] => Abort
  | _, _ =>
      let* t0 := assert_ok (triplet_unpack v0) in
      let* t1 := assert_ok (triplet_unpack v1) in
      let '(tf0, tl0, c0) := t0 in
      let '(tf1, tl1, c1) := t1 in
      let tf := if tf0 <? tf1 then tf0 else tf1 in
      let tl := if tl1 <? tl0 then tl0 else tl1 in
      let c := (c0 + c1) mod u64 in
      Ok (triplet_pack tf tl c)
  end.

(** merge.c:212-228: time ranges. *)
Definition merge_time_range (v0 v1 : bytes) : res bytes :=
  match v0, v1 with
  | [], _ => Ok []
  | _, [] => Ok []
  | _, _ =>
      let* p0 := assert_ok (pair_unpack v0) in
      let* p1 := assert_ok (pair_unpack v1) in
      let '(tf0, tl0) := p0 in
      let '(tf1, tl1) := p1 in
      Ok (pair_pack (if tf0 <? tf1 then tf0 else tf1) (if tl1 <? tl0 then tl0 else tl1))
  end.

(** [len = mtbl_varint_decode32(v, &vers); assert(len == len_v)]. *)
Definition decode_vers (v : bytes) : res N :=
  let* r := varint_decode32 v in
  if Nat.eqb (fst r) (length v) then Ok (snd r) else Abort.

(** merge.c:229-267: versions; [vt] is key[1]. *)
Definition merge_version (vt : N) (v0 v1 : bytes) : res bytes :=
  match v0, v1 with
  | [], _ => Ok []
  | _, [] => Ok []
  | _, _ =>
      if (vt =? ENTRY_TYPE_RRSET) || (vt =? ENTRY_TYPE_RRSET_NAME_FWD)
         || (vt =? ENTRY_TYPE_RDATA) || (vt =? ENTRY_TYPE_RDATA_NAME_REV)
      then
        let* x0 := decode_vers v0 in
        let* x1 := decode_vers v1 in
        (* the buffer has varint_length bytes and the encoder fills exactly them;
           lemma varint_length_encode32 shows the two agree *)
        Ok (varint_encode32 (if x0 <? x1 then x0 else x1))
      else Ok []
  end.

(** merge.c:182-272 dnstable_merge_func. *)
Definition merge_func (key v0 v1 : bytes) : res bytes :=
  match key with
  | [] => Ok []
  | k0 :: krest =>
      if (k0 =? ENTRY_TYPE_RRSET) || (k0 =? ENTRY_TYPE_RDATA) then merge_triplets v0 v1
      else if (k0 =? ENTRY_TYPE_RRSET_NAME_FWD) || (k0 =? ENTRY_TYPE_RDATA_NAME_REV)
      then merge_rrtype_bitmaps v0 v1
      else match krest with
           | [] => if k0 =? ENTRY_TYPE_TIME_RANGE then merge_time_range v0 v1 else Ok []
           | [vt] => if k0 =? ENTRY_TYPE_VERSION then merge_version vt v0 v1 else Ok []
           | _ => Ok []
           end
  end.

(** All ways of merging the values of one key pairwise: mtbl mergers, filesets
    and successive dnstable_merge runs combine values in some binary tree. *)
Inductive mtree : Type :=
| MLeaf (v : bytes)
| MNode (l r : mtree).

Fixpoint mleaves (t : mtree) : list bytes :=
  match t with
  | MLeaf v => [v]
  | MNode l r => mleaves l ++ mleaves r
  end.

Fixpoint meval (key : bytes) (t : mtree) : res bytes :=
  match t with
  | MLeaf v => Ok v
  | MNode l r =>
      let* a := meval key l in
      let* b := meval key r in
      merge_func key a b
  end.

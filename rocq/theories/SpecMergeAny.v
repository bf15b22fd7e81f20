(** What merging makes of arbitrary bytes.  Definitions only. *)
From Coq Require Import Sorting.Sorted.
From Verif Require Import Base SpecMerge SpecUnion SpecDecode.

(** ** Values made of numbers: neither [numbers] nor [short] (SpecDecode.v) *)

(** After fewer than [n] numbers one of more than ten bytes, or bytes behind the last. *)
Inductive broken : nat -> bytes -> Prop :=
| broken_rest : forall l, l <> [] -> broken 0 l
| broken_long : forall n l, overlong 10 l -> broken (S n) l
| broken_later : forall n enc l, finished 10 enc -> broken n l -> broken (S n) (enc ++ l).

(** The same for the one number of a version. *)
Inductive broken_version : bytes -> Prop :=
| bv_rest : forall enc l, finished 5 enc -> l <> [] -> broken_version (enc ++ l)
| bv_long : forall l, overlong 5 l -> broken_version l.

(** ** Index values *)

Definition increasing (ws : list window) : Prop :=
  Forall (fun wb : window => snd wb <> []) ws /\ StronglySorted N.lt (map fst ws).

(** Bitmaps of at most 32 octets, as everywhere in the DNS. *)
Definition octets_ok (m : bytes) : Prop :=
  forall ws, m = encode_windows ws -> Forall (fun wb : window => (length (snd wb) <= 32)%nat) ws.

(** The types a value is read as. *)
Inductive read_as : bytes -> (N -> Prop) -> Prop :=
| read_one : forall b, read_as [b] (fun t => t = b)
| read_two : forall lo hi, read_as [lo; hi] (fun t => t = lo + 256 * hi)
| read_map : forall ws, ws <> [] -> increasing ws -> (exists t, t < 65536 /\ ~ windows_mem ws t) ->
    read_as (encode_windows ws) (windows_mem ws).

Inductive corrupt : bytes -> Prop :=
| corrupt_shape : forall m, (3 <= length m)%nat -> (forall ws, increasing ws -> m <> encode_windows ws) -> corrupt m
| corrupt_full : forall ws, increasing ws -> (forall t, t < 65536 -> windows_mem ws t) -> corrupt (encode_windows ws).

(** ** Results *)

Inductive merge_result :=
| Value (v : bytes)     (* this value *)
| NoValue               (* NULL *)
| Assertion             (* the process is aborted *)
| Outside.              (* bytes behind a value are read *)

Definition obs_type (k : N) : Prop := k = ENTRY_TYPE_RRSET \/ k = ENTRY_TYPE_RDATA.
Definition name_type (k : N) : Prop := k = ENTRY_TYPE_RRSET_NAME_FWD \/ k = ENTRY_TYPE_RDATA_NAME_REV.
Definition three (v : bytes) : Prop := exists f l c, numbers [f; l; c] v.
Definition two (v : bytes) : Prop := exists f l, numbers [f; l] v.

Inductive merges_to : bytes -> bytes -> bytes -> merge_result -> Prop :=
  (* observations *)
| m_obs : forall k rest v0 v1 f0 l0 c0 f1 l1 c1 v, obs_type k -> numbers [f0; l0; c0] v0 -> numbers [f1; l1; c1] v1 ->
    obs_value {| o_first := N.min f0 f1; o_last := N.max l0 l1; o_count := (c0 + c1) mod u64 |} v ->
    merges_to (k :: rest) v0 v1 (Value v)
| m_obs_empty : forall k rest v0 v1, obs_type k -> v0 = [] \/ v1 = [] -> merges_to (k :: rest) v0 v1 Assertion
| m_obs_broken : forall k rest v0 v1, obs_type k -> v0 <> [] -> v1 <> [] -> broken 3 v0 \/ (three v0 /\ broken 3 v1) ->
    merges_to (k :: rest) v0 v1 Assertion
| m_obs_short : forall k rest v0 v1, obs_type k -> v0 <> [] -> v1 <> [] -> short 3 v0 \/ (three v0 /\ short 3 v1) ->
    merges_to (k :: rest) v0 v1 Outside
  (* index values *)
| m_idx_empty : forall k rest v0 v1, name_type k -> v0 = [] \/ v1 = [] -> merges_to (k :: rest) v0 v1 (Value [])
| m_idx_same : forall k rest v, name_type k -> merges_to (k :: rest) v v (Value v)
| m_idx_union : forall k rest v0 v1 P0 P1 ws, name_type k -> v0 <> v1 -> read_as v0 P0 -> read_as v1 P1 ->
    windows_ok ws -> (forall t, windows_mem ws t <-> P0 t \/ P1 t) ->
    merges_to (k :: rest) v0 v1 (if blen (encode_windows ws) <? 1024 then Value (encode_windows ws) else Assertion)
| m_idx_corrupt : forall k rest v0 v1, name_type k -> v0 <> [] -> v1 <> [] -> v0 <> v1 -> corrupt v0 \/ corrupt v1 ->
    merges_to (k :: rest) v0 v1 NoValue
  (* time ranges *)
| m_range : forall v0 v1 f0 l0 f1 l1 v, numbers [f0; l0] v0 -> numbers [f1; l1] v1 -> pair_value (N.min f0 f1, N.max l0 l1) v ->
    merges_to [ENTRY_TYPE_TIME_RANGE] v0 v1 (Value v)
| m_range_empty : forall v0 v1, v0 = [] \/ v1 = [] -> merges_to [ENTRY_TYPE_TIME_RANGE] v0 v1 (Value [])
| m_range_broken : forall v0 v1, v0 <> [] -> v1 <> [] -> broken 2 v0 \/ (two v0 /\ broken 2 v1) ->
    merges_to [ENTRY_TYPE_TIME_RANGE] v0 v1 Assertion
| m_range_short : forall v0 v1, v0 <> [] -> v1 <> [] -> short 2 v0 \/ (two v0 /\ short 2 v1) ->
    merges_to [ENTRY_TYPE_TIME_RANGE] v0 v1 Outside
  (* versions *)
| m_version : forall vt v0 v1 v, In vt [0; 1; 2; 3] -> finished 5 v0 -> finished 5 v1 ->
    leb128 (N.min (base128 v0 mod u32) (base128 v1 mod u32)) v -> merges_to [ENTRY_TYPE_VERSION; vt] v0 v1 (Value v)
| m_version_empty : forall vt v0 v1, v0 = [] \/ v1 = [] -> merges_to [ENTRY_TYPE_VERSION; vt] v0 v1 (Value [])
| m_version_broken : forall vt v0 v1, In vt [0; 1; 2; 3] -> v0 <> [] -> v1 <> [] ->
    broken_version v0 \/ (finished 5 v0 /\ broken_version v1) -> merges_to [ENTRY_TYPE_VERSION; vt] v0 v1 Assertion
| m_version_cut : forall vt v0 v1, In vt [0; 1; 2; 3] -> v0 <> [] -> v1 <> [] ->
    cut 5 v0 \/ (finished 5 v0 /\ cut 5 v1) -> merges_to [ENTRY_TYPE_VERSION; vt] v0 v1 Outside
  (* everything else *)
| m_other : forall key v0 v1, (forall k rest, key = k :: rest -> ~ In k [0; 1; 2; 3]) ->
    key <> [ENTRY_TYPE_TIME_RANGE] -> (forall vt, key = [ENTRY_TYPE_VERSION; vt] -> ~ In vt [0; 1; 2; 3]) ->
    merges_to key v0 v1 (Value []).

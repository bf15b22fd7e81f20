(** What a growable array is to its user: a list of elements, and behind it room for more
    that was reserved and may be written to.  Definitions only.  The names of the calls
    and the allocator are those of ModelVector.v. *)
From Verif Require Import Str ModelVector.

(** The elements, how many more may be written at the end, and what was written there. *)
Record buffer := mkbuffer { elements : list N; room : N; written : list N }.
Definition empty : buffer := mkbuffer [] 0 [].
Definition holds (l : list N) (r : N) : buffer := mkbuffer l r [].
Definition count (l : list N) : N := N.of_nat (length l).

Definition last_is (a : N) (l : list N) : Prop := exists r, l = r ++ [a].
(** [l] without one [a] at its end. *)
Definition chopped (a : N) (l l' : list N) : Prop := (l = l' ++ [a]) \/ (~ last_is a l /\ l' = l).

(** What a call does.  A call that is not possible breaks the rules: writing more than was
    reserved, advancing over what was not written, asking for or setting an element that is
    not there, or formatting text that is longer than an int can tell. *)
Inductive effect : vcall -> buffer -> vanswer -> buffer -> Prop :=
| ef_add : forall a l r w, effect (VAdd a) (mkbuffer l r w) ANone (holds (l ++ [a]) (r - 1))
| ef_append : forall s l r w, effect (VAppend s) (mkbuffer l r w) ANone (holds (l ++ s) (r - count s))
| ef_reserve : forall k l r w, effect (VReserve k) (mkbuffer l r w) ANone (mkbuffer l (N.max r k) w)
| ef_write : forall s l r w, count s <= r -> effect (VWrite s) (mkbuffer l r w) ANone (mkbuffer l r s)
| ef_advance : forall l r w1 w2, effect (VAdvance (count w1)) (mkbuffer l r (w1 ++ w2)) ANone (mkbuffer (l ++ w1) (r - count w1) w2)
| ef_set : forall a l1 x l2 r w, effect (VSet (count l1) a) (mkbuffer (l1 ++ x :: l2) r w) ANone (mkbuffer (l1 ++ a :: l2) r w)
| ef_clip : forall k l1 l2 r w, count l1 = k -> effect (VClip k) (mkbuffer (l1 ++ l2) r w) ANone (holds l1 r)
| ef_no_clip : forall k l r w, count l <= k -> effect (VClip k) (mkbuffer l r w) ANone (holds l r)
| ef_reset : forall b, effect VReset b ANone empty
| ef_detach : forall b, effect VDetach b (AElements (elements b)) empty
| ef_value : forall l1 a l2 r w, effect (VValue (count l1)) (mkbuffer (l1 ++ a :: l2) r w) (ANumber a) (mkbuffer (l1 ++ a :: l2) r w)
| ef_size : forall b, effect VSize b (ANumber (count (elements b))) b
| ef_read : forall b, effect VRead b (AElements (elements b)) b
| ef_add_cstr : forall s l l' r w, chopped 0 l l' -> effect (VAddCstr s) (mkbuffer l r w) ANone (holds (l' ++ s) 0)
| ef_cterm : forall l r w, effect VCterm (mkbuffer (l ++ [0]) r w) ANone (mkbuffer (l ++ [0]) r w)
| ef_cterm_add : forall l r w, ~ last_is 0 l -> effect VCterm (mkbuffer l r w) ANone (holds (l ++ [0]) 0)
| ef_add_fmt : forall s l l' r w, count s < 2147483647 -> chopped 0 l l' -> effect (VAddFmt s) (mkbuffer l r w) ANone (holds (l' ++ s) 0)
| ef_rstrip : forall a l l' r w, chopped a l l' -> effect (VRstrip a) (mkbuffer l r w) ANone (holds l' r).

(** The calls of ubuf.h are for bytes. *)
Definition for_bytes (c : vcall) : Prop :=
  match c with VAddCstr _ | VCterm | VAddFmt _ | VRstrip _ => True | _ => False end.

Inductive effects : list vcall -> buffer -> list vanswer -> buffer -> Prop :=
| es_none : forall b, effects [] b [] b
| es_call : forall c b a b1 cs l b2, effect c b a b1 -> effects cs b1 l b2 -> effects (c :: cs) b (a :: l) b2.

(** The number of elements a call needs space for. *)
Definition demand (c : vcall) (b : buffer) : N :=
  match c with
  | VAdd _ => count (elements b) + 1
  | VAppend l | VAddCstr l => count (elements b) + count l
  | VReserve k => count (elements b) + k
  | VCterm => count (elements b) + 1
  | VAddFmt s => 2 * count (elements b) + count s + 1
  | _ => 0
  end.
Fixpoint demands (d : N) (cs : list vcall) (b : buffer) : Prop :=
  match cs with
  | [] => True
  | c :: r => demand c b <= d /\ forall a b', effect c b a b' -> demands d r b'
  end.
(** The allocator grants every request for at most [k] bytes. *)
Definition grants (k : N) (m : memory) : Prop := forall t b, b <= k -> m t b = true.

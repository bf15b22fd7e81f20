(** Model of the libwdns functions dnstable calls on wire-format names
    (external library, modelled from its documented behaviour).  Definitions only. *)
From Verif Require Import Base.

(** Longest wire-format name (WDNS_MAXLEN_NAME) and label. *)
Definition WDNS_MAXLEN_NAME : N := 255.
Definition WDNS_MAXLEN_LABEL : N := 63.

(** wdns_len_uname(p, eop, &len) on the bytes [l] between p and eop: length of
    the uncompressed name at p, including the root label.  Errors ([Fail]): no
    terminating root label before eop, a label octet above 63, a total length
    above 255.  Never reads at or past eop.  [acc] is the length so far. *)
Fixpoint len_uname_loop (fuel : nat) (acc : N) (l : bytes) : res nat :=
  match fuel with
  | O => Fail
  | S f =>
      match l with
      | [] => Fail
      | c :: rest =>
          if c =? 0 then
            (if acc + 1 <=? WDNS_MAXLEN_NAME then Ok (N.to_nat (acc + 1)) else Fail)
          else if WDNS_MAXLEN_LABEL <? c then Fail
          else if WDNS_MAXLEN_NAME <? acc + 1 + c then Fail
          else len_uname_loop f (acc + 1 + c) (skipn (N.to_nat c) rest)
      end
  end.
Definition wdns_len_uname (l : bytes) : res nat := len_uname_loop (S (length l)) 0 l.

(** wdns_reverse_name(name, len_name, rev_name).  [mem] is the memory from
    [name] on (reading past it is [UB]); [len] is len_name.  The C loop writes
    labels backwards from the end of rev_name, whose last byte is set to 0
    first (out of bounds for [len = 0]).  [total] counts label bytes so far;
    more than [len] is the error return; exactly [len] would write one byte
    before rev_name.  A root label found before [len - 1] label bytes leaves the
    first bytes of rev_name indeterminate, treated as [UB] here. *)
Fixpoint reverse_name_loop (fuel : nat) (mem : bytes) (total len : N) (acc : bytes) : res bytes :=
  match fuel with
  | O => Hang
  | S f =>
      match mem with
      | [] => UB
      | c :: rest =>
          if c =? 0 then (if total + 1 =? len then Ok acc else UB)
          else if len <? total + (c + 1) then Fail
          else if total + (c + 1) =? len then UB
          else if blen rest <? c then UB
          else reverse_name_loop f (skipn (N.to_nat c) rest) (total + (c + 1)) len
                 ((c :: firstn (N.to_nat c) rest) ++ acc)
      end
  end.
Definition wdns_reverse_name (mem : bytes) (len : N) : res bytes :=
  if len =? 0 then UB
  else reverse_name_loop (S (length mem)) mem 0 len [0].

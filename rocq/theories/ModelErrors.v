(** Model of the error strings of queries: dnstable/query.c:65, 123-128 and the calls of
    query_set_err in the setters; 189-195 dnstable_query_get_error.  Definitions only. *)
From Verif Require Import Str ModelNames ModelQuery ModelSetters.

(** query.c:65 the member err; [None] is NULL. *)
Definition err := option bytes.

(** query.c:123-128. *)
Definition query_set_err (m : bytes) (e : err) : err := Some m.

(** query.c:130-144 query_load_name. *)
Definition err_load_name (ev : env) (s : option bytes) (e : err) : err :=
  match s with
  | None => e
  | Some s => match str_to_name ev s with None => query_set_err (str "wdns_str_to_name() failed") e | Some _ => e end
  end.

(** query.c:146-159 query_load_address. *)
Definition err_load_address (ev : env) (s : bytes) (e : err) : err :=
  match pton4 ev s with
  | Some _ => e
  | None => match pton6 ev s with Some _ => e | None => query_set_err (str "inet_pton() failed") e end
  end.

(** query.c:204-225; a failing wdns_reverse_name sets no message. *)
Definition err_bailiwick (ev : env) (s : option bytes) (q : query) (e : err) : err :=
  match q_type q with
  | QRrset => err_load_name ev s e
  | _ => query_set_err (str "bailiwick filtering not supported") e
  end.

(** query.c:248-275. *)
Definition err_ip_range (ev : env) (s : bytes) (e : err) : err :=
  match strtok_all 45 s with
  | [a1; a2] =>
      let '(ok1, len1, _) := query_load_address ev a1 (repeat 0 16) in
      let e1 := err_load_address ev a1 e in
      if ok1 then
        let '(ok2, len2, _) := query_load_address ev a2 (repeat 0 16) in
        let e2 := err_load_address ev a2 e1 in
        if ok2 then
          if len1 =? len2 then e2 else query_set_err (str "address family mismatch in IP range") e2
        else e2
      else e1
  | _ => e
  end.

(** query.c:278-332: after whatever query_load_address has set. *)
Definition err_ip_prefix (ev : env) (s : bytes) (q : query) (e : err) : err :=
  let e1 := match strtok_all 47 s with [a; _] => err_load_address ev a e | _ => e end in
  match set_data_ip_prefix ev s q with
  | Ok (false, _) => query_set_err (str "unable to parse IP prefix") e1
  | _ => e1
  end.

(** query.c:348-365. *)
Definition err_rdata_ip (ev : env) (s : option bytes) (q : query) (e : err) : err :=
  match s with
  | None => e
  | Some s =>
      if has_char 45 s then err_ip_range ev s e
      else if has_char 47 s then err_ip_prefix ev s q e
      else err_load_address ev s e
  end.

(** query.c:392-409; raw data, version types and time range queries set no message. *)
Definition err_data (ev : env) (s : option bytes) (q : query) (e : err) : err :=
  match q_type q with
  | QRrset | QRdataName => err_load_name ev s e
  | QRdataIp => err_rdata_ip ev s q e
  | _ => e
  end.

(** query.c:411-436. *)
Definition err_rrtype (ev : env) (s : option bytes) (e : err) : err :=
  match s with
  | None => e
  | Some s =>
      if strcaseeq s (str "ANY") || strcaseeq s (str "TYPE255") || strcaseeq s (str "ANY-DNSSEC") then e
      else if str_to_rrtype ev s mod u16 =? 0 then query_set_err (str "unknown rrtype mnemonic") e else e
  end.

Definition err_setting (ev : env) (c : setting) (q : query) (e : err) : err :=
  match c with
  | SetData s => err_data ev s q e
  | SetRrtype s => err_rrtype ev s e
  | SetBailiwick s => err_bailiwick ev s q e
  | _ => e
  end.

(** query.c:189-195: the string returned, and the member afterwards. *)
Definition query_get_error (e : err) : bytes * err :=
  match e with
  | None => (str "unknown error", Some (str "unknown error"))
  | Some m => (m, e)
  end.

(** ** Histories with questions for the error string *)

Inductive ecall := Set_ (c : setting) | GetError.
Inductive eanswer := Answer (b : bool) | Text (m : bytes).

Definition make_call (ev : env) (c : ecall) (q : query) (e : err) : res (eanswer * query * err) :=
  match c with
  | Set_ c => let* x := apply_setting ev c q in Ok (Answer (fst x), snd x, err_setting ev c q e)
  | GetError => let (m, e') := query_get_error e in Ok (Text m, q, e')
  end.

(** my_calloc at query.c:171: a new query has no error string. *)
Fixpoint make_calls (ev : env) (cs : list ecall) (q : query) (e : err) : res (list eanswer) :=
  match cs with
  | [] => Ok []
  | c :: r =>
      let* x := make_call ev c q e in
      let '(a, q', e') := x in
      let* l := make_calls ev r q' e' in
      Ok (a :: l)
  end.

(** Why a call that sets a query parameter fails, and the message that says so.
    Definitions only. *)
From Verif Require Import Str SpecName ModelQuery ModelSetters ModelErrors SpecSettings.

Definition not_address (ev : env) (s : bytes) : Prop := pton4 ev s = None /\ pton6 ev s = None.

(** The maximal runs of bytes other than [d]. *)
Inductive pieces (d : N) : bytes -> list bytes -> Prop :=
| pc_nil : pieces d [] []
| pc_sep : forall s l, pieces d s l -> pieces d (d :: s) l
| pc_last : forall w, w <> [] -> no_char d w -> pieces d w [w]
| pc_word : forall w s l, w <> [] -> no_char d w -> pieces d s l -> pieces d (w ++ d :: s) (w :: l).

(** The message a failing call leaves; [t] is the type of the query. *)
Inductive message (ev : env) (t : qtype) : setting -> bytes -> Prop :=
| msg_name : forall s, t = QRrset \/ t = QRdataName -> str_to_name ev s = None ->
    message ev t (SetData (Some s)) (str "wdns_str_to_name() failed")
| msg_bailiwick : forall s, t = QRrset -> str_to_name ev s = None ->
    message ev t (SetBailiwick (Some s)) (str "wdns_str_to_name() failed")
| msg_no_bailiwick : forall s, t <> QRrset ->
    message ev t (SetBailiwick s) (str "bailiwick filtering not supported")
| msg_rrtype : forall s, any_type s = false -> str_to_rrtype ev s = 0 ->
    message ev t (SetRrtype (Some s)) (str "unknown rrtype mnemonic")
| msg_address : forall s, t = QRdataIp -> no_char dash s -> no_char slash s -> not_address ev s ->
    message ev t (SetData (Some s)) (str "inet_pton() failed")
| msg_range : forall s a b, t = QRdataIp -> In dash s -> pieces dash s [a; b] -> not_address ev a \/ not_address ev b ->
    message ev t (SetData (Some s)) (str "inet_pton() failed")
| msg_families : forall s a b x y n m, t = QRdataIp -> In dash s -> pieces dash s [a; b] -> address ev a n x -> address ev b m y -> n <> m ->
    message ev t (SetData (Some s)) (str "address family mismatch in IP range")
| msg_prefix : forall s, t = QRdataIp -> no_char dash s -> In slash s ->
    message ev t (SetData (Some s)) (str "unable to parse IP prefix").

(** The failures for which there is no message. *)
Inductive unexplained (t : qtype) : setting -> Prop :=
| un_raw : forall s, t = QRdataRaw -> unexplained t (SetData (Some s))
| un_version : forall s, t = QVersion -> unexplained t (SetData (Some s))
| un_metadata : forall s, t = QTimeRange \/ t = QSourceInfo -> unexplained t (SetData s)
| un_range : forall s l, t = QRdataIp -> In dash s -> pieces dash s l -> length l <> 2%nat -> unexplained t (SetData (Some s))
| un_bound : forall p v len, unexplained t (SetFilterParameter p v len).

(** The calls so far and their answers, and the message that was left last. *)
Inductive last_message (ev : env) (t : qtype) : list (ecall * eanswer) -> option bytes -> Prop :=
| last_none : last_message ev t [] None
| last_new : forall h o c m, last_message ev t h o -> message ev t c m -> last_message ev t (h ++ [(Set_ c, Answer false)]) (Some m)
| last_old : forall h o c b, last_message ev t h o -> b = true \/ unexplained t c -> last_message ev t (h ++ [(Set_ c, Answer b)]) o
| last_asked : forall h o m, last_message ev t h o -> last_message ev t (h ++ [(GetError, Text m)]) o.

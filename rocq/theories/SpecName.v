(** DNS names as label lists and their wire forms (RFC 1035 3.1;
    dnstable-encoding(5) "Wire-format DNS domain names", "Label-reversed ..."). *)
From Verif Require Import Base.

Definition label_ok (l : bytes) : Prop := (1 <= length l <= 63)%nat /\ bytes_ok l.

Definition enc_labels (ls : list bytes) : bytes := flat_map (fun l => blen l :: l) ls.

(** Wire form: length-prefixed labels, then the root label. *)
Definition wire (ls : list bytes) : bytes := enc_labels ls ++ [0].

(** Label-reversed wire form. *)
Definition rwire (ls : list bytes) : bytes := wire (rev ls).

Definition name_ok (ls : list bytes) : Prop :=
  Forall label_ok ls /\ (length (wire ls) <= 255)%nat.

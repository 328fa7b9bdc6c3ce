(** Specification vocabulary for messages beyond 64 KiB (C118). *)
From Verif Require Import Base NameModel RDataModel SpecName SpecMsg.

(** Octets a field takes at most on the wire: what it takes without compression, and one more for a name, of which a compression pointer can
    take two octets where the root takes one. *)
Definition field_room (v : fval) : nat := field_size v + match v with VName _ => 1 | _ => 0 end.
(** The data of the record has a length that RDLENGTH can hold. *)
Definition data_fits (x : rr) : Prop :=
  match rr_data x with None => True | Some rd => (N.of_nat (list_sum (map field_room (rd_fields rd))) <= 65535)%N end.
(** Octets a field takes at least on the wire: a compressed name may take a single octet (the root). *)
Definition field_least (v : fval) : nat := match v with VName _ => 1 | _ => field_size v end.
(** The data of the record is longer than RDLENGTH can say, whatever becomes of its names. *)
Definition data_over (x : rr) : Prop :=
  match rr_data x with None => False | Some rd => (65535 < N.of_nat (list_sum (map field_least (rd_fields rd))))%N end.
(** The field is not a name. *)
Definition no_name (v : fval) : Prop := match v with VName _ => False | _ => True end.

(** Specification: what a message on the wire says, octet by octet, and how its records are collected into rrsets. *)
From Verif Require Import Base NameModel CodesModel RDataModel MsgModel SpecName SpecBuf SpecCodes SpecMsg.

(** [x] stands for the number [v]: by its assigned number, or, if [v] is not assigned, it is [other]. *)
Definition stands_for {A} (number : A -> N) (assigned : list N) (other : A) (v : N) (x : A) : Prop :=
  (In v assigned /\ number x = v /\ x <> other) \/ (~ In v assigned /\ x = other).
(** [h] is what the first twelve octets say (RFC 1035 4.1.1); the Z bit is not kept. *)
Definition header_at (w : list N) (h : header) : Prop :=
  12 <= length w /\ header_ok h /\ h_id h = u16_at w 0 /\
  (forall fl, header_is_set h fl = N.testbit (u16_at w 2) (flag_bit fl)) /\
  stands_for opcode_u8 (map snd iana_opcodes) OReserved (opcode_field (u16_at w 2)) (h_opcode h) /\
  stands_for rcode_u8 (map snd iana_rcodes) RReserved (rcode_field (u16_at w 2)) (h_rcode h) /\
  h_qd h = u16_at w 4 /\ h_an h = u16_at w 6 /\ h_ns h = u16_at w 8 /\ h_ar h = u16_at w 10.
(** All records of a run have one type and, up to letter case, one owner. *)
Definition one_kind (run : list rr) : Prop := forall x y, In x run -> In y run -> rr_type x = rr_type y /\ same_owner (rr_owner x) (rr_owner y).
(** [s] is the list of records [xs] cut into the longest possible runs of one kind, each collected into an rrset; [None] if there are none. *)
Definition grouped (xs : list rr) (s : section) : Prop :=
  (s = None <-> xs = []) /\ s <> Some [] /\
  exists runs, List.concat runs = xs /\ Forall one_kind runs /\ Forall2 run_of runs (sets s) /\ runs_differ (sets s).

(** Specification vocabulary for the effectiveness of name compression (C100). *)
From Verif Require Import Base NameModel RenderModel SpecName SpecBuf.

(** The non-empty name [s] stands in the message: some earlier successful [write_name] wrote a name ending in [s]. *)
Definition written (h : list event) (s : list label) : Prop := s <> [] /\
  exists e c pre, In e h /\ ev_ok e = true /\ ev_op e = MName (pre ++ s) c.
(** ... and did so within the first 16384 octets, the part of a message a compression pointer can address. *)
Definition written_low (h : list event) (s : list label) : Prop := s <> [] /\
  exists e c pre, In e h /\ ev_ok e = true /\ ev_op e = MName (pre ++ s) c /\ (N.of_nat (ev_end e) <= 16384)%N.

(** [n] is the least number of octets in which [ls] can be written: all of it, or the labels of a front part
    followed by a two-octet pointer to a name already written. *)
Definition cheapest (h : list event) (ls : list label) (n : nat) : Prop :=
  (n = wire_len ls \/ exists pre s, ls = pre ++ s /\ written h s /\ n = length (body pre) + 2) /\
  n <= wire_len ls /\
  (forall pre s, ls = pre ++ s -> written h s -> n <= length (body pre) + 2).

(** All the names, other than the root, in which the given one ends, itself included. *)
Fixpoint ancestors (ls : list label) : list (list label) :=
  match ls with [] => [] | _ :: r => ls :: ancestors r end.
(** How many of a list of names fall into bucket [k] of the compression table (message_render.rs:138-139, 154-155). *)
Definition in_bucket (k : nat) (ns : list (list label)) : nat :=
  length (filter (fun s => N.to_nat (hash_of s mod 64) =? k) ns).
(** No bucket of the table can have been filled: at most 15 of all the names ever written, and their ancestors, fall into it. *)
Definition light (h : list event) : Prop := forall k, in_bucket k (flat_map ancestors (names_in h)) <= 15.

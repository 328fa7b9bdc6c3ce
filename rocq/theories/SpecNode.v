(** Specification vocabulary for C109: siblings in order, and the node above a node. *)
From Coq Require Import Sorted.
From Verif Require Import Base NameModel TreeModel SpecName SpecScope SpecTree.
Open Scope list_scope.
Open Scope nat_scope.
Section S.
Context {V : Type}.
(** [R] holds from every node of one level to every node after it. *)
Definition in_order (R : info V -> info V -> Prop) (t : tree V) : Prop :=
  forall a i b j c, map fst (elems t) = a ++ i :: b ++ j :: c -> R i j.
(** [u] is the node that the node [i], reached along the labels [q], hangs below: the node reached along all of [q] but the labels
    stored at [i] itself; null for the nodes of the top level. *)
Definition hangs_below (t : tree V) (q : list label) (i : info V) (u : ptr) : Prop :=
  (u = null /\ q = key i) \/ exists q0 j, at_ t q0 j /\ u = i_ptr j /\ q = q0 ++ key i.
(** [u] is the node of the longest proper prefix of [q] that has an entry; null if none has. *)
Definition closest_above (t : tree V) (q : list label) (u : ptr) : Prop :=
  (u = null /\ forall a z e, q = a ++ z -> z <> [] -> ~ has t a e) \/
  (exists a z e, q = a ++ z /\ z <> [] /\ has t a e /\ e_ptr e = u /\ forall a' z' e', q = a' ++ z' -> z' <> [] -> has t a' e' -> length a' <= length a).
End S.

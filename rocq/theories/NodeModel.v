(** Comparing handles of tree nodes. *)
From Verif Require Import Base NameModel TreeModel.
Open Scope list_scope.
Open Scope nat_scope.

Section M.
Context {V : Type}.
(** node.rs:43-47 [impl Ord for NodePtr]: the names of [*self.0] and [*other.0] are compared - both pointers are dereferenced, and what is compared
    are the labels stored at the two nodes (relative to the node above), not the full names. *)
Definition nodeptr_cmp (md : mode) (p q : ptr) : MT V comparison :=
  let! a := get_name p in let! b := get_name q in lift (seq_cmp md a b).
(** node.rs:49-53 [impl PartialOrd for NodePtr] *)
Definition nodeptr_partial_cmp (md : mode) (p q : ptr) : MT V (option comparison) :=
  let! a := get_name p in let! b := get_name q in let! c := lift (seq_cmp md a b) in ret (Some c).
End M.
(** node.rs:55-59 [impl PartialEq for NodePtr]: the pointers *)
Definition nodeptr_eq (p q : ptr) : bool := p =? q.

(** Which octets of a message a decoder depends on. *)
From Verif Require Import Base.
Open Scope list_scope.
Open Scope nat_scope.
(** The first [k] octets of [w] (all, if there are fewer) are also the first octets of [w']. *)
Definition same_prefix (k : nat) (w w' : list N) : Prop := forall i c, i < k -> nth_error w i = Some c -> nth_error w' i = Some c.

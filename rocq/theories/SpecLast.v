(** What the [last_compared] and [last_compared_result] fields of a [NodeChain] say after a search (see SpecTree for the picture of
    a tree and its entries; names are lists of lower-cased labels, root label first). *)
From Verif Require Import Base NameModel TreeModel SpecName SpecOrd SpecScope SpecTree.
Open Scope list_scope.
Open Scope nat_scope.

Section Spec.
Context {V : Type}.
(** The length of the name of the closest enclosing entry: the longest proper prefix of [a] that has an entry (0 if none). *)
Definition enclosing (t : tree V) (a : list label) (n : nat) : Prop :=
  (n = 0 \/ exists z e, a = firstn n a ++ z /\ length (firstn n a) = n /\ z <> [] /\ has t (firstn n a) e) /\
  forall b z e, a = b ++ z -> z <> [] -> has t b e -> length b <= n.
(** [a] is the next entry after [q], in the order of names. *)
Definition next_after (t : tree V) (q a : list label) : Prop :=
  olex q a = Lt /\ forall b e, has t b e -> olex b q = Lt \/ b = a \/ olex a b = Lt.
(** [a] is the last entry before [q], apart from entries below [a]. *)
Definition last_before (t : tree V) (q a : list label) : Prop :=
  olex a q = Lt /\ forall b e, has t b e -> olex b a = Lt \/ b = a \/ (exists z, b = a ++ z) \/ olex q b = Lt.
(** The chain after searching [q]: nothing was compared if the tree is empty; else [last_compared] is the node of an entry [a] such
    that: [a] is [q]; or [a] is above [q] - and, unless a callback stopped the search there, nothing is stored below [a]; or [a] is a
    neighbour of [q], on the side that the sign of [order] tells.  [relation] says how [q] relates to [a], and
    [common_label_count] is the number of labels they share, not counting those of the closest entry above [a]. *)
Definition last_compared (t : tree V) (q : list label) (stopped : Prop) (ch : chain) : Prop :=
  (t = E -> ch_last ch = null) /\
  (t <> E -> exists a e n, let r := ch_result ch in
     has t a e /\ e_ptr e = ch_last ch /\ enclosing t a n /\ n + N.to_nat (cr_common r) = common_prefix q a /\
     match cr_relation r with
     | Equal => a = q
     | SubDomain => (exists z, z <> [] /\ q = a ++ z) /\ (~ stopped -> forall z e', has t (a ++ z) e' -> z = [])
     | _ =>
         (forall e', ~ has t q e') /\
         ((cr_order r < 0)%Z /\ next_after t q a \/ (0 < cr_order r)%Z /\ last_before t q a) /\
         (cr_relation r = SuperDomain <-> exists z, z <> [] /\ a = q ++ z) /\
         (cr_relation r = NoRelation <-> cr_common r = 0%N)
     end).
End Spec.
(** A callback asked to stop, somewhere above [q]. *)
Definition stops {V P} (cb : option (callback P)) (t : tree V) (q : list label) (p0 : P) : Prop :=
  exists L x, ancestors t q L /\ visit cb L p0 = inl x.

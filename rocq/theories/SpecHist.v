(** Histories of calls on a [DomainTree], and what a caller may expect to see after them. *)
From Verif Require Import Base NameModel TreeModel SpecName SpecScope SpecTree.
Open Scope list_scope.
Open Scope nat_scope.

Section H.
Context {V : Type}.
(** Calls.  [ODelete] is the usual pattern "find the name, and if there is exactly this node, remove_node it"; the setters act on
    the node that [find] reports as exact match (they do nothing when there is none). *)
Inductive op :=
| OInsert (ls : list label) (v : option V)
| OFind (ls : list label)
| ORemove (ls : list label)
| ODelete (ls : list label)
| OSetValue (ls : list label) (v : option V)
| OSetCallback (ls : list label) (b : bool)
| OSetWildcard (ls : list label) (b : bool)
| OClear.
Definition op_name (o : op) : list label :=
  match o with
  | OInsert ls _ | OFind ls | ORemove ls | ODelete ls | OSetValue ls _ | OSetCallback ls _ | OSetWildcard ls _ => ls
  | OClear => []
  end.
Definition on_exact {A} (md : mode) (ls : list label) (f : ptr -> MT V A) : MT V unit :=
  let! r := find md (name_of ls) in
  match fr_flag r with ExactMatch => f (fr_node r) ;; ret tt | _ => ret tt end.
Definition do_op (md : mode) (o : op) : MT V unit :=
  match o with
  | OInsert ls v => insert md (name_of ls) v ;; ret tt
  | OFind ls => find md (name_of ls) ;; ret tt
  | ORemove ls => remove md (name_of ls) ;; ret tt
  | ODelete ls => on_exact md ls remove_node
  | OSetValue ls v => on_exact md ls (fun p => set_value p v)
  | OSetCallback ls b => on_exact md ls (fun p => set_callback p b)
  | OSetWildcard ls b => on_exact md ls (fun p => set_wildcard p b)
  | OClear => clear
  end.
Fixpoint history (md : mode) (ops : list op) : MT V unit :=
  match ops with [] => ret tt | o :: ops' => do_op md o ;; history md ops' end.
(** [s] is reached from an empty tree by [ops], without panic. *)
Definition reached (md : mode) (ops : list op) (s : dtree V) : Prop := history md ops tree_new = (Ok tt, s).

(** Names a history may use: legal ones; with the flag set, with labels in scope only. *)
Definition op_ok {SC : scope} (asc : bool) (o : op) : Prop := wf_labels (op_name o) /\ (asc = true -> scoped (op_name o)).
(** Histories over legal names with labels from [L]. *)
Definition names_from (L : label -> Prop) (ops : list op) : Prop := Forall (fun o => wf_labels (op_name o) /\ Forall L (op_name o)) ops.
(** Histories over arbitrary legal names. *)
Definition any_names (ops : list op) : Prop := Forall (fun o => wf_labels (op_name o)) ops.
(** The comparison can be relied on: for arbitrary names in the build that wraps (where only the links are at stake), for the
    labels in scope when an overflow cannot happen or stops the program. *)
Definition sound_build {SC : scope} (asc : bool) (md : mode) : Prop := (asc = false -> md = Release) /\ (asc = true -> sc_panic -> md = Debug).

(** * The map a history stands for *)
Definition same_labels (a b : list label) : bool := if list_eq_dec (list_eq_dec N.eq_dec) a b then true else false.
Definition put (m : list label -> option V) (q : list label) (v : option V) : list label -> option V :=
  fun q' => if same_labels q' q then v else m q'.
(** The value stored under [q] (lower-cased labels, root first) after the calls, the latest being the last of the list. *)
Fixpoint apply_ops (ops : list op) (m : list label -> option V) : list label -> option V :=
  match ops with
  | [] => m
  | OInsert ls v :: ops' => apply_ops ops' (put m (labels_of ls) v)
  | ODelete ls :: ops' => apply_ops ops' (put m (labels_of ls) None)
  | OClear :: ops' => apply_ops ops' (fun _ => None)
  | _ :: ops' => apply_ops ops' m
  end.
Definition map_after (ops : list op) : list label -> option V := apply_ops ops (fun _ => None).
(** Calls whose effect on the map does not depend on the nodes present. *)
Definition map_op (o : op) : Prop := match o with ORemove _ | OSetValue _ _ => False | _ => True end.
Definition is_clear (o : op) : Prop := match o with OClear => True | _ => False end.
Definition is_remove (o : op) : Prop := match o with ORemove _ | ODelete _ => True | _ => False end.

(** What a caller reads: the value found under exactly this name, and whether there is a node of this name. *)
Definition lookup (md : mode) (ls : list label) : MT V (find_flag * option V) :=
  let! r := find md (name_of ls) in let! v := fr_value r in ret (fr_flag r, v).

(** What [remove] of [q] does: the entry under [q], else the closest entry above it, is removed and its value returned. *)
Definition remove_spec (t t' : tree V) (q : list label) (old : option V) : Prop :=
  (exists a z e, q = a ++ z /\ has t a e /\ (forall a' z' e', q = a' ++ z' -> has t a' e' -> length a' <= length a) /\ old = e_value e /\ rem_spec t t' a)
  \/ ((forall a z e, q = a ++ z -> ~ has t a e) /\ old = None /\ forall q' e, has t' q' e <-> has t q' e).
(** Replacing the entry [e] under [q] by [e']. *)
Definition set_spec (t t' : tree V) (q : list label) (f : entry V -> entry V) : Prop :=
  forall q' e', has t' q' e' <-> (q' <> q /\ has t q' e') \/ (q' = q /\ exists e, has t q e /\ e' = f e).
End H.
Arguments op V : clear implicits.

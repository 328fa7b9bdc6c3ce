(** What a caller can read of one node of a [DomainTree], and which later calls leave it alone. *)
From Verif Require Import Base NameModel TreeModel SpecName SpecTree SpecHist.
Open Scope list_scope.
Open Scope nat_scope.

Section H.
Context {V : Type}.
(** The node stored under exactly this name, as the public accessors show it: its handle ([NodePtr]), value and the two user
    flags; [None] when [find] reports no exact match. *)
Definition view (md : mode) (ls : list label) : MT V (option (entry V)) :=
  let! r := find md (name_of ls) in
  match fr_flag r with
  | ExactMatch =>
      let! v := get_value (fr_node r) in
      let! c := is_callback_enabled (fr_node r) in
      let! w := is_wildcard_node (fr_node r) in
      ret (Some (mkEnt (fr_node r) v c w))
  | _ => ret None
  end.
(** The calls that do not name [ls]: any [find]; inserting, deleting or setting something under another name; [remove] of a name
    that is not [ls] or below it ([remove] acts on the closest enclosing node). *)
Definition leaves (ls : list label) (o : op V) : Prop :=
  match o with
  | OFind _ => True
  | OClear => False
  | ORemove l => forall z, labels_of l <> labels_of ls ++ z
  | OInsert l _ | ODelete l | OSetValue l _ | OSetCallback l _ | OSetWildcard l _ => labels_of l <> labels_of ls
  end.
(** Replacing one component of an entry. *)
Definition put_value (v : option V) (e : entry V) : entry V := mkEnt (e_ptr e) v (e_cb e) (e_wild e).
Definition put_cb (b : bool) (e : entry V) : entry V := mkEnt (e_ptr e) (e_value e) b (e_wild e).
Definition put_wild (b : bool) (e : entry V) : entry V := mkEnt (e_ptr e) (e_value e) (e_cb e) b.
(** [f] is applied to the node of [ls], if there is one; all other names (with labels in [L]) show what they showed before. *)
Definition only_changes (L : label -> Prop) (md : mode) (ls : list label) (f : entry V -> entry V) (s s' : dtree V) : Prop :=
  forall ls', wf_labels ls' -> Forall L ls' -> exists o, view md ls' s = (Ok o, s) /\
    view md ls' s' = (Ok (if same_labels (labels_of ls') (labels_of ls) then option_map f o else o), s').
(** ... the same for arbitrary names in the debug build, where looking may end in a panic. *)
Definition only_changes_debug (ls : list label) (f : entry V -> entry V) (s s' : dtree V) : Prop :=
  forall ls', wf_labels ls' -> fst (view Debug ls' s) = Panic \/ exists o, view Debug ls' s = (Ok o, s) /\
    (fst (view Debug ls' s') = Panic \/ view Debug ls' s' = (Ok (if same_labels (labels_of ls') (labels_of ls) then option_map f o else o), s')).
End H.

(** Specification vocabulary for the domain tree, independent of its algorithms: what a well linked memory is, which names a
    tree of nodes holds, what balanced means, and the abstract name table that [DomainTree] implements. *)
From Coq Require Import Sorted.
From Verif Require Import Base NameModel TreeModel SpecName SpecOrd SpecScope.
Open Scope list_scope.
Open Scope nat_scope.

Section Spec.
Context {V : Type}.

(** * The picture behind the pointers *)
(** What is stored at a node besides its links: address, labels (root label = final empty label), value, flags. *)
Record info := mkI { i_ptr : ptr; i_labels : list label; i_value : option V; i_cb : bool; i_wild : bool }.
(** A binary tree of nodes with a further tree below each node ([d], reached by the down pointer). *)
Inductive tree := E | T (c : color) (l : tree) (i : info) (d : tree) (r : tree).
Definition pt (t : tree) : ptr := match t with E => null | T _ _ i _ _ => i_ptr i end.
Definition col (t : tree) : color := match t with E => Black | T c _ _ _ _ => c end.
(** The flag word of a node. *)
Definition flags (c : color) (rt cb wild : bool) : N :=
  ((match c with Black => 1 | Red => 0 end) + (if rt then 2 else 0) + (if cb then 4 else 0) + (if wild then 8 else 0))%N.
(** The node stored for [i]: all four links, the flags, name and value. *)
Definition cell (c : color) (rt : bool) (i : info) (l r par d : ptr) : node V :=
  mkNode (flags c rt (i_cb i) (i_wild i)) l r par d (seqf (i_labels i)) (i_value i).
(** The memory cells of a tree whose root has parent pointer [par] and subtree-root flag [rt]: left and right children point
    back to their parent and are not flagged; the root of a down tree points to the node above and is flagged. *)
Fixpoint cells (par : ptr) (rt : bool) (t : tree) : list (ptr * node V) :=
  match t with
  | E => []
  | T c l i d r =>
      (i_ptr i, cell c rt i (pt l) (pt r) par (pt d)) ::
      cells (i_ptr i) false l ++ cells (i_ptr i) true d ++ cells (i_ptr i) false r
  end.
(** These cells are in memory, at distinct non-null addresses. *)
Definition holds (s : dtree V) (L : list (ptr * node V)) : Prop :=
  NoDup (map fst L) /\ Forall (fun pn => 0 < fst pn < dt_next s /\ dt_heap s (fst pn) = Some (snd pn)) L.
(** The memory of [s] is a consistently linked picture of [t]. *)
Definition shape (s : dtree V) (t : tree) : Prop := dt_root s = pt t /\ holds s (cells null true t).

(** * Levels *)
(** One level of the tree (the nodes reachable by left and right pointers) in order, each with the tree below it. *)
Fixpoint elems (t : tree) : list (info * tree) := match t with E => [] | T _ l i d r => elems l ++ (i, d) :: elems r end.
(** Red-black tree with black height [n] (one level). *)
Inductive rb : tree -> nat -> Prop :=
| rb_E : rb E 0
| rb_B l i d r n : rb l n -> rb r n -> rb (T Black l i d r) (S n)
| rb_R l i d r n : rb l n -> rb r n -> col l = Black -> col r = Black -> rb (T Red l i d r) n.
(** Longest path of one level, counted in nodes. *)
Fixpoint height (t : tree) : nat := match t with E => 0 | T _ l _ _ r => S (Nat.max (height l) (height r)) end.
(** Number of nodes, all levels. *)
Fixpoint count (t : tree) : nat := match t with E => 0 | T _ l _ d r => S (count l + count d + count r) end.
(** Every level of [t] satisfies [P]; the first argument of [P] is the list of labels above that level. *)
Inductive lvl (P : list label -> tree -> Prop) : list label -> tree -> Prop :=
| lvl_i suf t : P suf t -> (forall i d, In (i, d) (elems t) -> lvl P (i_labels i ++ suf) d) -> lvl P suf t.
(** Lower-cased labels of a node, closest to the root first. *)
Definition key (i : info) : list label := rev (lc_labels (i_labels i)).
(** [at t q i]: following the levels of [t] down along the lower-cased labels [q] (root first) ends exactly at node [i]. *)
Inductive at_ : tree -> list label -> info -> Prop :=
| at_here t i d : In (i, d) (elems t) -> at_ t (key i) i
| at_down t i d q j : In (i, d) (elems t) -> at_ d q j -> at_ t (key i ++ q) j.

(** What a user can see of a node: its address, value and flags. *)
Record entry := mkEnt { e_ptr : ptr; e_value : option V; e_cb : bool; e_wild : bool }.
Definition ent (i : info) : entry := mkEnt (i_ptr i) (i_value i) (i_cb i) (i_wild i).
(** The tree has the entry [e] under the lower-cased labels [q] (root first). *)
Definition has (t : tree) (q : list label) (e : entry) : Prop := exists i, at_ t q i /\ ent i = e.

(** * What holds at every level *)
(** The labels of a node together with the labels above it are a legal absolute name (root label last). *)
Definition name_ok (suf : list label) (i : info) : Prop :=
  i_labels i <> [] /\ exists ls, wf_labels ls /\ i_labels i ++ suf = ls ++ [[]].
(** Siblings are ordered by the label closest to the root. *)
Definition slt (i j : info) : Prop := slex (hd [] (key i)) (hd [] (key j)) = Lt.
Definition level_ok {SC : scope} (asc : bool) (suf : list label) (t : tree) : Prop :=
  (exists n, rb t n) /\ col t = Black /\ Forall (name_ok suf) (map fst (elems t)) /\
  (asc = true -> Forall (fun i => scoped (i_labels i)) (map fst (elems t)) /\ StronglySorted slt (map fst (elems t))).
Definition tree_ok {SC : scope} (asc : bool) (t : tree) : Prop := lvl (level_ok asc) [] t.

(** * The table behind the tree *)
(** What [insert] of value [v] under [q] does to the entries: it may first add one valueless entry under a name [a] that had none
    and that is [q] or one of its ancestors (the common part of [q] and a stored name); then it replaces the value of the entry
    under [q], or adds that entry.  [p] is the node returned, [old] what is returned as previous value. *)
Definition ins_spec (t t' : tree) (q : list label) (v : option V) (p : ptr) (old : option (option V)) : Prop :=
  exists X : option (list label * ptr),
    let had q' e := has t q' e \/ (exists a px, X = Some (a, px) /\ q' = a /\ e = mkEnt px None false false) in
    (forall a px, X = Some (a, px) -> a <> [] /\ (exists z, q = a ++ z) /\ (forall e, ~ has t a e) /\ (forall q' e, has t q' e -> e_ptr e <> px)) /\
    ((exists e, had q e /\ p = e_ptr e /\ old = Some (e_value e) /\
        forall q' e', has t' q' e' <-> (q' <> q /\ had q' e') \/ (q' = q /\ e' = mkEnt p v (e_cb e) (e_wild e)))
     \/ ((forall e, ~ had q e) /\ old = None /\ (forall q' e, had q' e -> e_ptr e <> p) /\
        forall q' e', has t' q' e' <-> had q' e' \/ (q' = q /\ e' = mkEnt p v false false))).

(** What [find] answers for [q]: the entry under [q]; else the entry under the longest proper prefix of [q] that has one. *)
Definition find_spec (t : tree) (q : list label) (r : find_result) : Prop :=
  match fr_flag r with
  | ExactMatch => exists e, has t q e /\ e_ptr e = fr_node r
  | PartialMatch => (forall e, ~ has t q e) /\ exists a z e, q = a ++ z /\ z <> [] /\ has t a e /\ e_ptr e = fr_node r /\
      forall a' z' e', q = a' ++ z' -> has t a' e' -> length a' <= length a
  | NotFound => fr_node r = null /\ forall a z e, q = a ++ z -> ~ has t a e
  end.
(** What removing the entry under [q] does: its value is cleared; entries that then serve no purpose disappear: those under a
    name [q'] that is [q] or an ancestor of [q], when everything stored at or below [q'] lies on the way to [q] and carries no
    value (apart from [q] itself).  All other entries stay as they are. *)
Definition pruned (t : tree) (q q' : list label) : Prop :=
  (exists z, q = q' ++ z) /\ forall a e, has t a e -> (exists y, a = q' ++ y) -> (exists z, q = a ++ z) /\ (a = q \/ e_value e = None).
Definition rem_spec (t t' : tree) (q : list label) : Prop := forall q' e',
  has t' q' e' <-> exists e, has t q' e /\ ~ pruned t q q' /\ ((q' <> q /\ e' = e) \/ (q' = q /\ e' = mkEnt (e_ptr e) None (e_cb e) (e_wild e))).
(** The lower-cased labels of a name, root label first. *)
Definition labels_of (ls : list label) : list label := rev (lc_labels (ls ++ [[]])).
(** [L] lists the entries of all proper ancestors of [q], from the root down, each with its name. *)
Definition ancestors (t : tree) (q : list label) (L : list (list label * entry)) : Prop :=
  Forall (fun x => has t (labels_of (fst x)) (snd x) /\ exists z, z <> [] /\ q = labels_of (fst x) ++ z) L /\
  (forall a z e, q = a ++ z -> z <> [] -> has t a e -> exists ls, labels_of ls = a /\ In (ls, e) L) /\
  StronglySorted (fun x y => length (fst x) < length (fst y)) L.
(** Running a callback over [L]: [inl] when it asked to stop: the entries before the stop, the entry and the parameter. *)
Fixpoint visit {P} (cb : option (callback P)) (L : list (list label * entry)) (p : P) : (list entry * entry * P) + P :=
  match L with
  | [] => inr p
  | (ls, e) :: L' =>
      let '(stop, p') := match e_cb e, cb with true, Some f => f (e_ptr e) (name_of ls) p | _, _ => (false, p) end in
      if stop then inl ([], e, p')
      else match visit cb L' p' with inl (before, e', p'') => inl (e :: before, e', p'') | inr p'' => inr p'' end
  end.
(** All labels stored in a tree. *)
Fixpoint labs (t : tree) : list label := match t with E => [] | T _ l i d r => i_labels i ++ labs l ++ labs d ++ labs r end.
Definition no_nul_end (l : label) : Prop := forall l', l <> l' ++ [0%N].
(** The nodes on a chain, top down. *)
Definition on_chain (c : chain) : list ptr := firstn (ch_level c) (ch_nodes c).
(** What [find_node_ext] answers for [q]: the callback is run over the ancestors of [q] that are in the tree, top down; if it asks
    to stop, the answer is the node it stopped at, and the chain holds the nodes above it; else the answer is that of [find] and
    the chain holds all these ancestors, and also the node of [q] itself when there is one. *)
Definition find_ext_spec {P} (cb : option (callback P)) (t : tree) (q : list label) (p0 : P) (r : find_result) (ch : chain) (p : P) : Prop :=
  exists L, ancestors t q L /\
    match visit cb L p0 with
    | inl (before, e, p') => p = p' /\ r = mkFR (e_ptr e) PartialMatch /\ on_chain ch = map e_ptr before
    | inr p' => p = p' /\ find_spec t q r /\ on_chain ch = map (fun x => e_ptr (snd x)) L ++ (match fr_flag r with ExactMatch => [fr_node r] | _ => [] end)
    end.
End Spec.
Arguments info V : clear implicits.
Arguments tree V : clear implicits.
Arguments entry V : clear implicits.

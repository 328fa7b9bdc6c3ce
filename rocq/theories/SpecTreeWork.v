(** Vocabulary for C102: counting the passes of the tree's search loop. *)
From Verif Require Import Base NameModel TreeModel.

(** [DomainTree::find_node_ext] (tree.rs:291-343) given up after [k] passes of its loop over the nodes (tree.rs:301): the answer is
    then [Hang]; otherwise it is the answer of the uninterrupted call.  Each pass looks at one node and makes one name comparison. *)
Definition find_node_ext_within {V P} (k : nat) (md : mode) (target : name) (ch : chain) (cb : option (callback P)) (param : P)
  : MT V (find_result * chain * P) := fun s =>
  (let! ts := lift (slice_of_name target) in find_loop md k cb (dt_root s) fr_new ts ch param) s.
(** [DomainTree::find] (tree.rs:277-289), likewise. *)
Definition find_within {V} (k : nat) (md : mode) (target : name) : MT V find_result :=
  let! (r, _, _) := find_node_ext_within (P := unit) k md target chain_new None tt in ret r.
(** [insert_fixup] (tree.rs:146-181) given up after [k] passes of its loop; and [DomainTree::insert] (tree.rs:184-252) given up after [k] passes of its search
    loop (tree.rs:190-222) or [j] of the repair loop.  Each pass of the search looks at one node and makes one comparison; each pass of the repair makes at most
    two rotations. *)
Definition insert_fixup_within {V} (k : nat) (root : loc) (nd : ptr) : MT V unit :=
  insert_fixup_loop k root nd ;; let! r := read_loc root in set_color r Black.
Definition insert_within {V} (k j : nat) (md : mode) (target : name) (v : option V) : MT V (ptr * option (option V)) := fun s =>
  (let! ts := lift (slice_of_name target) in
   let! r := insert_loop md k v null null (dt_root s) (-1) ts in
   match r with
   | inl (p, old) => ret (p, Some old)
   | inr (par, up, order, ts) =>
       let current_root := if is_null up then LRoot else LDown up in
       add_len 1 ;;
       let! nm := lift (into_label_sequence target (sl_first ts) (sl_last ts)) in
       let! nd := node_new nm v in
       set_parent nd par ;;
       (if is_null par then
          write_loc current_root nd ;;
          set_color nd Black ;;
          set_subtree_root nd true ;;
          set_parent nd up
        else if (order <? 0)%Z then
          set_subtree_root nd false ;;
          set_left par nd ;;
          insert_fixup_within j current_root nd
        else
          set_subtree_root nd false ;;
          set_right par nd ;;
          insert_fixup_within j current_root nd) ;;
       ret (nd, None)
   end) s.
(** [DomainTree::remove_node] (tree.rs:358-419) with each of its loops given up: the walk to the top of the level ([get_upper_node], node.rs:210-223), the walk to the
    predecessor (tree.rs:369-371) and the repair loop (tree.rs:421-488) after [k] passes, the loop over the levels (tree.rs:365-417) after [m]; and
    [DomainTree::remove] (tree.rs:345-356) whose search is given up after [kf] passes. *)
Definition upper_within {V} (k : nat) (p : ptr) : MT V ptr := let! r := subtree_root k p in get_parent r.
Fixpoint remove_loop_within {V} (k m : nat) (nd : ptr) : MT V unit :=
  match m with
  | O => lift Hang
  | S m =>
      let! up := upper_within k nd in
      let! l := get_left nd in
      let! two := (if is_null l then ret false else let! r := get_right nd in ret (negb (is_null r))) in
      (if two : bool then
         let! l := get_left nd in
         let! rm := rightmost k l in
         exchange nd rm LRoot
       else ret tt) ;;
      let! r := get_right nd in
      let! child := (if is_null r then get_left nd else get_right nd) in
      connect_child LRoot nd nd child ;;
      (if is_null child then ret tt
       else
         let! par := get_parent nd in
         set_parent child par ;;
         let! cp := get_parent child in
         let! top := (if is_null cp then ret true else let! d := get_down cp in ret (d =? child)) in
         if top : bool then let! b := is_subtree_root nd in set_subtree_root child b else ret tt) ;;
      let! nb := is_black nd in
      (if nb : bool then
         let! cred := (if is_null child then ret false else is_red child) in
         if cred : bool then set_color child Black
         else
           let current_root := if is_null up then LRoot else LDown up in
           let! par := get_parent nd in
           remove_fixup k current_root child par
       else ret tt) ;;
      dec_len ;;
      let! stop :=
        (if is_null up then ret true
         else
           let! v := get_value up in
           match v with
           | Some _ => ret true
           | None => let! d := get_down up in ret (negb (is_null d))
           end) in
      if stop : bool then ret tt else remove_loop_within k m up
  end.
Definition remove_node_within {V} (k m : nat) (nd : ptr) : MT V (option V) :=
  let! old := set_value nd None in
  let! d := get_down nd in
  if negb (is_null d) then ret old else remove_loop_within k m nd ;; ret old.
Definition remove_within {V} (kf k m : nat) (md : mode) (target : name) : MT V (option V) :=
  let! r := find_within kf md target in
  if negb (is_null (fr_node r)) then remove_node_within k m (fr_node r) else ret None.

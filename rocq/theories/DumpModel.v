(** Model of the text output of src/domaintree: [DomainTree::dump] (tree.rs:507-556) and [Display for NodeChain]
    (node_chain.rs:13-32).  [dump] prints to standard output; here the octets printed are returned (printing itself is assumed
    not to fail). *)
From Coq Require String.
From Verif Require Import Base NameModel TextModel TreeModel SliceModel.
Import String.StringSyntax.
Open Scope string_scope.
Open Scope list_scope.
Open Scope nat_scope.

Section Dump.
Context {V : Type}.

(** tree.rs:553-556 *)
Definition indent (depth : nat) : list N := repeat 32%N (depth * 5).
(** [node.get_name().to_string()] *)
Definition name_text (p : ptr) : MT V (list N) := let! nm := get_name p in lift (seq_display nm).
(** tree.rs:520-527 *)
Definition side_text (p : ptr) : MT V (list N) :=
  let! par := get_parent p in
  if is_null par then ret []
  else
    let! l := get_left par in
    if l =? p then ret (of_string "left>")
    else let! r := get_right par in if r =? p then ret (of_string "right>") else ret [].
(** flag.rs:41 [derive(Debug)] *)
Definition color_text (c : color) : list N := match c with Red => of_string "Red" | Black => of_string "Black" end.
(** tree.rs:513-550; the recursion is bounded by [fuel] *)
Fixpoint dump_helper (fuel : nat) (p : ptr) (depth : nat) : MT V (list N) :=
  match fuel with
  | O => lift Hang
  | S k =>
      if is_null p then ret (indent depth ++ of_string "NULL" ++ [10%N])
      else
        let! side := side_text p in
        let! nm := name_text p in
        let! c := get_color p in
        let! v := get_value p in
        let! sr := is_subtree_root p in
        let line := indent depth ++ side ++ nm ++ of_string " (" ++ color_text c ++ of_string ")" ++
          (match v with None => of_string "[invisible]" | Some _ => [] end) ++ (if sr : bool then of_string " [subtreeroot]" else []) ++ [10%N] in
        let! down := get_down p in
        let! below :=
          (if is_null down then ret []
           else
             let! dn := name_text down in
             let! t := dump_helper k down (depth + 1) in
             ret (indent (depth + 1) ++ of_string "begin down from " ++ dn ++ [10%N; 10%N] ++ t ++
                  indent (depth + 1) ++ of_string "end down from " ++ dn ++ [10%N])) in
        let! l := get_left p in
        let! tl := dump_helper k l (depth + 1) in
        let! r := get_right p in
        let! tr := dump_helper k r (depth + 1) in
        ret (line ++ below ++ tl ++ tr)
  end.
(** tree.rs:507-511.  [len] is a usize; [dec] prints numbers below 10^20. *)
Definition dump (depth : nat) : MT V (list N) := fun s =>
  (let! t := dump_helper (S (dt_next s)) (dt_root s) depth in
   ret (indent depth ++ of_string "tree has " ++ dec (N.of_nat (dt_len s)) ++ of_string " node(s)" ++ [10%N] ++ t)) s.

(** An [i8] in decimal. *)
Definition dec_z (z : Z) : list N := if (z <? 0)%Z then 45%N :: dec (Z.to_N (- z)) else dec (Z.to_N z).
(** name.rs:13-20 and 41-46 [derive(Debug)] *)
Definition relation_text (r : relation) : list N :=
  match r with
  | SuperDomain => of_string "SuperDomain" | SubDomain => of_string "SubDomain" | Equal => of_string "Equal"
  | CommonAncestor => of_string "CommonAncestor" | NoRelation => of_string "None"
  end.
Definition cmp_text (c : cmp_result) : list N :=
  of_string "NameComparisonResult { order: " ++ dec_z (cr_order c) ++ of_string ", common_label_count: " ++ dec (cr_common c) ++
  of_string ", relation: " ++ relation_text (cr_relation c) ++ of_string " }".
(** node_chain.rs:25-27 *)
Fixpoint names_text (ps : list ptr) : MT V (list N) :=
  match ps with
  | [] => ret []
  | p :: r => let! n := name_text p in let! t := names_text r in ret (n ++ [44%N] ++ t)
  end.
(** node_chain.rs:13-32 *)
Definition chain_display (c : chain) : MT V (list N) :=
  let level := of_string "level: " ++ dec (N.of_nat (ch_level c)) ++ of_string ", last_compared" in
  if is_null (ch_last c) then ret (level ++ of_string " is nil")
  else
    let! ps := lift (slice (ch_nodes c) 0 (ch_level c)) in
    let! t := names_text ps in
    ret (level ++ of_string "_relation " ++ cmp_text (ch_result c) ++ of_string " nodes:[" ++ t ++ of_string " ]").
End Dump.

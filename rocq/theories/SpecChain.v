(** What a [NodeChain] is to a user: a stack of at most 128 nodes; and the text its Display is to print. *)
From Coq Require String.
From Verif Require Import Base NameModel TextModel TreeModel SpecName SpecTree SpecSlice.
Import String.StringSyntax.
Open Scope string_scope.
Open Scope list_scope.
Open Scope nat_scope.

(** Calls on a chain. *)
Inductive chain_op := CPush (p : ptr) | CPop.
Fixpoint chain_run (ops : list chain_op) (c : chain) : res chain :=
  match ops with
  | [] => Ok c
  | CPush p :: r => let? c' := chain_push c p in chain_run r c'
  | CPop :: r => let? pc := chain_pop c in chain_run r (snd pc)
  end.
(** The stack (top first) those calls leave; [None]: one of them was a push on 128 nodes or a pop on none. *)
Fixpoint stack_after (ops : list chain_op) (st : list ptr) : option (list ptr) :=
  match ops, st with
  | [], _ => Some st
  | CPush p :: r, _ => if length st =? 128 then None else stack_after r (p :: st)
  | CPop :: r, _ :: st' => stack_after r st'
  | CPop :: r, [] => None
  end.

(** A signed 8-bit number, in decimal. *)
Definition show_i8 (z : Z) : list N := (if (z <? 0)%Z then of_string "-" else []) ++ dec (Z.abs_N z).
Definition show_result (r : cmp_result) : list N :=
  of_string "NameComparisonResult { order: " ++ show_i8 (cr_order r) ++ of_string ", common_label_count: " ++ dec (cr_common r) ++
  of_string ", relation: " ++
  of_string (match cr_relation r with SuperDomain => "SuperDomain" | SubDomain => "SubDomain" | Equal => "Equal" | CommonAncestor => "CommonAncestor" | NoRelation => "None" end) ++
  of_string " }".
(** The whole text, given the labels of the nodes on the chain (each node shows only its own labels). *)
Definition show_chain (ch : chain) (names : list (list label)) : list N :=
  of_string "level: " ++ dec (N.of_nat (length names)) ++
  (if ch_last ch =? null then of_string ", last_compared is nil"
   else of_string ", last_compared_relation " ++ show_result (ch_result ch) ++ of_string " nodes:[" ++
        List.concat (map (fun n => show_seq n ++ of_string ",") names) ++ of_string " ]").
(** The nodes of a tree, with the labels stored in each. *)
Fixpoint nodes_of {V} (t : tree V) : list (ptr * list label) :=
  match t with E => [] | T _ l i d r => (i_ptr i, i_labels i) :: nodes_of l ++ nodes_of d ++ nodes_of r end.

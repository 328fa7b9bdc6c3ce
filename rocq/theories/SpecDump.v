(** The text that [DomainTree::dump] and [Display for NodeChain] are to print, as functions of the picture of a tree (SpecTree). *)
From Coq Require String.
From Verif Require Import Base NameModel TextModel TreeModel SpecTree SpecSlice.
Import String.StringSyntax.
Open Scope string_scope.
Open Scope list_scope.
Open Scope nat_scope.

Section Spec.
Context {V : Type}.
Definition nl : list N := [10%N].
(** Five blanks for each level of depth. *)
Fixpoint margin (depth : nat) : list N := match depth with O => [] | S d => of_string "     " ++ margin d end.
(** One line for a node (or "NULL"), preceded by the side it hangs on; then, between two lines, the tree below it, if any; then
    its left and its right child, one step further in. *)
Fixpoint show_tree (depth : nat) (side : String.string) (top : bool) (t : tree V) : list N :=
  match t with
  | E => margin depth ++ of_string "NULL" ++ nl
  | T c l i d r =>
      margin depth ++ of_string side ++ show_seq (i_labels i) ++ of_string (match c with Red => " (Red)" | Black => " (Black)" end) ++
      of_string (match i_value i with None => "[invisible]" | Some _ => "" end) ++ of_string (if top then " [subtreeroot]" else "") ++ nl ++
      (match d with
       | E => []
       | T _ _ j _ _ =>
           margin (S depth) ++ of_string "begin down from " ++ show_seq (i_labels j) ++ nl ++ nl ++
           show_tree (S depth) "" true d ++
           margin (S depth) ++ of_string "end down from " ++ show_seq (i_labels j) ++ nl
       end) ++
      show_tree (S depth) "left>" false l ++ show_tree (S depth) "right>" false r
  end.
(** The whole output; [len] is what [DomainTree::len] says. *)
Definition show_dump (depth len : nat) (t : tree V) : list N :=
  margin depth ++ of_string "tree has " ++ dec (N.of_nat len) ++ of_string " node(s)" ++ nl ++ show_tree depth "" true t.
End Spec.

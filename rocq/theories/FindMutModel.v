(** Model of the mutable access that src/domaintree/tree.rs gives to the values found. *)
From Verif Require Import Base NameModel TreeModel.
Open Scope list_scope.
Open Scope nat_scope.

Section M.
Context {V : Type}.
(** tree.rs:40-47 [FindResult::get_value_mut] followed by [*x = f(&*x)] through the reference that it gives; the result is what the
    reference showed before ([None]: there was no reference).  [value.as_mut()] of a node without value is [None].  As in [get_value]
    (tree.rs:31-38) the debug assertion only strengthens the dereference. *)
Definition fr_update (r : find_result) (f : V -> V) : MT V (option V) :=
  match fr_flag r with
  | NotFound => ret None
  | _ =>
      let! v := get_value (fr_node r) in
      match v with
      | None => ret None
      | Some x => store (fr_node r) (fun n => with_value n (Some (f x))) ;; ret (Some x)
      end
  end.
End M.

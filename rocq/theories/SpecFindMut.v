(** What a caller of [find] and [get_value_mut] may expect to see. *)
From Verif Require Import Base NameModel TreeModel FindMutModel SpecName SpecTree SpecHist SpecHist2.
Open Scope list_scope.
Open Scope nat_scope.

Section S.
Context {V : Type}.
(** After [find ls] on [s] answered [r], the value is changed through [r] by [f].  [look l o]: on [s] the entry seen under the name [l] is
    [o]; [chg l g s']: [s'] differs from [s] only in that the entry under [l] is replaced by what [g] makes of it.
    If nothing was found no ancestor of the name has an entry and nothing happens.  Otherwise the result stands for the entry [e] of the
    longest suffix [ls'] of the name that has one (all of the name exactly if the match is exact); its value, if it has one, is replaced. *)
Definition mut_seen (look : list label -> option (entry V) -> Prop) (chg : list label -> (entry V -> entry V) -> dtree V -> Prop) (ls : list label) (f : V -> V) (s : dtree V) (r : find_result) : Prop :=
  match fr_flag r with
  | NotFound => (forall p2 l2, ls = p2 ++ l2 -> look l2 None) /\ fr_update r f s = (Ok None, s)
  | _ => exists pre ls' e, ls = pre ++ ls' /\ (fr_flag r = ExactMatch <-> pre = []) /\ e_ptr e = fr_node r /\ look ls' (Some e) /\
      (forall p2 l2, ls = p2 ++ l2 -> length ls' < length l2 -> look l2 None) /\
      match e_value e with
      | None => fr_update r f s = (Ok None, s)
      | Some x => exists s', fr_update r f s = (Ok (Some x), s') /\ chg ls' (put_value (Some (f x))) s'
      end
  end.
End S.

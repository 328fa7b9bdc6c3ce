(** Property theorem C106: writing through a search result.  Model: TreeModel.v, FindMutModel.v; specification: SpecTree.v, SpecHist.v,
    SpecHist2.v, SpecFindMut.v. *)
From Verif Require Import Base NameModel TreeModel FindMutModel SpecName SpecOrd SpecScope SpecTree SpecHist SpecHist2 SpecFindMut TreeProofs17 FindMutProofs PropTree.
Open Scope list_scope.
Open Scope nat_scope.

(** * C106: writing through [FindResult::get_value_mut] changes exactly the value found *)
(** Any history over labels that cannot overflow, either build: the search succeeds without changing the tree; what is written through
    its result replaces the value of the entry of the longest matching ancestor, and no other entry changes. *)
Theorem C106_write_through_partial : forall V md L (ops : list (op V)) ls (f : V -> V), no_overflow L -> names_from L ops -> wf_labels ls -> Forall L ls ->
  exists s r, reached md ops s /\ find md (name_of ls) s = (Ok r, s) /\
  mut_seen (fun l o => view md l s = (Ok o, s)) (fun l g s' => only_changes L md l g s s') ls f s r.
Proof. intros V md L ops ls f NO. exact (calm_find_mut L NO md ops ls f). Qed.
Print Assumptions C106_write_through_partial.
(** Any names, build with overflow checks. *)
Theorem C106_debug_any_partial : forall V (ops : list (op V)) s ls (f : V -> V), any_names ops -> reached Debug ops s -> wf_labels ls ->
  fst (find Debug (name_of ls) s) = Panic \/ exists r, find Debug (name_of ls) s = (Ok r, s) /\
  mut_seen (fun l o => fst (view Debug l s) = Panic \/ view Debug l s = (Ok o, s)) (fun l g s' => only_changes_debug l g s s') ls f s r.
Proof. intros V. exact any_find_mut. Qed.
Print Assumptions C106_debug_any_partial.
(** Nothing keeps two results for the same entry apart: [find] and [get_value_mut] take shared references, so two searches (even for
    different spellings) give mutable access to one and the same value at the same time, and what is written through the second is seen
    through the first. *)
Theorem C106_shared_refuted : exists (ops : list (op nat)) s ls ls' r r' s', names_from ascii ops /\ reached Debug ops s /\ ls <> ls' /\
  find Debug (name_of ls) s = (Ok r, s) /\ find Debug (name_of ls') s = (Ok r', s) /\
  fr_update r' (fun _ => 9) s = (Ok (Some 1), s') /\ fst (fr_value r s) = Ok (Some 1) /\ fst (fr_value r s') = Ok (Some 9).
Proof.
  set (ops := [OInsert ca (Some 1)]). exists ops, (run_to Debug ops), ca, [[65%N]].
  set (r := match fst (find Debug (name_of ca) (run_to Debug ops)) with Ok r => r | _ => fr_new end).
  set (r' := match fst (find Debug (name_of [[65%N]]) (run_to Debug ops)) with Ok r => r | _ => fr_new end).
  exists r, r', (snd (fr_update r' (fun _ => 9) (run_to Debug ops))).
  split; [unfold ops, names_from, ascii, wf_labels, wf_label, bytes; cbn [op_name]; names|]. split; [apply run_reached; vm_compute; reflexivity|].
  split; [discriminate|]. comp.
Qed.
Print Assumptions C106_shared_refuted.
(** The names and the history of the example meet the hypotheses; a write through the result for x.b.c changes the value under b.c. *)
Example C106_ex : names_from ascii demo /\ wf_labels ([120%N] :: cbc) /\ Forall ascii ([120%N] :: cbc) /\
  let s := run_to Debug demo in
  match fst (find Debug (name_of ([120%N] :: cbc)) s) with
  | Ok r => fr_flag r = PartialMatch /\ fst (fr_update r (fun n => n + 40) s) = Ok (Some 2) /\
      fst (lookup Debug cbc (snd (fr_update r (fun n => n + 40) s))) = Ok (ExactMatch, Some 42) /\
      fst (lookup Debug cc (snd (fr_update r (fun n => n + 40) s))) = Ok (ExactMatch, Some 3)
  | _ => False
  end.
Proof.
  split; [exact demo_ok|]. split; [unfold wf_labels, wf_label, bytes; names|]. split; [unfold ascii; names|].
  cbv zeta. destruct (fst (find Debug (name_of ([120%N] :: cbc)) (run_to Debug demo))) as [r| | |] eqn:E0; vm_compute in E0; try discriminate E0.
  injection E0 as E0. subst r. comp.
Qed.

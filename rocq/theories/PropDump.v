(** Property theorems C89-C91: what the tree prints, what a search leaves in the chain, and the chain as a stack.
    Models: TreeModel.v, DumpModel.v; specifications: SpecTree.v, SpecHist.v, SpecDump.v, SpecLast.v, SpecChain.v. *)
From Coq Require String.
From Verif Require Import Base NameModel TextModel TreeModel DumpModel SpecName SpecOrd SpecScope SpecTree SpecHist SpecHist2 SpecSlice SpecDump SpecLast SpecChain TreeProofs24 ChainProofs.
From Verif Require PropTree.
Import String.StringSyntax.
Open Scope string_scope.
Open Scope list_scope.
Open Scope nat_scope.

(** * C89: printing *)
(** [dump] prints the tree in memory - every node with its own labels, color, side and flags - and changes nothing. *)
Theorem C89_dump : forall V md (ops : list (op V)) s, any_names ops -> reached md ops s -> exists t, shape s t /\
  forall depth, dump depth s = (Ok (show_dump depth (dt_len s) t), s).
Proof. intros V. exact reached_dump. Qed.
Print Assumptions C89_dump.
(** Display of the chain that any search leaves: the nodes on it are nodes of the tree, and their labels are printed in order. *)
Theorem C89_chain_display : forall V md (ops : list (op V)) s, any_names ops -> reached md ops s -> exists t, shape s t /\
  forall md' P (cb : option (callback P)) (p0 : P) nm r ch p s', find_node_ext md' nm chain_new cb p0 s = (Ok (r, ch, p), s') ->
  s' = s /\ exists ns, Forall (fun n => In n (nodes_of t)) ns /\ on_chain ch = map fst ns /\ chain_display ch s = (Ok (show_chain ch (map snd ns)), s).
Proof. intros V. exact reached_search_chain. Qed.
Print Assumptions C89_chain_display.
(** ... and of any chain put together by hand out of nodes of the tree. *)
Theorem C89_any_chain_display : forall V md (ops : list (op V)) s, any_names ops -> reached md ops s -> exists t, shape s t /\
  forall ch (ns : list (ptr * list label)), length (ch_nodes ch) = 128 -> ch_level ch <= 128 -> on_chain ch = map fst ns -> Forall (fun n => In n (nodes_of t)) ns ->
  chain_display ch s = (Ok (show_chain ch (map snd ns)), s).
Proof. intros V. exact reached_chain. Qed.
Print Assumptions C89_any_chain_display.
Definition lines (l : list (list N)) : list N := List.concat (map (fun x => x ++ [10%N]) l).
Example C89_ex : reached Debug PropTree.demo (PropTree.run_to Debug PropTree.demo) /\
  fst (dump 1 (PropTree.run_to Debug PropTree.demo)) = Ok (lines (map of_string
    ["     tree has 4 node(s)"; "     . (Black)[invisible] [subtreeroot]"; "          begin down from c"; ""; "          c (Black) [subtreeroot]"; "               begin down from b"; "";
     "               b (Black) [subtreeroot]"; "                    NULL"; "                    NULL"; "               end down from b"; "               left>a (Red)[invisible]"; "                    NULL";
     "                    NULL"; "               NULL"; "          end down from c"; "          NULL"; "          NULL"])).
Proof. split; [apply PropTree.run_reached; vm_compute; reflexivity|]. vm_compute. reflexivity. Qed.
Definition found (ls : list label) : chain := match fst (find_node Debug (name_of ls) chain_new (PropTree.run_to Debug PropTree.demo)) with Ok (_, ch) => ch | _ => chain_new end.
Example C89_chain_ex :
  fst (chain_display (found ([120%N] :: PropTree.cbc)) (PropTree.run_to Debug PropTree.demo)) =
    Ok (of_string "level: 3, last_compared_relation NameComparisonResult { order: 1, common_label_count: 1, relation: SubDomain } nodes:[.,c,b, ]") /\
  fst (chain_display chain_new (PropTree.run_to Debug PropTree.demo)) = Ok (of_string "level: 0, last_compared is nil").
Proof. split; vm_compute; reflexivity. Qed.

(** * C90: the last comparison *)
Theorem C90_neighbour_partial : forall V L md (ops : list (op V)), no_overflow L -> names_from L ops -> exists s t, reached md ops s /\ shape s t /\
  forall ls, wf_labels ls -> Forall L ls -> exists r ch, find_node md (name_of ls) chain_new s = (Ok (r, ch), s) /\ last_compared t (labels_of ls) False ch.
Proof. intros V. exact calm_last. Qed.
Print Assumptions C90_neighbour_partial.
Theorem C90_callbacks_partial : forall V L md (ops : list (op V)), no_overflow L -> names_from L ops -> Forall (fun o => Forall no_nul_end (op_name o)) ops -> exists s t, reached md ops s /\ shape s t /\
  forall P (cb : option (callback P)) (p0 : P) ls, wf_labels ls -> Forall L ls -> exists r ch p, find_node_ext md (name_of ls) chain_new cb p0 s = (Ok (r, ch, p), s) /\
    last_compared t (labels_of ls) (stops cb t (labels_of ls) p0) ch.
Proof. intros V. exact calm_last_callbacks. Qed.
Print Assumptions C90_callbacks_partial.
Theorem C90_debug_any_partial : forall V (ops : list (op V)) s, any_names ops -> reached Debug ops s -> exists t, shape s t /\
  forall ls, wf_labels ls -> fst (find_node Debug (name_of ls) chain_new s) = Panic \/
    exists r ch, find_node Debug (name_of ls) chain_new s = (Ok (r, ch), s) /\ last_compared t (labels_of ls) False ch.
Proof. intros V. exact any_last. Qed.
Print Assumptions C90_debug_any_partial.
(** The release build, octets over 127: the chain says that the name searched is not in the tree, though it was inserted. *)
Theorem C90_nonascii_refuted : exists (ops : list (op nat)) s ls r ch, any_names ops /\ Forall map_op ops /\ wf_labels ls /\ reached Release ops s /\
  map_after ops (labels_of ls) = Some 160 /\ find_node Release (name_of ls) chain_new s = (Ok (r, ch), s) /\ cr_relation (ch_result ch) = NoRelation.
Proof.
  exists PropTree.lost, (PropTree.run_to Release PropTree.lost), [[160%N]].
  destruct (find_node Release (name_of [[160%N]]) chain_new (PropTree.run_to Release PropTree.lost)) as [o s'] eqn:F.
  assert (X : match o with Ok rc => cr_relation (ch_result (snd rc)) = NoRelation | _ => False end) by (change o with (fst (o, s')); rewrite <- F; vm_compute; reflexivity).
  destruct o as [[r ch]| | |]; try contradiction. exists r, ch.
  split; [unfold PropTree.lost, any_names, wf_labels, wf_label, bytes; cbn [op_name map]; PropTree.names|]. split; [repeat constructor|]. split; [unfold wf_labels, wf_label, bytes; PropTree.names|].
  split; [apply PropTree.run_reached; vm_compute; reflexivity|]. split; [vm_compute; reflexivity|]. split; [|exact X].
  f_equal. change s' with (snd (@Ok (find_result * chain) (r, ch), s')). rewrite <- F. vm_compute. reflexivity.
Qed.
Print Assumptions C90_nonascii_refuted.
(** In the tree of [PropTree.demo] (printed in C89_ex): searching d.c finds the last entry before it, b.c. *)
Example C90_ex : names_from ascii PropTree.demo /\
  (let ch := found [[100%N]; [99%N]] in cr_relation (ch_result ch) = NoRelation /\ (0 < cr_order (ch_result ch))%Z /\
     fst (get_value (ch_last ch) (PropTree.run_to Debug PropTree.demo)) = Ok (Some 2)) /\
  (let ch := found [[98%N]; [98%N]; [99%N]] in cr_relation (ch_result ch) = SubDomain /\ fst (get_value (ch_last ch) (PropTree.run_to Debug PropTree.demo)) = Ok (Some 2)).
Proof. split; [exact PropTree.demo_ok|]. split; vm_compute; repeat split; reflexivity. Qed.

(** * C91: a stack of nodes *)
Theorem C91_stack : forall ops, match stack_after ops [] with
  | None => chain_run ops chain_new = Panic
  | Some st => exists c, chain_run ops chain_new = Ok c /\ ch_level c = length st /\ on_chain c = rev st /\ ch_last c = null /\ ch_result c = mkCmp 0 0 Equal /\
      chain_top c = match st with [] => Panic | p :: _ => Ok p end /\
      (exists b, chain_bottom c = Ok b /\ forall st' p, st = st' ++ [p] -> b = p)
  end.
Proof. exact chain_stack. Qed.
Print Assumptions C91_stack.
Theorem C91_pop_returns_top : forall ops st p, stack_after ops [] = Some (p :: st) -> exists c c', chain_run ops chain_new = Ok c /\ chain_pop c = Ok (p, c') /\ chain_run (ops ++ [CPop]) chain_new = Ok c' /\ on_chain c' = rev st.
Proof. exact chain_pop_top. Qed.
Print Assumptions C91_pop_returns_top.
Example C91_ex : stack_after [CPush 3; CPush 5; CPop; CPush 7] [] = Some [7; 3] /\ stack_after (map CPush (seq 1 129)) [] = None /\ stack_after (map CPush (seq 1 128)) [] = Some (rev (seq 1 128)).
Proof. repeat split; vm_compute; reflexivity. Qed.

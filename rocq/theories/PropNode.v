(** Property theorems C109 and C110: what the handles of tree nodes say - comparing two of them, and the node above one.
    Models: TreeModel.v, NodeModel.v; specifications: SpecTree.v, SpecHist.v, SpecOrd.v, SpecScope.v, SpecNode.v. *)
From Verif Require Import Base NameModel TreeModel NodeModel SpecName SpecOrd SpecScope SpecTree SpecHist SpecHist2 SpecNode NodeProofs PropTree.
Open Scope list_scope.
Open Scope nat_scope.

(** * C109: comparing handles *)
(** Any history over any names, either build: [cmp] of the handles of two nodes of the tree is the outcome of comparing the labels stored
    at them; [partial_cmp] is the same; neither changes the tree; [==] says whether they are the same node. *)
Theorem C109_cmp_exact : forall V md (ops : list (op V)) s, any_names ops -> reached md ops s -> exists t, shape s t /\
  forall q i q' j, at_ t q i -> at_ t q' j ->
    nodeptr_cmp md (i_ptr i) (i_ptr j) s = (signed_order md (i_labels i) (i_labels j), s) /\
    nodeptr_partial_cmp md (i_ptr i) (i_ptr j) s = ((let? c := signed_order md (i_labels i) (i_labels j) in Ok (Some c)), s) /\
    (nodeptr_eq (i_ptr i) (i_ptr j) = true <-> q = q' /\ i = j).
Proof. intros V. exact node_cmp. Qed.
Print Assumptions C109_cmp_exact.
(** Over labels that cannot overflow, the nodes of each level come in strictly increasing order of [cmp] from left to right. *)
Theorem C109_siblings_partial : forall V L md (ops : list (op V)), no_overflow L -> names_from L ops -> exists s t, reached md ops s /\ shape s t /\
  lvl (fun _ u => in_order (fun i j => nodeptr_cmp md (i_ptr i) (i_ptr j) s = (Ok Lt, s) /\ nodeptr_cmp md (i_ptr j) (i_ptr i) s = (Ok Gt, s)) u) [] t.
Proof. intros V. exact node_siblings. Qed.
Print Assumptions C109_siblings_partial.
(** Between different levels [cmp] is not the order of the entries' names, and not compatible with [==]: a.b and a.d have different
    nodes that compare [Equal], and the node of c.b comes after that of a.d although the name c.b comes before a.d. *)
Definition two_levels : list (op nat) := map (fun p => OInsert [[fst p]; [snd p]] (Some 1)) [(97, 98); (99, 98); (97, 100); (99, 100)]%N.
Definition node_of (md : mode) (s : dtree nat) (ls : list label) : ptr := match fst (find md (name_of ls) s) with Ok r => fr_node r | _ => null end.
Theorem C109_names_refuted : exists (ops : list (op nat)) s p q r, names_from ascii ops /\ reached Debug ops s /\
  find Debug (name_of [[97]; [98]]%N) s = (Ok (mkFR p ExactMatch), s) /\ find Debug (name_of [[97]; [100]]%N) s = (Ok (mkFR q ExactMatch), s) /\
  find Debug (name_of [[99]; [98]]%N) s = (Ok (mkFR r ExactMatch), s) /\
  nodeptr_cmp Debug p q s = (Ok Eq, s) /\ nodeptr_eq p q = false /\
  nodeptr_cmp Debug r q s = (Ok Gt, s) /\ name_cmp Debug (name_of [[99]; [98]]%N) (name_of [[97]; [100]]%N) = Ok Lt.
Proof.
  set (s := run_to Debug two_levels). exists two_levels, s, (node_of Debug s [[97]; [98]]%N), (node_of Debug s [[97]; [100]]%N), (node_of Debug s [[99]; [98]]%N). subst s.
  split; [unfold two_levels, names_from, ascii, wf_labels, wf_label, bytes; cbn [op_name map fst snd]; names|]. split; [apply run_reached; vm_compute; reflexivity|]. comp.
Qed.
Print Assumptions C109_names_refuted.
(** A handle of no node cannot be compared: the null pointer is dereferenced. *)
Theorem C109_null_refuted : forall V md p (s : dtree V), fst (nodeptr_cmp md null p s) = Panic.
Proof. reflexivity. Qed.
Print Assumptions C109_null_refuted.
(** In the release build siblings with octets over 127 may each be less than the other. *)
Theorem C109_order_refuted : exists (ops : list (op nat)) s p q, any_names ops /\ reached Release ops s /\
  find Release (name_of [[0]]%N) s = (Ok (mkFR p ExactMatch), s) /\ find Release (name_of [[128]]%N) s = (Ok (mkFR q ExactMatch), s) /\
  nodeptr_cmp Release p q s = (Ok Lt, s) /\ nodeptr_cmp Release q p s = (Ok Lt, s).
Proof.
  set (ops := [OInsert [[0]]%N (Some 1); OInsert [[128]]%N (Some 2)]). set (s := run_to Release ops). exists ops, s, (node_of Release s [[0]]%N), (node_of Release s [[128]]%N). subst s.
  split; [unfold ops, any_names, wf_labels, wf_label, bytes; cbn [op_name]; names|]. split; [apply run_reached; vm_compute; reflexivity|]. comp.
Qed.
Print Assumptions C109_order_refuted.
(** The example: its names meet the hypotheses, and at the level below b the node of a is less than that of c. *)
Example C109_ex : names_from ascii two_levels /\ let s := run_to Debug two_levels in
  nodeptr_cmp Debug (node_of Debug s [[97]; [98]]%N) (node_of Debug s [[99]; [98]]%N) s = (Ok Lt, s) /\ nodeptr_cmp Debug (node_of Debug s [[98]]%N) (node_of Debug s [[100]]%N) s = (Ok Lt, s).
Proof. split; [unfold two_levels, names_from, ascii, wf_labels, wf_label, bytes; cbn [op_name map fst snd]; names|]. cbv zeta. comp. Qed.

(** * C110: the node above *)
(** Any history over any names, either build: [get_name] of a node is the labels stored at it, and [get_upper_node] the node it hangs
    below, so that the labels of the node, of the node above it, and so on, spell the name of the entry. *)
Theorem C110_upper : forall V md (ops : list (op V)) s, any_names ops -> reached md ops s -> exists t, shape s t /\
  forall q i, at_ t q i -> get_name (i_ptr i) s = (Ok (seqf (i_labels i)), s) /\ exists u, get_upper_node (i_ptr i) s = (Ok u, s) /\ hangs_below t q i u.
Proof. intros V. exact node_upper. Qed.
Print Assumptions C110_upper.
(** Over labels that cannot overflow this is the entry of the closest ancestor that has one; *)
Theorem C110_closest_partial : forall V L md (ops : list (op V)), no_overflow L -> names_from L ops -> exists s t, reached md ops s /\ shape s t /\
  forall q e, has t q e -> exists u, get_upper_node (e_ptr e) s = (Ok u, s) /\ closest_above t q u.
Proof. intros V. exact upper_calm. Qed.
Print Assumptions C110_closest_partial.
(** in the build with overflow checks for all names; *)
Theorem C110_closest_debug_partial : forall V (ops : list (op V)) s, any_names ops -> reached Debug ops s -> exists t, shape s t /\
  forall q e, has t q e -> exists u, get_upper_node (e_ptr e) s = (Ok u, s) /\ closest_above t q u.
Proof. intros V. exact upper_any. Qed.
Print Assumptions C110_closest_debug_partial.
(** in the release build not for all: the node of a.\160 hangs below the root although \160 has an entry. *)
Theorem C110_release_refuted : exists (ops : list (op nat)) s p u r, any_names ops /\ reached Release ops s /\
  get_name p s = (Ok (seqf [[97]; [160]]%N), s) /\ get_value p s = (Ok (Some 5), s) /\ get_upper_node p s = (Ok u, s) /\ get_name u s = (Ok (seqf [[]]), s) /\
  find Release (name_of [[160]]%N) s = (Ok r, s) /\ fr_flag r = ExactMatch /\ fr_node r <> u.
Proof.
  set (ops := OInsert [[60]]%N (Some 60) :: OInsert [[97]; [160]]%N (Some 5) :: skipn 2 lost ++ [OInsert [[160]]%N (Some 77)]).
  exists ops, (run_to Release ops), 3, 2, (mkFR 10 ExactMatch).
  split; [unfold ops, lost, any_names, wf_labels, wf_label, bytes; cbn [op_name map skipn app]; names|]. split; [apply run_reached; vm_compute; reflexivity|].
  do 6 (split; [vm_compute; reflexivity|]). vm_compute. discriminate.
Qed.
Print Assumptions C110_release_refuted.
Example C110_ex : names_from ascii two_levels /\ let s := run_to Debug two_levels in
  get_upper_node (node_of Debug s [[97]; [98]]%N) s = (Ok (node_of Debug s [[98]]%N), s) /\ get_upper_node (node_of Debug s [[98]]%N) s = (Ok (node_of Debug s []), s) /\
  get_upper_node (node_of Debug s []) s = (Ok null, s) /\ node_of Debug s [[98]]%N <> null /\ node_of Debug s [] <> null.
Proof.
  split; [unfold two_levels, names_from, ascii, wf_labels, wf_label, bytes; cbn [op_name map fst snd]; names|]. cbv zeta. split; [vm_compute; reflexivity|]. split; [vm_compute; reflexivity|]. split; [vm_compute; reflexivity|].
  split; vm_compute; discriminate.
Qed.

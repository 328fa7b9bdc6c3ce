(** Property theorems C47-C55 and C68: the domain tree.  Model: TreeModel.v (memory of nodes, raw pointers); specification:
    SpecTree.v (pictures of the memory, entries) and SpecHist.v (histories of calls, the map they stand for).
    Every theorem ranges over all histories of calls starting from an empty tree. *)
From Verif Require Import Base NameModel TreeModel SpecName SpecOrd SpecScope SpecTree SpecHist SpecHist2 SpecTrap TreeProofs17 TreeProofs19 TreeProofs20 TreeProofs21 TreeProofs22 TreeProofs25.
Open Scope list_scope.
Open Scope nat_scope.

(** Example names and states. *)
Definition ca : list label := [[97%N]].
Definition cb_ : list label := [[98%N]].
Definition cc : list label := [[99%N]].
Definition cac : list label := [[97%N]; [99%N]].
Definition cbc : list label := [[98%N]; [99%N]].
Definition run_to (md : mode) (ops : list (op nat)) : dtree nat := snd (history md ops tree_new).
Lemma run_reached : forall md ops, fst (history md ops (tree_new (V := nat))) = Ok tt -> reached md ops (run_to md ops).
Proof. intros md ops H. unfold reached, run_to. destruct (history md ops tree_new) as [r s]. cbn in *. congruence. Qed.
Ltac names := repeat first [apply Forall_nil | apply Forall_cons | split | let H := fresh in intros H; try discriminate H]; cbn; try lia; unfold byte; try lia.
Ltac comp := repeat match goal with |- _ /\ _ => split end; vm_compute; reflexivity.
(** A history that splits nodes, deletes, sets flags and clears. *)
Definition demo : list (op nat) :=
  [OInsert cac (Some 1); OInsert cbc (Some 2); OInsert cc (Some 3); OFind cc; ODelete cac; OSetCallback cc true; OInsert ca None].
Lemma demo_ok : names_from ascii demo.
Proof. unfold demo, names_from, ascii, wf_labels, wf_label, bytes. cbn [op_name]. names. Qed.

(** Label sets to which the theorems apply: all ASCII labels; all labels over the octets 128-255. *)
Theorem C47_ascii_no_overflow : no_overflow ascii.
Proof. exact ascii_no_overflow. Qed.
Theorem C47_high_no_overflow : no_overflow (Forall (fun c => 128 <= c < 256)%N).
Proof. exact high_no_overflow. Qed.
Definition high : list (op nat) := [OInsert [[200; 255]%N] (Some 1); OInsert [[129]%N; [200; 255]%N] (Some 2); OFind [[201]%N]; ODelete [[200; 255]%N]].
Example high_ok : names_from (Forall (fun c => 128 <= c < 256)%N) high.
Proof. unfold high, names_from, wf_labels, wf_label, bytes. cbn [op_name]. names. Qed.

(** * C47: the tree is a map *)
Theorem C47_find_latest_partial : forall V md L (ops : list (op V)), no_overflow L -> names_from L ops -> Forall map_op ops -> exists s, reached md ops s /\
  forall ls, wf_labels ls -> Forall L ls -> exists fl v, lookup md ls s = (Ok (fl, v), s) /\
    (fl = ExactMatch -> v = map_after ops (labels_of ls)) /\ (map_after ops (labels_of ls) <> None -> fl = ExactMatch).
Proof. intros V md L ops NO. exact (calm_map_lookup L NO md ops). Qed.
Print Assumptions C47_find_latest_partial.
Theorem C47_insert_returns_previous_partial : forall V md L (ops : list (op V)), no_overflow L -> names_from L ops -> Forall map_op ops -> exists s, reached md ops s /\
  forall ls v, wf_labels ls -> Forall L ls -> exists p old s', insert md (name_of ls) v s = (Ok (p, old), s') /\
    match old with Some o => o | None => None end = map_after ops (labels_of ls) /\ get_value p s' = (Ok v, s').
Proof. intros V md L ops NO. exact (calm_map_insert L NO md ops). Qed.
Print Assumptions C47_insert_returns_previous_partial.
(** The debug build, names of any octets: a call on a tree that was reached without panic panics itself or answers right. *)
Theorem C47_debug_any_find_partial : forall V (ops : list (op V)) s, any_names ops -> Forall map_op ops -> reached Debug ops s ->
  forall ls, wf_labels ls -> fst (lookup Debug ls s) = Panic \/ exists fl v, lookup Debug ls s = (Ok (fl, v), s) /\
    (fl = ExactMatch -> v = map_after ops (labels_of ls)) /\ (map_after ops (labels_of ls) <> None -> fl = ExactMatch).
Proof. intros V. exact any_map_lookup. Qed.
Print Assumptions C47_debug_any_find_partial.
Theorem C47_debug_any_insert_partial : forall V (ops : list (op V)) s, any_names ops -> Forall map_op ops -> reached Debug ops s ->
  forall ls v, wf_labels ls -> fst (insert Debug (name_of ls) v s) = Panic \/ exists p old s', insert Debug (name_of ls) v s = (Ok (p, old), s') /\
    match old with Some o => o | None => None end = map_after ops (labels_of ls) /\ get_value p s' = (Ok v, s').
Proof. intros V. exact any_map_insert. Qed.
Print Assumptions C47_debug_any_insert_partial.
(** such a history, outside every label set without overflow: 100 and 150 overflow, but are never compared *)
Definition mixed : list (op nat) := [OInsert [[100]%N; [97]%N] (Some 1); OInsert [[150]%N; [98]%N] (Some 2); OFind [[100]%N; [97]%N]].
Example C47_debug_any_ex : any_names mixed /\ Forall map_op mixed /\ reached Debug mixed (run_to Debug mixed) /\ fst (lookup Debug [[150]%N; [98]%N] (run_to Debug mixed)) = Ok (ExactMatch, Some 2) /\
  fst (lookup Debug [[150]%N; [97]%N] (run_to Debug mixed)) = Panic.
Proof.
  split; [unfold mixed, any_names, wf_labels, wf_label, bytes; cbn [op_name]; names|]. split; [repeat constructor|]. split; [apply run_reached; vm_compute; reflexivity|]. comp.
Qed.
(** Same name up to case, same key. *)
Theorem C47_keys : forall a b, labels_of a = labels_of b <-> same_name a b.
Proof.
  intros a b. unfold labels_of, same_name, lc_labels. split; intros H.
  - apply (f_equal (@rev _)) in H. rewrite !rev_involutive, !map_app in H. apply app_inv_tail in H. exact H.
  - rewrite !map_app, H. reflexivity.
Qed.
Print Assumptions C47_keys.
Example C47_ex : names_from ascii demo /\ Forall map_op demo /\ map_after demo (labels_of cbc) = Some 2 /\ map_after demo (labels_of cac) = None /\
  fst (lookup Debug [[67%N]] (run_to Debug demo)) = Ok (ExactMatch, Some 3).
Proof. split; [exact demo_ok|]. split; [repeat constructor|]. comp. Qed.
(** With bytes over 127 the release build loses an entry: siblings are compared by an 8-bit difference, which is no order. *)
Definition lost : list (op nat) := map (fun b => OInsert [[b]] (Some (N.to_nat b))) [60; 160; 39; 17; 203; 244; 209; 211]%N.
Theorem C47_nonascii_release_refuted : exists (ops : list (op nat)) s ls, any_names ops /\ Forall map_op ops /\ wf_labels ls /\ reached Release ops s /\
  map_after ops (labels_of ls) = Some 160 /\ lookup Release ls s = (Ok (PartialMatch, None), s).
Proof.
  exists lost, (run_to Release lost), [[160%N]]. split; [unfold lost, any_names, wf_labels, wf_label, bytes; cbn [op_name map]; names|]. split; [repeat constructor|]. split; [unfold wf_labels, wf_label, bytes; names|].
  split; [apply run_reached; vm_compute; reflexivity|]. split; vm_compute; reflexivity.
Qed.
Print Assumptions C47_nonascii_release_refuted.
(** ... and the debug build panics (subtraction overflow). *)
Theorem C47_nonascii_debug_refuted : exists (ops : list (op nat)), any_names ops /\ Forall map_op ops /\ fst (history Debug ops tree_new) = Panic.
Proof.
  exists [OInsert [[100%N]] (Some 1); OInsert [[150%N]] (Some 2)]. split; [unfold any_names, wf_labels, wf_label, bytes; cbn [op_name]; names|]. split; [repeat constructor|]. vm_compute. reflexivity.
Qed.
Print Assumptions C47_nonascii_debug_refuted.
(** insert reports "replaced" (the outer [Some]) for a name that was never inserted, when a split created its node. *)
Example C47_insert_reports_replaced : fst (insert Debug (name_of cc) (Some 3) (run_to Debug [OInsert cac (Some 1); OInsert cbc (Some 2)])) = Ok (2, Some None).
Proof. vm_compute. reflexivity. Qed.

(** * C48: closest enclosing node *)
Theorem C48_closest_partial : forall V md L (ops : list (op V)), no_overflow L -> names_from L ops -> exists s t, reached md ops s /\ shape s t /\
  forall ls, wf_labels ls -> Forall L ls -> exists r, find md (name_of ls) s = (Ok r, s) /\ find_spec t (labels_of ls) r.
Proof. intros V md L ops NO. exact (calm_find_closest L NO md ops). Qed.
Print Assumptions C48_closest_partial.
Theorem C48_inserted_ancestors_found_partial : forall V md L (ops : list (op V)), no_overflow L -> names_from L ops -> Forall map_op ops -> exists s, reached md ops s /\
  forall ls, wf_labels ls -> Forall L ls -> exists fl v, lookup md ls s = (Ok (fl, v), s) /\
    (forall a z, labels_of ls = a ++ z -> map_after ops a <> None -> fl <> NotFound) /\
    (fl = PartialMatch -> exists a z, labels_of ls = a ++ z /\ z <> [] /\ v = map_after ops a /\
       forall a' z', labels_of ls = a' ++ z' -> map_after ops a' <> None -> length a' <= length a).
Proof. intros V md L ops NO. exact (calm_find_inserted L NO md ops). Qed.
Print Assumptions C48_inserted_ancestors_found_partial.
Theorem C48_debug_any_closest_partial : forall V (ops : list (op V)) s, any_names ops -> reached Debug ops s -> exists t, shape s t /\
  forall ls, wf_labels ls -> fst (find Debug (name_of ls) s) = Panic \/ exists r, find Debug (name_of ls) s = (Ok r, s) /\ find_spec t (labels_of ls) r.
Proof. intros V. exact any_find_closest. Qed.
Print Assumptions C48_debug_any_closest_partial.
Theorem C48_debug_any_inserted_partial : forall V (ops : list (op V)) s, any_names ops -> Forall map_op ops -> reached Debug ops s ->
  forall ls, wf_labels ls -> fst (lookup Debug ls s) = Panic \/ exists fl v, lookup Debug ls s = (Ok (fl, v), s) /\
    (forall a z, labels_of ls = a ++ z -> map_after ops a <> None -> fl <> NotFound) /\
    (fl = PartialMatch -> exists a z, labels_of ls = a ++ z /\ z <> [] /\ v = map_after ops a /\
       forall a' z', labels_of ls = a' ++ z' -> map_after ops a' <> None -> length a' <= length a).
Proof. intros V. exact any_find_inserted. Qed.
Print Assumptions C48_debug_any_inserted_partial.
Theorem C48_nonascii_refuted : exists (ops : list (op nat)) s ls sub, any_names ops /\ reached Release ops s /\ wf_labels sub /\
  map_after ops (labels_of ls) <> None /\ (exists z, labels_of sub = labels_of ls ++ z) /\ lookup Release sub s = (Ok (PartialMatch, None), s) /\
  map_after ops (labels_of []) = None.
Proof.
  exists lost, (run_to Release lost), [[160%N]], [[97%N]; [160%N]]. split; [unfold lost, any_names, wf_labels, wf_label, bytes; cbn [op_name map]; names|].
  split; [apply run_reached; vm_compute; reflexivity|]. split; [unfold wf_labels, wf_label, bytes; names|]. split; [vm_compute; discriminate|]. split; [exists [[97%N]]; reflexivity|]. split; vm_compute; reflexivity.
Qed.
Print Assumptions C48_nonascii_refuted.
Example C48_ex : fst (lookup Debug ([120%N] :: cbc) (run_to Debug demo)) = Ok (PartialMatch, Some 2) /\
  fst (lookup Debug ([120%N] :: cac) (run_to Debug demo)) = Ok (PartialMatch, Some 3) /\ fst (lookup Debug cbc (run_to Debug [OInsert ([120%N] :: cbc) (Some 5)])) = Ok (NotFound, None).
Proof. comp. Qed.

(** * C49: remove *)
(** When the name has an entry, exactly its value goes (afterwards the tree is that of the history with the deletion added, to which
    C47 applies); when no entry encloses it nothing changes. *)
Theorem C49_exact_partial : forall V md L (ops : list (op V)), no_overflow L -> names_from L ops -> Forall map_op ops -> exists s, reached md ops s /\
  forall ls, wf_labels ls -> Forall L ls -> exists fl v old s', lookup md ls s = (Ok (fl, v), s) /\ remove md (name_of ls) s = (Ok old, s') /\
    (fl = ExactMatch -> old = map_after ops (labels_of ls) /\ reached md (ops ++ [ODelete ls]) s') /\
    (fl = NotFound -> old = None /\ s' = s).
Proof. intros V md L ops NO. exact (calm_remove_exact L NO md ops). Qed.
Print Assumptions C49_exact_partial.
(** What remove does in all cases: it acts on the closest enclosing entry. *)
Theorem C49_closest_partial : forall V md L (ops : list (op V)), no_overflow L -> names_from L ops -> exists s t, reached md ops s /\ shape s t /\
  forall ls, wf_labels ls -> Forall L ls -> exists old s' t', remove md (name_of ls) s = (Ok old, s') /\ shape s' t' /\ remove_spec t t' (labels_of ls) old.
Proof. intros V md L ops NO. exact (calm_remove_any L NO md ops). Qed.
Print Assumptions C49_closest_partial.
Theorem C49_debug_any_exact_partial : forall V (ops : list (op V)) s, any_names ops -> Forall map_op ops -> reached Debug ops s ->
  forall ls, wf_labels ls -> (fst (lookup Debug ls s) = Panic \/ fst (remove Debug (name_of ls) s) = Panic) \/
    exists fl v old s', lookup Debug ls s = (Ok (fl, v), s) /\ remove Debug (name_of ls) s = (Ok old, s') /\
    (fl = ExactMatch -> old = map_after ops (labels_of ls) /\ reached Debug (ops ++ [ODelete ls]) s') /\
    (fl = NotFound -> old = None /\ s' = s).
Proof. intros V. exact any_remove_exact. Qed.
Print Assumptions C49_debug_any_exact_partial.
Theorem C49_debug_any_closest_partial : forall V (ops : list (op V)) s, any_names ops -> reached Debug ops s -> exists t, shape s t /\
  forall ls, wf_labels ls -> fst (remove Debug (name_of ls) s) = Panic \/
    exists old s' t', remove Debug (name_of ls) s = (Ok old, s') /\ shape s' t' /\ remove_spec t t' (labels_of ls) old.
Proof. intros V. exact any_remove_any. Qed.
Print Assumptions C49_debug_any_closest_partial.
(** Removing an absent name below a stored one deletes the stored one. *)
Theorem C49_absent_name_refuted : exists (ops : list (op nat)) s s', names_from ascii ops /\ reached Debug ops s /\
  lookup Debug cc s = (Ok (ExactMatch, Some 1), s) /\ map_after ops (labels_of cac) = None /\
  remove Debug (name_of cac) s = (Ok (Some 1), s') /\ lookup Debug cc s' = (Ok (NotFound, None), s').
Proof.
  exists [OInsert cc (Some 1)], (run_to Debug [OInsert cc (Some 1)]), (snd (remove Debug (name_of cac) (run_to Debug [OInsert cc (Some 1)]))).
  split; [unfold names_from, ascii, wf_labels, wf_label, bytes; cbn [op_name]; names|]. split; [apply run_reached; vm_compute; reflexivity|]. comp.
Qed.
Print Assumptions C49_absent_name_refuted.
Example C49_ex : fst (remove Debug (name_of cbc) (run_to Debug demo)) = Ok (Some 2).
Proof. vm_compute. reflexivity. Qed.

(** * C50: balance, for names of any bytes and both builds *)
Theorem C50_balanced : forall V md (ops : list (op V)) s, any_names ops -> reached md ops s -> exists t, shape s t /\
  lvl (fun _ u => (exists n, rb u n) /\ col u = Black /\ height u <= 2 * Nat.log2 (S (length (elems u)))) [] t.
Proof. intros V md ops s W R. destruct (reached_any md ops s W R) as (t & A & B & _). exists t. auto. Qed.
Print Assumptions C50_balanced.
Example C50_ex : any_names lost /\ reached Release lost (run_to Release lost).
Proof. split; [unfold lost, any_names, wf_labels, wf_label, bytes; cbn [op_name map]; names|apply run_reached; vm_compute; reflexivity]. Qed.

(** * C51: len *)
Theorem C51_len_partial : forall V md (ops : list (op V)) s, any_names ops -> reached md ops s -> Forall (fun o => ~ is_clear o) ops ->
  exists t, shape s t /\ dt_len s = count t.
Proof. intros V md ops s W R NC. destruct (reached_any md ops s W R) as (t & A & _ & _ & B). exists t. auto. Qed.
Print Assumptions C51_len_partial.
Theorem C51_len_at_least_partial : forall V md (ops : list (op V)) s, any_names ops -> reached md ops s -> exists t, shape s t /\ count t <= dt_len s.
Proof. intros V md ops s W R. destruct (reached_any md ops s W R) as (t & A & _ & B & _). exists t. auto. Qed.
Print Assumptions C51_len_at_least_partial.
(** Exactly what [clear] does: the count before it stays in [len] for good.  Applied at each clear, this gives [len] after
    every history. *)
Theorem C51_clear_exact_partial : forall V md (ops1 ops2 : list (op V)) s1 s, any_names (ops1 ++ OClear :: ops2) -> reached md ops1 s1 ->
  reached md (ops1 ++ OClear :: ops2) s -> Forall (fun o => ~ is_clear o) ops2 -> exists t, shape s t /\ dt_len s = dt_len s1 + count t.
Proof. intros V. exact len_after_clear. Qed.
Print Assumptions C51_clear_exact_partial.
Example C51_clear_exact_ex : dt_len (run_to Debug (demo ++ OClear :: demo)) = 8.
Proof. vm_compute. reflexivity. Qed.
(** clear does not reset len. *)
Theorem C51_clear_refuted : exists (ops : list (op nat)) s, names_from ascii ops /\ reached Debug ops s /\ tree_is_empty s = true /\ dt_len s = 1.
Proof.
  exists [OInsert cc (Some 1); OClear], (run_to Debug [OInsert cc (Some 1); OClear]). split; [unfold names_from, ascii, wf_labels, wf_label, bytes; cbn [op_name]; names|].
  split; [apply run_reached; vm_compute; reflexivity|]. split; vm_compute; reflexivity.
Qed.
Print Assumptions C51_clear_refuted.
Example C51_ex : dt_len (run_to Debug demo) = 4 /\ Forall (fun o => ~ is_clear o) demo.
Proof. split; [vm_compute; reflexivity|]. unfold demo. repeat constructor; intros []. Qed.

(** * C52: clone *)
(** The copy leaves the original intact, agrees with it on what is not found at all and on exact matches it reports, and agrees
    completely when the tree has one node.  Cloning an empty tree dereferences null. *)
Theorem C52_clone_partial : forall V md L (ops : list (op V)), no_overflow L -> names_from L ops -> exists s t, reached md ops s /\ shape s t /\
  (t = E -> clone s = Panic) /\
  (t <> E -> exists s2, clone s = Ok s2 /\
     shape (mkDT (dt_heap s2) (dt_next s2) (dt_root s) (dt_len s)) t /\
     forall ls, wf_labels ls -> Forall L ls -> exists fl v fl2 v2,
       lookup md ls s = (Ok (fl, v), s) /\ lookup md ls s2 = (Ok (fl2, v2), s2) /\
       (fl = NotFound <-> fl2 = NotFound) /\ (fl2 = ExactMatch -> fl = ExactMatch /\ v2 = v) /\ (count t = 1 -> fl2 = fl /\ v2 = v)).
Proof. intros V md L ops NO. exact (calm_clone L NO md ops). Qed.
Print Assumptions C52_clone_partial.
Theorem C52_debug_any_partial : forall V (ops : list (op V)) s, any_names ops -> reached Debug ops s -> exists t, shape s t /\
  (t = E -> clone s = Panic) /\
  (t <> E -> exists s2, clone s = Ok s2 /\
     shape (mkDT (dt_heap s2) (dt_next s2) (dt_root s) (dt_len s)) t /\
     forall ls, wf_labels ls -> (fst (lookup Debug ls s) = Panic \/ fst (lookup Debug ls s2) = Panic) \/ exists fl v fl2 v2,
       lookup Debug ls s = (Ok (fl, v), s) /\ lookup Debug ls s2 = (Ok (fl2, v2), s2) /\
       (fl = NotFound <-> fl2 = NotFound) /\ (fl2 = ExactMatch -> fl = ExactMatch /\ v2 = v) /\ (count t = 1 -> fl2 = fl /\ v2 = v)).
Proof. intros V. exact any_clone. Qed.
Print Assumptions C52_debug_any_partial.
(** What the copy contains, exactly: the one entry [top] that all entries are at or below, with its value, and nothing else (but the
    count says otherwise). *)
Theorem C52_exact_partial : forall V md L (ops : list (op V)), no_overflow L -> names_from L ops -> exists s t, reached md ops s /\ shape s t /\
  (t <> E -> exists s2 top e, clone s = Ok s2 /\ dt_len s2 = dt_len s /\ has t top e /\ (forall q e', has t q e' -> exists z, q = top ++ z) /\
     forall ls, wf_labels ls -> Forall L ls -> exists fl v, lookup md ls s2 = (Ok (fl, v), s2) /\
       (fl = ExactMatch <-> labels_of ls = top) /\ (fl = NotFound <-> ~ exists z, labels_of ls = top ++ z) /\ v = match fl with NotFound => None | _ => e_value e end).
Proof. intros V md L ops NO. exact (calm_clone_exact L NO md ops). Qed.
Print Assumptions C52_exact_partial.
Theorem C52_debug_any_exact_partial : forall V (ops : list (op V)) s, any_names ops -> reached Debug ops s -> exists t, shape s t /\
  (t <> E -> exists s2 top e, clone s = Ok s2 /\ dt_len s2 = dt_len s /\ has t top e /\ (forall q e', has t q e' -> exists z, q = top ++ z) /\
     forall ls, wf_labels ls -> fst (lookup Debug ls s2) = Panic \/ exists fl v, lookup Debug ls s2 = (Ok (fl, v), s2) /\
       (fl = ExactMatch <-> labels_of ls = top) /\ (fl = NotFound <-> ~ exists z, labels_of ls = top ++ z) /\ v = match fl with NotFound => None | _ => e_value e end).
Proof. intros V. exact any_clone_exact. Qed.
Print Assumptions C52_debug_any_exact_partial.
(** The copy loses everything below the top node. *)
Theorem C52_lost_entries_refuted : exists (ops : list (op nat)) s s2, names_from ascii ops /\ reached Debug ops s /\ clone s = Ok s2 /\
  lookup Debug cb_ s = (Ok (ExactMatch, Some 2), s) /\ lookup Debug cb_ s2 = (Ok (PartialMatch, None), s2).
Proof.
  set (ops := [OInsert ca (Some 1); OInsert cb_ (Some 2)]). exists ops, (run_to Debug ops), (match clone (run_to Debug ops) with Ok s => s | _ => tree_new end).
  split; [unfold ops, names_from, ascii, wf_labels, wf_label, bytes; cbn [op_name]; names|]. split; [apply run_reached; vm_compute; reflexivity|]. comp.
Qed.
Print Assumptions C52_lost_entries_refuted.
(** Removing from a copy walks off the tree (the copied root is not marked as a root). *)
Theorem C52_remove_from_clone_refuted : exists (ops : list (op nat)) s s2, names_from ascii ops /\ reached Debug ops s /\ clone s = Ok s2 /\
  fst (remove Debug (name_of ca) s2) = Panic.
Proof.
  set (ops := [OInsert ca (Some 1)]). exists ops, (run_to Debug ops), (match clone (run_to Debug ops) with Ok s => s | _ => tree_new end).
  split; [unfold ops, names_from, ascii, wf_labels, wf_label, bytes; cbn [op_name]; names|]. split; [apply run_reached; vm_compute; reflexivity|]. split; vm_compute; reflexivity.
Qed.
Print Assumptions C52_remove_from_clone_refuted.

(** * C53: memory safety.  [reached] says that no call dereferenced a bad pointer, hit an assertion or ran forever; [shape] that all
    links and flags are consistent.  Every prefix of a history is a history, so this holds after every call. *)
Theorem C53_safe : forall V md L (ops : list (op V)), no_overflow L -> names_from L ops -> exists s t, reached md ops s /\ shape s t.
Proof. intros V md L ops NO. exact (calm_safe L NO md ops). Qed.
Print Assumptions C53_safe.
(** Names of any bytes: the release build completes every history; the debug build does the same or panics (overflow check). *)
Theorem C53_any_names : forall V (ops : list (op V)), any_names ops -> (exists s, reached Release ops s) /\
  (fst (history Debug ops tree_new) = Panic \/ exists s, reached Debug ops s /\ reached Release ops s).
Proof. intros V. exact any_safe. Qed.
Print Assumptions C53_any_names.
Theorem C53_links : forall V md (ops : list (op V)) s, any_names ops -> reached md ops s -> exists t, shape s t.
Proof. intros V md ops s W R. destruct (reached_any md ops s W R) as (t & A & _). eauto. Qed.
Print Assumptions C53_links.
Theorem C53_debug_can_panic : exists (ops : list (op nat)), any_names ops /\ fst (history Debug ops tree_new) = Panic.
Proof. destruct C47_nonascii_debug_refuted as (ops & A & _ & B). exists ops. auto. Qed.
Print Assumptions C53_debug_can_panic.
(** That panic is the overflow check and nothing else: [history_trap] is the debug build in which this check alone stops with [Err],
    and it never panics - no null or dangling pointer, no index, no assertion - nor runs forever. *)
Theorem C53_debug_panic_is_overflow : forall V (ops : list (op V)), any_names ops ->
  (exists s, history_trap ops tree_new = (Ok tt, s) /\ reached Debug ops s /\ reached Release ops s) \/
  (exists s, history_trap ops tree_new = (Err, s) /\ history Debug ops tree_new = (Panic, s)).
Proof. intros V. exact trap_only. Qed.
Print Assumptions C53_debug_panic_is_overflow.
(** It takes two labels in use that first differ in octets whose signed difference exceeds eight bits. *)
Theorem C53_debug_panic_needs : forall V (ops : list (op V)), any_names ops -> fst (history Debug ops tree_new) = Panic -> overflowing ops.
Proof. intros V. exact panic_overflow. Qed.
Print Assumptions C53_debug_panic_needs.
Theorem C53_builds_agree : forall V (ops : list (op V)), any_names ops -> ~ overflowing ops -> history Debug ops tree_new = history Release ops tree_new.
Proof. intros V. exact calm_builds. Qed.
Print Assumptions C53_builds_agree.
(** both cases occur, with octets over 127 *)
Example C53_calm_ex : let ops := [OInsert [[200%N; 255%N]] (Some 1); OInsert [[201%N]] (Some 2); OFind [[200%N; 255%N]]] in
  any_names ops /\ ~ overflowing ops /\ exists s, reached Debug ops s.
Proof.
  cbv zeta. assert (W : any_names [OInsert [[200%N; 255%N]] (Some 1); OInsert [[201%N]] (Some 2); OFind [[200%N; 255%N]]]).
  { repeat constructor; cbn; unfold byte; try lia. }
  assert (N : ~ overflowing [OInsert [[200%N; 255%N]] (Some 1); OInsert [[201%N]] (Some 2); OFind [[200%N; 255%N]]]).
  { intros H. apply overflowb_spec in H. vm_compute in H. discriminate. }
  split; [exact W|]. split; [exact N|]. destruct (any_safe _ W) as [(s & R) _]. exists s. unfold reached in *. rewrite calm_builds; auto.
Qed.
Example C53_ex : no_overflow ascii /\ names_from ascii demo.
Proof. split; [exact ascii_no_overflow|exact demo_ok]. Qed.

(** * C54: absolute names *)
Theorem C54_absolute_name_partial : forall V md L (ops : list (op V)), no_overflow L -> names_from L ops -> Forall (fun o => Forall no_nul_end (op_name o)) ops -> exists s t, reached md ops s /\ shape s t /\
  forall ls, wf_labels ls -> Forall L ls -> exists r ch, find_node md (name_of ls) chain_new s = (Ok (r, ch), s) /\ find_spec t (labels_of ls) r /\
    (fr_flag r <> NotFound -> exists ch' nm ns e, chain_pop ch = Ok (fr_node r, ch') /\ get_name (fr_node r) s = (Ok nm, s) /\
       get_absolute_name ch' nm s = (Ok (name_of ns), s) /\ wf_labels ns /\ has t (labels_of ns) e /\ e_ptr e = fr_node r /\ (fr_flag r = ExactMatch -> same_name ns ls)).
Proof. intros V md L ops NO. exact (calm_chain_name L NO md ops). Qed.
Print Assumptions C54_absolute_name_partial.
Theorem C54_debug_any_partial : forall V (ops : list (op V)) s, any_names ops -> Forall (fun o => Forall no_nul_end (op_name o)) ops -> reached Debug ops s -> exists t, shape s t /\
  forall ls, wf_labels ls -> fst (find_node Debug (name_of ls) chain_new s) = Panic \/
    exists r ch, find_node Debug (name_of ls) chain_new s = (Ok (r, ch), s) /\ find_spec t (labels_of ls) r /\
    (fr_flag r <> NotFound -> exists ch' nm ns e, chain_pop ch = Ok (fr_node r, ch') /\ get_name (fr_node r) s = (Ok nm, s) /\
       get_absolute_name ch' nm s = (Ok (name_of ns), s) /\ wf_labels ns /\ has t (labels_of ns) e /\ e_ptr e = fr_node r /\ (fr_flag r = ExactMatch -> same_name ns ls)).
Proof. intros V. exact any_chain_name. Qed.
Print Assumptions C54_debug_any_partial.
(** Without popping the found node off the chain first its labels appear twice. *)
Theorem C54_without_pop_refuted : exists (ops : list (op nat)) s r ch nm, names_from ascii ops /\ reached Debug ops s /\
  find_node Debug (name_of cac) chain_new s = (Ok (r, ch), s) /\ fr_flag r = ExactMatch /\ get_name (fr_node r) s = (Ok nm, s) /\
  get_absolute_name ch nm s = (Ok (name_of ([97%N] :: cac)), s).
Proof.
  set (ops := [OInsert ca (Some 1); OInsert cac (Some 2); OInsert cbc (Some 3)]). exists ops, (run_to Debug ops).
  exists (match fst (find_node Debug (name_of cac) chain_new (run_to Debug ops)) with Ok (r, _) => r | _ => fr_new end).
  exists (match fst (find_node Debug (name_of cac) chain_new (run_to Debug ops)) with Ok (_, ch) => ch | _ => chain_new end), (seqf [[97%N]]).
  split; [unfold ops, names_from, ascii, wf_labels, wf_label, bytes; cbn [op_name]; names|]. split; [apply run_reached; vm_compute; reflexivity|]. comp.
Qed.
Print Assumptions C54_without_pop_refuted.
(** A label that ends in a NUL byte makes it panic. *)
Definition cnul : list label := [[97; 0]%N; [99%N]].
Theorem C54_nul_refuted : exists (ops : list (op nat)) s r ch ch' nm, names_from ascii ops /\ reached Debug ops s /\
  find_node Debug (name_of cnul) chain_new s = (Ok (r, ch), s) /\ fr_flag r = ExactMatch /\ chain_pop ch = Ok (fr_node r, ch') /\ get_name (fr_node r) s = (Ok nm, s) /\
  get_absolute_name ch' nm s = (Panic, s).
Proof.
  set (ops := [OInsert cc (Some 1); OInsert cnul (Some 2)]). set (fd := fst (find_node Debug (name_of cnul) chain_new (run_to Debug ops))). exists ops, (run_to Debug ops).
  exists (match fd with Ok (r, _) => r | _ => fr_new end), (match fd with Ok (_, ch) => ch | _ => chain_new end), (match fd with Ok (_, ch) => match chain_pop ch with Ok (_, c) => c | _ => ch end | _ => chain_new end), (seqf [[97; 0]%N]).
  split; [unfold ops, names_from, ascii, wf_labels, wf_label, bytes; cbn [op_name]; names|]. split; [apply run_reached; vm_compute; reflexivity|]. comp.
Qed.
Print Assumptions C54_nul_refuted.
Example C54_ex : Forall (fun o => Forall no_nul_end (op_name o)) demo.
Proof. unfold demo. cbn [op_name]. repeat constructor; intros l' H; destruct l' as [|? [|? ?]]; discriminate. Qed.

(** * C55: callbacks *)
Theorem C55_callbacks_partial : forall V md L (ops : list (op V)), no_overflow L -> names_from L ops -> Forall (fun o => Forall no_nul_end (op_name o)) ops -> exists s t, reached md ops s /\ shape s t /\
  forall P (cb : option (callback P)) (p0 : P) ls, wf_labels ls -> Forall L ls -> exists r ch p, find_node_ext md (name_of ls) chain_new cb p0 s = (Ok (r, ch, p), s) /\
    find_ext_spec cb t (labels_of ls) p0 r ch p.
Proof. intros V md L ops NO. exact (calm_callbacks L NO md ops). Qed.
Print Assumptions C55_callbacks_partial.
Theorem C55_debug_any_partial : forall V (ops : list (op V)) s, any_names ops -> Forall (fun o => Forall no_nul_end (op_name o)) ops -> reached Debug ops s -> exists t, shape s t /\
  forall P (cb : option (callback P)) (p0 : P) ls, wf_labels ls -> fst (find_node_ext Debug (name_of ls) chain_new cb p0 s) = Panic \/
    exists r ch p, find_node_ext Debug (name_of ls) chain_new cb p0 s = (Ok (r, ch, p), s) /\ find_ext_spec cb t (labels_of ls) p0 r ch p.
Proof. intros V. exact any_callbacks. Qed.
Print Assumptions C55_debug_any_partial.
Definition record_names : callback (list name) := fun _ nm l => (false, l ++ [nm]).
Theorem C55_nul_refuted : exists (ops : list (op nat)) s, names_from ascii ops /\ reached Debug ops s /\
  find_node_ext Debug (name_of ([100%N] :: cnul)) chain_new (Some record_names) [] s = (Panic, s).
Proof.
  set (ops := [OInsert cc (Some 1); OInsert cnul (Some 2); OSetCallback cnul true]). exists ops, (run_to Debug ops).
  split; [unfold ops, names_from, ascii, wf_labels, wf_label, bytes; cbn [op_name]; names|]. split; [apply run_reached; vm_compute; reflexivity|]. vm_compute; reflexivity.
Qed.
Print Assumptions C55_nul_refuted.
Example C55_ex : match fst (find_node_ext Debug (name_of ([100%N] :: cbc)) chain_new (Some record_names) [] (run_to Debug (demo ++ [OSetCallback cbc true]))) with
  | Ok (r, ch, l) => fr_flag r = PartialMatch /\ l = [name_of cc; name_of cbc] /\ length (on_chain ch) = 3 | _ => False end.
Proof. vm_compute. repeat split; reflexivity. Qed.

(** * C68: dropping a tree frees its nodes ([Drop] is [clear]) *)
Theorem C68_drop_frees_all_partial : forall V md (ops : list (op V)) s, any_names ops -> Forall (fun o => ~ is_remove o) ops -> reached md ops s ->
  exists s', clear s = (Ok tt, s') /\ forall p, dt_heap s' p = None.
Proof. intros V. exact any_drop_frees. Qed.
Print Assumptions C68_drop_frees_all_partial.
(** In general drop frees each node of the tree once and nothing else. *)
Theorem C68_drop_frees_reachable_partial : forall V md (ops : list (op V)) s, any_names ops -> reached md ops s ->
  exists s' t, shape s t /\ clear s = (Ok tt, s') /\
    forall p, dt_heap s' p = if in_dec Nat.eq_dec p (map fst (cells null true t)) then None else dt_heap s p.
Proof. intros V. exact any_drop_reachable. Qed.
Print Assumptions C68_drop_frees_reachable_partial.
(** remove unlinks the node but never frees it. *)
Theorem C68_remove_leaks_refuted : exists (ops : list (op nat)) s s', names_from ascii ops /\ reached Debug ops s /\ clear s = (Ok tt, s') /\ dt_heap s' 1 <> None.
Proof.
  set (ops := [OInsert ca (Some 1); ORemove ca]). exists ops, (run_to Debug ops), (snd (clear (run_to Debug ops))).
  split; [unfold ops, names_from, ascii, wf_labels, wf_label, bytes; cbn [op_name]; names|]. split; [apply run_reached; vm_compute; reflexivity|]. split; [vm_compute; reflexivity|vm_compute; discriminate].
Qed.
Print Assumptions C68_remove_leaks_refuted.
Example C68_ex : Forall (fun o => ~ is_remove o) lost.
Proof. unfold lost. cbn [map]. repeat constructor; intros []. Qed.

(** * C74: values and flags of a node are independent of each other and of all other nodes *)
Theorem C74_setters_partial : forall V md L (ops : list (op V)) ls, no_overflow L -> names_from L ops -> wf_labels ls -> Forall L ls -> exists s, reached md ops s /\
  (forall v, exists s', do_op md (OSetValue ls v) s = (Ok tt, s') /\ only_changes L md ls (put_value v) s s') /\
  (forall b, exists s', do_op md (OSetCallback ls b) s = (Ok tt, s') /\ only_changes L md ls (put_cb b) s s') /\
  (forall b, exists s', do_op md (OSetWildcard ls b) s = (Ok tt, s') /\ only_changes L md ls (put_wild b) s s').
Proof. intros V md L ops ls NO. exact (calm_setters L NO md ops ls). Qed.
Print Assumptions C74_setters_partial.
Theorem C74_insert_flags_partial : forall V md L (ops : list (op V)) ls v, no_overflow L -> names_from L ops -> wf_labels ls -> Forall L ls -> exists s o p old s' o', reached md ops s /\
  view md ls s = (Ok o, s) /\ insert md (name_of ls) v s = (Ok (p, old), s') /\ view md ls s' = (Ok (Some o'), s') /\
  match o with Some e => p = e_ptr e /\ old = Some (e_value e) /\ o' = put_value v e | None => o' = mkEnt p v false false /\ (old = None \/ old = Some None) end.
Proof. intros V md L ops ls v NO. exact (calm_insert_view L NO md ops ls v). Qed.
Print Assumptions C74_insert_flags_partial.
Theorem C74_debug_any_setters_partial : forall V (ops : list (op V)) s ls, any_names ops -> reached Debug ops s -> wf_labels ls ->
  (forall v, fst (do_op Debug (OSetValue ls v) s) = Panic \/ exists s', do_op Debug (OSetValue ls v) s = (Ok tt, s') /\ only_changes_debug ls (put_value v) s s') /\
  (forall b, fst (do_op Debug (OSetCallback ls b) s) = Panic \/ exists s', do_op Debug (OSetCallback ls b) s = (Ok tt, s') /\ only_changes_debug ls (put_cb b) s s') /\
  (forall b, fst (do_op Debug (OSetWildcard ls b) s) = Panic \/ exists s', do_op Debug (OSetWildcard ls b) s = (Ok tt, s') /\ only_changes_debug ls (put_wild b) s s').
Proof. intros V. exact any_setters. Qed.
Print Assumptions C74_debug_any_setters_partial.
Theorem C74_debug_any_insert_partial : forall V (ops : list (op V)) s ls v o p old s', any_names ops -> reached Debug ops s -> wf_labels ls ->
  view Debug ls s = (Ok o, s) -> insert Debug (name_of ls) v s = (Ok (p, old), s') ->
  fst (view Debug ls s') = Panic \/ exists o', view Debug ls s' = (Ok (Some o'), s') /\
  match o with Some e => p = e_ptr e /\ old = Some (e_value e) /\ o' = put_value v e | None => o' = mkEnt p v false false /\ (old = None \/ old = Some None) end.
Proof. intros V. exact any_insert_view. Qed.
Print Assumptions C74_debug_any_insert_partial.
Example C74_ex : fst (view Debug cbc (run_to Debug [OInsert cac (Some 1); OInsert cbc (Some 2); OSetWildcard cbc true; OSetCallback cac true])) = Ok (Some (mkEnt 3 (Some 2) false true)).
Proof. vm_compute. reflexivity. Qed.
(** With labels that are not ASCII the node just inserted may not be found again (cf. C47), so nothing is seen of it. *)
Theorem C74_non_ascii_refuted : exists (ops : list (op nat)) ls s, any_names ops /\ wf_labels ls /\ In (OInsert ls (Some 160)) ops /\ reached Release ops s /\ view Release ls s = (Ok None, s).
Proof.
  exists lost, [[160%N]], (run_to Release lost). split; [unfold any_names, lost, wf_labels, wf_label, bytes; cbn [op_name map]; names|]. split; [unfold wf_labels, wf_label, bytes; names|].
  split; [right; left; reflexivity|]. split; [apply run_reached; vm_compute; reflexivity|]. vm_compute; reflexivity.
Qed.
Print Assumptions C74_non_ascii_refuted.

(** * C75: the handle of a node that holds a value stays valid, and shows the same value and flags, until its own name is touched *)
Theorem C75_handles_partial : forall V md L (ops1 ops2 : list (op V)) ls e, no_overflow L -> names_from L (ops1 ++ ops2) -> wf_labels ls -> Forall L ls -> Forall (leaves ls) ops2 ->
  e_value e <> None -> exists s1 s2, reached md ops1 s1 /\ reached md (ops1 ++ ops2) s2 /\
  (view md ls s1 = (Ok (Some e), s1) -> view md ls s2 = (Ok (Some e), s2)).
Proof. intros V md L ops1 ops2 ls e NO. exact (calm_handles L NO md ops1 ops2 ls e). Qed.
Print Assumptions C75_handles_partial.
Theorem C75_debug_any_partial : forall V (ops1 ops2 : list (op V)) s1 s2 ls e, any_names (ops1 ++ ops2) -> wf_labels ls -> Forall (leaves ls) ops2 ->
  e_value e <> None -> reached Debug ops1 s1 -> reached Debug (ops1 ++ ops2) s2 -> view Debug ls s1 = (Ok (Some e), s1) ->
  fst (view Debug ls s2) = Panic \/ view Debug ls s2 = (Ok (Some e), s2).
Proof. intros V. exact any_handles. Qed.
Print Assumptions C75_debug_any_partial.
Example C75_ex : let ops1 := [OInsert ca (Some 1); OInsert cac (Some 2)] in let ops2 := [OInsert cbc (Some 3); ODelete ca; OInsert cc (Some 4)] in
  Forall (leaves cac) ops2 /\ view Debug cac (run_to Debug ops1) = (Ok (Some (mkEnt 3 (Some 2) false false)), run_to Debug ops1).
Proof. cbn zeta. split; [repeat first [apply Forall_nil | apply Forall_cons; [cbn; discriminate|]]|vm_compute; reflexivity]. Qed.
(** Without a value it need not: deleting another name takes it out of the tree. *)
Theorem C75_valueless_refuted : exists (ops1 ops2 : list (op nat)) ls e s1 s2, names_from ascii (ops1 ++ ops2) /\ wf_labels ls /\ Forall ascii ls /\ Forall (leaves ls) ops2 /\
  reached Debug ops1 s1 /\ reached Debug (ops1 ++ ops2) s2 /\ view Debug ls s1 = (Ok (Some e), s1) /\ view Debug ls s2 = (Ok None, s2).
Proof.
  exists [OInsert cc None; OInsert cac (Some 1)], [ODelete cac], cc, (mkEnt 1 None false false). eexists (run_to Debug [OInsert cc None; OInsert cac (Some 1)]), (run_to Debug [OInsert cc None; OInsert cac (Some 1); ODelete cac]).
  split; [unfold names_from, ascii, wf_labels, wf_label, bytes; cbn [op_name app]; names|]. split; [unfold wf_labels, wf_label, bytes; names|]. split; [unfold ascii; names|].
  split; [repeat first [apply Forall_nil | apply Forall_cons; [cbn; discriminate|]]|]. split; [apply run_reached; vm_compute; reflexivity|]. split; [apply run_reached; vm_compute; reflexivity|]. split; vm_compute; reflexivity.
Qed.
Print Assumptions C75_valueless_refuted.

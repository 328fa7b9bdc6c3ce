(** The tree theorems for the debug build and names of any octets: an operation panics or does what it should. *)
From Verif Require Import Base BaseLemmas NameModel TreeModel SpecName SpecOrd SpecScope OrdBase SpecTree SpecHist SpecHist2 TreeProofs TreeProofs15 TreeProofs16 TreeProofs17 TreeProofs18.
Open Scope list_scope.
Open Scope nat_scope.

Section A.
Context {V : Type}.
Definition any_scope : scope := Build_scope (fun _ => True) True I (fun _ _ _ _ _ _ _ => I).
Existing Instance any_scope.
Lemma in_any : forall ls, scoped ls.
Proof. intros ls. unfold scoped. apply Forall_forall. cbn. auto. Qed.
Lemma any_ops : forall ops : list (op V), any_names ops -> Forall (op_ok true) ops.
Proof. intros ops F. eapply Forall_impl; [|exact F]. intros o A. split; [exact A|]. intros _. apply in_any. Qed.
Lemma spd : sc_panic -> Debug = Debug. Proof. reflexivity. Qed.
Lemma dhist : forall (ops : list (op V)) s (Q : unit -> dtree V -> Prop), wp (history Debug ops) tree_new Q -> reached Debug ops s -> Q tt s.
Proof. intros ops s Q H R. exact (wp_run _ _ _ _ _ _ H R). Qed.
Lemma pan : forall A (m : MT V A) s (Q : A -> dtree V -> Prop), wp m s Q -> fst (m s) = Panic \/ exists a s', m s = (Ok a, s') /\ Q a s'.
Proof. intros A m s Q [H|(_ & s' & E0)]; [right; exact H|left; rewrite E0; reflexivity]. Qed.

Theorem any_map_lookup : forall (ops : list (op V)) s, any_names ops -> Forall map_op ops -> reached Debug ops s ->
  forall ls, wf_labels ls -> fst (lookup Debug ls s) = Panic \/ exists fl v, lookup Debug ls s = (Ok (fl, v), s) /\
    (fl = ExactMatch -> v = map_after ops (labels_of ls)) /\ (map_after ops (labels_of ls) <> None -> fl = ExactMatch).
Proof.
  intros ops s NF MO R ls W. pose proof (dhist _ _ _ (map_lookup Debug spd ops (any_ops _ NF) MO) R) as X.
  destruct (pan _ _ _ _ (X ls W (in_any _))) as [P|([fl v] & s' & E0 & -> & Y)]; [left; exact P|right]. exists fl, v. split; [exact E0|exact Y].
Qed.
Theorem any_map_insert : forall (ops : list (op V)) s, any_names ops -> Forall map_op ops -> reached Debug ops s ->
  forall ls v, wf_labels ls -> fst (insert Debug (name_of ls) v s) = Panic \/ exists p old s', insert Debug (name_of ls) v s = (Ok (p, old), s') /\
    match old with Some o => o | None => None end = map_after ops (labels_of ls) /\ get_value p s' = (Ok v, s').
Proof.
  intros ops s NF MO R ls v W. pose proof (dhist _ _ _ (map_insert Debug spd ops (any_ops _ NF) MO) R) as X.
  destruct (pan _ _ _ _ (X ls v W (in_any _))) as [P|([p old] & s' & E0 & Y)]; [left; exact P|right]. exists p, old, s'. split; [exact E0|exact Y].
Qed.
Theorem any_find_closest : forall (ops : list (op V)) s, any_names ops -> reached Debug ops s -> exists t, shape s t /\
  forall ls, wf_labels ls -> fst (find Debug (name_of ls) s) = Panic \/ exists r, find Debug (name_of ls) s = (Ok r, s) /\ find_spec t (labels_of ls) r.
Proof.
  intros ops s NF R. destruct (dhist _ _ _ (find_closest Debug spd ops (any_ops _ NF)) R) as (t & SH & X). exists t. split; [exact SH|]. intros ls W.
  destruct (pan _ _ _ _ (X ls W (in_any _))) as [P|(r & s' & E0 & -> & Y)]; [left; exact P|right]. exists r. split; [exact E0|exact Y].
Qed.
Theorem any_find_inserted : forall (ops : list (op V)) s, any_names ops -> Forall map_op ops -> reached Debug ops s ->
  forall ls, wf_labels ls -> fst (lookup Debug ls s) = Panic \/ exists fl v, lookup Debug ls s = (Ok (fl, v), s) /\
    (forall a z, labels_of ls = a ++ z -> map_after ops a <> None -> fl <> NotFound) /\
    (fl = PartialMatch -> exists a z, labels_of ls = a ++ z /\ z <> [] /\ v = map_after ops a /\
       forall a' z', labels_of ls = a' ++ z' -> map_after ops a' <> None -> length a' <= length a).
Proof.
  intros ops s NF MO R ls W. pose proof (dhist _ _ _ (find_inserted Debug spd ops (any_ops _ NF) MO) R) as X.
  destruct (pan _ _ _ _ (X ls W (in_any _))) as [P|([fl v] & s' & E0 & -> & Y)]; [left; exact P|right]. exists fl, v. split; [exact E0|exact Y].
Qed.
(** [lookup] and [remove] do the same search, so when the first does not panic neither does the second. *)
Lemma lookup_panic : forall ls (s : dtree V), fst (find Debug (name_of ls) s) = Panic -> fst (lookup Debug ls s) = Panic.
Proof. intros ls s H. unfold lookup, bind. destruct (find Debug (name_of ls) s) as [[r| | |] s1]; try discriminate H. reflexivity. Qed.
Theorem any_remove_exact : forall (ops : list (op V)) s, any_names ops -> Forall map_op ops -> reached Debug ops s ->
  forall ls, wf_labels ls -> (fst (lookup Debug ls s) = Panic \/ fst (remove Debug (name_of ls) s) = Panic) \/ exists fl v old s', lookup Debug ls s = (Ok (fl, v), s) /\ remove Debug (name_of ls) s = (Ok old, s') /\
    (fl = ExactMatch -> old = map_after ops (labels_of ls) /\ reached Debug (ops ++ [ODelete ls]) s') /\
    (fl = NotFound -> old = None /\ s' = s).
Proof.
  intros ops s NF MO R ls W. pose proof (dhist _ _ _ (remove_exact Debug spd ops (any_ops _ NF) MO) R) as X.
  destruct (pan _ _ _ _ (X ls W (in_any _))) as [P|([fl v] & s1 & E0 & -> & Y)]; [left; left; exact P|]. destruct (pan _ _ _ _ Y) as [P|(old & s' & E1 & A & B)]; [left; right; exact P|right].
  exists fl, v, old, s'. split; [exact E0|]. split; [exact E1|]. split; [intros FL; destruct (A FL) as [A1 A2]; auto|exact B].
Qed.
Theorem any_remove_any : forall (ops : list (op V)) s, any_names ops -> reached Debug ops s -> exists t, shape s t /\
  forall ls, wf_labels ls -> fst (remove Debug (name_of ls) s) = Panic \/ exists old s' t', remove Debug (name_of ls) s = (Ok old, s') /\ shape s' t' /\ remove_spec t t' (labels_of ls) old.
Proof.
  intros ops s NF R. destruct (dhist _ _ _ (remove_any Debug spd ops (any_ops _ NF)) R) as (t & SH & X). exists t. split; [exact SH|]. intros ls W.
  destruct (pan _ _ _ _ (X ls W (in_any _))) as [P|(old & s' & E0 & t' & Y)]; [left; exact P|right]. exists old, s', t'. split; [exact E0|exact Y].
Qed.
Theorem any_clone : forall (ops : list (op V)) s, any_names ops -> reached Debug ops s -> exists t, shape s t /\
  (t = E -> clone s = Panic) /\
  (t <> E -> exists s2, clone s = Ok s2 /\
     shape (mkDT (dt_heap s2) (dt_next s2) (dt_root s) (dt_len s)) t /\
     forall ls, wf_labels ls -> (fst (lookup Debug ls s) = Panic \/ fst (lookup Debug ls s2) = Panic) \/ exists fl v fl2 v2,
       lookup Debug ls s = (Ok (fl, v), s) /\ lookup Debug ls s2 = (Ok (fl2, v2), s2) /\
       (fl = NotFound <-> fl2 = NotFound) /\ (fl2 = ExactMatch -> fl = ExactMatch /\ v2 = v) /\ (count t = 1 -> fl2 = fl /\ v2 = v)).
Proof.
  intros ops s NF R. destruct (dhist _ _ _ (clone_spec Debug ops spd (any_ops _ NF)) R) as (t & SH & C0 & C1). exists t. split; [exact SH|]. split; [exact C0|].
  intros NE. destruct (C1 NE) as (s2 & E0 & SH2 & X). exists s2. split; [exact E0|]. split; [exact SH2|]. intros ls W.
  destruct (pan _ _ _ _ (X ls W (in_any _))) as [P|([fl v] & s1 & E1 & -> & Y)]; [left; left; exact P|]. destruct (pan _ _ _ _ Y) as [P|([fl2 v2] & s3 & E2 & -> & A & B & C)]; [left; right; exact P|right].
  exists fl, v, fl2, v2. split; [exact E1|]. split; [exact E2|]. split; [exact A|]. split; [exact B|]. intros K. specialize (C K). inversion C. auto.
Qed.
Theorem any_chain_name : forall (ops : list (op V)) s, any_names ops -> Forall (fun o => Forall no_nul_end (op_name o)) ops -> reached Debug ops s -> exists t, shape s t /\
  forall ls, wf_labels ls -> fst (find_node Debug (name_of ls) chain_new s) = Panic \/ exists r ch, find_node Debug (name_of ls) chain_new s = (Ok (r, ch), s) /\ find_spec t (labels_of ls) r /\
    (fr_flag r <> NotFound -> exists ch' nm ns e, chain_pop ch = Ok (fr_node r, ch') /\ get_name (fr_node r) s = (Ok nm, s) /\
       get_absolute_name ch' nm s = (Ok (name_of ns), s) /\ wf_labels ns /\ has t (labels_of ns) e /\ e_ptr e = fr_node r /\ (fr_flag r = ExactMatch -> same_name ns ls)).
Proof.
  intros ops s NF NN R. destruct (dhist _ _ _ (chain_name Debug spd ops (any_ops _ NF) NN) R) as (t & SH & X). exists t. split; [exact SH|]. intros ls W.
  destruct (pan _ _ _ _ (X ls W (in_any _))) as [P|([r ch] & s1 & E1 & -> & Y & Z)]; [left; exact P|right]. exists r, ch. split; [exact E1|]. split; [exact Y|exact Z].
Qed.
Theorem any_callbacks : forall (ops : list (op V)) s, any_names ops -> Forall (fun o => Forall no_nul_end (op_name o)) ops -> reached Debug ops s -> exists t, shape s t /\
  forall P (cb : option (callback P)) (p0 : P) ls, wf_labels ls -> fst (find_node_ext Debug (name_of ls) chain_new cb p0 s) = Panic \/
    exists r ch p, find_node_ext Debug (name_of ls) chain_new cb p0 s = (Ok (r, ch, p), s) /\ find_ext_spec cb t (labels_of ls) p0 r ch p.
Proof.
  intros ops s NF NN R. destruct (dhist _ _ _ (callbacks Debug spd ops (any_ops _ NF) NN) R) as (t & SH & X). exists t. split; [exact SH|]. intros P cb p0 ls W.
  destruct (pan _ _ _ _ (X P cb p0 ls W (in_any _))) as [PP|([[r ch] p] & s1 & E1 & -> & Y)]; [left; exact PP|right]. exists r, ch, p. split; [exact E1|exact Y].
Qed.
Lemma any_changes : forall ls f (s s' : dtree V), changes Debug ls f s s' -> only_changes_debug ls f s s'.
Proof.
  intros ls f s s' C ls' W. destruct (pan _ _ _ _ (C ls' W (in_any _))) as [P|(o & s1 & E1 & -> & Y)]; [left; exact P|right]. exists o. split; [exact E1|].
  destruct (pan _ _ _ _ Y) as [P|(o' & s2 & E2 & -> & ->)]; [left; exact P|right; exact E2].
Qed.
Theorem any_setters : forall (ops : list (op V)) s ls, any_names ops -> reached Debug ops s -> wf_labels ls ->
  (forall v, fst (do_op Debug (OSetValue ls v) s) = Panic \/ exists s', do_op Debug (OSetValue ls v) s = (Ok tt, s') /\ only_changes_debug ls (put_value v) s s') /\
  (forall b, fst (do_op Debug (OSetCallback ls b) s) = Panic \/ exists s', do_op Debug (OSetCallback ls b) s = (Ok tt, s') /\ only_changes_debug ls (put_cb b) s s') /\
  (forall b, fst (do_op Debug (OSetWildcard ls b) s) = Panic \/ exists s', do_op Debug (OSetWildcard ls b) s = (Ok tt, s') /\ only_changes_debug ls (put_wild b) s s').
Proof.
  intros ops s ls NF R W. destruct (dhist _ _ _ (setters Debug spd ops ls (any_ops _ NF) W (in_any _)) R) as (X1 & X2 & X3).
  split; [|split]; intros a; [destruct (pan _ _ _ _ (X1 a)) as [P|([] & s1 & E1 & C)]|destruct (pan _ _ _ _ (X2 a)) as [P|([] & s1 & E1 & C)]|destruct (pan _ _ _ _ (X3 a)) as [P|([] & s1 & E1 & C)]];
    try (left; exact P); right; exists s1; (split; [exact E1|apply any_changes; exact C]).
Qed.
Theorem any_insert_view : forall (ops : list (op V)) s ls v o p old s', any_names ops -> reached Debug ops s -> wf_labels ls ->
  view Debug ls s = (Ok o, s) -> insert Debug (name_of ls) v s = (Ok (p, old), s') ->
  fst (view Debug ls s') = Panic \/ exists o', view Debug ls s' = (Ok (Some o'), s') /\
  match o with Some e => p = e_ptr e /\ old = Some (e_value e) /\ o' = put_value v e | None => o' = mkEnt p v false false /\ (old = None \/ old = Some None) end.
Proof.
  intros ops s ls v o p old s' NF R W VW IN. pose proof (dhist _ _ _ (insert_view Debug spd ops ls v (any_ops _ NF) W (in_any _)) R) as X.
  destruct (wp_run _ _ _ _ _ _ X VW) as [_ Y]. pose proof (wp_run _ _ _ _ _ _ Y IN) as Z. destruct (pan _ _ _ _ Z) as [P|(o2 & s2 & E2 & -> & o' & -> & K)]; [left; exact P|right].
  exists o'. split; [exact E2|exact K].
Qed.
Theorem any_handles : forall (ops1 ops2 : list (op V)) s1 s2 ls e, any_names (ops1 ++ ops2) -> wf_labels ls -> Forall (leaves ls) ops2 ->
  e_value e <> None -> reached Debug ops1 s1 -> reached Debug (ops1 ++ ops2) s2 -> view Debug ls s1 = (Ok (Some e), s1) ->
  fst (view Debug ls s2) = Panic \/ view Debug ls s2 = (Ok (Some e), s2).
Proof.
  intros ops1 ops2 s1 s2 ls e NF W LV NV R1 R2 VW. pose proof (dhist _ _ _ (handles Debug spd ops1 ops2 ls e (any_ops _ NF) W (in_any _) LV NV) R1) as X.
  apply (reached_app Debug ops1 ops2 s1 s2 R1) in R2. pose proof (wp_run _ _ _ _ _ _ X R2 VW) as Y. destruct (pan _ _ _ _ Y) as [P|(o & s3 & E2 & -> & ->)]; [left; exact P|right; exact E2].
Qed.
(** * Drop, in every build: a debug run that ends without panic is a release run. *)
Theorem any_drop_frees : forall md (ops : list (op V)) s, any_names ops -> Forall (fun o => ~ is_remove o) ops -> reached md ops s ->
  exists s', clear s = (Ok tt, s') /\ forall p, dt_heap s' p = None.
Proof.
  intros md ops s NF NR R. apply reached_release in R. exact (wp_run _ _ _ _ _ _ (@drop_frees V quiet false Release ops sound_false (any_ok _ NF) NR) R).
Qed.
Theorem any_drop_reachable : forall md (ops : list (op V)) s, any_names ops -> reached md ops s ->
  exists s' t, shape s t /\ clear s = (Ok tt, s') /\ forall p, dt_heap s' p = if in_dec Nat.eq_dec p (map fst (cells null true t)) then None else dt_heap s p.
Proof.
  intros md ops s NF R. apply reached_release in R. exact (wp_run _ _ _ _ _ _ (@drop_reachable V quiet false Release ops sound_false (any_ok _ NF)) R).
Qed.
End A.

(** The tree theorems for label sets without overflow, both builds: the runs are total. *)
From Verif Require Import Base BaseLemmas NameModel TreeModel SpecName SpecOrd SpecScope OrdBase SpecTree SpecHist SpecHist2 TreeProofs TreeProofs15 TreeProofs16 TreeProofs18.
Open Scope list_scope.
Open Scope nat_scope.

Section A.
Context {V : Type}.
Variable L : label -> Prop.
Hypothesis NO : no_overflow L.
Definition calm_scope : scope.
Proof.
  refine (Build_scope (fun x => L x \/ x = []) False (or_intror eq_refl) _).
  intros x y p [Hx| ->] [Hy| ->] C O.
  - rewrite (NO _ _ _ Hx Hy C) in O. discriminate.
  - cbn in C. destruct (lc_label x); discriminate.
  - discriminate.
  - discriminate.
Defined.
Existing Instance calm_scope.
Lemma tot : forall A (m : MT V A) s (Q : A -> dtree V -> Prop), wp m s Q -> exists a s', m s = (Ok a, s') /\ Q a s'.
Proof. intros A m s Q H. eapply wp_total; [|exact H]. intros []. Qed.
Lemma in_scope : forall ls, Forall L ls -> scoped ls.
Proof. intros ls F. eapply Forall_impl; [|exact F]. cbn. auto. Qed.
Lemma ops_ok : forall ops : list (op V), names_from L ops -> Forall (op_ok true) ops.
Proof. intros ops F. eapply Forall_impl; [|exact F]. intros o [A B]. split; [exact A|]. intros _. apply in_scope; auto. Qed.
Section M.
Variable md : mode.
Lemma sp : sc_panic -> md = Debug. Proof. intros []. Qed.
Lemma hist : forall (ops : list (op V)) (Q : unit -> dtree V -> Prop), wp (history md ops) tree_new Q -> exists s, reached md ops s /\ Q tt s.
Proof. intros ops Q H. destruct (tot _ _ _ _ H) as ([] & s & R & X). exists s. split; [exact R|exact X]. Qed.

Theorem calm_safe : forall ops : list (op V), names_from L ops -> exists s t, reached md ops s /\ shape s t.
Proof.
  intros ops NF. destruct (hist _ _ (history_safe true md ops (sound_true md sp) (ops_ok _ NF))) as (s & R & t & SH & _). exists s, t. split; [exact R|exact SH].
Qed.
Theorem calm_map_lookup : forall ops : list (op V), names_from L ops -> Forall map_op ops -> exists s, reached md ops s /\
  forall ls, wf_labels ls -> Forall L ls -> exists fl v, lookup md ls s = (Ok (fl, v), s) /\
    (fl = ExactMatch -> v = map_after ops (labels_of ls)) /\ (map_after ops (labels_of ls) <> None -> fl = ExactMatch).
Proof.
  intros ops NF MO. destruct (hist _ _ (map_lookup md sp ops (ops_ok _ NF) MO)) as (s & R & X). exists s. split; [exact R|]. intros ls W F.
  destruct (tot _ _ _ _ (X ls W (in_scope _ F))) as ([fl v] & s' & E0 & -> & Y). exists fl, v. split; [exact E0|exact Y].
Qed.
Theorem calm_map_insert : forall ops : list (op V), names_from L ops -> Forall map_op ops -> exists s, reached md ops s /\
  forall ls v, wf_labels ls -> Forall L ls -> exists p old s', insert md (name_of ls) v s = (Ok (p, old), s') /\
    match old with Some o => o | None => None end = map_after ops (labels_of ls) /\ get_value p s' = (Ok v, s').
Proof.
  intros ops NF MO. destruct (hist _ _ (map_insert md sp ops (ops_ok _ NF) MO)) as (s & R & X). exists s. split; [exact R|]. intros ls v W F.
  destruct (tot _ _ _ _ (X ls v W (in_scope _ F))) as ([p old] & s' & E0 & Y). exists p, old, s'. split; [exact E0|exact Y].
Qed.
Theorem calm_find_closest : forall ops : list (op V), names_from L ops -> exists s t, reached md ops s /\ shape s t /\
  forall ls, wf_labels ls -> Forall L ls -> exists r, find md (name_of ls) s = (Ok r, s) /\ find_spec t (labels_of ls) r.
Proof.
  intros ops NF. destruct (hist _ _ (find_closest md sp ops (ops_ok _ NF))) as (s & R & t & SH & X). exists s, t. split; [exact R|]. split; [exact SH|]. intros ls W F.
  destruct (tot _ _ _ _ (X ls W (in_scope _ F))) as (r & s' & E0 & -> & Y). exists r. split; [exact E0|exact Y].
Qed.
Theorem calm_find_inserted : forall ops : list (op V), names_from L ops -> Forall map_op ops -> exists s, reached md ops s /\
  forall ls, wf_labels ls -> Forall L ls -> exists fl v, lookup md ls s = (Ok (fl, v), s) /\
    (forall a z, labels_of ls = a ++ z -> map_after ops a <> None -> fl <> NotFound) /\
    (fl = PartialMatch -> exists a z, labels_of ls = a ++ z /\ z <> [] /\ v = map_after ops a /\
       forall a' z', labels_of ls = a' ++ z' -> map_after ops a' <> None -> length a' <= length a).
Proof.
  intros ops NF MO. destruct (hist _ _ (find_inserted md sp ops (ops_ok _ NF) MO)) as (s & R & X). exists s. split; [exact R|]. intros ls W F.
  destruct (tot _ _ _ _ (X ls W (in_scope _ F))) as ([fl v] & s' & E0 & -> & Y). exists fl, v. split; [exact E0|exact Y].
Qed.
Theorem calm_remove_exact : forall ops : list (op V), names_from L ops -> Forall map_op ops -> exists s, reached md ops s /\
  forall ls, wf_labels ls -> Forall L ls -> exists fl v old s', lookup md ls s = (Ok (fl, v), s) /\ remove md (name_of ls) s = (Ok old, s') /\
    (fl = ExactMatch -> old = map_after ops (labels_of ls) /\ reached md (ops ++ [ODelete ls]) s') /\
    (fl = NotFound -> old = None /\ s' = s).
Proof.
  intros ops NF MO. destruct (hist _ _ (remove_exact md sp ops (ops_ok _ NF) MO)) as (s & R & X). exists s. split; [exact R|]. intros ls W F.
  destruct (tot _ _ _ _ (X ls W (in_scope _ F))) as ([fl v] & s1 & E0 & -> & Y). destruct (tot _ _ _ _ Y) as (old & s' & E1 & A & B).
  exists fl, v, old, s'. split; [exact E0|]. split; [exact E1|]. split; [intros FL; destruct (A FL) as [A1 A2]; auto|exact B].
Qed.
Theorem calm_remove_any : forall ops : list (op V), names_from L ops -> exists s t, reached md ops s /\ shape s t /\
  forall ls, wf_labels ls -> Forall L ls -> exists old s' t', remove md (name_of ls) s = (Ok old, s') /\ shape s' t' /\ remove_spec t t' (labels_of ls) old.
Proof.
  intros ops NF. destruct (hist _ _ (remove_any md sp ops (ops_ok _ NF))) as (s & R & t & SH & X). exists s, t. split; [exact R|]. split; [exact SH|]. intros ls W F.
  destruct (tot _ _ _ _ (X ls W (in_scope _ F))) as (old & s' & E0 & t' & Y). exists old, s', t'. split; [exact E0|exact Y].
Qed.
Theorem calm_clone : forall ops : list (op V), names_from L ops -> exists s t, reached md ops s /\ shape s t /\
  (t = E -> clone s = Panic) /\
  (t <> E -> exists s2, clone s = Ok s2 /\
     shape (mkDT (dt_heap s2) (dt_next s2) (dt_root s) (dt_len s)) t /\
     forall ls, wf_labels ls -> Forall L ls -> exists fl v fl2 v2,
       lookup md ls s = (Ok (fl, v), s) /\ lookup md ls s2 = (Ok (fl2, v2), s2) /\
       (fl = NotFound <-> fl2 = NotFound) /\ (fl2 = ExactMatch -> fl = ExactMatch /\ v2 = v) /\ (count t = 1 -> fl2 = fl /\ v2 = v)).
Proof.
  intros ops NF. destruct (hist _ _ (clone_spec md ops sp (ops_ok _ NF))) as (s & R & t & SH & C0 & C1). exists s, t. split; [exact R|]. split; [exact SH|]. split; [exact C0|].
  intros NE. destruct (C1 NE) as (s2 & E0 & SH2 & X). exists s2. split; [exact E0|]. split; [exact SH2|]. intros ls W F.
  destruct (tot _ _ _ _ (X ls W (in_scope _ F))) as ([fl v] & s1 & E1 & -> & Y). destruct (tot _ _ _ _ Y) as ([fl2 v2] & s3 & E2 & -> & A & B & C).
  exists fl, v, fl2, v2. split; [exact E1|]. split; [exact E2|]. split; [exact A|]. split; [exact B|]. intros K. specialize (C K). inversion C. auto.
Qed.
Theorem calm_chain_name : forall ops : list (op V), names_from L ops -> Forall (fun o => Forall no_nul_end (op_name o)) ops -> exists s t, reached md ops s /\ shape s t /\
  forall ls, wf_labels ls -> Forall L ls -> exists r ch, find_node md (name_of ls) chain_new s = (Ok (r, ch), s) /\ find_spec t (labels_of ls) r /\
    (fr_flag r <> NotFound -> exists ch' nm ns e, chain_pop ch = Ok (fr_node r, ch') /\ get_name (fr_node r) s = (Ok nm, s) /\
       get_absolute_name ch' nm s = (Ok (name_of ns), s) /\ wf_labels ns /\ has t (labels_of ns) e /\ e_ptr e = fr_node r /\ (fr_flag r = ExactMatch -> same_name ns ls)).
Proof.
  intros ops NF NN. destruct (hist _ _ (chain_name md sp ops (ops_ok _ NF) NN)) as (s & R & t & SH & X). exists s, t. split; [exact R|]. split; [exact SH|]. intros ls W F.
  destruct (tot _ _ _ _ (X ls W (in_scope _ F))) as ([r ch] & s1 & E1 & -> & Y & Z). exists r, ch. split; [exact E1|]. split; [exact Y|exact Z].
Qed.
Theorem calm_callbacks : forall ops : list (op V), names_from L ops -> Forall (fun o => Forall no_nul_end (op_name o)) ops -> exists s t, reached md ops s /\ shape s t /\
  forall P (cb : option (callback P)) (p0 : P) ls, wf_labels ls -> Forall L ls -> exists r ch p, find_node_ext md (name_of ls) chain_new cb p0 s = (Ok (r, ch, p), s) /\
    find_ext_spec cb t (labels_of ls) p0 r ch p.
Proof.
  intros ops NF NN. destruct (hist _ _ (callbacks md sp ops (ops_ok _ NF) NN)) as (s & R & t & SH & X). exists s, t. split; [exact R|]. split; [exact SH|]. intros P cb p0 ls W F.
  destruct (tot _ _ _ _ (X P cb p0 ls W (in_scope _ F))) as ([[r ch] p] & s1 & E1 & -> & Y). exists r, ch, p. split; [exact E1|exact Y].
Qed.
Lemma calm_changes : forall ls f (s s' : dtree V), changes md ls f s s' -> only_changes L md ls f s s'.
Proof.
  intros ls f s s' C ls' W F. destruct (tot _ _ _ _ (C ls' W (in_scope _ F))) as (o & s1 & E1 & -> & Y). destruct (tot _ _ _ _ Y) as (o' & s2 & E2 & -> & ->).
  exists o. split; [exact E1|exact E2].
Qed.
Theorem calm_setters : forall (ops : list (op V)) ls, names_from L ops -> wf_labels ls -> Forall L ls -> exists s, reached md ops s /\
  (forall v, exists s', do_op md (OSetValue ls v) s = (Ok tt, s') /\ only_changes L md ls (put_value v) s s') /\
  (forall b, exists s', do_op md (OSetCallback ls b) s = (Ok tt, s') /\ only_changes L md ls (put_cb b) s s') /\
  (forall b, exists s', do_op md (OSetWildcard ls b) s = (Ok tt, s') /\ only_changes L md ls (put_wild b) s s').
Proof.
  intros ops ls NF W F. destruct (hist _ _ (setters md sp ops ls (ops_ok _ NF) W (in_scope _ F))) as (s & R & X1 & X2 & X3). exists s. split; [exact R|].
  split; [|split]; intros a; [destruct (tot _ _ _ _ (X1 a)) as ([] & s1 & E1 & C)|destruct (tot _ _ _ _ (X2 a)) as ([] & s1 & E1 & C)|destruct (tot _ _ _ _ (X3 a)) as ([] & s1 & E1 & C)];
    exists s1; (split; [exact E1|apply calm_changes; exact C]).
Qed.
Theorem calm_insert_view : forall (ops : list (op V)) ls v, names_from L ops -> wf_labels ls -> Forall L ls -> exists s o p old s' o', reached md ops s /\
  view md ls s = (Ok o, s) /\ insert md (name_of ls) v s = (Ok (p, old), s') /\ view md ls s' = (Ok (Some o'), s') /\
  match o with Some e => p = e_ptr e /\ old = Some (e_value e) /\ o' = put_value v e | None => o' = mkEnt p v false false /\ (old = None \/ old = Some None) end.
Proof.
  intros ops ls v NF W F. destruct (hist _ _ (insert_view md sp ops ls v (ops_ok _ NF) W (in_scope _ F))) as (s & R & X).
  destruct (tot _ _ _ _ X) as (o & s0 & E0 & -> & Y). destruct (tot _ _ _ _ Y) as ([p old] & s' & E1 & Z). destruct (tot _ _ _ _ Z) as (o2 & s2 & E2 & -> & o' & -> & K).
  exists s, o, p, old, s', o'. split; [exact R|]. split; [exact E0|]. split; [exact E1|]. split; [exact E2|exact K].
Qed.
Theorem calm_handles : forall (ops1 ops2 : list (op V)) ls e, names_from L (ops1 ++ ops2) -> wf_labels ls -> Forall L ls -> Forall (leaves ls) ops2 ->
  e_value e <> None -> exists s1 s2, reached md ops1 s1 /\ reached md (ops1 ++ ops2) s2 /\
  (view md ls s1 = (Ok (Some e), s1) -> view md ls s2 = (Ok (Some e), s2)).
Proof.
  intros ops1 ops2 ls e NF W F LV NV. destruct (hist _ _ (handles md sp ops1 ops2 ls e (ops_ok _ NF) W (in_scope _ F) LV NV)) as (s1 & R & X).
  destruct (tot _ _ _ _ X) as ([] & s2 & E1 & Y). exists s1, s2. split; [exact R|]. split; [apply (reached_app md ops1 ops2 s1 s2 R); exact E1|].
  intros VW. destruct (tot _ _ _ _ (Y VW)) as (o & s3 & E2 & -> & ->). exact E2.
Qed.
End M.
End A.

(** ASCII labels are a set without overflow; so are the labels that begin with an octet over 127 that stays clear of ASCII. *)
Lemma octets_bound : forall (k : N -> Prop) x y p, Forall k x -> Forall k y -> clash_octets x y = Some p -> k (fst p) /\ k (snd p).
Proof.
  intros k x. induction x as [|a x IH]; intros [|b y] p Fx Fy C; try discriminate. inversion Fx; inversion Fy; subst. cbn in C. destruct (a =? b)%N; [eauto|]. inversion C. auto.
Qed.
Lemma ascii_no_overflow : no_overflow ascii.
Proof.
  intros x y [a b] Fx Fy C.
  assert (G : forall z : label, Forall (fun c => c < 128)%N z -> Forall (fun c => c < 128)%N (lc_label z)).
  { intros z F. unfold lc_label. apply Forall_map. eapply Forall_impl; [|exact F]. intros c Hc. cbn beta in *. unfold lc. destruct (N.leb_spec 65 c), (N.leb_spec c 90); cbn; lia. }
  destruct (octets_bound _ _ _ _ (G _ Fx) (G _ Fy) C) as [A B]. cbn [fst snd] in A, B. unfold overflows, signed. cbn [fst snd].
  destruct (N.ltb_spec a 128), (N.ltb_spec b 128); lia.
Qed.
Lemma high_no_overflow : no_overflow (Forall (fun c => 128 <= c < 256)%N).
Proof.
  intros x y [a b] Fx Fy C.
  assert (G : forall z : label, Forall (fun c => 128 <= c < 256)%N z -> Forall (fun c => 128 <= c < 256)%N (lc_label z)).
  { intros z F. unfold lc_label. apply Forall_map. eapply Forall_impl; [|exact F]. intros c Hc. cbn beta in *. unfold lc. destruct (N.leb_spec 65 c), (N.leb_spec c 90); cbn; lia. }
  destruct (octets_bound _ _ _ _ (G _ Fx) (G _ Fy) C) as [A B]. cbn [fst snd] in A, B. unfold overflows, signed. cbn [fst snd].
  destruct (N.ltb_spec a 128), (N.ltb_spec b 128); lia.
Qed.

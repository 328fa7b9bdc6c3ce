(** What exactly a cloned domain tree contains. *)
From Coq Require Import Permutation Sorted.
From Verif Require Import Base BaseLemmas NameModel TreeModel SpecName SpecOrd SpecScope OrdBase SpecTree SpecHist SpecHist2 NameCmpProofs NameCmpProofs2 TreeProofs PermTac TreeProofs2 TreeProofs3 TreeProofs4
  TreePure TreePure2 TreeProofs5 TreeProofs6 TreeProofs7 TreeProofs8 TreeProofs9 TreeProofs10 TreeProofs11 TreeProofs12 TreeProofs13 TreeProofs14 TreeProofs15 TreeProofs16 TreeProofs17 TreeProofs18 TreeProofs21 TreeProofs22.
Open Scope list_scope.
Open Scope nat_scope.

Section A.
Context {V : Type} {SC : scope}.
Notation dtree := (dtree V). Notation tree := (tree V). Notation entry := (entry V).
Implicit Types (s : dtree) (t : tree).
Theorem clone_exact : forall md ops, (sc_panic -> md = Debug) -> Forall (op_ok true) ops -> wp (history md ops) tree_new (fun _ s => exists t, shape s t /\
  (t <> E -> exists s2 top e, clone s = Ok s2 /\ dt_len s2 = dt_len s /\ has t top e /\ (forall q e', has t q e' -> exists z, q = top ++ z) /\
     forall ls, wf_labels ls -> scoped ls -> wp (lookup md ls) s2 (fun p s' => s' = s2 /\
       (fst p = ExactMatch <-> labels_of ls = top) /\ (fst p = NotFound <-> ~ exists z, labels_of ls = top ++ z) /\ snd p = match fst p with NotFound => None | _ => e_value e end))).
Proof.
  intros md ops SP OK. eapply wp_mono; [apply good_ops; auto|]. intros [] s (t & n & x & H & TO & _ & X0).
  exists t. split; [eapply shape_inv; eauto|].
  intros NE. destruct (top_single _ TO) as [->|(i & d & ->)]; [congruence|]. destruct (clone_run _ _ _ _ _ H X0) as (s2 & E0 & RT & LN & NX & HS). exists s2, (key i), (ent i). split; [exact E0|].
  split; [rewrite LN; symmetry; apply H|]. split; [exists i; split; [eapply at_here; cbn; auto|reflexivity]|].
  split; [intros q e' (j & A & _); exact (at_top _ _ _ _ A)|].
  clear RT LN NX. inversion TO as [suf t0 (_ & _ & NO & SO) _]; subst suf t0. destruct (SO eq_refl) as [AI _]. cbn [elems map fst app] in NO, AI. inversion NO as [|? ? NI _]; subst. inversion AI as [|? ? AI1 _]; subst.
  intros ls W AS.
  assert (GV : get_value x s2 = (Ok (i_value i), s2)).
  { destruct HS as ((_ & F) & _). inversion F as [|? ? [[P1 _] P2] _]; subst. cbn [fst snd i_ptr cell pt] in *. unfold get_value, bind, deref, is_null. rewrite (proj2 (Nat.eqb_neq _ 0)) by lia. rewrite P2. reflexivity. }
  assert (HX : has (solo i x) (key i) (mkEnt x (i_value i) false false)) by (apply solo_has; auto).
  assert (FIN : forall r2, find_spec (solo i x) (labels_of ls) r2 -> (fr_flag r2 = ExactMatch <-> labels_of ls = key i) /\ (fr_flag r2 = NotFound <-> ~ exists z, labels_of ls = key i ++ z)).
  { intros r2 F3. unfold find_spec in F3. destruct (fr_flag r2) eqn:F2.
    - destruct F3 as (e & HA & EP). apply solo_has in HA. destruct HA as [EQ _]. split; [tauto|]. split; [discriminate|]. intros N. exfalso. apply N. exists []. rewrite app_nil_r. exact EQ.
    - destruct F3 as [_ F3]. assert (N : ~ exists z, labels_of ls = key i ++ z) by (intros (z & EZ); exact (F3 _ _ _ EZ HX)). split; [|tauto]. split; [discriminate|]. intros EQ. exfalso. apply N. exists []. rewrite app_nil_r. exact EQ.
    - destruct F3 as (N & a & z & e & EQ & _ & HA & EP & _). apply solo_has in HA. destruct HA as [-> _]. split.
      + split; [discriminate|]. intros EK. exfalso. apply (N (mkEnt x (i_value i) false false)). rewrite EK. exact HX.
      + split; [discriminate|]. intros N2. exfalso. apply N2. eauto. }
  unfold lookup. apply wp_bind. eapply wp_mono; [eapply (solo_find md SP ls s2 i _ x n W AS NI AI1 HS)|]. intros r2 s' (-> & FS2). destruct (FIN _ FS2) as [FE FN]. clear FIN. unfold fr_value. unfold find_spec in FS2. destruct (fr_flag r2) eqn:F2.
  - destruct FS2 as (e & HA & EP). apply solo_has in HA. destruct HA as [_ ->]. cbn [e_ptr] in EP. rewrite <- EP. apply wp_bind. eapply wp_ok; [exact GV|]. apply wp_ret. split; [reflexivity|]. cbn [fst snd]. auto.
  - apply wp_bind. apply wp_ret. apply wp_ret. split; [reflexivity|]. cbn [fst snd]. auto.
  - destruct FS2 as (_ & a & z & e & _ & _ & HA & EP & _). apply solo_has in HA. destruct HA as [_ ->]. cbn [e_ptr] in EP. rewrite <- EP. apply wp_bind. eapply wp_ok; [exact GV|]. apply wp_ret. split; [reflexivity|]. cbn [fst snd]. auto.
Qed.
End A.
Section C.
Context {V : Type}.
Variable L : label -> Prop.
Hypothesis NO : no_overflow L.
Theorem calm_clone_exact : forall md (ops : list (op V)), names_from L ops -> exists s t, reached md ops s /\ shape s t /\
  (t <> E -> exists s2 top e, clone s = Ok s2 /\ dt_len s2 = dt_len s /\ has t top e /\ (forall q e', has t q e' -> exists z, q = top ++ z) /\
     forall ls, wf_labels ls -> Forall L ls -> exists fl v, lookup md ls s2 = (Ok (fl, v), s2) /\
       (fl = ExactMatch <-> labels_of ls = top) /\ (fl = NotFound <-> ~ exists z, labels_of ls = top ++ z) /\ v = match fl with NotFound => None | _ => e_value e end).
Proof.
  intros md ops NF. destruct (hist L NO md _ _ (clone_exact (SC := calm_scope L NO) md ops (sp L NO md) (ops_ok L NO _ NF))) as (s & R & t & SH & C1). exists s, t. split; [exact R|]. split; [exact SH|].
  intros NE. destruct (C1 NE) as (s2 & top & e & A1 & A2 & A3 & A4 & X). exists s2, top, e. split; [exact A1|]. split; [exact A2|]. split; [exact A3|]. split; [exact A4|]. intros ls W F.
  destruct (tot L NO _ _ _ _ (X ls W (in_scope L NO _ F))) as ([fl v] & s1 & E1 & -> & Y). exists fl, v. split; [exact E1|exact Y].
Qed.
End C.
Section D.
Context {V : Type}.
Existing Instance any_scope.
Theorem any_clone_exact : forall (ops : list (op V)) s, any_names ops -> reached Debug ops s -> exists t, shape s t /\
  (t <> E -> exists s2 top e, clone s = Ok s2 /\ dt_len s2 = dt_len s /\ has t top e /\ (forall q e', has t q e' -> exists z, q = top ++ z) /\
     forall ls, wf_labels ls -> fst (lookup Debug ls s2) = Panic \/ exists fl v, lookup Debug ls s2 = (Ok (fl, v), s2) /\
       (fl = ExactMatch <-> labels_of ls = top) /\ (fl = NotFound <-> ~ exists z, labels_of ls = top ++ z) /\ v = match fl with NotFound => None | _ => e_value e end).
Proof.
  intros ops s NF R. destruct (dhist _ _ _ (clone_exact Debug ops spd (any_ops _ NF)) R) as (t & SH & C1). exists t. split; [exact SH|].
  intros NE. destruct (C1 NE) as (s2 & top & e & A1 & A2 & A3 & A4 & X). exists s2, top, e. split; [exact A1|]. split; [exact A2|]. split; [exact A3|]. split; [exact A4|]. intros ls W.
  destruct (pan _ _ _ _ (X ls W (in_any _))) as [P|([fl v] & s1 & E1 & -> & Y)]; [left; exact P|right]. exists fl, v. split; [exact E1|exact Y].
Qed.
End D.

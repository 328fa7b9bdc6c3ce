(** The property lemmas of the domain tree: height, and what callers see after a history of calls. *)
From Coq Require Import Permutation Sorted.
From Verif Require Import Base BaseLemmas NameModel TreeModel SpecName SpecOrd SpecScope OrdBase SpecTree SpecHist NameCmpProofs2 TreeProofs PermTac TreeProofs2 TreeProofs3 TreeProofs4
  TreePure TreePure2 TreeProofs5 TreeProofs6 TreeProofs7 TreeProofs8 TreeProofs9 TreeProofs10 TreeProofs11 TreeProofs12 TreeProofs13 TreeProofs14.
Open Scope list_scope.
Open Scope nat_scope.

Section A.
Context {V : Type} {SC : scope}.
Notation node := (node V). Notation dtree := (dtree V). Notation info := (info V). Notation tree := (tree V). Notation entry := (entry V).
Notation frame := (@frame V). Notation ctx := (@ctx V).
Implicit Types (s : dtree) (t : tree) (i : info) (k kl kr : ctx) (f : frame).

(** * Height *)
Lemma rb_size : forall t n, rb t n -> 2 ^ n <= S (length (elems t)).
Proof.
  induction 1 as [|l i d r n A IHA B IHB|l i d r n A IHA B IHB C D]; cbn [elems Nat.pow]; [cbn; lia| |]; rewrite app_length; cbn [length]; lia.
Qed.
Lemma rb_height : forall t n, rb t n -> height t <= 2 * n + (match col t with Red => 1 | Black => 0 end).
Proof.
  induction 1 as [|l i d r n A IHA B IHB|l i d r n A IHA B IHB C D]; cbn [height col]; [lia| |].
  - destruct (col l), (col r); lia.
  - rewrite C in IHA. rewrite D in IHB. lia.
Qed.
Lemma level_height : forall t, (exists n, rb t n) -> col t = Black -> height t <= 2 * Nat.log2 (S (length (elems t))).
Proof.
  intros t (n & R) C. pose proof (rb_height _ _ R) as H. rewrite C in H. pose proof (rb_size _ _ R) as Z.
  assert (n <= Nat.log2 (S (length (elems t)))). { apply Nat.log2_le_pow2; [lia|exact Z]. } lia.
Qed.
Lemma lvl_mono : forall (P Q : list label -> tree -> Prop), (forall suf t, P suf t -> Q suf t) -> forall suf t, lvl P suf t -> lvl Q suf t.
Proof. intros P Q M. induction 1 as [suf t H _ IH]. constructor; auto. Qed.

Lemma shape_inv : forall s t n x, inv s [] t n x -> shape s t.
Proof. intros s t n x (A & B & _). split; [exact B|exact A]. Qed.
Lemma inv_len : forall s k t n x, inv s k t n x -> dt_len s = n.
Proof. intros s k t n x (_ & _ & A & _). exact A. Qed.

(** steps that do not compare labels never panic: run them in a scope without labels *)
Definition quiet : scope.
Proof. refine {| sc_in := fun x => x = []; sc_panic := False |}; [reflexivity|]. intros x y p -> -> H. discriminate. Defined.
Lemma ok_quiet : forall asc t, tree_ok asc t -> @tree_ok V quiet false t.
Proof. intros asc t H. eapply lvl_mono; [|exact H]. intros suf u (A & B & C & _). split; [exact A|]. split; [exact B|]. split; [exact C|discriminate]. Qed.
Lemma quiet_total : forall A (m : MT V A) s (Q : A -> dtree -> Prop), @wp V quiet A m s Q -> exists a s', m s = (Ok a, s') /\ Q a s'.
Proof. intros A m s Q H. apply (@wp_total V quiet) in H; [exact H|]. intros X. exact X. Qed.
Lemma good_quiet : forall asc s t n x, good asc s t n x -> @good V quiet false s t n x.
Proof. intros asc s t n x (A & B & C). split; [exact A|]. split; [eapply ok_quiet; eauto|exact C]. Qed.

(** * C53, C50: every history *)
Theorem history_safe : forall asc md ops, sound_build asc md -> Forall (op_ok asc) ops ->
  wp (history md ops) tree_new (fun _ s => exists t, shape s t /\ tree_ok asc t).
Proof.
  intros asc md ops SM OK. eapply wp_mono; [apply (reached_good asc md (fun _ _ _ _ _ => True) ops SM OK I); auto|]. intros [] s (t & n & x & (H & TO & _) & _).
  exists t. split; [eapply shape_inv; eauto|exact TO].
Qed.

Lemma history_app : forall md (a b : list (op V)) s, history md (a ++ b) s = bind (history md a) (fun _ => history md b) s.
Proof.
  intros md a. induction a as [|o a IH]; intros b s; [reflexivity|]. cbn [app history]. unfold bind at 1 2 3. destruct (do_op md o s) as [[u| | |] s1]; auto. rewrite IH. reflexivity.
Qed.
Lemma reached_app : forall md (a b : list (op V)) s s', reached md a s -> (history md b s = (Ok tt, s') <-> reached md (a ++ b) s').
Proof. intros md a b s s' R. unfold reached in *. rewrite history_app. unfold bind. rewrite R. reflexivity. Qed.
(** * C47: the map *)
Section M.
Variable md : mode.
Hypothesis SP : sc_panic -> md = Debug.
Lemma sound_true : sound_build true md.
Proof. split; [discriminate|]. intros _. exact SP. Qed.
Lemma safe_true : safe_md true md.
Proof. exact sound_true. Qed.
Lemma good_ops : forall ops, Forall (op_ok true) ops -> wp (history md ops) tree_new (fun _ s => exists t n x, good true s t n x).
Proof.
  intros ops OK. eapply wp_mono; [apply (reached_good true md (fun _ _ _ _ _ => True) ops sound_true OK I); auto|]. intros [] s (t & n & x & G & _). eauto.
Qed.
Lemma map_good : forall ops, Forall (op_ok true) ops -> Forall map_op ops -> wp (history md ops) tree_new (fun _ s => exists t n x, good true s t n x /\ rel t (map_after ops)).
Proof.
  intros ops OK MO. apply (reached_good true md (fun pre s t n x => rel t (map_after pre)) ops sound_true OK).
  - apply rel_E.
  - intros o pre s t n x s' t' n' x' I R ((_ & TO & _) & _ & _ & _ & EF). unfold map_after. rewrite apply_app. rewrite Forall_forall in MO. eapply rel_step; eauto.
Qed.
Lemma find_value : forall s t n x e q p, inv s [] t n x -> has t q e -> e_ptr e = p -> get_value p s = (Ok (e_value e), s).
Proof.
  intros s t n x e q p H (i & A & <-) <-. destruct H as ((_ & F) & _). rewrite Forall_forall in F.
  assert (PT : exists nd, In (i_ptr i, nd) (whole [] t) /\ nd_value nd = i_value i).
  { unfold whole. cbn [kcells app kpar krt]. generalize null true. clear F. induction A as [t i d I|t i d q j I A IH]; intros par rt.
    - revert par rt. induction t as [|c l IHl i0 d0 _ r IHr]; intros par rt; cbn [elems] in I; [inversion I|]. apply in_app_or in I. cbn [In] in I. cbn [cells]. destruct I as [I|[I|I]].
      + destruct (IHl I (i_ptr i0) false) as (nd & X & Y). exists nd. split; auto. right. apply in_or_app. auto.
      + inversion I; subst. eexists. split; [left; reflexivity|reflexivity].
      + destruct (IHr I (i_ptr i0) false) as (nd & X & Y). exists nd. split; auto. right. apply in_or_app. right. apply in_or_app. auto.
    - revert par rt. induction t as [|c l IHl i0 d0 _ r IHr]; intros par rt; cbn [elems] in I; [inversion I|]. apply in_app_or in I. cbn [In] in I. cbn [cells]. destruct I as [I|[I|I]].
      + destruct (IHl I (i_ptr i0) false) as (nd & X & Y). exists nd. split; auto. right. apply in_or_app. auto.
      + inversion I; subst. destruct (IH (i_ptr i) true) as (nd & X & Y). exists nd. split; auto. right. apply in_or_app. right. apply in_or_app. auto.
      + destruct (IHr I (i_ptr i0) false) as (nd & X & Y). exists nd. split; auto. right. apply in_or_app. right. apply in_or_app. auto. }
  destruct PT as (nd & I & EV). destruct (F _ I) as [[P1 _] P2]. cbn [fst snd] in *. cbn [e_ptr e_value ent]. unfold get_value, bind, deref, is_null. rewrite (proj2 (Nat.eqb_neq (i_ptr i) 0)) by lia. rewrite P2. unfold ret. rewrite EV. reflexivity.
Qed.
Lemma find_run : forall ls s t n x, wf_labels ls -> scoped ls -> inv s [] t n x -> tree_ok true t -> wp (find md (name_of ls)) s (fun r s' => s' = s /\ find md (name_of ls) s = (Ok r, s) /\ find_spec t (labels_of ls) r).
Proof.
  intros ls s t n x W AS H TO. destruct (wp_find true md ls s t n x W (fun _ => AS) safe_true H TO) as [(r & s' & E0 & -> & _ & _ & FS)|PN]; [|right; exact PN]. left. exists r, s. split; [exact E0|]. split; auto.
Qed.
(** what [lookup] shows, given the outcome of [find] *)
Definition seen_by t (ls : list label) (r : find_result) (v : option V) : Prop :=
  find_spec t (labels_of ls) r /\
  match fr_flag r with NotFound => v = None | _ => exists q e, has t q e /\ e_ptr e = fr_node r /\ v = e_value e /\ (fr_flag r = ExactMatch -> q = labels_of ls) end.
Lemma lookup_run : forall ls s t n x, wf_labels ls -> scoped ls -> inv s [] t n x -> tree_ok true t ->
  wp (lookup md ls) s (fun p s' => s' = s /\ exists r, find md (name_of ls) s = (Ok r, s) /\ fst p = fr_flag r /\ seen_by t ls r (snd p)).
Proof.
  intros ls s t n x W AS H TO. unfold lookup. apply wp_bind. eapply wp_mono; [eapply find_run; eauto|]. intros r s' (-> & E0 & FS). pose proof FS as F2. unfold find_spec in F2. unfold fr_value, seen_by. destruct (fr_flag r) eqn:FL.
  - destruct F2 as (e & HA & EP). apply wp_bind. eapply wp_ok; [exact (find_value _ _ _ _ _ _ _ H HA EP)|]. apply wp_ret. split; auto. exists r. cbn [fst snd]. rewrite FL. repeat split; auto. exists (labels_of ls), e. auto.
  - apply wp_bind. apply wp_ret. apply wp_ret. split; auto. exists r. cbn [fst snd]. rewrite FL. auto.
  - destruct F2 as (_ & a & z & e & E1 & NZ & HA & EP & _). apply wp_bind. eapply wp_ok; [exact (find_value _ _ _ _ _ _ _ H HA EP)|]. apply wp_ret. split; auto. exists r. cbn [fst snd]. rewrite FL. repeat split; auto. exists a, e. repeat split; auto. discriminate.
Qed.
Theorem map_lookup : forall ops, Forall (op_ok true) ops -> Forall map_op ops -> wp (history md ops) tree_new (fun _ s =>
  forall ls, wf_labels ls -> scoped ls -> wp (lookup md ls) s (fun p s' => s' = s /\
    (fst p = ExactMatch -> snd p = map_after ops (labels_of ls)) /\ (map_after ops (labels_of ls) <> None -> fst p = ExactMatch))).
Proof.
  intros ops OK MO. eapply wp_mono; [apply map_good; auto|]. intros [] s (t & n & x & (H & TO & _) & [RA RB]) ls W AS.
  eapply wp_mono; [eapply lookup_run; eauto|]. intros [fl v] s' (-> & r & _ & EF & FS & X). cbn [fst snd] in *. subst fl. split; auto. unfold find_spec in FS. destruct (fr_flag r) eqn:FL.
  - split; [|auto]. intros _. destruct X as (q & e & HA & _ & -> & EQ). rewrite (EQ eq_refl) in HA. auto.
  - split; [discriminate|]. intros NM. destruct (map_after ops (labels_of ls)) as [w|] eqn:M; [|congruence]. destruct (RB _ _ M) as (e & HA). destruct FS as [_ FS]. exfalso. apply (FS (labels_of ls) [] e); [rewrite app_nil_r; reflexivity|exact HA].
  - split; [discriminate|]. intros NM. destruct (map_after ops (labels_of ls)) as [w|] eqn:M; [|congruence]. destruct (RB _ _ M) as (e & HA). destruct FS as [FS _]. exfalso. exact (FS e HA).
Qed.
Theorem map_insert : forall ops, Forall (op_ok true) ops -> Forall map_op ops -> wp (history md ops) tree_new (fun _ s =>
  forall ls v, wf_labels ls -> scoped ls -> wp (insert md (name_of ls) v) s (fun r s' =>
    match snd r with Some o => o | None => None end = map_after ops (labels_of ls) /\ get_value (fst r) s' = (Ok v, s'))).
Proof.
  intros ops OK MO. eapply wp_mono; [apply map_good; auto|]. intros [] s (t & n & x & (H & TO & _ & X0) & [RA RB]) ls v W AS.
  eapply wp_mono; [eapply (wp_insert true md ls v s t n x W (fun _ => AS) safe_true H X0 TO)|]. intros [p old] s' (t' & n' & x' & H' & TO' & _ & _ & IS). specialize (IS eq_refl). cbn [fst snd] in *. change (qof ls) with (labels_of ls) in IS. set (q := labels_of ls) in *.
  destruct IS as (X & X1 & X2). 
  assert (HV : forall q' e, (has t q' e \/ exists a px, X = Some (a, px) /\ q' = a /\ e = mkEnt px None false false) -> e_value e = map_after ops q').
  { intros q' e [HA|(a & px & -> & -> & ->)]; [auto|]. cbn [e_value]. destruct (map_after ops a) as [w|] eqn:M; auto. destruct (X1 _ _ eq_refl) as (_ & _ & N & _). destruct (RB _ _ M) as (e & HA). exfalso. exact (N _ HA). }
  destruct X2 as [(e & E1 & -> & -> & X2)|(NH & -> & _ & X2)].
  - split; [auto|]. assert (HA : has t' q (mkEnt (e_ptr e) v (e_cb e) (e_wild e))) by (apply X2; right; auto). exact (find_value _ _ _ _ _ _ _ H' HA eq_refl).
  - split.
    + destruct (map_after ops q) as [w|] eqn:M; auto. destruct (RB _ _ M) as (e & HA). exfalso. apply (NH e). left. exact HA.
    + assert (HA : has t' q (mkEnt p v false false)) by (apply X2; right; auto). exact (find_value _ _ _ _ _ _ _ H' HA eq_refl).
Qed.

(** * C48: closest enclosing node *)
Theorem find_closest : forall ops, Forall (op_ok true) ops -> wp (history md ops) tree_new (fun _ s => exists t, shape s t /\
  forall ls, wf_labels ls -> scoped ls -> wp (find md (name_of ls)) s (fun r s' => s' = s /\ find_spec t (labels_of ls) r)).
Proof.
  intros ops OK. eapply wp_mono; [apply good_ops; auto|]. intros [] s (t & n & x & H & TO & _).
  exists t. split; [eapply shape_inv; eauto|]. intros ls W AS. eapply wp_mono; [eapply find_run; eauto|]. intros r s' (-> & _ & FS). auto.
Qed.
Theorem find_inserted : forall ops, Forall (op_ok true) ops -> Forall map_op ops -> wp (history md ops) tree_new (fun _ s =>
  forall ls, wf_labels ls -> scoped ls -> wp (lookup md ls) s (fun p s' => s' = s /\
    (forall a z, labels_of ls = a ++ z -> map_after ops a <> None -> fst p <> NotFound) /\
    (fst p = PartialMatch -> exists a z, labels_of ls = a ++ z /\ z <> [] /\ snd p = map_after ops a /\ forall a' z', labels_of ls = a' ++ z' -> map_after ops a' <> None -> length a' <= length a))).
Proof.
  intros ops OK MO. eapply wp_mono; [apply map_good; auto|]. intros [] s (t & n & x & (H & TO & _) & [RA RB]) ls W AS.
  eapply wp_mono; [eapply lookup_run; eauto|]. intros [fl v] s' (-> & r & _ & EF & FS & X). cbn [fst snd] in *. subst fl. split; auto. unfold find_spec in FS. split.
  - intros a z EQ NM FL. rewrite FL in FS. destruct (map_after ops a) as [w|] eqn:M; [|congruence]. destruct (RB _ _ M) as (e & HA). destruct FS as [_ FS]. exact (FS a z e EQ HA).
  - intros FL. rewrite FL in FS, X. destruct FS as (_ & a & z & e & EQ & NZ & HA & EP & MX). destruct X as (q & e' & HA' & EP' & -> & _).
    assert (PI : e_ptr e' = e_ptr e) by congruence. destruct (has_ptr_inj _ _ _ _ _ _ _ _ H HA' HA PI) as [-> ->].
    exists a, z. split; auto. split; auto. split; [auto|]. intros a' z' EQ' NM. destruct (map_after ops a') as [w|] eqn:M; [|congruence]. destruct (RB _ _ M) as (e' & HB). eauto.
Qed.

(** * C49: remove *)
Theorem remove_any : forall ops, Forall (op_ok true) ops -> wp (history md ops) tree_new (fun _ s => exists t, shape s t /\
  forall ls, wf_labels ls -> scoped ls -> wp (remove md (name_of ls)) s (fun old s' => exists t', shape s' t' /\ remove_spec t t' (labels_of ls) old)).
Proof.
  intros ops OK. eapply wp_mono; [apply good_ops; auto|]. intros [] s (t & n & x & G). pose proof G as (H & TO & _).
  exists t. split; [eapply shape_inv; eauto|]. intros ls W AS. eapply wp_mono; [apply (wp_remove true md ls s t n x W (fun _ => AS) safe_true G)|]. intros old s' (t' & n' & (H' & _) & _ & RS).
  exists t'. split; [eapply shape_inv; eauto|]. apply RS. reflexivity.
Qed.
Theorem remove_exact : forall ops, Forall (op_ok true) ops -> Forall map_op ops -> wp (history md ops) tree_new (fun _ s =>
  forall ls, wf_labels ls -> scoped ls -> wp (lookup md ls) s (fun p s1 => s1 = s /\ wp (remove md (name_of ls)) s (fun old s' =>
    (fst p = ExactMatch -> old = map_after ops (labels_of ls) /\ (reached md ops s -> reached md (ops ++ [ODelete ls]) s')) /\
    (fst p = NotFound -> old = None /\ s' = s)))).
Proof.
  intros ops OK MO. eapply wp_mono; [apply map_good; auto|]. intros [] s (t & n & x & G & [RA RB]) ls W AS. pose proof G as (H & TO & _).
  eapply wp_mono; [eapply lookup_run; eauto|]. intros [fl v] s1 (-> & r & FR & EF & FS & X). cbn [fst snd] in *. subst fl. split; auto.
  destruct (wp_remove true md ls s t n x W (fun _ => AS) safe_true G) as [(old & s' & E0 & t' & n' & G' & _ & RS)|PN]; [|right; exact PN]. specialize (RS eq_refl). change (qof ls) with (labels_of ls) in RS. left. exists old, s'. split; [exact E0|]. unfold find_spec in FS. split; intros FL; rewrite FL in *.
  - destruct X as (q & e & HA & EP & -> & EQ). specialize (EQ eq_refl). subst q. split.
    + destruct RS as [(a & z & e' & E1 & HA' & MX & -> & RS)|(N & _)]; [|exfalso; apply (N (labels_of ls) [] e); [rewrite app_nil_r; reflexivity|exact HA]].
      assert (length (labels_of ls) <= length a) by (apply (MX (labels_of ls) [] e); [rewrite app_nil_r; reflexivity|exact HA]).
      assert (z = []) by (rewrite E1, app_length in *; destruct z; auto; cbn in *; lia). subst z. rewrite app_nil_r in E1. subst a. auto.
    + intros R. apply (proj1 (reached_app md ops [ODelete ls] s s' R)). cbn [history do_op]. unfold on_exact, bind at 1 2. rewrite FR, FL. unfold remove, bind at 1 in E0. rewrite FR in E0.
      destruct (is_null (fr_node r)) eqn:NU.
      { exfalso. apply Nat.eqb_eq in NU. destruct HA as (i & A & <-). cbn [e_ptr ent] in EP. pose proof (at_ptr _ _ _ A null true) as PI. destruct H as ((_ & F) & _). unfold whole in F. cbn [kcells app kpar krt] in F. unfold ptrs in PI. apply in_map_iff in PI. destruct PI as (pn & EF & PI). rewrite Forall_forall in F. apply F in PI. destruct PI as [[PI _] _]. unfold ptr in *. rewrite EF in PI. lia. }
      cbn [negb] in E0. unfold bind. rewrite E0. reflexivity.
  - unfold remove, bind in E0. rewrite FR in E0. destruct FS as [FN _]. rewrite FN in E0. cbn in E0. inversion E0. auto.
Qed.

(** * C54: absolute names *)
Lemma clean_good : forall ops, Forall (op_ok true) ops -> Forall (fun o => Forall no_nul_end (op_name o)) ops -> wp (history md ops) tree_new (fun _ s => exists t n x, good true s t n x /\ clean t).
Proof.
  intros ops OK NN. apply (reached_good true md (fun pre s t n x => clean t) ops sound_true OK).
  - intros q e (j & HA & _). inversion HA; contradiction.
  - intros o pre s t n x s' t' n' x' I C (_ & _ & _ & _ & EF). rewrite Forall_forall in NN. eapply clean_step; eauto.
Qed.
Definition named_by s t (ls : list label) (r : find_result) (ch : chain) : Prop :=
  fr_flag r <> NotFound -> exists ch' nm ns e, chain_pop ch = Ok (fr_node r, ch') /\ get_name (fr_node r) s = (Ok nm, s) /\
     get_absolute_name ch' nm s = (Ok (name_of ns), s) /\ wf_labels ns /\ has t (labels_of ns) e /\ e_ptr e = fr_node r /\ (fr_flag r = ExactMatch -> same_name ns ls).
Theorem chain_name : forall ops, Forall (op_ok true) ops -> Forall (fun o => Forall no_nul_end (op_name o)) ops -> wp (history md ops) tree_new (fun _ s => exists t, shape s t /\
  forall ls, wf_labels ls -> scoped ls -> wp (find_node md (name_of ls) chain_new) s (fun rc s' => s' = s /\ find_spec t (labels_of ls) (fst rc) /\ named_by s t ls (fst rc) (snd rc))).
Proof.
  intros ops OK NN. eapply wp_mono; [apply clean_good; auto|]. intros [] s (t & n & x & (H & TO & _) & C). exists t. split; [eapply shape_inv; eauto|]. intros ls W AS.
  destruct (wp_find_chain true md ls s t n x W (fun _ => AS) safe_true H TO) as [([r ch] & s' & E0 & -> & X)|PN]; [|right; exact PN]. left. exists (r, ch), s. split; [exact E0|]. split; [reflexivity|]. cbn [fst snd] in *.
  assert (FS : find_spec t (labels_of ls) r).
  { destruct (find_run ls s t n x W AS H TO) as [(r' & s' & E1 & _ & _ & FS)|(_ & s' & E1)]; unfold find, bind in E1; rewrite E0 in E1; inversion E1; subst r'; exact FS. }
  split; [exact FS|]. intros NF. destruct X as [X|(k & c & l & i & d & r0 & ch' & -> & EP & PO & CK)]; [contradiction|]. cbn [fst snd] in *.
  assert (HI : inv s k (T c l i d r0) n x) by (rewrite <- (app_nil_r k); apply inv_plug; exact H).
  pose proof (clean_labs _ C) as CL.
  assert (NNi : Forall (fun i => Forall no_nul_end (i_labels i)) (i :: kanc k)).
  { apply Forall_forall. intros j Ij. apply Forall_forall. intros z Iz. rewrite Forall_forall in CL. apply CL. apply labs_plug. destruct Ij as [<-|Ij]; [right; cbn [labs]; apply in_or_app; auto|left; eapply kanc_labs; eauto]. }
  destruct (quiet_total _ _ _ _ (@wp_abs_name V quiet false s k c l i d r0 n x ch' HI (ok_quiet _ _ TO) CK NNi)) as (nm & s' & E1 & -> & ->). destruct (node_facts _ _ _ _ _ _ _ TO) as [NO _].
  exists ch', (seqf (i_labels i)), (removelast (i_labels i ++ ksuf k)), (ent i). split; [exact PO|]. rewrite <- EP.
  split.
  { unfold inv, whole in HI. cbn [cells] in HI. destruct HI as ((_ & F) & _). rewrite Forall_forall in F.
    assert (IN := in_elt (i_ptr i, cell c (krt true k) i (pt l) (pt r0) (kpar null k) (pt d)) (kcells null true k (pt (T c l i d r0))) (cells (i_ptr i) false l ++ cells (i_ptr i) true d ++ cells (i_ptr i) false r0)).
    apply F in IN. cbn [fst snd] in IN. destruct IN as [[P1 _] P2]. unfold get_name, bind, deref, is_null. rewrite (proj2 (Nat.eqb_neq (i_ptr i) 0)) by lia. rewrite P2. reflexivity. }
  split; [exact E1|]. split; [apply (name_ok_full _ _ NO)|]. rewrite (kpre_labels k i NO). split; [apply has_here|]. split; [reflexivity|].
  intros FL. unfold find_spec in FS. rewrite FL in FS. destruct FS as (e & HA & EPe). destruct (has_ptr_inj _ _ _ _ _ _ _ _ H HA (has_here k c l i d r0)) as [EQ _]; [rewrite EPe; symmetry; exact EP|].
  rewrite <- (kpre_labels k i NO) in EQ. unfold labels_of in EQ. apply (f_equal (@rev _)) in EQ. rewrite !rev_involutive in EQ. unfold lc_labels in EQ. rewrite !map_app in EQ. apply app_inv_tail in EQ. symmetry. exact EQ.
Qed.

(** * C55: callbacks *)
Theorem callbacks : forall ops, Forall (op_ok true) ops -> Forall (fun o => Forall no_nul_end (op_name o)) ops -> wp (history md ops) tree_new (fun _ s => exists t, shape s t /\
  forall P (cb : option (callback P)) (p0 : P) ls, wf_labels ls -> scoped ls -> wp (find_node_ext md (name_of ls) chain_new cb p0) s (fun rcp s' => s' = s /\
    find_ext_spec cb t (labels_of ls) p0 (fst (fst rcp)) (snd (fst rcp)) (snd rcp))).
Proof.
  intros ops OK NN. eapply wp_mono; [apply clean_good; auto|]. intros [] s (t & n & x & (H & TO & _) & C). exists t. split; [eapply shape_inv; eauto|]. intros P cb p0 ls W AS.
  eapply wp_mono; [apply (wp_find_ext P true md ls cb s t n x p0 W (fun _ => AS) safe_true H TO (or_intror (clean_labs _ C)))|]. intros [[r ch] p] s' (-> & _ & _ & X).
  split; [reflexivity|]. apply X. reflexivity.
Qed.
End M.
End A.

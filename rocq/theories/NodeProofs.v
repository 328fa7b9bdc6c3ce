(** Proofs for C109: handles of nodes. *)
From Coq Require Import Permutation Sorted.
From Verif Require Import Base BaseLemmas NameModel TreeModel NodeModel SpecName SpecOrd SpecScope OrdBase SpecTree SpecHist SpecHist2 SpecNode NameCmpProofs NameCmpProofs2 TreeProofs PermTac TreeProofs2 TreeProofs3 TreeProofs4
  TreePure TreePure2 TreeProofs5 TreeProofs6 TreeProofs7 TreeProofs8 TreeProofs9 TreeProofs10 TreeProofs11 TreeProofs12 TreeProofs13 TreeProofs14 TreeProofs15 TreeProofs16 TreeProofs17 TreeProofs18 TreeProofs21 TreeProofs22 SpecSlice SpecDump DumpProofs TreeProofs24 OrdName.
Open Scope list_scope.
Open Scope nat_scope.

Section A.
Context {V : Type}.
Notation dtree := (dtree V). Notation tree := (tree V). Notation info := (info V).
Implicit Types (s : dtree) (t : tree).

Lemma shown_elem : forall t, shown t -> forall i d, In (i, d) (elems t) -> seq_shape (i_labels i) /\ i_labels i <> [] /\ shown d.
Proof.
  induction t as [|c l IHl i0 d0 _ r IHr]; intros S i d I; [destruct I|]. cbn [shown] in S. destruct S as (A & B & C & D & F). cbn [elems] in I. apply in_app_or in I. cbn [In] in I.
  destruct I as [I|[I|I]]; [eauto| |eauto]. inversion I; subst. auto.
Qed.
Lemma shown_at : forall t q i, at_ t q i -> shown t -> seq_shape (i_labels i) /\ i_labels i <> [].
Proof.
  induction 1 as [t i d I|t i d q j I A IH]; intros S; destruct (shown_elem _ S _ _ I) as (X & Y & Z); auto.
Qed.
Lemma name_at : forall s t q i, shape s t -> at_ t q i -> get_name (i_ptr i) s = (Ok (seqf (i_labels i)), s).
Proof.
  intros s t q i [_ H] A. destruct (at_cell _ _ _ A null true) as (c & rt & l & r & p & d & I). destruct (holds_in _ _ _ _ H I) as [D _]. unfold get_name. rewrite (bind_ok _ _ _ _ _ _ D). reflexivity.
Qed.
Lemma cmp_at : forall md s t q i q' j, shape s t -> shown t -> at_ t q i -> at_ t q' j -> nodeptr_cmp md (i_ptr i) (i_ptr j) s = (signed_order md (i_labels i) (i_labels j), s).
Proof.
  intros md s t q i q' j SH SW A B. unfold nodeptr_cmp. rewrite (bind_ok _ _ _ _ _ _ (name_at _ _ _ _ SH A)), (bind_ok _ _ _ _ _ _ (name_at _ _ _ _ SH B)).
  destruct (shown_at _ _ _ A SW), (shown_at _ _ _ B SW). unfold lift. rewrite seq_cmp_exact by assumption. reflexivity.
Qed.
Lemma partial_cmp_is : forall md p q s, nodeptr_partial_cmp md p q s = (let! c := nodeptr_cmp (V := V) md p q in ret (Some c)) s.
Proof.
  intros md p q s. unfold nodeptr_partial_cmp, nodeptr_cmp. unfold bind, get_name, lift. unfold bind. unfold deref.
  destruct (is_null p); [reflexivity|]. destruct (dt_heap s p) as [np|]; [|reflexivity]. cbn. destruct (is_null q); [reflexivity|]. destruct (dt_heap s q) as [nq|]; [|reflexivity]. cbn. destruct (seq_cmp md (nd_name np) (nd_name nq)); reflexivity.
Qed.
Theorem node_cmp : forall md (ops : list (op V)) s, any_names ops -> reached md ops s -> exists t, shape s t /\
  forall q i q' j, at_ t q i -> at_ t q' j ->
    nodeptr_cmp md (i_ptr i) (i_ptr j) s = (signed_order md (i_labels i) (i_labels j), s) /\
    nodeptr_partial_cmp md (i_ptr i) (i_ptr j) s = ((let? c := signed_order md (i_labels i) (i_labels j) in Ok (Some c)), s) /\
    (nodeptr_eq (i_ptr i) (i_ptr j) = true <-> q = q' /\ i = j).
Proof.
  intros md ops s W R. destruct (reached_shown md ops s W R) as (t & SH & SW). exists t. split; [exact SH|]. intros q i q' j A B. pose proof (cmp_at md _ _ _ _ _ _ SH SW A B) as C. split; [exact C|]. split.
  - rewrite partial_cmp_is. unfold bind. rewrite C. destruct (signed_order md (i_labels i) (i_labels j)); reflexivity.
  - unfold nodeptr_eq. rewrite Nat.eqb_eq. split; [|intros [_ ->]; reflexivity]. intros EQ. destruct SH as [_ [ND _]]. eapply at_ptr_inj; eauto.
Qed.

(** * The node above *)
Lemma level_root : forall t s i d par rt, In (i, d) (elems t) -> holds s (cells par rt t) -> exists m, 1 <= m <= height t /\
  forall k, subtree_root (m + k) (i_ptr i) s = if rt then (Ok (pt t), s) else subtree_root k par s.
Proof.
  induction t as [|c l IHl i0 d0 _ r IHr]; intros s i d par rt I H; [destruct I|]. cbn [elems] in I. apply in_app_or in I. cbn [In] in I.
  assert (HERE : forall k, subtree_root (S k) (i_ptr i0) s = if rt then (Ok (i_ptr i0), s) else subtree_root k par s).
  { intros k. cbn [cells] in H. destruct (holds_in _ _ _ _ H (or_introl eq_refl)) as [D _]. cbn [subtree_root]. rewrite (bind_ok _ _ _ _ s rt).
    - destruct rt; [reflexivity|]. unfold get_parent. rewrite (bind_ok _ _ _ _ s par); [reflexivity|]. rewrite (bind_ok _ _ _ _ _ _ D). reflexivity.
    - unfold is_subtree_root. rewrite (bind_ok _ _ _ _ _ _ D). unfold ret, cell. cbn [nd_flag]. f_equal. f_equal. destruct c, rt, (i_cb i0), (i_wild i0); reflexivity. }
  cbn [cells] in H. change ((i_ptr i0, cell c rt i0 (pt l) (pt r) par (pt d0)) :: cells (i_ptr i0) false l ++ cells (i_ptr i0) true d0 ++ cells (i_ptr i0) false r)
    with ([(i_ptr i0, cell c rt i0 (pt l) (pt r) par (pt d0))] ++ cells (i_ptr i0) false l ++ cells (i_ptr i0) true d0 ++ cells (i_ptr i0) false r) in H.
  destruct (holds_app _ _ _ H) as [_ H1]. destruct (holds_app _ _ _ H1) as [HL H2]. destruct (holds_app _ _ _ H2) as [_ HR]. cbn [height pt].
  destruct I as [I|[I|I]].
  - destruct (IHl s i d _ _ I HL) as (m & M & X). exists (m + 1). split; [lia|]. intros k. rewrite <- Nat.add_assoc. rewrite (X (1 + k)). exact (HERE k).
  - inversion I; subst. exists 1. split; [lia|]. exact HERE.
  - destruct (IHr s i d _ _ I HR) as (m & M & X). exists (m + 1). split; [lia|]. intros k. rewrite <- Nat.add_assoc. rewrite (X (1 + k)). exact (HERE k).
Qed.
Lemma height_count : forall t, height t <= count t.
Proof. induction t; cbn [height count]; lia. Qed.
Lemma elem_count : forall t i d, In (i, d) (elems t) -> count d < count t.
Proof. induction t as [|c l IHl i0 d0 _ r IHr]; intros i d I; [destruct I|]. cbn [elems] in I. apply in_app_or in I. cbn [In] in I. cbn [count]. destruct I as [I|[I|I]]; [apply IHl in I; lia| |apply IHr in I; lia]. inversion I; subst. lia. Qed.
Lemma elem_cells : forall t s i d par rt, In (i, d) (elems t) -> holds s (cells par rt t) -> holds s (cells (i_ptr i) true d).
Proof.
  induction t as [|c l IHl i0 d0 _ r IHr]; intros s i d par rt I H; [destruct I|]. cbn [elems] in I. apply in_app_or in I. cbn [In] in I. cbn [cells] in H.
  change ((i_ptr i0, cell c rt i0 (pt l) (pt r) par (pt d0)) :: cells (i_ptr i0) false l ++ cells (i_ptr i0) true d0 ++ cells (i_ptr i0) false r)
    with ([(i_ptr i0, cell c rt i0 (pt l) (pt r) par (pt d0))] ++ cells (i_ptr i0) false l ++ cells (i_ptr i0) true d0 ++ cells (i_ptr i0) false r) in H.
  destruct (holds_app _ _ _ H) as [_ H1]. destruct (holds_app _ _ _ H1) as [HL H2]. destruct (holds_app _ _ _ H2) as [HD HR].
  destruct I as [I|[I|I]]; [eauto| |eauto]. inversion I; subst. exact HD.
Qed.
Lemma upper_level : forall t s i d par, In (i, d) (elems t) -> holds s (cells par true t) -> count t <= S (dt_next s) -> get_upper_node (i_ptr i) s = (Ok par, s).
Proof.
  intros t s i d par I H C. destruct (level_root _ _ _ _ _ _ I H) as (m & M & X). pose proof (height_count t) as HC. unfold get_upper_node.
  replace (S (dt_next s)) with (m + (S (dt_next s) - m)) by lia. rewrite (bind_ok _ _ _ _ s (pt t)); [|apply X]. destruct t as [|c l i0 d0 r]; [destruct I|]. cbn [pt]. cbn [cells] in H. destruct (holds_in _ _ _ _ H (or_introl eq_refl)) as [D _].
  unfold get_parent. rewrite (bind_ok _ _ _ _ _ _ D). reflexivity.
Qed.
Lemma upper_at : forall t q i, at_ t q i -> forall s par, holds s (cells par true t) -> count t <= S (dt_next s) -> exists u, get_upper_node (i_ptr i) s = (Ok u, s) /\
  ((u = par /\ q = key i) \/ exists q0 j, at_ t q0 j /\ u = i_ptr j /\ q = q0 ++ key i).
Proof.
  induction 1 as [t i d I|t i d q j I A IH]; intros s par H C.
  - exists par. split; [eapply upper_level; eauto|auto].
  - destruct (IH s (i_ptr i) (elem_cells _ _ _ _ _ _ I H)) as (u & E0 & X); [pose proof (elem_count _ _ _ I); lia|]. exists u. split; [exact E0|]. right. destruct X as [[-> ->]|(q0 & j0 & B & -> & ->)].
    + exists (key i), i. split; [eapply at_here; eauto|auto].
    + exists (key i ++ q0), j0. split; [eapply at_down; eauto|]. split; [reflexivity|]. apply app_assoc.
Qed.
Lemma shape_count : forall s t, shape s t -> count t <= S (dt_next s).
Proof.
  intros s t SH. destruct (proj1 (TreeProofs.shape_inv s t) SH) as (n & x & I). pose proof I as (_ & _ & _ & NX).
  destruct (St_len _ _ _ _ _ I) as [Y|[Y _]]; unfold whole in Y; cbn [kcells app] in Y; [rewrite cells_count in Y; lia|]. destruct t; [cbn; lia|discriminate].
Qed.
Theorem node_upper : forall md (ops : list (op V)) s, any_names ops -> reached md ops s -> exists t, shape s t /\
  forall q i, at_ t q i -> get_name (i_ptr i) s = (Ok (seqf (i_labels i)), s) /\ exists u, get_upper_node (i_ptr i) s = (Ok u, s) /\ hangs_below t q i u.
Proof.
  intros md ops s W R. destruct (reached_shown md ops s W R) as (t & SH & SW). exists t. split; [exact SH|]. intros q i A. split; [eapply name_at; eauto|].
  apply (upper_at _ _ _ A); [apply SH|apply shape_count; exact SH].
Qed.

(** * Siblings *)
Lemma lvl_node_mono : forall (P Q : list label -> tree -> Prop) suf t, (forall suf t, P suf t -> Q suf t) -> lvl P suf t -> lvl Q suf t.
Proof. intros P Q suf t M H. induction H as [suf t X Y IH]. constructor; auto. Qed.
Lemma slt_signed : forall (i j : info), slt i j -> i_labels i <> [] -> i_labels j <> [] -> signed_cmp (i_labels i) (i_labels j) = Lt.
Proof.
  intros i j H Ni Nj. unfold slt, key in H. unfold signed_cmp. 
  assert (X : forall x : list label, x <> [] -> rev (lc_labels x) <> []). { intros x N Z. apply (f_equal (@length _)) in Z. unfold lc_labels in Z. rewrite rev_length, map_length in Z. destruct x; [congruence|discriminate]. }
  specialize (X _ Ni) as Xi. specialize (X _ Nj) as Xj. destruct (rev (lc_labels (i_labels i))) as [|a A]; [congruence|]. destruct (rev (lc_labels (i_labels j))) as [|b B]; [congruence|].
  cbn [hd] in H. unfold slex in H. cbn [map lex_labels]. rewrite H. reflexivity.
Qed.
Lemma sorted_pick : forall A (R : A -> A -> Prop) a i b j c, StronglySorted R (a ++ i :: b ++ j :: c) -> R i j.
Proof.
  intros A R a i b j c. induction a as [|x a IH]; cbn [app]; intros H; inversion H as [|? ? H1 H2]; subst; [|auto]. rewrite Forall_forall in H2. apply H2. apply in_or_app. cbn. auto.
Qed.
Lemma lvl_siblings : forall (SC : scope) (R : info -> info -> Prop) suf u, lvl (level_ok true) suf u ->
  (forall i j q q', at_ u q i -> at_ u q' j -> slt i j -> i_labels i <> [] -> i_labels j <> [] -> scoped (i_labels i) -> scoped (i_labels j) -> R i j) -> lvl (fun _ u => in_order R u) suf u.
Proof.
  intros SC R suf u H. induction H as [suf u (_ & _ & F & SO) Y IH]. intros HR. destruct (SO eq_refl) as [SC1 SS]. constructor.
  - intros a i b j c E0. rewrite Forall_forall in F, SC1.
    assert (Ii : In i (map fst (elems u))) by (rewrite E0; apply in_or_app; cbn; auto).
    assert (Ij : In j (map fst (elems u))) by (rewrite E0; apply in_or_app; right; right; apply in_or_app; cbn; auto).
    pose proof Ii as Ii'. pose proof Ij as Ij'. apply in_map_iff in Ii'. apply in_map_iff in Ij'. destruct Ii' as ([i' di] & <- & Ii'). destruct Ij' as ([j' dj] & <- & Ij'). cbn [fst] in *.
    eapply HR; [eapply at_here; eauto|eapply at_here; eauto| | | |auto|auto].
    + rewrite E0 in SS. eapply sorted_pick; eauto.
    + apply (F _ Ii).
    + apply (F _ Ij).
  - intros i d I. apply (IH i d I). intros i' j' q q' A B. apply (HR i' j' (key i ++ q) (key i ++ q')); eapply at_down; eauto.
Qed.
Theorem node_siblings : forall L md (ops : list (op V)), no_overflow L -> names_from L ops -> exists s t, reached md ops s /\ shape s t /\
  lvl (fun _ u => in_order (fun i j => nodeptr_cmp md (i_ptr i) (i_ptr j) s = (Ok Lt, s) /\ nodeptr_cmp md (i_ptr j) (i_ptr i) s = (Ok Gt, s)) u) [] t.
Proof.
  intros L md ops NO NF.
  destruct (hist L NO md _ _ (@good_ops V (calm_scope L NO) md (sp L NO md) ops (ops_ok L NO _ NF))) as (s & R & t & n & x & (H & TO & _)). exists s, t. split; [exact R|]. assert (SH : shape s t) by (eapply shape_inv; eauto). split; [exact SH|].
  assert (SW : shown t). { pose proof TO as TO'. inversion TO' as [? ? (_ & _ & H1 & _) H2]; subst. eapply lvl_shown; eauto. }
  eapply lvl_siblings; [exact TO|]. intros i j q q' A B SL Ni Nj Si Sj. pose proof (slt_signed _ _ SL Ni Nj) as C. destruct (shown_at _ _ _ A SW) as [Wi _]. destruct (shown_at _ _ _ B SW) as [Wj _].
  rewrite (cmp_at md _ _ _ _ _ _ SH SW A B), (cmp_at md _ _ _ _ _ _ SH SW B A). rewrite <- !seq_cmp_exact by assumption.
  rewrite !(seq_cmp_calm md L) by assumption. rewrite C. rewrite (proj1 (proj2 signed_cmp_total) (i_labels i) (i_labels j)), C. auto.
Qed.

(** * The closest entry above *)
Lemma between : forall (SC : scope) suf t, lvl (level_ok true) suf t -> forall q i q' j z, at_ t q i -> at_ t q' j -> q = q' ++ z -> z <> [] -> exists w, q = (q' ++ w) ++ key i.
Proof.
  intros SC suf t H. induction H as [suf t H D IH]. intros q i q' j z A B EQ NZ. destruct H as (_ & _ & N & AS). destruct (AS eq_refl) as [_ SS].
  assert (KE : forall i' d', In (i', d') (elems t) -> key i' <> []). { intros i' d' I. apply key_nonempty. rewrite Forall_forall in N. apply (in_map fst) in I. apply (N _ I). }
  apply at_inv in A. apply at_inv in B. destruct A as (i1 & d1 & I1 & A), B as (i2 & d2 & I2 & B).
  assert (X : i1 = i2 /\ d1 = d2).
  { eapply ss_unique; [exact SS|exact I1|exact I2|]. pose proof (KE _ _ I1). pose proof (KE _ _ I2).
    assert (X1 : hd [] q = hd [] (key i1)) by (destruct A as [[-> _]|(y & -> & _)]; [auto|apply hd_app; auto]).
    assert (X2 : hd [] q = hd [] (key i2)). { rewrite EQ. destruct B as [[-> _]|(y & -> & _)]; [apply hd_app; auto|]. rewrite <- app_assoc. apply hd_app; auto. } congruence. }
  destruct X as [<- <-]. destruct A as [[Q1 ->]|(q1 & Q1 & A)], B as [[Q2 ->]|(q2 & Q2 & B)].
  - exfalso. apply NZ. subst q q'. apply (app_inv_head (key i1)). rewrite app_nil_r. auto.
  - exfalso. subst q q'. rewrite <- app_assoc in EQ. rewrite <- (app_nil_r (key i1)) in EQ at 1. apply app_inv_head in EQ. symmetry in EQ. apply app_eq_nil in EQ. tauto.
  - subst q q'. apply app_inv_head in EQ. subst q1.
    assert (UP : forall t0 q0 i0, at_ t0 q0 i0 -> exists w, q0 = w ++ key i0). { induction 1 as [t0 i0 d0 I0|t0 i0 d0 q0 j0 I0 A0 (w & ->)]; [exists []; reflexivity|]. exists (key i0 ++ w). apply app_assoc. }
    destruct (UP _ _ _ A) as (w & EW). exists w. rewrite EW, app_assoc. reflexivity.
  - subst q q'. rewrite <- app_assoc in EQ. apply app_inv_head in EQ. destruct (IH _ _ I1 _ _ _ _ _ A B EQ NZ) as (w & EW). exists w. rewrite EW, <- !app_assoc. reflexivity.
Qed.
Lemma hangs_closest : forall (SC : scope) t q i u, tree_ok true t -> at_ t q i -> hangs_below t q i u -> closest_above t q u.
Proof.
  intros SC t q i u TO A HB. pose proof (lvl_keyed _ _ _ TO) as K. destruct HB as [[-> EQ]|(q0 & j & B & -> & EQ)].
  - left. split; [reflexivity|]. intros a z e E1 NZ (j & B & _). destruct (between _ _ _ TO _ _ _ _ _ A B E1 NZ) as (w & EW). destruct (at_head _ _ _ K B) as (_ & _ & _ & _ & NA).
    rewrite EQ in EW. rewrite <- (app_nil_l (key i)) in EW at 1. apply app_inv_tail in EW. symmetry in EW. apply app_eq_nil in EW. tauto.
  - right. exists q0, (key i), (ent j). split; [exact EQ|]. split; [|split; [exists j; auto|split; [reflexivity|]]].
    + intros Z. rewrite Z, app_nil_r in EQ. subst q0. destruct (at_inv t q i) as [X _]. clear X. 
      assert (KI : key i <> []).
      { assert (UP : forall t0 q1 i0, at_ t0 q1 i0 -> forall suf, lvl (level_ok true) suf t0 -> key i0 <> []).
        { induction 1 as [t0 i0 d0 I0|t0 i0 d0 q1 j0 I0 A0 IH0]; intros suf L0; inversion L0 as [? ? (_ & _ & N0 & _) D0]; subst.
          - apply key_nonempty. rewrite Forall_forall in N0. apply (in_map fst) in I0. apply (N0 _ I0).
          - eapply IH0. apply D0. exact I0. }
        eapply UP; eauto. }
      congruence.
    + intros a z e E1 NZ (j' & B' & _). destruct (between _ _ _ TO _ _ _ _ _ A B' E1 NZ) as (w & EW). rewrite EQ in EW. apply app_inv_tail in EW. rewrite EW, app_length. lia.
Qed.
Theorem upper_calm : forall L md (ops : list (op V)), no_overflow L -> names_from L ops -> exists s t, reached md ops s /\ shape s t /\
  forall q e, has t q e -> exists u, get_upper_node (e_ptr e) s = (Ok u, s) /\ closest_above t q u.
Proof.
  intros L md ops NO NF.
  destruct (hist L NO md _ _ (@good_ops V (calm_scope L NO) md (sp L NO md) ops (ops_ok L NO _ NF))) as (s & R & t & n & x & (H & TO & _)). exists s, t. split; [exact R|]. assert (SH : shape s t) by (eapply shape_inv; eauto). split; [exact SH|].
  intros q e (i & A & <-). destruct (upper_at _ _ _ A s null (proj2 SH) (shape_count _ _ SH)) as (u & E0 & X). exists u. split; [exact E0|]. exact (hangs_closest _ _ _ _ _ TO A X).
Qed.
Theorem upper_any : forall (ops : list (op V)) s, any_names ops -> reached Debug ops s -> exists t, shape s t /\
  forall q e, has t q e -> exists u, get_upper_node (e_ptr e) s = (Ok u, s) /\ closest_above t q u.
Proof.
  intros ops s NF R.
  destruct (dhist _ _ _ (@good_ops V any_scope Debug spd ops (any_ops _ NF)) R) as (t & n & x & (H & TO & _)). exists t. assert (SH : shape s t) by (eapply shape_inv; eauto). split; [exact SH|].
  intros q e (i & A & <-). destruct (upper_at _ _ _ A s null (proj2 SH) (shape_count _ _ SH)) as (u & E0 & X). exists u. split; [exact E0|]. exact (hangs_closest _ _ _ _ _ TO A X).
Qed.
End A.

(** The last comparison, and printing, over all histories. *)
From Coq Require String.
From Verif Require Import Base BaseLemmas NameModel TextModel TreeModel SliceModel DumpModel SpecName SpecOrd SpecEsc SpecScope NameCmpProofs OrdBase SpecTree SpecHist SpecHist2 SpecLast SpecSlice SpecDump
  OrdName TreeProofs TreeProofs2 TreeProofs3 TreeProofs4 TreePure TreePure2 TreeProofs8 TreeProofs13 TreeProofs14 TreeProofs15 TreeProofs16 TreeProofs17 TreeProofs18 TreeProofs21 TreeProofs22 TreeProofs23 SliceProofs DumpProofs.
Open Scope list_scope.
Open Scope nat_scope.

Section A.
Context {V : Type}.
Section M.
Context {SC : scope}.
Variable md : mode.
Hypothesis SP : sc_panic -> md = Debug.
Theorem last_node : forall ops : list (op V), Forall (op_ok true) ops -> wp (history md ops) tree_new (fun _ s => exists t, shape s t /\
  forall ls, wf_labels ls -> scoped ls -> wp (find_node md (name_of ls) chain_new) s (fun rc s' => s' = s /\ last_compared t (labels_of ls) False (snd rc))).
Proof.
  intros ops OK. eapply wp_mono; [apply (good_ops md SP); auto|]. intros [] s (t & n & x & (H & TO & _)). exists t. split; [eapply shape_inv; eauto|]. intros ls W AS.
  unfold find_node. apply wp_bind. eapply wp_mono; [apply (wp_find_last unit true md ls None s t n x tt W (fun _ => AS) (safe_true md SP) H TO (or_introl eq_refl))|].
  intros [[r ch] p] s' (-> & X). apply wp_ret. split; [reflexivity|]. cbn [snd fst] in *. specialize (X eq_refl). destruct X as [X1 X2]. split; [exact X1|]. intros NE. destruct (X2 NE) as (a & e & m & Y). exists a, e, m.
  cbv zeta in *. destruct Y as (Y1 & Y2 & Y3 & Y4 & Y5). split; [exact Y1|]. split; [exact Y2|]. split; [exact Y3|]. split; [exact Y4|].
  destruct (cr_relation (ch_result ch)); try exact Y5. destruct Y5 as [Z1 Z2]. split; [exact Z1|]. intros _. apply Z2. intros (L & y & _ & VI).
  clear - VI. revert VI. generalize tt. revert y. induction L as [|[l e] L IH]; intros y u VI; cbn [visit] in VI; [discriminate|]. destruct (e_cb e); destruct (visit None L u) as [[[? ?] ?]|] eqn:E0; try discriminate; eapply IH; exact E0.
Qed.
Theorem last_callbacks : forall ops : list (op V), Forall (op_ok true) ops -> Forall (fun o => Forall no_nul_end (op_name o)) ops -> wp (history md ops) tree_new (fun _ s => exists t, shape s t /\
  forall P (cb : option (callback P)) (p0 : P) ls, wf_labels ls -> scoped ls -> wp (find_node_ext md (name_of ls) chain_new cb p0) s (fun rcp s' => s' = s /\
    last_compared t (labels_of ls) (stops cb t (labels_of ls) p0) (snd (fst rcp)))).
Proof.
  intros ops OK NN. eapply wp_mono; [apply (clean_good md SP); auto|]. intros [] s (t & n & x & (H & TO & _) & C). exists t. split; [eapply shape_inv; eauto|]. intros P cb p0 ls W AS.
  eapply wp_mono; [apply (wp_find_last P true md ls cb s t n x p0 W (fun _ => AS) (safe_true md SP) H TO (or_intror (TreeProofs14.clean_labs _ C)))|]. intros [[r ch] p] s' (-> & X).
  split; [reflexivity|]. apply X. reflexivity.
Qed.
End M.

Theorem calm_last : forall L md (ops : list (op V)), no_overflow L -> names_from L ops -> exists s t, reached md ops s /\ shape s t /\
  forall ls, wf_labels ls -> Forall L ls -> exists r ch, find_node md (name_of ls) chain_new s = (Ok (r, ch), s) /\ last_compared t (labels_of ls) False ch.
Proof.
  intros L md ops NO NF. destruct (hist L NO md _ _ (@last_node (calm_scope L NO) md (sp L NO md) ops (ops_ok L NO _ NF))) as (s & R & t & SH & X). exists s, t. split; [exact R|]. split; [exact SH|]. intros ls W F.
  destruct (tot L NO _ _ _ _ (X ls W (in_scope L NO _ F))) as ([r ch] & s1 & E1 & -> & Y). exists r, ch. split; [exact E1|exact Y].
Qed.
Theorem calm_last_callbacks : forall L md (ops : list (op V)), no_overflow L -> names_from L ops -> Forall (fun o => Forall no_nul_end (op_name o)) ops -> exists s t, reached md ops s /\ shape s t /\
  forall P (cb : option (callback P)) (p0 : P) ls, wf_labels ls -> Forall L ls -> exists r ch p, find_node_ext md (name_of ls) chain_new cb p0 s = (Ok (r, ch, p), s) /\
    last_compared t (labels_of ls) (stops cb t (labels_of ls) p0) ch.
Proof.
  intros L md ops NO NF NN. destruct (hist L NO md _ _ (@last_callbacks (calm_scope L NO) md (sp L NO md) ops (ops_ok L NO _ NF) NN)) as (s & R & t & SH & X). exists s, t. split; [exact R|]. split; [exact SH|]. intros P cb p0 ls W F.
  destruct (tot L NO _ _ _ _ (X P cb p0 ls W (in_scope L NO _ F))) as ([[r ch] p] & s1 & E1 & -> & Y). exists r, ch, p. split; [exact E1|exact Y].
Qed.
Theorem any_last : forall (ops : list (op V)) s, any_names ops -> reached Debug ops s -> exists t, shape s t /\
  forall ls, wf_labels ls -> fst (find_node Debug (name_of ls) chain_new s) = Panic \/
    exists r ch, find_node Debug (name_of ls) chain_new s = (Ok (r, ch), s) /\ last_compared t (labels_of ls) False ch.
Proof.
  intros ops s NF R. destruct (dhist _ _ _ (@last_node any_scope Debug spd ops (any_ops _ NF)) R) as (t & SH & X). exists t. split; [exact SH|]. intros ls W.
  destruct (pan _ _ _ _ (X ls W (in_any _))) as [P|([r ch] & s1 & E1 & -> & Y)]; [left; exact P|right]. exists r, ch. split; [exact E1|exact Y].
Qed.

(** * Printing *)
Lemma name_shown : forall suf (i : info V), name_ok suf i -> seq_shape (i_labels i) /\ i_labels i <> [].
Proof. intros suf i (N & ls & W & EQ). split; [|exact N]. pose proof (full_shape _ W) as S. unfold NameCmpProofs.full in S. rewrite <- EQ in S. apply shape_app in S. apply S. Qed.
Lemma lvl_shown : forall (SC : scope) asc (t : tree V) suf, Forall (name_ok suf) (map fst (elems t)) -> (forall i d, In (i, d) (elems t) -> lvl (level_ok asc) (i_labels i ++ suf) d) -> shown t.
Proof.
  intros SC asc. induction t as [|c l IHl i d IHd r IHr]; intros suf F D; [exact I|]. cbn [elems] in F, D. rewrite map_app in F. apply Forall_app in F. destruct F as [F1 F2]. cbn [map fst] in F2. inversion F2 as [|? ? F3 F4]; subst.
  cbn [shown]. destruct (name_shown _ _ F3) as [A B]. split; [exact A|]. split; [exact B|]. split; [|split].
  - apply (IHl suf F1). intros j e J. apply D. apply in_or_app. auto.
  - assert (H : lvl (level_ok asc) (i_labels i ++ suf) d) by (apply D; apply in_or_app; cbn; auto). inversion H as [? ? (_ & _ & H1 & _) H2]; subst. eapply IHd; eauto.
  - apply (IHr suf F4). intros j e J. apply D. apply in_or_app. cbn. auto.
Qed.
Theorem reached_shown : forall md (ops : list (op V)) s, any_names ops -> reached md ops s -> exists t, shape s t /\ shown t.
Proof.
  intros md ops s W R. apply reached_release in R. pose proof (any_ok _ W) as OK.
  assert (G : @wp V quiet _ (history Release ops) tree_new (fun _ s => exists t n x, @good V quiet false s t n x /\ True)).
  { apply (@reached_good V quiet false Release (fun pre s t n x => True) ops sound_false OK); auto. }
  apply quiet_total in G. destruct G as ([] & s' & R' & t & n & x & (H & TO & _) & _).
  assert (s' = s) by (unfold reached in *; congruence). subst s'. exists t. split; [eapply shape_inv; eauto|]. inversion TO as [? ? (_ & _ & H1 & _) H2]; subst. eapply lvl_shown; eauto.
Qed.
Theorem reached_dump : forall md (ops : list (op V)) s, any_names ops -> reached md ops s -> exists t, shape s t /\
  forall depth, dump depth s = (Ok (show_dump depth (dt_len s) t), s).
Proof.
  intros md ops s W R. destruct (reached_shown md ops s W R) as (t & [RT H] & SH). exists t. split; [split; assumption|]. intros depth. unfold dump.
  assert (CN : count t <= dt_next s).
  { destruct (proj1 (TreeProofs.shape_inv s t) (conj RT H)) as (n & x & I). pose proof I as (_ & _ & _ & NX). rewrite NX.
    destruct (St_len _ _ _ _ _ I) as [Y|[Y _]]; unfold whole in Y; cbn [kcells app] in Y; [rewrite cells_count in Y; lia|]. destruct t; [cbn; lia|discriminate]. }
  rewrite RT. rewrite (bind_ok _ _ _ _ s (show_tree depth String.EmptyString true t)).
  - unfold ret, show_dump. rewrite indent_margin. reflexivity.
  - apply (dump_helper_spec _ s t null true); [lia|exact H|exact SH|]. intros NE. unfold side_is, side_text. destruct t as [|c l i d r]; [congruence|]. cbn [pt cells] in *. unfold get_parent.
    destruct (holds_in _ _ (i_ptr i) _ H (or_introl eq_refl)) as [D _]. rewrite (bind_ok _ _ _ _ s null); [reflexivity|]. rewrite (bind_ok _ _ _ _ s _ D). reflexivity.
Qed.
End A.

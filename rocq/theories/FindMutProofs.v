(** Proof of C106: writing through a search result. *)
From Coq Require Import Permutation Sorted.
From Verif Require Import Base BaseLemmas NameModel TreeModel FindMutModel SpecName SpecOrd SpecScope OrdBase SpecTree SpecHist SpecHist2 SpecFindMut NameCmpProofs2 TreeProofs PermTac TreeProofs2 TreeProofs3 TreeProofs4
  TreePure TreePure2 TreeProofs5 TreeProofs6 TreeProofs7 TreeProofs8 TreeProofs9 TreeProofs10 TreeProofs11 TreeProofs12 TreeProofs13 TreeProofs14 TreeProofs15 TreeProofs16 TreeProofs17 TreeProofs18 TreeProofs21 TreeProofs22.
Open Scope list_scope.
Open Scope nat_scope.

(** a non-empty prefix of the labels of a name belongs to an ancestor *)
Lemma prefix_ancestor : forall ls a z, labels_of ls = a ++ z -> a <> [] -> exists pre ls', ls = pre ++ ls' /\ a = labels_of ls' /\ length pre = length z.
Proof.
  intros ls a z H N. unfold labels_of, lc_labels in *. rewrite map_app, rev_app_distr in H. cbn [map rev app] in H.
  destruct a as [|l0 a]; [congruence|]. cbn [app] in H. injection H as H0 H.
  assert (L : length ls = length a + length z) by (rewrite <- app_length, <- H, rev_length, map_length; reflexivity).
  exists (firstn (length z) ls), (skipn (length z) ls). rewrite firstn_skipn. split; [reflexivity|]. split; [|rewrite firstn_length; lia].
  rewrite map_app, rev_app_distr. cbn [map rev app]. rewrite <- H0. f_equal.
  assert (M : map lc_label ls = rev z ++ rev a) by (rewrite <- rev_app_distr, <- H, rev_involutive; reflexivity).
  rewrite <- (firstn_skipn (length z) ls), map_app in M.
  assert (E1 : map lc_label (skipn (length z) ls) = rev a).
  { apply (f_equal (skipn (length z))) in M. rewrite skipn_app in M. rewrite map_length, firstn_length in M.
    rewrite (skipn_all2 (map _ _)) in M by (rewrite map_length, firstn_length; lia).
    replace (length z - Nat.min (length z) (length ls)) with 0 in M by lia. cbn [app skipn] in M.
    rewrite M. rewrite skipn_app, (skipn_all2 (rev z)) by (rewrite rev_length; lia). rewrite rev_length. replace (length z - length z) with 0 by lia. reflexivity. }
  rewrite E1, rev_involutive. reflexivity.
Qed.
Lemma labels_len : forall ls, length (labels_of ls) = S (length ls).
Proof. intros ls. unfold labels_of, lc_labels. rewrite rev_length, map_length, app_length. cbn [length]. lia. Qed.
Lemma labels_suffix : forall a b, exists z, labels_of (a ++ b) = labels_of b ++ z.
Proof. intros a b. unfold labels_of, lc_labels. rewrite <- app_assoc, map_app, rev_app_distr. eexists. reflexivity. Qed.

Section A.
Context {V : Type} {SC : scope}.
Notation node := (node V). Notation dtree := (dtree V). Notation info := (info V). Notation tree := (tree V). Notation entry := (entry V).
Notation op := (op V).
Variable md : mode.
Hypothesis SP : sc_panic -> md = Debug.

Theorem find_mut : forall ops ls (f : V -> V), Forall (op_ok true) ops -> wf_labels ls -> scoped ls -> wp (history md ops) tree_new (fun _ s =>
  wp (find md (name_of ls)) s (fun r s0 => s0 = s /\
    mut_seen (fun l o => wp (view md l) s (fun o' s1 => s1 = s /\ o' = o)) (fun l g s' => changes md l g s s') ls f s r)).
Proof.
  intros ops ls f OK W AS. eapply wp_mono; [apply good_ops; auto|]. intros [] s (t & n & x & G). pose proof G as (H & TO & CN & X0).
  eapply wp_mono; [eapply (wp_find true md ls s t n x W (fun _ => AS) (safe_true md SP) H TO)|]. intros r s0 (-> & B & C & D). split; [reflexivity|]. specialize (D eq_refl). change (qof ls) with (labels_of ls) in D.
  assert (SUB : forall p2 l2, ls = p2 ++ l2 -> wf_labels l2 /\ scoped l2).
  { intros p2 l2 ->. split; [apply NameOpsProofs.wf_app in W; apply W|]. unfold scoped in *. apply Forall_app in AS. apply AS. }
  assert (LK : forall p2 l2 o, ls = p2 ++ l2 -> (forall e, o = Some e <-> has t (labels_of l2) e) -> wp (view md l2) s (fun o' s1 => s1 = s /\ o' = o)).
  { intros p2 l2 o E0 HO. destruct (SUB _ _ E0) as [W2 A2]. eapply wp_mono; [eapply (view_run md SP l2 s t n x W2 A2 H TO)|]. intros o' s1 (-> & O). split; [reflexivity|]. apply opt_ext. intros e. rewrite O, HO. reflexivity. }
  assert (KEY : forall e, ~ has t [] e). { intros e (i & A & _). destruct (at_head _ _ _ (lvl_keyed _ _ _ TO) A) as (_ & _ & _ & _ & N). congruence. }
  unfold mut_seen. unfold find_spec in D.
  assert (MAIN : fr_flag r <> NotFound -> forall pre ls' e, ls = pre ++ ls' -> (fr_flag r = ExactMatch <-> pre = []) -> has t (labels_of ls') e -> e_ptr e = fr_node r ->
     (forall p2 l2 e', ls = p2 ++ l2 -> length ls' < length l2 -> ~ has t (labels_of l2) e') ->
     exists pre ls' e, ls = pre ++ ls' /\ (fr_flag r = ExactMatch <-> pre = []) /\ e_ptr e = fr_node r /\ wp (view md ls') s (fun o' s1 => s1 = s /\ o' = Some e) /\
      (forall p2 l2, ls = p2 ++ l2 -> length ls' < length l2 -> wp (view md l2) s (fun o' s1 => s1 = s /\ o' = None)) /\
      match e_value e with
      | None => fr_update r f s = (Ok None, s)
      | Some x => exists s', fr_update r f s = (Ok (Some x), s') /\ changes md ls' (put_value (Some (f x))) s s'
      end).
  { intros NF pre ls' e E0 EX HA EP NH. exists pre, ls', e. split; [exact E0|]. split; [exact EX|]. split; [exact EP|]. split; [|split].
    - eapply LK; [exact E0|]. intros e'. split; [intros X; inversion X; subst; exact HA|]. intros HB. rewrite (has_unique _ _ _ _ TO HA HB). reflexivity.
    - intros p2 l2 E2 L2. eapply LK; [exact E2|]. intros e'. split; [discriminate|]. intros HB. exfalso. exact (NH _ _ _ E2 L2 HB).
    - destruct B as [B|B]; [specialize (C B); congruence|]. destruct (read_all _ _ _ _ _ _ H HA) as (RV & _). rewrite EP in RV.
      assert (U : fr_update r f s = (let! v := get_value (fr_node r) in match v with None => ret None | Some x => store (fr_node r) (fun n => with_value n (Some (f x))) ;; ret (Some x) end) s).
      { unfold fr_update. destruct (fr_flag r); [reflexivity|congruence|reflexivity]. }
      destruct (e_value e) as [y|] eqn:EV; [|rewrite U; unfold bind at 1; rewrite RV; reflexivity].
      assert (U2 : fr_update r f s = (store (fr_node r) (fun n0 => with_value n0 (Some (f y))) ;; ret (Some y)) s) by (rewrite U; unfold bind at 1; rewrite RV; reflexivity). clear U.
      destruct (node_has _ _ B) as (k & c & l & i & d & r0 & -> & EPI & HH).
      destruct (has_ptr_inj _ _ _ _ _ _ _ _ H HA HH) as [EQ EE]; [rewrite EP; symmetry; exact EPI|].
      assert (HI : inv s k (T c l i d r0) n x) by (rewrite <- (app_nil_r k); apply inv_plug; exact H).
      pose proof (wp_setv (Some (f y)) s k c l i d r0 n x (fun _ s' => inv s' k (T c l (setv i (Some (f y))) d r0) n x) HI (fun s' X => X)) as WS. rewrite EPI in WS.
      assert (ST : store (fr_node r) (fun n0 => with_value n0 (Some (f y))) s = (Ok tt, snd (store (fr_node r) (fun n0 => with_value n0 (Some (f y))) s)) /\
        inv (snd (store (fr_node r) (fun n0 => with_value n0 (Some (f y))) s)) k (T c l (setv i (Some (f y))) d r0) n x).
      { unfold get_value, bind, deref in RV. unfold store. destruct (is_null (fr_node r)) eqn:NZ; [discriminate RV|]. destruct (dt_heap s (fr_node r)) as [nd|] eqn:HP; [|discriminate RV].
        cbn [snd]. split; [reflexivity|]. destruct WS as [(a & s' & E1 & X)|(_ & s' & E1)].
        - unfold set_value, bind, deref, store in E1. rewrite NZ, HP in E1. unfold ret in E1. injection E1 as _ E1. rewrite E1. exact X.
        - unfold set_value, bind, deref, store in E1. rewrite NZ, HP in E1. discriminate E1. }
      destruct ST as [ST HI']. set (s' := snd (store (fr_node r) (fun n0 => with_value n0 (Some (f y))) s)) in *. exists s'. split; [rewrite U2; unfold bind; rewrite ST; reflexivity|].
      eapply (only_set md SP ls'); [exact G|eapply (good_set true s k c l i d r0 (setv i (Some (f y)))); [exact G|reflexivity|exact HI']|]. rewrite EQ. apply set_has; [exact TO|reflexivity|reflexivity]. }
  destruct (fr_flag r) eqn:FL.
  - destruct D as (e & HA & EP). apply (MAIN ltac:(discriminate) [] ls e); auto; [tauto|]. intros p2 l2 e' E0 L2. subst ls. rewrite app_length in L2. lia.
  - destruct D as [_ D]. split; [|unfold fr_update; rewrite FL; reflexivity]. intros p2 l2 E0. eapply LK; [exact E0|]. intros e. split; [discriminate|]. intros HA. exfalso. destruct (labels_suffix p2 l2) as (z & EZ). apply (D (labels_of l2) z e); [rewrite E0; exact EZ|exact HA].
  - destruct D as (NH & a & z & e & EQ & NZ & HA & EP & MX). assert (NA : a <> []) by (intros ->; exact (KEY _ HA)).
    destruct (prefix_ancestor _ _ _ EQ NA) as (pre & ls' & E0 & -> & LZ). apply (MAIN ltac:(discriminate) pre ls' e); auto.
    + split; [discriminate|]. intros ->. destruct z; [congruence|discriminate].
    + intros p2 l2 e' E2 L2 HB. destruct (labels_suffix p2 l2) as (z2 & EZ). rewrite <- E2 in EZ. specialize (MX _ _ _ EZ HB). rewrite !labels_len in MX. lia.
Qed.
End A.

(** label sets without overflow, both builds *)
Section C.
Context {V : Type}.
Variable L : label -> Prop.
Hypothesis NO : no_overflow L.
Theorem calm_find_mut : forall md (ops : list (op V)) ls (f : V -> V), names_from L ops -> wf_labels ls -> Forall L ls -> exists s r, reached md ops s /\ find md (name_of ls) s = (Ok r, s) /\
  mut_seen (fun l o => view md l s = (Ok o, s)) (fun l g s' => only_changes L md l g s s') ls f s r.
Proof.
  intros md ops ls f NF W F. destruct (hist L NO md _ _ (find_mut (SC := calm_scope L NO) md (sp L NO md) ops ls f (ops_ok L NO _ NF) W (in_scope L NO _ F))) as (s & R & X).
  destruct (tot L NO _ _ _ _ X) as (r & s0 & E0 & -> & Y). exists s, r. split; [exact R|]. split; [exact E0|].
  assert (LK : forall l o, wp (SC := calm_scope L NO) (view md l) s (fun o' s1 => s1 = s /\ o' = o) -> view md l s = (Ok o, s)).
  { intros l o Z. destruct (tot L NO _ _ _ _ Z) as (o' & s1 & E1 & -> & ->). exact E1. }
  unfold mut_seen in *. destruct (fr_flag r).
  - destruct Y as (pre & ls' & e & A1 & A2 & A3 & A4 & A5 & A6). exists pre, ls', e. repeat (split; [eauto|]). destruct (e_value e); [|exact A6]. destruct A6 as (s' & A6 & A7). exists s'. split; [exact A6|]. apply (calm_changes L NO). exact A7.
  - destruct Y as [Y1 Y2]. split; [intros p2 l2 E2; apply LK; eapply Y1; exact E2|exact Y2].
  - destruct Y as (pre & ls' & e & A1 & A2 & A3 & A4 & A5 & A6). exists pre, ls', e. repeat (split; [eauto|]). destruct (e_value e); [|exact A6]. destruct A6 as (s' & A6 & A7). exists s'. split; [exact A6|]. apply (calm_changes L NO). exact A7.
Qed.
End C.

(** any names, debug build *)
Section D.
Context {V : Type}.
Existing Instance any_scope.
Theorem any_find_mut : forall (ops : list (op V)) s ls (f : V -> V), any_names ops -> reached Debug ops s -> wf_labels ls ->
  fst (find Debug (name_of ls) s) = Panic \/ exists r, find Debug (name_of ls) s = (Ok r, s) /\
  mut_seen (fun l o => fst (view Debug l s) = Panic \/ view Debug l s = (Ok o, s)) (fun l g s' => only_changes_debug l g s s') ls f s r.
Proof.
  intros ops s ls f NF R W. pose proof (dhist _ _ _ (find_mut Debug spd ops ls f (any_ops _ NF) W (in_any _)) R) as X. cbv beta in X.
  destruct (pan _ _ _ _ X) as [P|(r & s0 & E0 & -> & Y)]; [left; exact P|right]. exists r. split; [exact E0|].
  assert (LK : forall l o, wp (view Debug l) s (fun o' s1 => s1 = s /\ o' = o) -> fst (view Debug l s) = Panic \/ view Debug l s = (Ok o, s)).
  { intros l o Z. destruct (pan _ _ _ _ Z) as [P|(o' & s1 & E1 & -> & ->)]; auto. }
  unfold mut_seen in *. destruct (fr_flag r).
  - destruct Y as (pre & ls' & e & A1 & A2 & A3 & A4 & A5 & A6). exists pre, ls', e. repeat (split; [eauto|]). destruct (e_value e); [|exact A6]. destruct A6 as (s' & A6 & A7). exists s'. split; [exact A6|]. apply any_changes. exact A7.
  - destruct Y as [Y1 Y2]. split; [intros p2 l2 E2; apply LK; eapply Y1; exact E2|exact Y2].
  - destruct Y as (pre & ls' & e & A1 & A2 & A3 & A4 & A5 & A6). exists pre, ls', e. repeat (split; [eauto|]). destruct (e_value e); [|exact A6]. destruct A6 as (s' & A6 & A7). exists s'. split; [exact A6|]. apply any_changes. exact A7.
Qed.
End D.

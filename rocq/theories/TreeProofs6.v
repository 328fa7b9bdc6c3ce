(** The search loop of [insert]. *)
From Coq Require Import Permutation Sorted.
From Verif Require Import Base BaseLemmas NameModel TreeModel SpecName SpecOrd SpecScope OrdBase SpecTree TreeProofs PermTac TreeProofs2 TreeProofs3 TreeProofs4
  NameWireProofs NameOpsProofs NameOpsProofs2 NameCmpProofs NameCmpProofs2 TreePure TreePure2 TreeProofs5.
Open Scope list_scope.
Open Scope nat_scope.

Section I.
Context {V : Type} {SC : scope}.
Notation node := (node V). Notation dtree := (dtree V). Notation info := (info V). Notation tree := (tree V).
Notation frame := (@frame V). Notation ctx := (@ctx V).
Implicit Types (s : dtree) (t : tree) (i : info) (p : ptr) (L R : list (ptr * node)) (k kl : ctx) (f : frame).

Lemma key_split : forall i (u y : list label), key i = u ++ y -> exists a b, i_labels i = a ++ b /\ rev (lc_labels b) = u /\ rev (lc_labels a) = y.
Proof.
  intros i u y H. set (n := length (i_labels i) - length u). exists (firstn n (i_labels i)), (skipn n (i_labels i)).
  assert (X : i_labels i = firstn n (i_labels i) ++ skipn n (i_labels i)) by (symmetry; apply firstn_skipn).
  split; [exact X|]. rewrite (key_app _ _ _ X) in H.
  assert (L1 : length (rev (lc_labels (skipn n (i_labels i)))) = length u).
  { unfold lc_labels. rewrite rev_length, map_length, skipn_length. assert (length u <= length (i_labels i)); [|lia]. rewrite <- key_length, (key_app _ _ _ X), H, app_length. lia. }
  revert H L1. generalize (rev (lc_labels (skipn n (i_labels i)))), (rev (lc_labels (firstn n (i_labels i)))). clear. intros a b. revert u.
  induction a as [|z a IH]; intros [|w u] H L1; try discriminate; auto. cbn in H. injection H as -> H. destruct (IH u H ltac:(cbn in L1; lia)). subst. auto.
Qed.
Lemma rev_lc_len : forall l : list label, length (rev (lc_labels l)) = length l.
Proof. intros. unfold lc_labels. rewrite rev_length, map_length. reflexivity. Qed.

Definition setv i v : info := mkI (i_ptr i) (i_labels i) v (i_cb i) (i_wild i).
(** the tree is unchanged, or one node was split at a prefix of [q0] *)
Definition fis (asc : bool) (q0 : list label) (t0 : tree) (n x : nat) (t1 : tree) (n1 x1 : nat) : Prop :=
  (t1 = t0 /\ n1 = n /\ x1 = x) \/
  (n1 = n + 1 /\ x1 = S x /\ exists k c l i d r a b z, t0 = plug k (T c l i d r) /\ t1 = plug k (fissioned x c l i d r a b) /\ i_labels i = a ++ b /\ a <> [] /\ b <> [] /\
     q0 = kpre k ++ rev (lc_labels b) ++ z /\ (asc = true -> forall j, ~ at_ t0 (kpre k ++ rev (lc_labels b)) j)).

Section Loop.
Variables (asc : bool) (md : mode) (ls : list label) (v : option V) (q0 : list label).
Hypothesis W : wf_labels ls.
Hypothesis AS : asc = true -> scoped ls.
Hypothesis SM : safe_md asc md.

Definition found_post t0 n x (Q : (ptr * option V) + (ptr * ptr * Z * labelslice) -> dtree -> Prop) : Prop :=
  forall s' k' c l i d r n' x', fis asc q0 t0 n x (plug k' (T c l i d r)) n' x' -> inv s' k' (T c l (setv i v) d r) n' x' -> kpre k' ++ key i = q0 -> Q (inl (i_ptr i, i_value i)) s'.
Definition new_post t0 n x (Q : (ptr * option V) + (ptr * ptr * Z * labelslice) -> dtree -> Prop) : Prop :=
  forall s' k' n' x' ts' fls' order', fis asc q0 t0 n x (plug k' E) n' x' -> inv s' k' E n' x' -> tgt ls ts' fls' -> path asc k' (rev (lc_labels fls')) ->
    kpre k' ++ rev (lc_labels fls') = q0 -> ord_ok k' order' -> Q (inr (lpar k', kup k', order', ts')) s'.

Lemma node_facts : forall k c l i d r, tree_ok asc (plug k (T c l i d r)) -> name_ok (ksuf k) i /\ (asc = true -> scoped (i_labels i)).
Proof.
  intros k c l i d r H. destruct (sub_level _ _ _ H) as [NO SO]. cbn [elems] in *. rewrite map_app in *. cbn [map fst] in *. apply Forall_app in NO. destruct NO as [_ NO]. inversion NO; subst. split; auto.
  intro A. destruct (SO A) as [SA _]. apply Forall_app in SA. destruct SA as [_ SA]. inversion SA; auto.
Qed.
(** running the comparison at a node in a context *)
Lemma wp_compare_at : forall A s k c l i d r n x ts fls (K : cmp_result -> MT V A) Q,
  inv s k (T c l i d r) n x -> tree_ok asc (plug k (T c l i d r)) -> tgt ls ts fls ->
  (forall cr, cls (rev (lc_labels fls)) (key i) (cr_relation cr) (N.to_nat (cr_common cr)) ->
     (cr_relation cr = NoRelation -> asc = true -> (cr_order cr ?= 0)%Z = slex (hd [] (rev (lc_labels fls))) (hd [] (key i))) -> wp (K cr) s Q) ->
  wp (let! nm := get_name (i_ptr i) in let! cs := lift (slice_of_seq nm) in let! cr := lift (sl_compare md false ts cs) in K cr) s Q.
Proof.
  intros A s k c l i d r n x ts fls K Q H TO TG HK. destruct (node_facts _ _ _ _ _ _ TO) as [NO AI].
  unfold inv, whole in H. cbn [cells pt] in H. norm_in H. eapply (wp_compare A asc md ls ts fls i (ksuf k)) with (j := 0); eauto. reflexivity.
Qed.
Lemma wp_compare_at_ord : forall A s k c l i d r n x ts fls (K : cmp_result -> MT V A) Q,
  inv s k (T c l i d r) n x -> tree_ok asc (plug k (T c l i d r)) -> tgt ls ts fls ->
  (forall cr, cls (rev (lc_labels fls)) (key i) (cr_relation cr) (N.to_nat (cr_common cr)) ->
     (cr_relation cr = NoRelation -> asc = true -> (cr_order cr ?= 0)%Z = slex (hd [] (rev (lc_labels fls))) (hd [] (key i))) ->
     (asc = true -> (cr_order cr ?= 0)%Z = olex (rev (lc_labels fls)) (key i)) -> wp (K cr) s Q) ->
  wp (let! nm := get_name (i_ptr i) in let! cs := lift (slice_of_seq nm) in let! cr := lift (sl_compare md false ts cs) in K cr) s Q.
Proof.
  intros A s k c l i d r n x ts fls K Q H TO TG HK. destruct (node_facts _ _ _ _ _ _ TO) as [NO AI].
  unfold inv, whole in H. cbn [cells pt] in H. norm_in H. eapply (wp_compare_ord A asc md ls ts fls i (ksuf k)) with (j := 0); eauto. reflexivity.
Qed.
Lemma nz_node : forall s k c l i d r n x, inv s k (T c l i d r) n x -> is_null (i_ptr i) = false.
Proof. intros s k c l i d r n x H. unfold inv, whole in H. cbn [cells pt] in H. norm_in H. apply (St_nz 0 _ _ _ _ _ _ _ H eq_refl). Qed.
Lemma goes_lt : forall i q z, hd [] q <> hd [] (key i) -> (asc = true -> (z ?= 0)%Z = slex (hd [] q) (hd [] (key i))) -> (z <? 0)%Z = true -> goes asc Lt i q.
Proof. intros i q z N H L. split; auto. intro A. rewrite <- (H A). apply Z.ltb_lt in L. apply Z.compare_lt_iff. exact L. Qed.
Lemma goes_gt : forall i q z, hd [] q <> hd [] (key i) -> (asc = true -> (z ?= 0)%Z = slex (hd [] q) (hd [] (key i))) -> (z <? 0)%Z = false -> goes asc Gt i q.
Proof.
  intros i q z N H L. split; auto. intro A. rewrite <- (H A). apply Z.ltb_ge in L. destruct (z ?= 0)%Z eqn:C; auto.
  - exfalso. apply N. apply slex_eq. rewrite <- (H A). reflexivity.
  - exfalso. apply L. apply Z.compare_gt_iff. apply Z.compare_lt_iff. exact C.
Qed.
Lemma wp_next : forall s k c l i d r n x b (Q : ptr -> dtree -> Prop), inv s k (T c l i d r) n x -> Q (if b : bool then pt l else pt r) s -> wp (if b then get_left (i_ptr i) else get_right (i_ptr i)) s Q.
Proof. intros s k c l i d r n x b Q H HQ. unfold inv, whole in H. cbn [cells pt] in H. norm_in H. destruct b; stp; exact HQ. Qed.
Lemma wp_down : forall s k c l i d r n x (Q : ptr -> dtree -> Prop), inv s k (T c l i d r) n x -> Q (pt d) s -> wp (get_down (i_ptr i)) s Q.
Proof. intros s k c l i d r n x Q H HQ. unfold inv, whole in H. cbn [cells pt] in H. norm_in H. stp. exact HQ. Qed.
Lemma wp_setv : forall s k c l i d r n x (Q : option V -> dtree -> Prop), inv s k (T c l i d r) n x -> (forall s', inv s' k (T c l (setv i v) d r) n x -> Q (i_value i) s') -> wp (set_value (i_ptr i) v) s Q.
Proof.
  intros s k c l i d r n x Q H HQ. unfold inv, whole in H. cbn [cells pt] in H. norm_in H. eapply wp_set_value with (k := 0); [exact H|reflexivity|]. intros s' H'. cbn [upd] in H'. apply HQ. unfold inv, whole, setv. cbn [cells pt i_ptr]. fin.
Qed.
Lemma wp_parent_down : forall s k c l i c' l' i' d' r' r n x (Q : ptr -> dtree -> Prop), inv s k (T c l i (T c' l' i' d' r') r) n x -> Q (i_ptr i) s -> wp (get_parent (i_ptr i')) s Q.
Proof. intros s k c l i c' l' i' d' r' r n x Q H HQ. unfold inv, whole in H. cbn [cells pt] in H. norm_in H. stp. exact HQ. Qed.

Lemma wp_insert_fis : forall fuel s k c l i d r n x ts fls order u y z Q,
  2 <= fuel -> inv s k (T c l i d r) n x -> tree_ok asc (plug k (T c l i d r)) -> tgt ls ts fls -> path asc k (rev (lc_labels fls)) -> ord_ok k order ->
  kpre k ++ rev (lc_labels fls) = q0 ->
  rev (lc_labels fls) = u ++ z -> key i = u ++ y -> u <> [] -> y <> [] -> (z = [] \/ hd [] z <> hd [] y) ->
  found_post (plug k (T c l i d r)) n x Q -> new_post (plug k (T c l i d r)) n x Q ->
  wp (node_fission (i_ptr i) (length u) ;; let! q := get_parent (i_ptr i) in insert_loop md fuel v (lpar k) (kup k) q order ts) s Q.
Proof.
  intros fuel s k c l i d r n x ts fls order u y z Q Fu H TO TG P O EQ0 EQ EK Nu Ny ZY HF HN.
  destruct (key_split _ _ _ EK) as (a & b & EL & Eb & Ea).
  assert (Na : a <> []) by (intros ->; cbn in Ea; congruence). assert (Nb : b <> []) by (intros ->; cbn in Eb; congruence).
  destruct (node_facts _ _ _ _ _ _ TO) as [NO _]. pose proof (proj2 (proj2 (proj2 (name_ok_facts _ _ NO)))) as LE. rewrite EL in LE.
  apply wp_bind. rewrite <- Eb, rev_lc_len. eapply wp_fission; [exact H|exact EL|exact Na|exact Nb|exact LE|]. clear H s. intros s H.
  pose proof (fission_ok asc k c l i d r a b x TO EL Na Nb) as TO1.
  change (T c l (mkI x b None false false) (T Black E (mkI (i_ptr i) a (i_value i) (i_cb i) (i_wild i)) d E) r) with (fissioned x c l i d r a b) in H.
  assert (FI : fis asc q0 (plug k (T c l i d r)) n x (plug k (fissioned x c l i d r a b)) (n + 1) (S x)).
  { right. split; auto. split; auto. exists k, c, l, i, d, r, a, b, z. repeat split; auto; [rewrite Eb, <- EQ; auto|].
    intros A j. rewrite A in TO, P. rewrite (at_path k _ (rev (lc_labels fls))); auto; [|rewrite Eb; auto|rewrite EQ, Eb, hd_app; auto].
    intro AT. destruct (sub_level _ _ _ TO) as [NO1 SO]. destruct (SO eq_refl) as [_ SS]. apply at_inv in AT. destruct AT as (i' & d' & I & AT).
    assert (N' : key i' <> []). { apply key_nonempty. apply name_ok_keyed in NO1. unfold keyed in NO1. rewrite Forall_forall in NO1. apply NO1. apply (in_map fst) in I. exact I. }
    assert (X : i = i' /\ d = d').
    { eapply ss_unique; [exact SS| |exact I|]. - cbn [elems]. apply in_or_app. cbn. auto.
      - rewrite EK, hd_app by auto. rewrite <- Eb. destruct AT as [[-> _]|(q' & -> & _)]; [auto|apply hd_app; auto]. }
    destruct X as [<- <-]. rewrite Eb, EK in AT. destruct AT as [[X _]|(q' & X & _)].
    - rewrite <- (app_nil_r u) in X at 1. apply app_inv_head in X. auto.
    - rewrite <- (app_nil_r u), <- !app_assoc in X. apply app_inv_head in X. cbn [app] in X. destruct y; [congruence|discriminate]. }
  set (iu := sub_up (V := V) x b) in *. set (il := sub_low i a) in *.
  change (fissioned x c l i d r a b) with (T c l iu (T Black E il d E) r) in *.
  apply wp_bind. change (i_ptr i) with (i_ptr il). eapply wp_parent_down; [exact H|].
  destruct fuel as [|fuel]; [lia|]. cbn [insert_loop]. rewrite (nz_node _ _ _ _ _ _ _ _ _ H).
  eapply wp_compare_at; [exact H|exact TO1|exact TG|]. intros cr CL _.
  assert (EKu : key iu = u) by exact Eb. assert (EKl : key il = y) by exact Ea.
  rewrite EKu, EQ in CL. inversion CL as [E1 R1 C1|N1 N2 N3 R1 C1|x1 N1 E1 R1 C1|y1 N1 E1 R1 C1|s1 x1 y1 u1 v1 N1 E1 E2 N2 R1 C1].
  - (* Equal *)
    apply wp_bind. eapply wp_setv; [exact H|]. clear H s. intros s H. apply wp_ret.
    eapply HF; [exact FI|exact H|]. rewrite EKu, <- E1, <- EQ. exact EQ0.
  - exfalso. apply N3. apply hd_app. auto.
  - (* SubDomain *)
    apply app_inv_head in E1. subst x1. destruct ZY as [ZY|ZY]; [congruence|].
    destruct (tgt_strip _ _ _ u z TG EQ Nu N1) as (ts' & S1 & TG' & EQ'). apply wp_bind. eapply wp_lift; [exact S1|]. apply wp_bind. eapply wp_down; [exact H|].
    pose proof (proj1 (inv_fill s k (FD c l iu r) (T Black E il d E) (n + 1) (S x)) H) as H2.
    pose proof TO1 as TO2. change (plug k (T c l iu (T Black E il d E) r)) with (plug (FD c l iu r :: k) (T Black E il d E)) in TO2.
    destruct fuel as [|fuel]; [lia|]. cbn [insert_loop pt]. rewrite (nz_node _ _ _ _ _ _ _ _ _ H2).
    eapply wp_compare_at; [exact H2|exact TO2|exact TG'|]. intros cr' CL' OR'. rewrite EKl, EQ' in *.
    assert (RN : cr_relation cr' = NoRelation).
    { inversion CL' as [E1' R1' C1'|N1' N2' N3' R1' C1'|x1' N1' E1' R1' C1'|y1' N1' E1' R1' C1'|s1' x1' y1' u1' v1' N1' E1' E2' N2' R1' C1']; auto; exfalso; apply ZY.
      - congruence.
      - rewrite E1'. apply hd_app. auto.
      - rewrite E1'. symmetry. apply hd_app. auto.
      - rewrite E1', E2', !hd_app by auto. reflexivity. }
    rewrite RN. specialize (OR' RN). apply wp_bind. eapply wp_next; [exact H2|]. rewrite <- EKl in ZY, OR'.
    assert (PD : path asc (FD c l iu r :: k) z) by (constructor; rewrite EKu, <- EQ; exact P).
    assert (FI' : fis asc q0 (plug k (T c l i d r)) n x (plug (FD c l iu r :: k) (T Black E il d E)) (n + 1) (S x)) by exact FI.
    assert (EQZ : kpre (FD c l iu r :: k) ++ z = q0) by (cbn [kpre]; rewrite EKu, <- app_assoc, <- EQ; exact EQ0).
    destruct (cr_order cr' <? 0)%Z eqn:Oz; change (pt E) with null.
    + replace (insert_loop md fuel v (i_ptr il) (i_ptr iu) null (cr_order cr') ts') with (@ret dtree _ (inr (A := ptr * option V) (i_ptr il, i_ptr iu, cr_order cr', ts'))) by (destruct fuel; reflexivity).
      apply wp_ret. apply (HN s (FL Black il d E :: FD c l iu r :: k) (n + 1) (S x) ts' (firstn (length fls - length u) fls) (cr_order cr') FI').
      * apply (inv_fill s (FD c l iu r :: k)). exact H2.
      * exact TG'.
      * rewrite EQ'. apply path_L; auto. eapply goes_lt; eauto.
      * rewrite EQ'. exact EQZ.
      * apply Z.ltb_lt. exact Oz.
    + replace (insert_loop md fuel v (i_ptr il) (i_ptr iu) null (cr_order cr') ts') with (@ret dtree _ (inr (A := ptr * option V) (i_ptr il, i_ptr iu, cr_order cr', ts'))) by (destruct fuel; reflexivity).
      apply wp_ret. apply (HN s (FR Black E il d :: FD c l iu r :: k) (n + 1) (S x) ts' (firstn (length fls - length u) fls) (cr_order cr') FI').
      * apply (inv_fill s (FD c l iu r :: k)). exact H2.
      * exact TG'.
      * rewrite EQ'. apply path_R; auto. eapply goes_gt; eauto.
      * rewrite EQ'. exact EQZ.
      * apply Z.ltb_ge. exact Oz.
  - exfalso. apply (f_equal (@length _)) in E1. rewrite !app_length in E1. destruct y1; [congruence|cbn in E1; lia].
  - exfalso. rewrite E2, <- app_assoc in E1. cbn [app] in E1. apply app_inv_head in E1. congruence.
Qed.
Lemma wp_insert_loop : forall fuel s k t n x ts fls order Q,
  count t + 2 <= fuel -> inv s k t n x -> tree_ok asc (plug k t) -> tgt ls ts fls -> path asc k (rev (lc_labels fls)) -> ord_ok k order ->
  kpre k ++ rev (lc_labels fls) = q0 ->
  found_post (plug k t) n x Q -> new_post (plug k t) n x Q ->
  wp (insert_loop md fuel v (lpar k) (kup k) (pt t) order ts) s Q.
Proof.
  induction fuel as [|fuel IH]; intros s k t n x ts fls order Q Fu H TO TG P O EQ0 HF HN; [lia|].
  destruct t as [|c l i d r].
  - cbn [insert_loop pt]. change (is_null null) with true. cbv iota. apply wp_ret. eapply HN; eauto. left. auto.
  - cbn [insert_loop]. change (pt (T c l i d r)) with (i_ptr i). rewrite (nz_node _ _ _ _ _ _ _ _ _ H).
    cbn [count] in Fu. eapply wp_compare_at; [exact H|exact TO|exact TG|]. intros cr CL OR.
    inversion CL as [E1 R1 C1|N1 N2 N3 R1 C1|x1 N1 E1 R1 C1|y1 N1 E1 R1 C1|s1 x1 y1 u1 v1 N1 E1 E2 N2 R1 C1].
    + apply wp_bind. eapply wp_setv; [exact H|]. clear H s. intros s H. apply wp_ret. eapply HF; [left; auto|exact H|]. rewrite <- E1. exact EQ0.
    + specialize (OR (eq_sym R1)). apply wp_bind. eapply wp_next; [exact H|]. destruct (cr_order cr <? 0)%Z eqn:Oz.
      * change (i_ptr i) with (lpar (FL c i d r :: k)). change (kup k) with (kup (FL c i d r :: k)).
        eapply (IH s (FL c i d r :: k) l); [lia|apply inv_fill; exact H|exact TO|exact TG|apply path_L; auto; eapply goes_lt; eauto|apply Z.ltb_lt; exact Oz|exact EQ0|exact HF|exact HN].
      * change (i_ptr i) with (lpar (FR c l i d :: k)). change (kup k) with (kup (FR c l i d :: k)).
        eapply (IH s (FR c l i d :: k) r); [lia|apply inv_fill; exact H|exact TO|exact TG|apply path_R; auto; eapply goes_gt; eauto|apply Z.ltb_ge; exact Oz|exact EQ0|exact HF|exact HN].
    + destruct (node_facts _ _ _ _ _ _ TO) as [(NK & _) _]. apply key_nonempty in NK.
      destruct (tgt_strip _ _ _ (key i) x1 TG E1 NK N1) as (ts' & S1 & TG' & EQ'). apply wp_bind. eapply wp_lift; [exact S1|]. apply wp_bind. eapply wp_down; [exact H|].
      change null with (lpar (FD c l i r :: k)). change (i_ptr i) with (kup (FD c l i r :: k)).
      eapply (IH s (FD c l i r :: k) d); [lia|apply inv_fill; exact H|exact TO|exact TG'|rewrite EQ'; apply path_D; rewrite <- E1; exact P|exact I| |exact HF|exact HN].
      rewrite EQ'. cbn [kpre]. rewrite <- app_assoc, <- E1. exact EQ0.
    + eapply wp_insert_fis with (z := []); eauto; [lia|rewrite app_nil_r; reflexivity|].
      intro X. apply (tgt_ne _ _ _ TG). apply (f_equal (@length _)) in X. rewrite rev_lc_len in X. destruct fls; [reflexivity|discriminate].
    + eapply wp_insert_fis with (u := s1) (z := u1 :: x1) (y := v1 :: y1); eauto; [lia|discriminate].
Qed.
End Loop.
End I.

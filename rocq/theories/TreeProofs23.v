(** What the chain says about the last comparison: the neighbour of the name searched. *)
From Coq Require Import Permutation Sorted.
From Verif Require Import Base BaseLemmas NameModel TreeModel SpecName SpecOrd SpecScope OrdBase SpecTree SpecLast TreeProofs PermTac TreeProofs2 TreeProofs3 TreeProofs4
  TreePure TreePure2 TreeProofs5 TreeProofs6 TreeProofs7 TreeProofs8 NameWireProofs NameOpsProofs NameOpsProofs2 NameCmpProofs NameCmpProofs2.
Open Scope list_scope.
Open Scope nat_scope.

(** * The order *)
Lemma olex_app : forall p x y, olex (p ++ x) (p ++ y) = olex x y.
Proof. intros p x y. unfold olex. induction p as [|a p IH]; [reflexivity|]. cbn [app map lex_labels]. change (lex_bytes (map okey a) (map okey a)) with (slex a a). rewrite slex_refl. exact IH. Qed.
Lemma olex_hd : forall x y c, x <> [] -> y <> [] -> slex (hd [] x) (hd [] y) = c -> c <> Eq -> olex x y = c.
Proof. intros [|a x] [|b y] c X Y H N; try congruence. unfold olex. cbn [map lex_labels hd] in *. change (lex_bytes (map okey a) (map okey b)) with (slex a b). rewrite H. destruct c; congruence. Qed.
Lemma olex_pre : forall a z, z <> [] -> olex a (a ++ z) = Lt.
Proof. intros a z N. rewrite <- (app_nil_r a) at 1. rewrite olex_app. destruct z; [congruence|reflexivity]. Qed.
Lemma olex_opp : forall a b, olex b a = CompOpp (olex a b).
Proof. intros. unfold olex. apply lex_labels_opp. Qed.
Lemma olex_gt : forall a b, olex a b = Gt -> olex b a = Lt.
Proof. intros a b H. rewrite olex_opp, H. reflexivity. Qed.

Section L.
Context {V : Type} {SC : scope}.
Notation info := (info V). Notation tree := (tree V). Notation frame := (@frame V). Notation ctx := (@ctx V).
Implicit Types (t : tree) (i : info) (k kl : ctx) (f : frame).

(** siblings compare by their first labels, whatever follows *)
Lemma slt_olex : forall i j x y, key i <> [] -> key j <> [] -> slt i j -> olex (key i ++ x) (key j ++ y) = Lt.
Proof. intros i j x y Ni Nj H. apply olex_hd; [|  |rewrite !hd_app by assumption; exact H|discriminate]; intro X; apply app_eq_nil in X; tauto. Qed.
Lemma at_shape : forall t q j, at_ t q j -> exists i d w, In (i, d) (elems t) /\ q = key i ++ w.
Proof. intros t q j H. apply at_inv in H. destruct H as (i & d & I & [[-> _]|(q' & -> & _)]); [exists i, d, []; rewrite app_nil_r|exists i, d, q']; auto. Qed.

Definition outside k t (q a : list label) : Prop :=
  (olex a (kpre k ++ q) = Lt /\ forall i d w, In (i, d) (elems t) -> olex a (kpre k ++ key i ++ w) = Lt) \/
  (olex (kpre k ++ q) a = Lt /\ forall i d w, In (i, d) (elems t) -> olex (kpre k ++ key i ++ w) a = Lt).
Lemma in_or_outside : forall k t q, tree_ok true (plug k t) -> path true k q -> q <> [] -> forall a j, at_ (plug k t) a j ->
  (exists q', a = kpre k ++ q' /\ at_ t q' j) \/ outside k t q a.
Proof.
  induction k as [|f k IH]; intros t q TO PA Nq a j A; [left; exists a; auto|].
  rewrite plug_cons in *. destruct (sub_level _ _ _ TO) as [NO SO]. destruct (SO eq_refl) as [_ SS]. clear SO. pose proof (name_ok_keyed _ _ NO) as KE.
  assert (KN : forall i d, In (i, d) (elems (fill f t)) -> key i <> []).
  { intros i d I. apply key_nonempty. unfold keyed in KE. rewrite Forall_forall in KE. apply KE. apply (in_map fst) in I. exact I. }
  inversion PA as [|c i d r k' q1 P1 [G1 G2]|c l i d k' q1 P1 [G1 G2]|c l i r k' q1 P1]; subst; cbn [kpre].
  - specialize (G2 eq_refl). destruct (IH _ q TO P1 Nq a j A) as [(q' & -> & B)|O].
    + apply at_inv in B. destruct B as (i' & d' & I & B). cbn [fill elems] in I. apply in_app_or in I. destruct I as [I|I].
      * left. exists q'. split; [reflexivity|]. apply at_inv. eauto.
      * right. right. assert (W : exists w, q' = key i' ++ w) by (destruct B as [[-> _]|(w & -> & _)]; [exists []; rewrite app_nil_r|exists w]; reflexivity). destruct W as (w & ->).
        cbn [fill elems] in SS, KN. rewrite map_app in SS. apply ss_app in SS. destruct SS as (_ & SS & SF). cbn [map fst] in SS. inversion SS as [|? ? S1 S2]; subst. rewrite Forall_forall in S2.
        assert (Ni' : key i' <> []) by (apply (KN i' d'); apply in_or_app; auto).
        assert (GL : slex (hd [] q) (hd [] (key i')) = Lt).
        { cbn [In] in I. destruct I as [I|I]; [inversion I; subst; exact G2|]. eapply slt_trans_lt; [exact G2|]. apply S2. apply (in_map fst) in I. exact I. }
        split.
        -- cbn [kpre]. rewrite olex_app. apply olex_hd; [exact Nq| |rewrite hd_app by exact Ni'; exact GL|discriminate]. intro X; apply app_eq_nil in X; tauto.
        -- intros i2 d2 w2 I2. cbn [kpre]. rewrite olex_app. apply slt_olex; [apply (KN i2 d2); apply in_or_app; auto|exact Ni'|]. rewrite Forall_forall in SF. specialize (SF i2 ltac:(apply (in_map fst) in I2; exact I2)).
           rewrite Forall_forall in SF. apply SF. change (i :: map fst (elems r)) with (map fst ((i, d) :: elems r)). apply (in_map fst) in I. exact I.
    + right. cbn [fill elems] in O. destruct O as [[O1 O2]|[O1 O2]]; [left|right]; (split; [exact O1|]); intros i2 d2 w2 I2; eapply O2; apply in_or_app; eauto.
  - specialize (G2 eq_refl). apply lex_gt in G2. destruct (IH _ q TO P1 Nq a j A) as [(q' & -> & B)|O].
    + apply at_inv in B. destruct B as (i' & d' & I & B). cbn [fill elems] in I. apply in_app_or in I. cbn [In] in I.
      assert (C : In (i', d') (elems t) \/ In (i', d') (elems l ++ [(i, d)])) by (rewrite in_app_iff; cbn [In]; tauto). clear I. destruct C as [I|I].
      * left. exists q'. split; [reflexivity|]. apply at_inv. eauto.
      * right. left. assert (W : exists w, q' = key i' ++ w) by (destruct B as [[-> _]|(w & -> & _)]; [exists []; rewrite app_nil_r|exists w]; reflexivity). destruct W as (w & ->).
        cbn [fill elems] in SS, KN. change (elems l ++ (i, d) :: elems t) with (elems l ++ [(i, d)] ++ elems t) in SS, KN. rewrite app_assoc in SS. assert (KN' : forall i0 d0, In (i0, d0) ((elems l ++ [(i, d)]) ++ elems t) -> key i0 <> []) by (intros i0 d0; rewrite <- app_assoc; apply KN). clear KN. rename KN' into KN. rewrite map_app in SS. apply ss_app in SS. destruct SS as (SS & _ & SF).
        assert (Ni' : key i' <> []) by (apply (KN i' d'); apply in_or_app; auto).
        assert (GL : slex (hd [] (key i')) (hd [] q) = Lt).
        { apply in_app_or in I. destruct I as [I|[I|[]]]; [|inversion I; subst; exact G2]. rewrite map_app in SS. apply ss_app in SS. destruct SS as (_ & _ & SS). rewrite Forall_forall in SS.
          specialize (SS i' ltac:(apply (in_map fst) in I; exact I)). cbn [map fst] in SS. inversion SS; subst. eapply slex_trans; [eassumption|exact G2]. }
        split.
        -- cbn [kpre]. rewrite olex_app. apply olex_hd; [|exact Nq|rewrite hd_app by exact Ni'; exact GL|discriminate]. intro X; apply app_eq_nil in X; tauto.
        -- intros i2 d2 w2 I2. cbn [kpre]. rewrite olex_app. apply slt_olex; [exact Ni'|apply (KN i2 d2); apply in_or_app; auto|]. rewrite Forall_forall in SF. specialize (SF i' ltac:(apply (in_map fst) in I; exact I)).
           rewrite Forall_forall in SF. apply SF. apply (in_map fst) in I2. exact I2.
    + right. cbn [fill elems] in O. destruct O as [[O1 O2]|[O1 O2]]; [left|right]; (split; [exact O1|]); intros i2 d2 w2 I2; eapply O2; apply in_or_app; right; right; eauto.
  - assert (II : In (i, t) (elems (fill (FD c l i r) t))) by (cbn [fill elems]; apply in_or_app; cbn; auto). pose proof (KN _ _ II) as Ni.
    destruct (IH _ (key i ++ q) TO P1 ltac:(intro X; apply app_eq_nil in X; tauto) a j A) as [(q' & -> & B)|O].
    + apply at_inv in B. destruct B as (i' & d' & I & B). pose proof (KN _ _ I) as Ni'.
      assert (W : exists w, q' = key i' ++ w) by (destruct B as [[-> _]|(w & -> & _)]; [exists []; rewrite app_nil_r|exists w]; reflexivity).
      cbn [fill elems] in I. assert (I' := I). apply in_app_or in I'. cbn [In] in I'. destruct I' as [I'|[I'|I']].
      * right. left. destruct W as (w & ->). assert (S : slt i' i). { cbn [fill elems] in SS. rewrite map_app in SS. apply ss_app in SS. destruct SS as (_ & _ & SS). rewrite Forall_forall in SS. specialize (SS i' ltac:(apply (in_map fst) in I'; exact I')). cbn [map fst] in SS. inversion SS; subst. assumption. }
        split; [cbn [kpre]; rewrite <- !app_assoc, olex_app; apply slt_olex; auto|]. intros i2 d2 w2 I2. cbn [kpre]. rewrite <- !app_assoc, olex_app. apply slt_olex; auto.
      * inversion I'; subst i' d'. destruct B as [[-> _]|(q'' & -> & B)].
        -- right. left. cbn [kpre]. split; [rewrite <- app_assoc, olex_app; apply olex_pre; exact Nq|]. intros i2 d2 w2 I2. rewrite <- app_assoc, olex_app. apply olex_pre.
           intro X. apply app_eq_nil in X. destruct X as [X _]. revert X. apply key_nonempty.
           assert (TO' : tree_ok true (plug (FD c l i r :: k) t)) by exact TO. destruct (sub_level _ _ _ TO') as [NO' _]. apply name_ok_keyed in NO'. unfold keyed in NO'. rewrite Forall_forall in NO'. apply NO'. apply (in_map fst) in I2. exact I2.
        -- left. exists q''. split; [apply app_assoc|exact B].
      * right. right. destruct W as (w & ->). assert (S : slt i i'). { cbn [fill elems] in SS. rewrite map_app in SS. apply ss_app in SS. destruct SS as (_ & SS & _). cbn [map fst] in SS. inversion SS as [|? ? S1 S2]; subst. rewrite Forall_forall in S2. apply S2. apply (in_map fst) in I'. exact I'. }
        split; [cbn [kpre]; rewrite <- !app_assoc, olex_app; apply slt_olex; auto|]. intros i2 d2 w2 I2. cbn [kpre]. rewrite <- !app_assoc, olex_app. apply slt_olex; auto.
    + right. unfold outside. cbn [kpre]. rewrite <- !app_assoc. destruct O as [[O1 O2]|[O1 O2]]; [left|right]; (split; [exact O1|]); intros i2 d2 w2 I2; rewrite <- app_assoc; eapply O2; exact II.
Qed.

Lemma common_app : forall p x y : list label, common_prefix (p ++ x) (p ++ y) = length p + common_prefix x y.
Proof. induction p as [|a p IH]; intros x y; [reflexivity|]. cbn [app common_prefix length]. destruct (list_eq_dec N.eq_dec a a); [|congruence]. rewrite IH. reflexivity. Qed.
Lemma cls_common_len : forall (q key : list label) r m, cls q key r m -> m = common_prefix q key.
Proof.
  intros q y0 r m H. inversion H as [E1|N1 N2 N3|x N1 E1|y N1 E1|w x y u v N1 E1 E2 N2]; subst.
  - pose proof (common_app y0 [] []) as X. rewrite app_nil_r in X. rewrite X. cbn. lia.
  - destruct q as [|a q], y0 as [|b y0]; try congruence. cbn [hd common_prefix] in *. destruct (list_eq_dec N.eq_dec a b); congruence.
  - pose proof (common_app y0 x []) as X. rewrite app_nil_r in X. rewrite X. destruct x; cbn; lia.
  - pose proof (common_app q [] y) as X. rewrite app_nil_r in X. rewrite X. cbn. lia.
  - rewrite common_app. cbn [common_prefix]. destruct (list_eq_dec N.eq_dec u v); [congruence|]. lia.
Qed.
(** the closest entry above a node *)
Lemma kpre_has : forall k t, kpre k = [] \/ exists e, has (plug k t) (kpre k) e.
Proof.
  intros k t. revert t. induction k as [|f k IH]; intros t; [left; reflexivity|]. rewrite plug_cons. destruct f as [c i d r|c l i d|c l i r]; cbn [kpre]; try apply IH.
  right. exists (ent i). apply has_here.
Qed.
(** the path to a node, by its own labels *)
Lemma path_elem : forall k t i d w, tree_ok true (plug k t) -> In (i, d) (elems t) -> path true k (key i ++ w).
Proof.
  induction k as [|f k IH]; intros t i d w TO I; [constructor|]. rewrite plug_cons in TO. destruct (sub_level _ _ _ TO) as [NO SO]. destruct (SO eq_refl) as [_ SS]. clear SO. pose proof (name_ok_keyed _ _ NO) as KE.
  assert (KN : forall i d, In (i, d) (elems (fill f t)) -> key i <> []).
  { intros i' d' I'. apply key_nonempty. unfold keyed in KE. rewrite Forall_forall in KE. apply KE. apply (in_map fst) in I'. exact I'. }
  destruct f as [c j e r|c l j e|c l j r]; cbn [fill elems] in *.
  - assert (Ni : key i <> []) by (eapply KN; apply in_or_app; left; exact I). constructor; [eapply IH; [exact TO|cbn [fill elems]; apply in_or_app; left; exact I]|].
    rewrite map_app in SS. apply ss_app in SS. destruct SS as (_ & _ & SS). rewrite Forall_forall in SS. specialize (SS i ltac:(apply (in_map fst) in I; exact I)). cbn [map fst] in SS. inversion SS as [|? ? S _]; subst.
    split; rewrite hd_app by exact Ni; [apply lt_neq; exact S|intros _; exact S].
  - assert (Ni : key i <> []) by (eapply KN; apply in_or_app; right; right; exact I). constructor; [eapply IH; [exact TO|cbn [fill elems]; apply in_or_app; right; right; exact I]|].
    rewrite map_app in SS. apply ss_app in SS. destruct SS as (_ & SS & _). cbn [map fst] in SS. inversion SS as [|? ? _ S]; subst. rewrite Forall_forall in S. specialize (S i ltac:(apply (in_map fst) in I; exact I)).
    split; rewrite hd_app by exact Ni; [apply not_eq_sym, lt_neq; exact S|intros _; rewrite slex_opp; unfold slt in S; rewrite S; reflexivity].
  - constructor. eapply IH; [exact TO|]. cbn [fill elems]. apply in_or_app. right. left. reflexivity.
Qed.
Lemma enclosing_k : forall k c l i d r, tree_ok true (plug k (T c l i d r)) -> enclosing (plug k (T c l i d r)) (kpre k ++ key i) (length (kpre k)).
Proof.
  intros k c l i d r TO. assert (N : key i <> []) by (apply key_nonempty; apply (node_facts _ _ _ _ _ _ _ TO)). split.
  - destruct (kpre_has k (T c l i d r)) as [H|(e & H)]; [left; rewrite H; reflexivity|right]. exists (key i), e. rewrite firstn_app, firstn_all, Nat.sub_diag. cbn [firstn]. rewrite app_nil_r. auto.
  - intros b z e EQ NZ HA. eapply (mid_prefix k c l i d r []); eauto. eapply path_elem; [exact TO|]. cbn [elems]. apply in_or_app. cbn. eauto.
Qed.
(** The node [i] where the search ended, with another name or none behind: the neighbour of [q]. *)
Lemma neighbour : forall k c l i d r q, tree_ok true (plug k (T c l i d r)) -> path true k q -> q <> [] ->
  (hd [] q = hd [] (key i) \/ l = E /\ slex (hd [] q) (hd [] (key i)) = Lt \/ r = E /\ slex (hd [] (key i)) (hd [] q) = Lt) ->
  let t := plug k (T c l i d r) in let a := kpre k ++ key i in
  (olex q (key i) = Lt -> next_after t (kpre k ++ q) a) /\ (olex (key i) q = Lt -> last_before t (kpre k ++ q) a).
Proof.
  intros k c l i d r q TO PA Nq C t a.
  destruct (sub_level _ _ _ TO) as [NO SO]. destruct (SO eq_refl) as [_ SS]. clear SO. pose proof (name_ok_keyed _ _ NO) as KE.
  assert (KN : forall i' d', In (i', d') (elems (T c l i d r)) -> key i' <> []).
  { intros i' d' I. apply key_nonempty. unfold keyed in KE. rewrite Forall_forall in KE. apply KE. apply (in_map fst) in I. exact I. }
  assert (II : In (i, d) (elems (T c l i d r))) by (cbn [elems]; apply in_or_app; cbn; auto). pose proof (KN _ _ II) as Ni.
  cbn [elems] in SS. rewrite map_app in SS. apply ss_app in SS. destruct SS as (_ & SS & SF). cbn [map fst] in SS. inversion SS as [|? ? _ SR]; subst. rewrite Forall_forall in SR, SF.
  (* where every other entry lies *)
  assert (POS : forall b e, has t b e -> b = a \/ (exists z, z <> [] /\ b = a ++ z) \/ (olex b a = Lt /\ olex b (kpre k ++ q) = Lt) \/ (olex a b = Lt /\ olex (kpre k ++ q) b = Lt) \/
     (exists i' d', In (i', d') (elems l) /\ slex (hd [] (key i)) (hd [] q) = Lt /\ olex b a = Lt) \/ (exists i' d', In (i', d') (elems r) /\ slex (hd [] q) (hd [] (key i)) = Lt /\ olex a b = Lt)).
  { intros b e (j & A & _). destruct (in_or_outside k _ q TO PA Nq b j A) as [(q' & -> & B)|[[O1 O2]|[O1 O2]]].
    - apply at_inv in B. destruct B as (i' & d' & I & B). pose proof (KN _ _ I) as Ni'.
      assert (W : exists w, q' = key i' ++ w) by (destruct B as [[-> _]|(w & -> & _)]; [exists []; rewrite app_nil_r|exists w]; reflexivity).
      assert (I' := I). cbn [elems] in I'. apply in_app_or in I'. cbn [In] in I'. destruct I' as [I'|[I'|I']].
      + destruct W as (w & ->). assert (S : slt i' i) by (specialize (SF i' ltac:(apply (in_map fst) in I'; exact I')); inversion SF; assumption).
        assert (LA : olex (kpre k ++ key i' ++ w) a = Lt). { unfold a. rewrite olex_app. rewrite <- (app_nil_r (key i)). apply slt_olex; auto. }
        destruct C as [C|[[C _]|[C C2]]]; [|subst l; destruct I'|right; right; right; right; left; exists i', d'; auto].
        right; right; left. split; [exact LA|]. rewrite olex_app. apply olex_hd; [intro X; apply app_eq_nil in X; tauto|exact Nq|rewrite hd_app by exact Ni'; rewrite C; exact S|discriminate].
      + inversion I'; subst i' d'. destruct B as [[-> _]|(w & -> & B)]; [left; reflexivity|]. right. left. exists w. split; [|unfold a; apply app_assoc].
        intros ->. apply at_shape in B. destruct B as (i2 & d2 & w2 & I2 & X). symmetry in X. apply app_eq_nil in X. destruct X as [X _]. revert X. apply key_nonempty.
        assert (TO' : tree_ok true (plug (FD c l i r :: k) d)) by exact TO. destruct (sub_level _ _ _ TO') as [NO' _]. apply name_ok_keyed in NO'. unfold keyed in NO'. rewrite Forall_forall in NO'. apply NO'. apply (in_map fst) in I2. exact I2.
      + destruct W as (w & ->). assert (S : slt i i') by (apply SR; apply (in_map fst) in I'; exact I').
        assert (LA : olex a (kpre k ++ key i' ++ w) = Lt). { unfold a. rewrite olex_app. rewrite <- (app_nil_r (key i)). apply slt_olex; auto. }
        destruct C as [C|[[C C2]|[C _]]]; [|right; right; right; right; right; exists i', d'; auto|subst r; destruct I'].
        right; right; right; left. split; [exact LA|]. rewrite olex_app. apply olex_hd; [exact Nq|intro X; apply app_eq_nil in X; tauto|rewrite hd_app by exact Ni'; rewrite C; exact S|discriminate].
    - right; right; left. split; [|exact O1]. unfold a. rewrite <- (app_nil_r (key i)). eapply O2. exact II.
    - right; right; right; left. split; [|exact O1]. unfold a. rewrite <- (app_nil_r (key i)). eapply O2. exact II. }
  split; intros OR; (split; [unfold a; rewrite olex_app; exact OR|]); intros b e HB; destruct (POS b e HB) as [P|[(z & Nz & P)|[[P1 P2]|[[P1 P2]|[(i' & d' & P1 & P2 & P3)|(i' & d' & P1 & P2 & P3)]]]]]; auto.
  - right. right. rewrite P. apply olex_pre. exact Nz.
  - exfalso. apply (olex_hd (key i) q Lt Ni Nq) in P2; [|discriminate]. rewrite olex_opp, OR in P2. discriminate.
  - right. right. left. exists z. exact P.
  - exfalso. apply (olex_hd q (key i) Lt Nq Ni) in P2; [|discriminate]. rewrite olex_opp, OR in P2. discriminate.
Qed.

(** * The cases *)
Lemma cls_hd : forall (q y : list label) r m, cls q y r m -> q <> [] -> y <> [] -> hd [] q <> hd [] y -> r = NoRelation.
Proof.
  intros q y r m H Nq Ny N. inversion H as [E1|N1 N2 N3|x N1 E1|z N1 E1|w x z u v N1 E1 E2 N2]; subst; auto; exfalso; apply N; rewrite ?hd_app by auto; reflexivity.
Qed.
Lemma cls_sub_inv : forall (y x : list label) r m, cls (y ++ x) y r m -> x <> [] -> y <> [] -> r = SubDomain.
Proof.
  intros y x r m H Nx Ny. inversion H as [E1|N1 N2 N3|z N1 E1|z N1 E1|w x1 z u v N1 E1 E2 N2]; subst; auto; exfalso.
  - rewrite <- (app_nil_r y) in E1 at 2. apply app_inv_head in E1. auto.
  - apply N3. apply hd_app. exact Ny.
  - apply (f_equal (@length _)) in E1. rewrite !app_length in E1. destruct z; [congruence|cbn in E1; lia].
  - rewrite <- app_assoc in E1. apply app_inv_head in E1. cbn [app] in E1. congruence.
Qed.
Lemma cls_eq_inv : forall (y : list label) r m, cls y y r m -> y <> [] -> r = Equal.
Proof.
  intros y r m H Ny. inversion H as [E1|N1 N2 N3|z N1 E1|z N1 E1|w x1 z u v N1 E1 E2 N2]; auto; exfalso; try congruence.
  - apply (f_equal (@length _)) in E1. rewrite app_length in E1. destruct z; [congruence|cbn in E1; lia].
  - apply (f_equal (@length _)) in E1. rewrite app_length in E1. destruct z; [congruence|cbn in E1; lia].
  - rewrite E1 in E2. apply app_inv_head in E2. congruence.
Qed.
(** the result for a search that ended beside node [i] *)
Lemma last_beside : forall k c l i d r q stopped ch, tree_ok true (plug k (T c l i d r)) -> path true k q -> q <> [] -> @cmp_at V true q i ch ->
  (forall e, ~ has (plug k (T c l i d r)) (kpre k ++ q) e) -> (forall y, q <> key i ++ y) ->
  (hd [] q = hd [] (key i) \/ l = E /\ slex (hd [] q) (hd [] (key i)) = Lt \/ r = E /\ slex (hd [] (key i)) (hd [] q) = Lt) ->
  last_compared (plug k (T c l i d r)) (kpre k ++ q) stopped ch.
Proof.
  intros k c l i d r q stopped ch TO PA Nq (L1 & L2 & L3) NH NP C. pose proof (enclosing_k k c l i d r TO) as EN. split.
  { intros X. exfalso. pose proof (has_here k c l i d r) as HH. rewrite X in HH. destruct HH as (j & A & _). apply at_shape in A. destruct A as (? & ? & ? & A & _). exact A. }
  intros _. exists (kpre k ++ key i), (ent i), (length (kpre k)). cbv zeta. split; [apply has_here|]. split; [symmetry; exact L1|]. split; [exact EN|].
  split. { rewrite common_app. f_equal. eapply cls_common_len; exact L2. }
  specialize (L3 eq_refl). destruct (neighbour k c l i d r q TO PA Nq C) as [NB1 NB2].
  assert (NE : olex q (key i) <> Eq). { intro X. unfold olex in X. apply lex_labels_eq in X. apply (NP []). rewrite app_nil_r. assert (J : forall a b : list label, map (map okey) a = map (map okey) b -> a = b).
    { assert (J1 : forall a b, map okey a = map okey b -> a = b) by (induction a as [|x a IH]; intros [|y b] Q; try discriminate; auto; cbn in Q; inversion Q; f_equal; auto; apply okey_inj; assumption).
      induction a as [|x a IH]; intros [|y b] Q; try discriminate; auto. cbn in Q. inversion Q. f_equal; auto. }
    apply J. exact X. }
  assert (ORD : (cr_order (ch_result ch) < 0)%Z /\ next_after (plug k (T c l i d r)) (kpre k ++ q) (kpre k ++ key i) \/ (0 < cr_order (ch_result ch))%Z /\ last_before (plug k (T c l i d r)) (kpre k ++ q) (kpre k ++ key i)).
  { destruct (olex q (key i)) eqn:O; [congruence|left|right].
    - split; [apply Z.compare_lt_iff; exact L3|auto].
    - split; [apply Z.compare_gt_iff; exact L3|apply NB2; apply olex_gt; exact O]. }
  inversion L2 as [E1 R1 C1|N1 N2 N3 R1 C1|x1 N1 E1 R1 C1|y1 N1 E1 R1 C1|s1 x1 y1 u1 v1 N1 E1 E2 N2 R1 C1].
  - exfalso. apply (NP []). rewrite app_nil_r. exact E1.
  - split; [exact NH|]. split; [exact ORD|]. split; [|split; [intros _; lia|reflexivity]]. split; [discriminate|]. intros (z & Nz & X). exfalso. rewrite <- app_assoc in X. apply app_inv_head in X. apply N3. rewrite X, hd_app by exact Nq. reflexivity.
  - exfalso. exact (NP x1 E1).
  - split; [exact NH|]. split; [exact ORD|]. split; [|split; [discriminate|]].
    + split; [|reflexivity]. intros _. exists y1. split; [exact N1|]. rewrite E1, app_assoc. reflexivity.
    + intros X. exfalso. rewrite X in C1. cbn in C1. destruct q; [congruence|discriminate].
  - split; [exact NH|]. split; [exact ORD|]. split; [|split; [discriminate|]].
    + split; [discriminate|]. intros (z & Nz & X). exfalso. rewrite <- app_assoc in X. apply app_inv_head in X. rewrite E1, E2, <- app_assoc in X. apply app_inv_head in X. cbn [app] in X. congruence.
    + intros X. exfalso. rewrite X in C1. cbn in C1. destruct s1; [congruence|discriminate].
Qed.

Lemma last_above : forall k c l i d r z (stopped : Prop) ch, tree_ok true (plug k (T c l i d r)) -> z <> [] -> @cmp_at V true (key i ++ z) i ch ->
  (~ stopped -> d = E) -> last_compared (plug k (T c l i d r)) (kpre k ++ key i ++ z) stopped ch.
Proof.
  intros k c l i d r z stopped ch TO Nz (L1 & L2 & L3) D. assert (N : key i <> []) by (apply key_nonempty; apply (node_facts _ _ _ _ _ _ _ TO)). pose proof (enclosing_k k c l i d r TO) as EN. split.
  { intros X. exfalso. pose proof (has_here k c l i d r) as HH. rewrite X in HH. destruct HH as (j & A & _). apply at_shape in A. destruct A as (? & ? & ? & A & _). exact A. }
  intros _. exists (kpre k ++ key i), (ent i), (length (kpre k)). cbv zeta. split; [apply has_here|]. split; [symmetry; exact L1|]. split; [exact EN|].
  split. { rewrite common_app. f_equal. eapply cls_common_len; exact L2. }
  rewrite (cls_sub_inv _ _ _ _ L2 Nz N). split; [exists z; split; [exact Nz|apply app_assoc]|]. intros NS y e (j & A & _). rewrite (D NS) in *.
  rewrite <- app_assoc in A. apply (at_path k (T c l i E r) (key i) TO) in A; [| |intro X; apply app_eq_nil in X; tauto|apply hd_app; exact N].
  2:{ rewrite <- (app_nil_r (key i)). eapply path_elem; [exact TO|]. cbn [elems]. apply in_or_app. right. left. reflexivity. }
  apply at_inv in A. destruct A as (i' & d' & I & B).
  destruct (sub_level _ _ _ TO) as [NO SO]. destruct (SO eq_refl) as [_ SS]. clear SO. pose proof (name_ok_keyed _ _ NO) as KE.
  assert (Ni' : key i' <> []). { apply key_nonempty. unfold keyed in KE. rewrite Forall_forall in KE. apply KE. apply (in_map fst) in I. exact I. }
  assert (X : i = i' /\ E = d').
  { eapply ss_unique; [exact SS|cbn [elems]; apply in_or_app; right; left; reflexivity|exact I|].
    destruct B as [[B _]|(q1 & B & _)]; [rewrite <- B, hd_app by exact N; reflexivity|]. apply (f_equal (hd [])) in B. rewrite !hd_app in B by assumption. exact B. }
  destruct X as [<- <-]. destruct B as [[B _]|(q1 & B & C)].
  - rewrite <- (app_nil_r (key i)) in B at 2. apply app_inv_head in B. exact B.
  - exfalso. apply at_shape in C. destruct C as (? & ? & ? & C & _). exact C.
Qed.
Lemma last_exact : forall k c l i d r stopped ch, tree_ok true (plug k (T c l i d r)) -> @cmp_at V true (key i) i ch -> last_compared (plug k (T c l i d r)) (kpre k ++ key i) stopped ch.
Proof.
  intros k c l i d r stopped ch TO (L1 & L2 & L3). assert (N : key i <> []) by (apply key_nonempty; apply (node_facts _ _ _ _ _ _ _ TO)). pose proof (enclosing_k k c l i d r TO) as EN. split.
  { intros X. exfalso. pose proof (has_here k c l i d r) as HH. rewrite X in HH. destruct HH as (j & A & _). apply at_shape in A. destruct A as (? & ? & ? & A & _). exact A. }
  intros _. exists (kpre k ++ key i), (ent i), (length (kpre k)). cbv zeta. split; [apply has_here|]. split; [symmetry; exact L1|]. split; [exact EN|].
  split. { rewrite common_app. f_equal. eapply cls_common_len; exact L2. }
  rewrite (cls_eq_inv _ _ _ L2 N). reflexivity.
Qed.

Lemma wp_find_last : forall P asc md ls (cb : option (callback P)) (s : dtree V) t n x (p0 : P), wf_labels ls -> (asc = true -> scoped ls) -> safe_md asc md ->
  inv s [] t n x -> tree_ok asc t -> cb = None \/ Forall no_nul_end (labs t) ->
  wp (find_node_ext md (name_of ls) chain_new cb p0) s (fun a s' => s' = s /\ (asc = true -> last_compared t (qof ls) (stops cb t (qof ls) p0) (snd (fst a)))).
Proof.
  intros P asc md ls cb s t n x p0 W AS SM H TO NN. unfold find_node_ext. apply wp_fun with (m := fun s => _).
  destruct (tgt_init ls W) as (ts & E1 & TG). apply wp_bind. eapply wp_lift; [exact E1|].
  assert (RT : dt_root s = pt t) by (destruct H as (_ & H & _); exact H). assert (NX : dt_next s = x) by (destruct H as (_ & _ & _ & H); exact H).
  assert (CN : count t <= x).
  { destruct (St_len _ _ _ _ _ H) as [Y|[Y _]]; unfold whole in Y; cbn [kcells app] in Y; [rewrite cells_count in Y; lia|]. destruct t; [cbn; lia|discriminate]. }
  rewrite RT, NX. change fr_new with (kresult (@nil frame)).
  eapply (wp_find_loop asc md ls (qof ls) P cb W AS SM (qof_len ls W) _ s [] t n x ts (full ls)); [lia|exact H|exact TO|exact TG|constructor|reflexivity|apply chain_new_ok|reflexivity|exact NN|reflexivity| | |].
  - intros k c l i d r ch' p' EP HI EQ PA SE LN OC LA. cbn [fst snd]. split; auto. cbn [plug fold_left] in EP. intros ->. rewrite <- EP in *. rewrite <- EQ. apply last_exact; auto.
  - intros k t' q ch' p' EP HI EQ Nq PA M SE LN OC LA. cbn [fst snd]. split; auto. cbn [plug fold_left] in EP. intros ->. rewrite <- EP in *. rewrite <- EQ.
    assert (MP := miss_prefix k t' q TO PA (fun i d y I => M i d y I PA eq_refl)).
    assert (NH : forall e, ~ has (plug k t') (kpre k ++ q) e). { intros e HA. assert (X := MP (kpre k ++ q) [] e ltac:(rewrite app_nil_r; reflexivity) HA). rewrite app_length in X. destruct q; [congruence|cbn in X; lia]. }
    destruct t' as [|c l i d r].
    + cbn [last_at] in LA. destruct k as [|f k]; [split; [intros _; exact LA|intros X; exfalso; apply X; reflexivity]|]. rewrite plug_cons in *.
      inversion PA as [|c i d r k' q1 P1 [G1 G2]|c l i d k' q1 P1 [G1 G2]|c l i r k' q1 P1]; subst; cbn [last_ok] in LA; cbn [fill kpre] in *.
      * specialize (G2 eq_refl). apply last_beside; auto. assert (N : key i <> []) by (apply key_nonempty; apply (node_facts _ _ _ _ _ _ _ TO)). intros y X. apply G1. rewrite X, hd_app by exact N. reflexivity.
      * specialize (G2 eq_refl). apply last_beside; auto. { assert (N : key i <> []) by (apply key_nonempty; apply (node_facts _ _ _ _ _ _ _ TO)). intros y X. apply G1. rewrite X, hd_app by exact N. reflexivity. }
        right. right. split; [reflexivity|]. apply lex_gt. exact G2.
      * rewrite <- app_assoc. apply last_above; auto.
    + cbn [last_at] in LA. destruct LA as [LA HD]. apply last_beside; auto. intros y. apply (M i d y); auto. cbn [elems]. apply in_or_app. cbn. auto.
  - intros k c l i d r q ch' p1 p' EP HI EQ Nq PA SE VI LN OC LA. cbn [fst snd]. split; auto. cbn [plug fold_left] in EP. intros ->. rewrite <- EP in *. rewrite <- EQ. apply last_above; auto.
    intros NS. exfalso. apply NS. destruct (full_ancestors k c l i d r q TO PA Nq) as (L2 & AN). eexists _, _. split; [exact AN|]. rewrite visit_app, SE. change ((removelast (i_labels i ++ ksuf k), ent i) :: L2) with ([(removelast (i_labels i ++ ksuf k), ent i)] ++ L2). rewrite visit_app, VI. reflexivity.
Qed.
End L.

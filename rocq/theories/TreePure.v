(** Facts about trees, contexts and their contents; no memory involved. *)
From Coq Require Import Permutation Sorted.
From Verif Require Import Base BaseLemmas NameModel TreeModel SpecName SpecOrd SpecScope OrdBase SpecTree TreeProofs TreeProofs2 TreeProofs3 NameWireProofs NameOpsProofs NameOpsProofs2 NameCmpProofs NameCmpProofs2.
Open Scope list_scope.
Open Scope nat_scope.

(** * Comparing label lists *)
Lemma common_prefix_split : forall a b : list label, exists s x y, a = s ++ x /\ b = s ++ y /\ common_prefix a b = length s /\
  match x, y with u :: _, v :: _ => u <> v | _, _ => True end.
Proof.
  induction a as [|u a IH]; intros [|v b]; cbn [common_prefix].
  - exists [], [], []. auto.
  - exists [], [], (v :: b). auto.
  - exists [], (u :: a), []. auto.
  - destruct (list_eq_dec N.eq_dec u v) as [->|NE].
    + destruct (IH b) as (s & x & y & -> & -> & L & M). exists (v :: s), x, y. repeat split; auto. cbn. lia.
    + exists [], (u :: a), (v :: b). auto.
Qed.
(** how a target [q] relates to a node's labels [k] *)
Inductive cls (q k : list label) : relation -> nat -> Prop :=
| cls_eq : q = k -> cls q k Equal (length k)
| cls_no : q <> [] -> k <> [] -> hd [] q <> hd [] k -> cls q k NoRelation 0
| cls_sub x : x <> [] -> q = k ++ x -> cls q k SubDomain (length k)
| cls_super y : y <> [] -> k = q ++ y -> cls q k SuperDomain (length q)
| cls_common s x y u v : s <> [] -> q = s ++ u :: x -> k = s ++ v :: y -> u <> v -> cls q k CommonAncestor (length s).
Lemma cls_spec : forall q k, q <> [] -> k <> [] -> cls q k (rel_spec (length q) (length k) (common_prefix q k)) (common_prefix q k).
Proof.
  intros q k Nq Nk. destruct (common_prefix_split q k) as (s & x & y & -> & -> & L & M). rewrite L. unfold rel_spec. rewrite !app_length.
  destruct x as [|u x], y as [|v y]; cbn [length].
  - rewrite Nat.add_0_r, Nat.eqb_refl. cbn [andb]. rewrite !app_nil_r. apply cls_eq. reflexivity.
  - rewrite Nat.add_0_r, Nat.eqb_refl. rewrite (proj2 (Nat.eqb_neq (length s) (length s + S (length y)))) by lia. cbn [andb]. rewrite !app_nil_r in *. eapply cls_super; [|reflexivity]. discriminate.
  - rewrite Nat.add_0_r, Nat.eqb_refl. rewrite (proj2 (Nat.eqb_neq (length s) (length s + S (length x)))) by lia. cbn [andb]. rewrite !app_nil_r in *. eapply cls_sub; [|reflexivity]. discriminate.
  - rewrite (proj2 (Nat.eqb_neq (length s) (length s + S (length x)))), (proj2 (Nat.eqb_neq (length s) (length s + S (length y)))) by lia. cbn [andb].
    destruct s as [|w s]; cbn [length Nat.eqb].
    + apply cls_no; auto.
    + apply (cls_common _ _ (w :: s) x y u v); [discriminate|reflexivity|reflexivity|exact M].
Qed.
Section P.
Context {V : Type} {SC : scope}.
Notation info := (info V). Notation tree := (tree V). Notation frame := (@frame V). Notation ctx := (@ctx V).
Implicit Types (t : tree) (i : info) (k kl : ctx) (f : frame) (P : list label -> tree -> Prop).

Lemma key_app : forall i (a b : list label), i_labels i = a ++ b -> key i = rev (lc_labels b) ++ rev (lc_labels a).
Proof. intros i a b H. unfold key. rewrite H. unfold lc_labels. rewrite map_app, rev_app_distr. reflexivity. Qed.
Lemma key_nonempty : forall i, i_labels i <> [] -> key i <> [].
Proof. intros i H X. apply H. unfold key, lc_labels in X. assert (Y : length (rev (map lc_label (i_labels i))) = 0) by (rewrite X; reflexivity). rewrite rev_length, map_length in Y. destruct (i_labels i); [reflexivity|discriminate]. Qed.
Lemma key_length : forall i, length (key i) = length (i_labels i).
Proof. intros i. unfold key, lc_labels. rewrite rev_length, map_length. reflexivity. Qed.

(** * The labels above a hole *)
Fixpoint ksuf k : list label := match k with [] => [] | FD _ _ i _ :: k' => i_labels i ++ ksuf k' | _ :: k' => ksuf k' end.
Lemma ksuf_app : forall kl k, flat kl -> ksuf (kl ++ k) = ksuf k.
Proof. induction 1 as [|[] kl F _ IH]; cbn in *; auto; contradiction. Qed.

(** * Elements of a level *)
Fixpoint kleft kl : list (info * tree) := match kl with FR c l i d :: k => kleft k ++ elems l ++ [(i, d)] | _ :: k => kleft k | [] => [] end.
Fixpoint kright kl : list (info * tree) := match kl with FL c i d r :: k => (i, d) :: elems r ++ kright k | _ :: k => kright k | [] => [] end.
Lemma elems_plug_eq : forall kl t, flat kl -> elems (plug kl t) = kleft kl ++ elems t ++ kright kl.
Proof.
  induction kl as [|f kl IH]; intros t F; [cbn; rewrite app_nil_r; reflexivity|]. inversion F; subst. cbn [plug fold_left]. change (fold_left _ kl ?u) with (plug kl u).
  rewrite IH by auto. destruct f; try contradiction; cbn [fill elems kleft kright]; rewrite <- !app_assoc; cbn [app]; rewrite <- ?app_assoc; reflexivity.
Qed.
Lemma plug_app : forall a b t, plug (a ++ b) t = plug b (plug a t).
Proof. intros. unfold plug. apply fold_left_app. Qed.

(** trees that differ only in what hangs below their nodes *)
Fixpoint strip t : tree := match t with E => E | T c l i d r => T c (strip l) i E (strip r) end.
Lemma strip_plug : forall kl t t', flat kl -> strip t = strip t' -> strip (plug kl t) = strip (plug kl t').
Proof. induction kl as [|f kl IH]; intros t t' F H; [exact H|]. inversion F; subst. cbn [plug fold_left]. apply IH; auto. destruct f; try contradiction; cbn [fill strip]; congruence. Qed.
Lemma strip_elems : forall t, map fst (elems (strip t)) = map fst (elems t).
Proof. induction t as [|c l IHl i d IHd r IHr]; [reflexivity|]. cbn [strip elems]. rewrite !map_app. cbn [map fst]. congruence. Qed.
Lemma strip_rb : forall t n, rb (strip t) n <-> rb t n.
Proof.
  assert (C : forall t, col (strip t) = col t) by (intros []; reflexivity).
  induction t as [|c l IHl i d IHd r IHr]; intros n; [reflexivity|]. cbn [strip]. split; intro H; inversion H; subst; constructor; try (apply IHl); try (apply IHr); auto; congruence.
Qed.
Definition insens P := forall suf t t', strip t = strip t' -> P suf t -> P suf t'.
Lemma level_ok_insens : forall asc, insens (level_ok asc).
Proof.
  intros asc suf t t' S (A & B & C & D). unfold level_ok. rewrite <- (strip_elems t'), <- S, strip_elems. split; [|split; [|split]].
  - destruct A as [n A]. exists n. rewrite <- strip_rb, <- S, strip_rb. exact A.
  - destruct t, t'; cbn in *; congruence.
  - exact C.
  - exact D.
Qed.

(** * Levels inside a context *)
Lemma lvl_P : forall P suf t, lvl P suf t -> P suf t. Proof. intros P suf t []; auto. Qed.
Lemma lvl_down : forall P suf t i d, lvl P suf t -> In (i, d) (elems t) -> lvl P (i_labels i ++ suf) d. Proof. intros P suf t i d []; auto. Qed.
Lemma lvl_elem : forall P k t i d, lvl P [] (plug k t) -> In (i, d) (elems t) -> lvl P (i_labels i ++ ksuf k) d.
Proof.
  induction k as [|f k IH]; intros t i d H I; [eapply lvl_down in H; [|exact I]; cbn; exact H|].
  cbn [plug fold_left] in H. change (fold_left _ k ?u) with (plug k u) in H. destruct f as [c j e r|c l j e|c l j r]; cbn [ksuf].
  - eapply IH; [exact H|]. cbn [fill elems]. apply in_or_app. auto.
  - eapply IH; [exact H|]. cbn [fill elems]. apply in_or_app. cbn. auto.
  - eapply (IH _ j t) in H; [|cbn [fill elems]; apply in_or_app; cbn; auto]. eapply lvl_down in H; [|exact I]. exact H.
Qed.
Lemma lvl_hole : forall P k t, lvl P [] (plug k t) -> krt true k = true -> lvl P (ksuf k) t.
Proof.
  intros P [|f k] t H K; [exact H|]. destruct f as [c j e r|c l j e|c l j r]; try discriminate. cbn [ksuf plug fold_left] in *. change (fold_left _ k ?u) with (plug k u) in H.
  eapply lvl_elem; [exact H|]. cbn [fill elems]. apply in_or_app. cbn. auto.
Qed.
Lemma in_app3 : forall (A : Type) (x : A) a b c, In x (a ++ b ++ c) <-> In x a \/ In x b \/ In x c.
Proof. intros. rewrite !in_app_iff. tauto. Qed.
Lemma split_level' : forall k, exists kl k0, k = kl ++ k0 /\ flat kl /\ krt true k0 = true.
Proof.
  induction k as [|f k (kl & k0 & -> & F & K)].
  - exists [], []. repeat split; constructor.
  - destruct f as [c i d r|c l i d|c l i r].
    + exists (FL c i d r :: kl), k0. repeat split; auto. constructor; auto. exact I.
    + exists (FR c l i d :: kl), k0. repeat split; auto. constructor; auto. exact I.
    + exists [], (FD c l i r :: kl ++ k0). repeat split; constructor.
Qed.
Lemma lvl_repl : forall P, insens P -> forall N k t t', length k < N -> krt true k = true -> lvl P [] (plug k t) -> lvl P (ksuf k) t' -> lvl P [] (plug k t').
Proof.
  intros P IP. induction N as [|N IH]; intros k t t' Le K H H'; [lia|]. destruct k as [|f k]; [exact H'|].
  destruct f as [c j e r|c l j e|c l j r]; try discriminate. cbn [ksuf] in H'. cbn [plug fold_left] in *. change (fold_left _ k ?u) with (plug k u) in *.
  destruct (split_level' k) as (kl & k0 & -> & F & K0). rewrite plug_app in *. rewrite ksuf_app in H' by auto.
  eapply (IH k0 _ _); [cbn in Le; rewrite app_length in Le; lia|exact K0|exact H|].
  pose proof (lvl_hole _ _ _ H K0) as HL. constructor.
  - eapply IP; [|apply lvl_P; exact HL]. apply strip_plug; auto.
  - intros i d I. pose proof (fun X => lvl_down _ _ _ i d HL X) as HD. rewrite elems_plug_eq in * by auto. cbn [fill elems] in *.
    rewrite !in_app_iff in *. cbn [In] in *. destruct I as [I|[[I|[I|I]]|I]]; try (apply HD; tauto). inversion I; subst. exact H'.
Qed.
(** replacing a level *)
Lemma lvl_replace : forall asc k t t', krt true k = true -> tree_ok asc (plug k t) -> lvl (level_ok asc) (ksuf k) t' -> tree_ok asc (plug k t').
Proof. intros asc k t t' K H H'. eapply lvl_repl; [apply level_ok_insens|apply Nat.lt_succ_diag_r|exact K|exact H|exact H']. Qed.

(** * Order *)
Lemma ss_app : forall (A : Type) (R : A -> A -> Prop) a b, StronglySorted R (a ++ b) <-> StronglySorted R a /\ StronglySorted R b /\ Forall (fun x => Forall (R x) b) a.
Proof.
  intros A R a b. induction a as [|x a IH]; cbn [app].
  - split; [intro H; repeat split; auto; constructor|tauto].
  - split.
    + intro H. inversion H as [|? ? H1 H2]; subst. apply IH in H1. destruct H1 as (P1 & P2 & P3). apply Forall_app in H2. destruct H2 as [H2 H3].
      repeat split; auto; constructor; auto.
    + intros (P1 & P2 & P3). inversion P1; subst. inversion P3; subst. constructor; [apply IH; auto|]. apply Forall_app. auto.
Qed.
Lemma slt_irr : forall i j : info, hd [] (key i) = hd [] (key j) -> ~ slt i j.
Proof. intros i j H X. unfold slt in X. rewrite H, slex_refl in X. discriminate. Qed.
Lemma ss_unique : forall (L : list (info * tree)) i d i' d', StronglySorted slt (map fst L) -> In (i, d) L -> In (i', d') L -> hd [] (key i) = hd [] (key i') -> i = i' /\ d = d'.
Proof.
  induction L as [|[j e] L IH]; intros i d i' d' S I I' H; [inversion I|]. cbn [map fst] in S. inversion S as [|? ? S1 S2]; subst. rewrite Forall_forall in S2.
  cbn [In] in I, I'. destruct I as [I|I], I' as [I'|I'].
  - inversion I; inversion I'; subst. auto.
  - inversion I; subst. destruct (slt_irr i i' H). apply S2. apply (in_map fst) in I'. exact I'.
  - inversion I'; subst. destruct (slt_irr i' i (eq_sym H)). apply S2. apply (in_map fst) in I. exact I.
  - eauto.
Qed.
Lemma sub_level : forall asc k t, tree_ok asc (plug k t) -> Forall (name_ok (ksuf k)) (map fst (elems t)) /\
  (asc = true -> Forall (fun i => scoped (i_labels i)) (map fst (elems t)) /\ StronglySorted slt (map fst (elems t))).
Proof.
  intros asc k t H. destruct (split_level' k) as (kl & k0 & -> & F & K). unfold tree_ok in H. rewrite plug_app in H. apply lvl_hole in H; auto. apply lvl_P in H.
  destruct H as (_ & _ & H1 & H2). rewrite elems_plug_eq in * by auto. rewrite ksuf_app by auto. rewrite !map_app in *. apply Forall_app in H1. destruct H1 as [_ H1]. apply Forall_app in H1.
  split; [apply H1|]. intro A. destruct (H2 A) as [H3 H4]. apply Forall_app in H3. destruct H3 as [_ H3]. apply Forall_app in H3. split; [apply H3|].
  apply ss_app in H4. destruct H4 as (_ & H4 & _). apply ss_app in H4. apply H4.
Qed.
Lemma level_rb : forall asc kl k0 t, tree_ok asc (plug (kl ++ k0) t) -> flat kl -> krt true k0 = true -> exists m, rb (plug kl t) m /\ col (plug kl t) = Black.
Proof. intros asc kl k0 t H F K. unfold tree_ok in H. rewrite plug_app in H. apply lvl_hole in H; auto. apply lvl_P in H. destruct H as ([m H] & C & _). eauto. Qed.

(** * Contents *)
Lemma at_inv : forall t q j, at_ t q j <-> exists i d, In (i, d) (elems t) /\ ((q = key i /\ j = i) \/ exists q', q = key i ++ q' /\ at_ d q' j).
Proof.
  intros t q j. split.
  - intros []; eauto 8.
  - intros (i & d & I & [[-> ->]|(q' & -> & A)]); econstructor; eauto.
Qed.
Definition keyed t := Forall (fun i => i_labels i <> []) (map fst (elems t)).
Lemma name_ok_keyed : forall suf t, Forall (name_ok suf) (map fst (elems t)) -> keyed t.
Proof. intros suf t. apply Forall_impl. intros i [H _]. exact H. Qed.
Lemma hd_app : forall (a b : list label), a <> [] -> hd [] (a ++ b) = hd [] a.
Proof. intros [|x a] b H; [congruence|reflexivity]. Qed.
Lemma at_head : forall t q j, keyed t -> at_ t q j -> exists i d, In (i, d) (elems t) /\ hd [] q = hd [] (key i) /\ q <> [].
Proof.
  intros t q j K H. apply at_inv in H. destruct H as (i & d & I & H). exists i, d. split; auto.
  assert (N : key i <> []) by (apply key_nonempty; unfold keyed in K; rewrite Forall_forall in K; apply K; apply (in_map fst) in I; exact I).
  destruct H as [[-> _]|(q' & -> & _)]; [auto|]. split; [apply hd_app; auto|]. intro X. apply app_eq_nil in X. tauto.
Qed.
Lemma at_sub : forall t t' q j, keyed t' -> incl (elems t) (elems t') ->
  (forall i d, In (i, d) (elems t') -> In (i, d) (elems t) \/ hd [] (key i) <> hd [] q) -> (at_ t' q j <-> at_ t q j).
Proof.
  intros t t' q j K I O. rewrite !at_inv. split; intros (i & d & Ii & H); exists i, d; split; auto. destruct (O _ _ Ii) as [X|X]; auto. exfalso. apply X.
  assert (N : key i <> []) by (apply key_nonempty; unfold keyed in K; rewrite Forall_forall in K; apply K; apply (in_map fst) in Ii; exact Ii).
  destruct H as [[-> _]|(q' & -> & _)]; [auto|]. symmetry. apply hd_app; auto.
Qed.

(** * Navigation *)
Definition goes (asc : bool) (c : comparison) (i : info) (q : list label) : Prop :=
  hd [] q <> hd [] (key i) /\ (asc = true -> slex (hd [] q) (hd [] (key i)) = c).
Inductive path (asc : bool) : ctx -> list label -> Prop :=
| path_nil q : path asc [] q
| path_L c i d r k q : path asc k q -> goes asc Lt i q -> path asc (FL c i d r :: k) q
| path_R c l i d k q : path asc k q -> goes asc Gt i q -> path asc (FR c l i d :: k) q
| path_D c l i r k q : path asc k (key i ++ q) -> path asc (FD c l i r :: k) q.
Fixpoint kpre k : list label := match k with [] => [] | FD _ _ i _ :: k' => kpre k' ++ key i | _ :: k' => kpre k' end.
Lemma kpre_ksuf : forall k, kpre k = rev (lc_labels (ksuf k)).
Proof. induction k as [|[] k IH]; cbn [kpre ksuf]; auto. rewrite IH. unfold key, lc_labels. rewrite map_app, rev_app_distr. reflexivity. Qed.
Lemma slt_trans_lt : forall (i j : info) x, slex x (hd [] (key i)) = Lt -> slt i j -> slex x (hd [] (key j)) = Lt.
Proof. intros i j x A B. eapply slex_trans; eauto. Qed.
Lemma lex_gt : forall x y, slex x y = Gt -> slex y x = Lt.
Proof. intros x y H. rewrite slex_opp, H. reflexivity. Qed.
Lemma lt_neq : forall x y, slex x y = Lt -> x <> y.
Proof. intros x y H ->. rewrite slex_refl in H. discriminate. Qed.

Lemma at_path : forall k t q, tree_ok true (plug k t) -> path true k q -> forall q' j, q' <> [] -> hd [] q' = hd [] q ->
  (at_ (plug k t) (kpre k ++ q') j <-> at_ t q' j).
Proof.
  induction k as [|f k IH]; intros t q H P q' j N Hq; [reflexivity|].
  cbn [plug fold_left] in *. change (fold_left _ k ?u) with (plug k u) in *.
  destruct (sub_level _ _ _ H) as [NO SO]. destruct (SO eq_refl) as [_ SS]. clear SO. pose proof (name_ok_keyed _ _ NO) as KE.
  inversion P as [|c i d r k' q1 P1 [G1 G2]|c l i d k' q1 P1 [G1 G2]|c l i r k' q1 P1]; subst.
  - cbn [kpre]. rewrite (IH _ q H P1 q' j N Hq). specialize (G2 eq_refl). apply at_sub; [exact KE|cbn [fill elems]; intros x X; apply in_or_app; auto|].
    cbn [fill elems] in *. intros i' d' I. apply in_app_or in I. destruct I as [I|I]; auto. right. rewrite Hq. rewrite map_app in SS. apply ss_app in SS. destruct SS as (_ & SS & _).
    cbn [map fst] in SS. inversion SS as [|? ? S1 S2]; subst. cbn [In] in I. destruct I as [I|I].
    + inversion I; subst. apply not_eq_sym. apply lt_neq. exact G2.
    + apply not_eq_sym. apply lt_neq. eapply slt_trans_lt; [exact G2|]. rewrite Forall_forall in S2. apply S2. apply (in_map fst) in I. exact I.
  - cbn [kpre]. rewrite (IH _ q H P1 q' j N Hq). specialize (G2 eq_refl). apply lex_gt in G2. apply at_sub; [exact KE|cbn [fill elems]; intros x X; apply in_or_app; cbn; auto|].
    cbn [fill elems] in *. intros i' d' I. rewrite map_app in SS. apply ss_app in SS. destruct SS as (_ & _ & SS). apply in_app_or in I. cbn [In] in I. destruct I as [I|[I|I]]; auto; right; rewrite Hq.
    + apply lt_neq. rewrite Forall_forall in SS. apply (in_map fst) in I. specialize (SS _ I). cbn [map fst] in SS. inversion SS; subst. eapply slex_trans; [eassumption|exact G2].
    + inversion I; subst. apply lt_neq. exact G2.
  - cbn [kpre]. rewrite <- app_assoc.
    assert (Nk : key i <> []). { apply key_nonempty. unfold keyed in KE. rewrite Forall_forall in KE. apply KE. cbn [fill elems]. rewrite map_app. apply in_or_app. cbn. auto. }
    rewrite (IH _ (key i ++ q) H P1 (key i ++ q') j); [|intro X; apply app_eq_nil in X; tauto|rewrite !hd_app; auto].
    rewrite at_inv. split.
    + intros (i' & d' & I & A). assert (X : i = i' /\ t = d').
      { eapply ss_unique; [exact SS|cbn [fill elems]; apply in_or_app; cbn; auto|exact I|].
        assert (Nk' : key i' <> []). { apply key_nonempty. unfold keyed in KE. rewrite Forall_forall in KE. apply KE. apply (in_map fst) in I. exact I. }
        destruct A as [[A _]|(q1 & A & _)]; [rewrite <- A, hd_app; auto|]. apply (f_equal (hd [])) in A. rewrite !hd_app in A; auto. }
      destruct X as [<- <-]. destruct A as [[A _]|(q1 & A & B)].
      * exfalso. rewrite <- (app_nil_r (key i)) in A at 2. apply app_inv_head in A. auto.
      * apply app_inv_head in A. subst q1. exact B.
    + intros A. exists i, t. split; [cbn [fill elems]; apply in_or_app; cbn; auto|]. right. eauto.
Qed.
Lemma at_plug : forall k t q i, at_ t q i -> at_ (plug k t) (kpre k ++ q) i.
Proof.
  induction k as [|f k IH]; intros t q i H; [exact H|]. cbn [plug fold_left]. change (fold_left _ k ?u) with (plug k u).
  destruct f as [c j d r|c l j d|c l j r]; cbn [kpre].
  - apply IH. apply at_inv in H. destruct H as (i' & d' & I & A). apply at_inv. exists i', d'. split; auto. cbn [fill elems]. apply in_or_app. auto.
  - apply IH. apply at_inv in H. destruct H as (i' & d' & I & A). apply at_inv. exists i', d'. split; auto. cbn [fill elems]. apply in_or_app. cbn. auto.
  - rewrite <- app_assoc. apply IH. eapply at_down; [|exact H]. cbn [fill elems]. apply in_or_app. cbn. auto.
Qed.
End P.

(** Splitting a node and adding one: the order of levels and the contents. *)
From Coq Require Import Permutation Sorted.
From Verif Require Import Base BaseLemmas NameModel TreeModel SpecName SpecOrd SpecScope OrdBase SpecTree TreeProofs TreeProofs2 TreeProofs3 NameWireProofs NameOpsProofs NameOpsProofs2 NameCmpProofs NameCmpProofs2 TreePure.
Open Scope list_scope.
Open Scope nat_scope.

Section P.
Context {V : Type} {SC : scope}.
Notation info := (info V). Notation tree := (tree V). Notation frame := (@frame V). Notation ctx := (@ctx V). Notation entry := (entry V).
Implicit Types (t : tree) (i : info) (k kl : ctx) (f : frame) (P : list label -> tree -> Prop) (e : entry).

(** * Contents of a context *)
Lemma at_plug_iff : forall k, exists O : list label -> info -> Prop, forall t q j, at_ (plug k t) q j <-> O q j \/ exists q', q = kpre k ++ q' /\ at_ t q' j.
Proof.
  induction k as [|f k (O & IH)].
  - exists (fun _ _ => False). intros t q j. cbn. split; [intro H; right; eauto|intros [[]|(q' & -> & H)]; exact H].
  - destruct f as [c i d r|c l i d|c l i r].
    + exists (fun q j => O q j \/ exists q', q = kpre k ++ q' /\ at_ (T c E i d r) q' j). intros t q j. cbn [plug fold_left kpre]. change (fold_left _ k ?u) with (plug k u). rewrite IH.
      assert (X : forall q', at_ (fill (FL c i d r) t) q' j <-> at_ (T c E i d r) q' j \/ at_ t q' j).
      { intros q'. rewrite !at_inv. cbn [fill elems app]. split.
        - intros (i' & d' & I & A). apply in_app_or in I. destruct I as [I|I]; [right|left]; eauto.
        - intros [(i' & d' & I & A)|(i' & d' & I & A)]; exists i', d'; split; auto; apply in_or_app; auto. }
      split; [intros [A|(q' & -> & A)]; auto; apply X in A; destruct A; eauto|intros [[A|(q' & -> & A)]|(q' & -> & A)]; auto; right; exists q'; split; auto; apply X; auto].
    + exists (fun q j => O q j \/ exists q', q = kpre k ++ q' /\ at_ (T c l i d E) q' j). intros t q j. cbn [plug fold_left kpre]. change (fold_left _ k ?u) with (plug k u). rewrite IH.
      assert (X : forall q', at_ (fill (FR c l i d) t) q' j <-> at_ (T c l i d E) q' j \/ at_ t q' j).
      { intros q'. rewrite !at_inv. cbn [fill elems]. split.
        - intros (i' & d' & I & A). rewrite in_app_iff in I. cbn [In] in I. destruct I as [I|[I|I]]; [left|left|right]; exists i', d'; split; auto; apply in_or_app; cbn; auto.
        - intros [(i' & d' & I & A)|(i' & d' & I & A)]; exists i', d'; split; auto; rewrite in_app_iff in *; cbn [In] in *; tauto. }
      split; [intros [A|(q' & -> & A)]; auto; apply X in A; destruct A; eauto|intros [[A|(q' & -> & A)]|(q' & -> & A)]; auto; right; exists q'; split; auto; apply X; auto].
    + exists (fun q j => O q j \/ exists q', q = kpre k ++ q' /\ at_ (T c l i E r) q' j). intros t q j. cbn [plug fold_left kpre]. change (fold_left _ k ?u) with (plug k u). rewrite IH.
      assert (X : forall q', at_ (fill (FD c l i r) t) q' j <-> at_ (T c l i E r) q' j \/ exists q'', q' = key i ++ q'' /\ at_ t q'' j).
      { intros q'. rewrite !at_inv. cbn [fill elems]. split.
        - intros (i' & d' & I & A). rewrite in_app_iff in I. cbn [In] in I. destruct I as [I|[I|I]].
          + left. exists i', d'. rewrite in_app_iff. auto.
          + inversion I; subst. destruct A as [A|A]; [left|right; exact A]. exists i', E. rewrite in_app_iff. cbn. auto.
          + left. exists i', d'. rewrite in_app_iff. cbn. auto.
        - intros [(i' & d' & I & A)|(q'' & -> & A)].
          + rewrite in_app_iff in I. cbn [In] in I. destruct I as [I|[I|I]].
            * exists i', d'. rewrite in_app_iff. auto.
            * inversion I; subst. destruct A as [A|(? & _ & A)]; [|inversion A; contradiction]. exists i', t. rewrite in_app_iff. cbn. auto.
            * exists i', d'. rewrite in_app_iff. cbn. auto.
          + exists i, t. rewrite in_app_iff. cbn. split; auto. right. eauto. }
      split.
      * intros [A|(q' & -> & A)]; auto. apply X in A. destruct A as [A|(q'' & -> & A)]; [eauto|]. right. exists q''. rewrite <- app_assoc. auto.
      * intros [[A|(q' & -> & A)]|(q' & -> & A)]; auto; right.
        -- exists q'. split; auto. apply X. auto.
        -- exists (key i ++ q'). rewrite <- app_assoc. split; auto. apply X. eauto.
Qed.
Lemma has_plug_iff : forall k, exists O : list label -> entry -> Prop, forall t q e, has (plug k t) q e <-> O q e \/ exists q', q = kpre k ++ q' /\ has t q' e.
Proof.
  intros k. destruct (at_plug_iff k) as (O & H). exists (fun q e => exists j, O q j /\ ent j = e). intros t q e. unfold has. split.
  - intros (j & A & B). apply H in A. destruct A as [A|(q' & -> & A)]; eauto 6.
  - intros [(j & A & B)|(q' & -> & j & A & B)]; exists j; split; auto; apply H; eauto.
Qed.
(** equal levels have equal contents *)
Lemma at_elems : forall t t' q j, elems t = elems t' -> at_ t q j -> at_ t' q j.
Proof. intros t t' q j H A. apply at_inv in A. apply at_inv. rewrite <- H. exact A. Qed.

(** * Same shape *)
Inductive ssh : tree -> tree -> Prop := ssh_E : ssh E E | ssh_T c l i d r l' i' d' r' : ssh l l' -> ssh r r' -> ssh (T c l i d r) (T c l' i' d' r').
Lemma ssh_refl : forall t, ssh t t. Proof. induction t; constructor; auto. Qed.
Lemma ssh_col : forall t t', ssh t t' -> col t = col t'. Proof. intros t t' []; reflexivity. Qed.
Lemma ssh_rb : forall t t', ssh t t' -> forall n, rb t n -> rb t' n.
Proof. induction 1 as [|c l i d r l' i' d' r' A IHA B IHB]; intros n H; [exact H|]. inversion H; subst; constructor; auto; [rewrite <- (ssh_col _ _ A)|rewrite <- (ssh_col _ _ B)]; auto. Qed.
Lemma ssh_plug : forall kl t t', flat kl -> ssh t t' -> ssh (plug kl t) (plug kl t').
Proof. induction kl as [|f kl IH]; intros t t' F H; [exact H|]. inversion F; subst. cbn [plug fold_left]. apply IH; auto. destruct f; try contradiction; cbn [fill]; constructor; auto; apply ssh_refl. Qed.

(** * Order by first labels *)
Definition head i : label := hd [] (key i).
Lemma slt_heads : forall L L' : list info, map head L = map head L' -> StronglySorted slt L -> StronglySorted slt L'.
Proof.
  intros L. induction L as [|i L IH]; intros [|i' L'] H S; try discriminate; [constructor|]. cbn [map] in H. injection H as H1 H2. inversion S as [|? ? S1 S2]; subst. constructor; [apply IH; auto|].
  apply Forall_forall. intros j I. apply (in_map head) in I. rewrite <- H2 in I. apply in_map_iff in I. destruct I as (j0 & E0 & I). rewrite Forall_forall in S2. specialize (S2 _ I).
  unfold slt in *. unfold head in *. rewrite <- H1, <- E0. exact S2.
Qed.

(** * Splitting a node *)
Definition sub_up (x : ptr) (b : list label) : info := mkI x b None false false.
Definition sub_low i (a : list label) : info := mkI (i_ptr i) a (i_value i) (i_cb i) (i_wild i).
Definition fissioned (x : ptr) c l i d r a b : tree := T c l (sub_up x b) (T Black E (sub_low i a) d E) r.
Lemma name_ok_split : forall suf i a b x, name_ok suf i -> i_labels i = a ++ b -> a <> [] -> b <> [] -> name_ok suf (sub_up x b) /\ name_ok (b ++ suf) (sub_low i a).
Proof.
  intros suf i a b x (N & ls & W & H) EL Na Nb. split.
  - split; [exact Nb|]. cbn [sub_up i_labels]. exists (skipn (length a) ls). rewrite EL, <- app_assoc in H.
    assert (Le : length a <= length ls). { assert (X : length (a ++ b ++ suf) = length (ls ++ [[]])) by congruence. rewrite !app_length in X. destruct b; [congruence|]. cbn in X. lia. }
    split.
    + destruct W as [W1 W2]. split; [apply Forall_forall; intros l I; rewrite Forall_forall in W1; apply W1; rewrite <- (firstn_skipn (length a) ls); apply in_or_app; auto|].
      revert W2. unfold wire_len, enc. rewrite <- (firstn_skipn (length a) ls) at 1. unfold body. rewrite flat_map_app, !app_length. lia.
    + apply (f_equal (skipn (length a))) in H. rewrite !skipn_app, skipn_all, Nat.sub_diag in H. cbn [skipn app] in H. replace (length a - length ls) with 0 in H by lia. exact H.
  - split; [exact Na|]. cbn [sub_low i_labels]. exists ls. split; auto. rewrite app_assoc, <- EL. exact H.
Qed.
Lemma in_elems_mid : forall kl c l i d r x y, flat kl -> In (x, y) (elems (plug kl (T c l i d r))) <-> In (x, y) (kleft kl ++ elems l) \/ (x = i /\ y = d) \/ In (x, y) (elems r ++ kright kl).
Proof.
  intros kl c l i d r x y F. rewrite elems_plug_eq by auto. cbn [elems]. rewrite !in_app_iff. cbn [In]. split; [|intros [A|[[-> ->]|A]]; tauto].
  intros [A|[[A|[A|A]]|A]]; auto. inversion A; auto.
Qed.
(** replacing the node at the root of a hole by one with the same first label *)
Lemma tree_ok_mid : forall asc kl k0 c l i d r i' d', flat kl -> krt true k0 = true -> tree_ok asc (plug (kl ++ k0) (T c l i d r)) ->
  head i = head i' -> name_ok (ksuf k0) i' -> (asc = true -> scoped (i_labels i')) -> lvl (level_ok asc) (i_labels i' ++ ksuf k0) d' ->
  tree_ok asc (plug (kl ++ k0) (T c l i' d' r)).
Proof.
  intros asc kl k0 c l i d r i' d' F K H Hh Nn As Ld. rewrite plug_app in *. eapply lvl_replace; [exact K|exact H|].
  apply lvl_hole in H; auto. pose proof (lvl_P _ _ _ H) as ([m R] & C & N & A).
  assert (X : ssh (plug kl (T c l i d r)) (plug kl (T c l i' d' r))) by (apply ssh_plug; auto; constructor; apply ssh_refl).
  constructor.
  - split; [exists m; eapply ssh_rb; eauto|]. split; [rewrite <- (ssh_col _ _ X); auto|]. rewrite elems_plug_eq in * by auto. cbn [elems] in *. rewrite !map_app in *. cbn [map fst] in *.
    rewrite !Forall_app in *. cbn [app] in *. destruct N as (N1 & (N2 & N3) & N4). inversion N3; subst. split; [repeat split; auto|].
    intro Y. destruct (A Y) as [(A1 & (A2 & A3) & A4) A5]. inversion A3; subst. split; [repeat split; auto|].
    eapply slt_heads; [|exact A5]. rewrite !map_app. cbn [map]. rewrite ?map_app; cbn [map]; congruence.
  - intros j e I. apply in_elems_mid in I; auto. destruct I as [I|[[-> ->]|I]].
    + eapply lvl_down; [exact H|]. apply in_elems_mid; auto.
    + exact Ld.
    + eapply lvl_down; [exact H|]. apply in_elems_mid; auto.
Qed.
Lemma ascii_app : forall a b, scoped (a ++ b) <-> scoped a /\ scoped b.
Proof. intros. unfold scoped. apply Forall_app. Qed.
Lemma fission_ok : forall asc k c l i d r a b x, tree_ok asc (plug k (T c l i d r)) -> i_labels i = a ++ b -> a <> [] -> b <> [] ->
  tree_ok asc (plug k (fissioned x c l i d r a b)).
Proof.
  intros asc k c l i d r a b x H EL Na Nb. destruct (sub_level _ _ _ H) as [NO SO]. cbn [elems] in NO, SO. rewrite map_app in NO, SO. cbn [map fst] in NO, SO. apply Forall_app in NO. destruct NO as [_ NO].
  inversion NO as [|? ? N1 _]; subst. clear NO. destruct (name_ok_split _ _ _ _ x N1 EL Na Nb) as [N2 N3].
  assert (AS : asc = true -> scoped a /\ scoped b). { intro Y. destruct (SO Y) as [A _]. apply Forall_app in A. destruct A as [_ A]. inversion A; subst. apply ascii_app. rewrite <- EL. auto. }
  destruct (split_level' k) as (kl & k0 & -> & F & K). rewrite ksuf_app in * by auto. unfold fissioned. eapply tree_ok_mid; eauto.
  - unfold head. rewrite (key_app _ _ _ EL). unfold key. cbn [sub_up i_labels]. apply hd_app. intro Y. apply Nb. apply (f_equal (@length _)) in Y. unfold lc_labels in Y. rewrite rev_length, map_length in Y. destruct b; [reflexivity|discriminate].
  - intro Y. apply (AS Y).
  - cbn [sub_up i_labels]. constructor.
    + split; [exists 1; repeat constructor|]. split; [reflexivity|]. cbn [elems app map fst]. split; [constructor; auto|]. intro Y. split; [constructor; auto; apply (AS Y)|repeat constructor].
    + cbn [elems app In]. intros j e [I|[]]. inversion I; subst. cbn [sub_low i_labels]. rewrite app_assoc, <- EL.
      rewrite plug_app in H. apply lvl_hole in H; auto. eapply lvl_down; [exact H|]. apply in_elems_mid; auto.
Qed.
Lemma has_fissioned : forall c l i d r a b x, i_labels i = a ++ b -> forall q e,
  has (fissioned x c l i d r a b) q e <-> has (T c l i d r) q e \/ (q = rev (lc_labels b) /\ e = mkEnt x None false false).
Proof.
  intros c l i d r a b x EL q e. assert (EK : key i = rev (lc_labels b) ++ rev (lc_labels a)) by (apply key_app; auto). unfold has, fissioned. split.
  - intros (j & A & B). apply at_inv in A. destruct A as (i' & d' & I & A). cbn [elems] in I. rewrite in_app_iff in I. cbn [In] in I. destruct I as [I|[I|I]].
    + left. exists j. split; auto. apply at_inv. exists i', d'. split; auto. cbn [elems]. apply in_or_app. auto.
    + inversion I; subst i' d'. destruct A as [[-> ->]|(q' & -> & A)]; [right; split; auto; symmetry; exact B|]. left. apply at_inv in A. destruct A as (i' & d' & I' & A).
      cbn [elems app In] in I'. destruct I' as [I'|[]]. inversion I'; subst i' d'. destruct A as [[-> ->]|(q'' & -> & A)].
      * exists i. split; [|subst e; reflexivity]. replace (key (sub_up x b) ++ key (sub_low i a)) with (key i) by (rewrite EK; reflexivity).
        eapply (at_here _ i d). cbn [elems]. apply in_or_app. cbn. auto.
      * exists j. split; auto. rewrite app_assoc. replace (key (sub_up x b) ++ key (sub_low i a)) with (key i) by (rewrite EK; reflexivity).
        eapply (at_down _ i d); auto. cbn [elems]. apply in_or_app. cbn. auto.
    + left. exists j. split; auto. apply at_inv. exists i', d'. split; auto. cbn [elems]. apply in_or_app. cbn. auto.
  - intros [(j & A & B)|[-> ->]].
    + apply at_inv in A. destruct A as (i' & d' & I & A). cbn [elems] in I. rewrite in_app_iff in I. cbn [In] in I. destruct I as [I|[I|I]].
      * exists j. split; auto. apply at_inv. exists i', d'. split; auto. cbn [elems]. apply in_or_app. auto.
      * inversion I; subst i' d'. destruct A as [[-> ->]|(q' & -> & A)].
        -- exists (sub_low i a). split; [|subst e; reflexivity]. rewrite EK. eapply (at_down _ (sub_up x b) (T Black E (sub_low i a) d E)); [cbn [elems]; apply in_or_app; cbn; auto|].
           eapply (at_here _ (sub_low i a) d). cbn. auto.
        -- exists j. split; auto. rewrite EK, <- app_assoc. eapply (at_down _ (sub_up x b) (T Black E (sub_low i a) d E)); [cbn [elems]; apply in_or_app; cbn; auto|].
           eapply (at_down _ (sub_low i a) d); auto. cbn. auto.
      * exists j. split; auto. apply at_inv. exists i', d'. split; auto. cbn [elems]. apply in_or_app. cbn. auto.
    + exists (sub_up x b). split; [|reflexivity]. eapply (at_here _ (sub_up x b)). cbn [elems]. apply in_or_app. cbn. auto.
Qed.

(** * Adding a node *)
Definition below (i : info) (q : list label) : Prop := slex (head i) (hd [] q) = Lt.
Definition above (i : info) (q : list label) : Prop := slex (hd [] q) (head i) = Lt.
Lemma path_sorted : forall kl k0 q, flat kl -> path true (kl ++ k0) q -> forall t, StronglySorted slt (map fst (elems (plug kl t))) ->
  Forall (fun x => below (fst x) q) (kleft kl) /\ Forall (fun x => above (fst x) q) (kright kl).
Proof.
  induction kl as [|f kl IH]; intros k0 q F P t S; [split; constructor|]. inversion F as [|? ? Ff Fk]; subst. cbn [app] in P.
  cbn [plug fold_left] in S. change (fold_left _ kl ?u) with (plug kl u) in S. pose proof S as S'. rewrite elems_plug_eq, !map_app in S' by auto. apply ss_app in S'. destruct S' as (_ & S' & _). apply ss_app in S'. destruct S' as (S' & _ & _).
  inversion P as [|c i d r k' q1 P1 [G1 G2]|c l i d k' q1 P1 [G1 G2]|]; subst; [| |contradiction]; specialize (G2 eq_refl); destruct (IH _ _ Fk P1 _ S) as [A B]; cbn [kleft kright fill elems] in *.
  - split; auto. rewrite map_app in S'. cbn [map fst] in S'. apply ss_app in S'. destruct S' as (_ & S' & _). inversion S' as [|? ? S1 S2]; subst. constructor; [exact G2|]. apply Forall_app. split; auto.
    apply Forall_forall. intros x X. rewrite Forall_forall in S2. apply (in_map fst) in X. specialize (S2 _ X). unfold above. eapply slex_trans; [exact G2|exact S2].
  - split; auto. apply lex_gt in G2. rewrite map_app in S'. cbn [map fst] in S'. apply ss_app in S'. destruct S' as (_ & _ & S'). rewrite !Forall_app. split; auto. split; [|repeat constructor; exact G2].
    apply Forall_forall. intros x X. rewrite Forall_forall in S'. apply (in_map fst) in X. specialize (S' _ X). inversion S'; subst. unfold below. eapply slex_trans; [eassumption|exact G2].
Qed.
Lemma new_ok : forall asc kl k0 i t' m, flat kl -> krt true k0 = true -> tree_ok asc (plug (kl ++ k0) E) -> path asc (kl ++ k0) (key i) ->
  name_ok (ksuf k0) i -> (asc = true -> scoped (i_labels i)) ->
  elems t' = elems (plug kl (T Red E i E E)) -> rb t' m -> col t' = Black -> tree_ok asc (plug k0 t').
Proof.
  intros asc kl k0 i t' m F K H P N A EL R C. rewrite plug_app in H. eapply lvl_replace; [exact K|exact H|]. apply lvl_hole in H; auto. pose proof (lvl_P _ _ _ H) as (_ & _ & N0 & A0).
  rewrite elems_plug_eq in EL by auto. cbn [elems app] in EL. constructor.
  - split; [eauto|]. split; auto. rewrite EL. rewrite elems_plug_eq in N0 by auto. cbn [elems app] in N0. rewrite map_app in *. cbn [map fst]. apply Forall_app in N0. destruct N0 as [N1 N2]. split; [apply Forall_app; auto|].
    intro Y. subst asc. destruct (A0 eq_refl) as [A1 S]. destruct (path_sorted _ _ _ F P _ S) as [B1 B2]. rewrite elems_plug_eq in S, A1 by auto. cbn [elems app] in S, A1. rewrite map_app in S, A1. apply Forall_app in A1. destruct A1 as [A1 A2].
    split; [apply Forall_app; auto|]. apply ss_app in S. destruct S as (S1 & S2 & S3). apply ss_app. repeat split; auto.
    + constructor; auto. apply Forall_forall. intros j J. apply in_map_iff in J. destruct J as (x & <- & J). rewrite Forall_forall in B2. apply (B2 _ J).
    + apply Forall_forall. intros j J. rewrite Forall_forall in S3. specialize (S3 _ J). constructor; auto. apply in_map_iff in J. destruct J as (x & <- & J). rewrite Forall_forall in B1. apply (B1 _ J).
  - intros j e I. rewrite EL in I. apply in_app_or in I. cbn [In] in I. destruct I as [I|[I|I]].
    + eapply lvl_down; [exact H|]. rewrite elems_plug_eq by auto. cbn [elems app]. apply in_or_app; auto.
    + inversion I; subst. constructor; [|intros ? ? []]. split; [exists 0; constructor|]. split; [reflexivity|]. split; [constructor|]. intros _. split; constructor.
    + eapply lvl_down; [exact H|]. rewrite elems_plug_eq by auto. cbn [elems app]. apply in_or_app; auto.
Qed.
Lemma has_new : forall kl k0 i t', flat kl -> elems t' = elems (plug kl (T Red E i E E)) -> forall q e,
  has (plug k0 t') q e <-> has (plug (kl ++ k0) E) q e \/ (q = kpre k0 ++ key i /\ e = ent i).
Proof.
  intros kl k0 i t' F EL q e. destruct (has_plug_iff k0) as (O & H). rewrite plug_app, !H.
  assert (X : forall q', has t' q' e <-> has (plug kl E) q' e \/ (q' = key i /\ e = ent i)).
  { intros q'. unfold has. split.
    - intros (j & A & B). apply at_inv in A. rewrite EL, elems_plug_eq in A by auto. cbn [elems app] in A. destruct A as (i' & d' & I & A). apply in_app_or in I. cbn [In] in I. destruct I as [I|[I|I]].
      + left. exists j. split; auto. apply at_inv. exists i', d'. rewrite elems_plug_eq by auto. cbn [elems app]. split; auto. apply in_or_app. auto.
      + inversion I; subst. destruct A as [[-> ->]|(q'' & _ & A)]; [auto|]. inversion A; contradiction.
      + left. exists j. split; auto. apply at_inv. exists i', d'. rewrite elems_plug_eq by auto. cbn [elems app]. split; auto. apply in_or_app. auto.
    - intros [(j & A & B)|[-> ->]].
      + exists j. split; auto. apply at_inv in A. rewrite elems_plug_eq in A by auto. cbn [elems app] in A. destruct A as (i' & d' & I & A). apply at_inv. exists i', d'. rewrite EL, elems_plug_eq by auto. cbn [elems app]. split; auto.
        apply in_app_or in I. apply in_or_app. cbn. tauto.
      + exists i. split; auto. eapply (at_here _ i E). rewrite EL, elems_plug_eq by auto. cbn [elems app]. apply in_or_app. cbn. auto. }
  split.
  - intros [A|(q' & -> & A)]; auto. apply X in A. destruct A as [A|[-> ->]]; eauto.
  - intros [[A|(q' & -> & A)]|[-> ->]]; auto; right; eexists; (split; [reflexivity|]); apply X; auto.
Qed.

(** the labels above a hole are a legal name *)
Lemma ksuf_full : forall asc k t, tree_ok asc (plug k t) -> ksuf k = [] \/ exists ls, wf_labels ls /\ ksuf k = ls ++ [[]].
Proof.
  induction k as [|f k IH]; intros t H; [auto|]. cbn [plug fold_left] in H. change (fold_left _ k ?u) with (plug k u) in H. destruct f as [c i d r|c l i d|c l i r]; cbn [ksuf]; try (eapply IH; exact H).
  right. destruct (sub_level _ _ _ H) as [N _]. cbn [fill elems] in N. rewrite map_app in N. cbn [map fst] in N. apply Forall_app in N. destruct N as [_ N]. inversion N as [|? ? (_ & ls & W & E0) _]; subst. eauto.
Qed.
Lemma lc_len : forall (a b : list label), lc_labels a = lc_labels b -> map (@length N) a = map (@length N) b.
Proof.
  induction a as [|x a IH]; intros [|y b] H; try discriminate; auto. cbn [lc_labels map] in *. injection H as H1 H2. f_equal; auto. apply (f_equal (@length N)) in H1. unfold lc_label in H1. rewrite !map_length in H1. exact H1.
Qed.
Lemma elen_len : forall (a b : list label), map (@length N) a = map (@length N) b -> elen a = elen b.
Proof. induction a as [|x a IH]; intros [|y b] H; try discriminate; auto. cbn [map] in H. injection H as H1 H2. rewrite !elen_cons, H1, (IH _ H2). reflexivity. Qed.
Lemma new_name_ok : forall asc k t ls fls m x v, tree_ok asc (plug k t) -> wf_labels ls -> ls ++ [[]] = fls ++ m -> fls <> [] ->
  rev (lc_labels (ls ++ [[]])) = kpre k ++ rev (lc_labels fls) -> name_ok (ksuf k) (mkI (V := V) x fls v false false).
Proof.
  intros asc k t ls fls m x v H W E0 N0 EQ. split; [exact N0|]. cbn [i_labels].
  assert (EM : lc_labels m = lc_labels (ksuf k)).
  { rewrite E0, kpre_ksuf in EQ. apply (f_equal (@rev _)) in EQ. rewrite rev_app_distr, !rev_involutive in EQ. unfold lc_labels in *. rewrite map_app in EQ. apply app_inv_head in EQ. exact EQ. }
  destruct (ksuf_full _ _ _ H) as [Z|(ls' & W' & Z)]; rewrite Z in *.
  - destruct m; [|discriminate]. exists ls. rewrite app_nil_r in *. auto.
  - assert (M : m <> []) by (intro Y; subst; unfold lc_labels in EM; rewrite map_app in EM; destruct (map lc_label ls'); discriminate).
    destruct (exists_last M) as (m' & z & Em). subst m. rewrite app_assoc in E0. apply app_inj_tail in E0. destruct E0 as [E0 <-].
    assert (EM' : lc_labels m' = lc_labels ls') by (unfold lc_labels in *; rewrite !map_app in EM; apply app_inj_tail in EM; apply EM).
    exists (fls ++ ls'). rewrite app_assoc. split; auto. destruct W as [W1 W2], W' as [W1' W2']. subst ls. apply Forall_app in W1. split; [apply Forall_app; tauto|].
    revert W2. unfold wire_len, enc. rewrite !app_length. change (length (body ?z)) with (elen z). rewrite !elen_app. rewrite (elen_len _ _ (lc_len _ _ EM')). auto.
Qed.
Lemma lvl_keyed : forall asc suf t, lvl (level_ok asc) suf t -> keyed t.
Proof. intros asc suf t H. apply lvl_P in H. destruct H as (_ & _ & H & _). eapply name_ok_keyed. exact H. Qed.
(** names are unique *)
Lemma at_unique : forall suf t, lvl (level_ok true) suf t -> forall q i j, at_ t q i -> at_ t q j -> i = j.
Proof.
  intros suf t H. induction H as [suf t H D IH]. intros q i j A B. destruct H as (_ & _ & N & AS). destruct (AS eq_refl) as [_ SS].
  assert (KE : forall i' d', In (i', d') (elems t) -> key i' <> []). { intros i' d' I. apply key_nonempty. rewrite Forall_forall in N. apply (in_map fst) in I. apply (N _ I). }
  apply at_inv in A. apply at_inv in B. destruct A as (i1 & d1 & I1 & A), B as (i2 & d2 & I2 & B).
  assert (X : i1 = i2 /\ d1 = d2).
  { eapply ss_unique; [exact SS|exact I1|exact I2|]. pose proof (KE _ _ I1). pose proof (KE _ _ I2).
    assert (X1 : hd [] q = hd [] (key i1)) by (destruct A as [[-> _]|(q' & -> & _)]; [auto|apply hd_app; auto]).
    assert (X2 : hd [] q = hd [] (key i2)) by (destruct B as [[-> _]|(q' & -> & _)]; [auto|apply hd_app; auto]). congruence. }
  destruct X as [<- <-]. destruct A as [[-> ->]|(q1 & -> & A)], B as [[B1 B2]|(q2 & B1 & B)].
  - auto.
  - exfalso. rewrite <- (app_nil_r (key i1)) in B1 at 1. apply app_inv_head in B1. subst q2. apply at_head in B; [|eapply lvl_keyed; apply (D _ _ I1)]. destruct B as (_ & _ & _ & _ & B). auto.
  - exfalso. rewrite <- (app_nil_r (key i1)) in B1 at 2. apply app_inv_head in B1. subst q1. apply at_head in A; [|eapply lvl_keyed; apply (D _ _ I1)]. destruct A as (_ & _ & _ & _ & A). auto.
  - apply app_inv_head in B1. subst q2. eapply IH; eauto.
Qed.
(** the number of nodes *)
Lemma count_fill : forall f t, count (fill f t) = count (fill f E) + count t.
Proof. intros [] t; cbn; lia. Qed.
Lemma count_plug : forall k t, count (plug k t) = count (plug k E) + count t.
Proof.
  induction k as [|f k IH]; intros t; [reflexivity|]. cbn [plug fold_left]. change (fold_left _ k ?u) with (plug k u). rewrite IH, (IH (fill f E)), count_fill. lia.
Qed.
Definition nsum (L : list (info * tree)) : nat := fold_right (fun x n => S (count (snd x)) + n) 0 L.
Lemma nsum_app : forall a b, nsum (a ++ b) = nsum a + nsum b.
Proof. induction a as [|x a IH]; intros b; cbn [app nsum fold_right]; [reflexivity|]. fold (nsum (a ++ b)). fold (nsum a). rewrite IH. lia. Qed.
Lemma count_elems : forall t, count t = nsum (elems t).
Proof. induction t as [|c l IHl i d IHd r IHr]; [reflexivity|]. cbn [count elems]. rewrite nsum_app. cbn [nsum fold_right snd]. fold (nsum (elems r)). lia. Qed.
Lemma cells_count : forall t par rt, length (cells par rt t) = count t.
Proof. induction t as [|c l IHl i d IHd r IHr]; intros par rt; [reflexivity|]. cbn [cells count length]. rewrite !app_length, IHl, IHd, IHr. lia. Qed.
End P.

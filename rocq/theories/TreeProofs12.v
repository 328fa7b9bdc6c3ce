(** [remove_node] and [remove]. *)
From Coq Require Import Permutation Sorted.
From Verif Require Import Base BaseLemmas NameModel TreeModel SpecName SpecOrd SpecScope OrdBase SpecTree NameCmpProofs2 TreeProofs PermTac TreeProofs2 TreeProofs3 TreeProofs4
  TreePure TreePure2 TreeProofs5 TreeProofs6 TreeProofs7 TreeProofs8 TreeProofs9 TreeProofs10 TreeProofs11.
Open Scope list_scope.
Open Scope nat_scope.

Section A.
Context {V : Type} {SC : scope}.
Notation node := (node V). Notation dtree := (dtree V). Notation info := (info V). Notation tree := (tree V). Notation entry := (entry V).
Notation frame := (@frame V). Notation ctx := (@ctx V).
Implicit Types (s : dtree) (t : tree) (i : info) (k kl kr : ctx) (f : frame).

Lemma level_unique : forall k t i d i' d' y y', tree_ok true (plug k t) -> In (i, d) (elems t) -> In (i', d') (elems t) -> key i ++ y = key i' ++ y' -> i = i' /\ d = d'.
Proof.
  intros k t i d i' d' y y' H I I' EQ. destruct (sub_level _ _ _ H) as [NO SO]. destruct (SO eq_refl) as [_ SS]. apply name_ok_keyed in NO. unfold keyed in NO. rewrite Forall_forall in NO.
  assert (N : key i <> []) by (apply key_nonempty; apply NO; apply (in_map fst) in I; exact I).
  assert (N' : key i' <> []) by (apply key_nonempty; apply NO; apply (in_map fst) in I'; exact I').
  eapply ss_unique; eauto. apply (f_equal (hd [])) in EQ. rewrite !hd_app in EQ; auto.
Qed.
Lemma key_ne : forall asc k t i d, tree_ok asc (plug k t) -> In (i, d) (elems t) -> key i <> [].
Proof. intros asc k t i d H I. destruct (sub_level _ _ _ H) as [NO _]. apply name_ok_keyed in NO. unfold keyed in NO. rewrite Forall_forall in NO. apply key_nonempty. apply NO. apply (in_map fst) in I. exact I. Qed.
Lemma has_mid : forall k c l i d r y e, tree_ok true (plug k (T c l i d r)) ->
  (has (plug k (T c l i d r)) (kpre k ++ key i ++ y) e <-> (y = [] /\ e = ent i) \/ has d y e).
Proof.
  intros k c l i d r y e H. assert (I : In (i, d) (elems (T c l i d r))) by (cbn [elems]; apply in_or_app; cbn; auto).
  pose proof (path_of _ _ _ _ H I y) as P. pose proof (key_ne _ _ _ _ _ H I) as N.
  assert (X : forall j, at_ (plug k (T c l i d r)) (kpre k ++ key i ++ y) j <-> at_ (T c l i d r) (key i ++ y) j).
  { intro j. apply (at_path _ _ _ H P); auto. intro Z. apply app_eq_nil in Z. tauto. }
  split.
  - intros (j & A & <-). apply X in A. apply at_inv in A. destruct A as (i' & d' & I' & A).
    destruct A as [[EQ ->]|(q' & EQ & A)].
    + destruct (level_unique _ _ _ _ _ _ y [] H I I') as [<- <-]; [rewrite app_nil_r; exact EQ|]. left. split; auto. rewrite <- (app_nil_r (key i)) in EQ at 2. apply app_inv_head in EQ. exact EQ.
    + destruct (level_unique _ _ _ _ _ _ _ _ H I I' EQ) as [<- <-]. apply app_inv_head in EQ. subst q'. right. exists j. auto.
  - intros [[-> ->]|(j & A & <-)].
    + exists i. split; auto. apply X. rewrite app_nil_r. eapply at_here. exact I.
    + exists j. split; auto. apply X. eapply at_down; eauto.
Qed.
Lemma has_split : forall t t1 (L1 L2 : list (info * tree)) i, elems t = L1 ++ (i, E) :: L2 -> elems t1 = L1 ++ L2 -> forall q e,
  has t q e <-> has t1 q e \/ (q = key i /\ e = ent i).
Proof.
  intros t t1 L1 L2 i E1 E2 q e. split.
  - intros (j & A & <-). apply at_inv in A. rewrite E1 in A. destruct A as (i' & d' & I & A). apply in_app_or in I. cbn [In] in I. destruct I as [I|[I|I]].
    + left. exists j. split; auto. apply at_inv. exists i', d'. rewrite E2. split; auto. apply in_or_app; auto.
    + inversion I; subst. destruct A as [[-> ->]|(q' & _ & A)]; [auto|]. inversion A; contradiction.
    + left. exists j. split; auto. apply at_inv. exists i', d'. rewrite E2. split; auto. apply in_or_app; auto.
  - intros [(j & A & <-)|[-> ->]].
    + exists j. split; auto. apply at_inv in A. rewrite E2 in A. destruct A as (i' & d' & I & A). apply at_inv. exists i', d'. rewrite E1. split; auto. apply in_app_or in I. apply in_or_app. cbn. tauto.
    + exists i. split; auto. eapply at_here. rewrite E1. apply in_or_app. cbn. auto.
Qed.

Section Step.
Variables (asc : bool) (kl k0 : ctx) (c : color) (l r tl : tree) (i : info) (m : nat).
Hypothesis (F : flat kl) (K : krt true k0 = true) (TO : tree_ok asc (plug (kl ++ k0) (T c l i E r))).
Hypothesis (EL : elems tl = kleft kl ++ elems l ++ elems r ++ kright kl) (RB : rb tl m) (CB : col tl = Black).
Let t := plug (kl ++ k0) (T c l i E r).
Let t1 := plug k0 tl.
Let e0 : elems (plug kl (T c l i E r)) = (kleft kl ++ elems l) ++ (i, E) :: (elems r ++ kright kl).
Proof. rewrite elems_plug_eq by exact F. cbn [elems]. rewrite <- !app_assoc. reflexivity. Qed.
Let e1 : elems tl = (kleft kl ++ elems l) ++ (elems r ++ kright kl).
Proof. rewrite EL, <- !app_assoc. reflexivity. Qed.
Lemma step_ok : tree_ok asc t1.
Proof.
  subst t t1. rewrite plug_app in TO. eapply lvl_replace; [exact K|exact TO|]. apply lvl_hole in TO; auto. pose proof (lvl_P _ _ _ TO) as (_ & _ & NO & AS).
  rewrite e0, map_app in NO, AS. cbn [map fst] in NO, AS. constructor.
  - split; [exists m; exact RB|]. split; [exact CB|]. rewrite e1, map_app. apply Forall_app in NO. destruct NO as [N1 N2]. inversion N2; subst. split; [apply Forall_app; auto|].
    intro Y. destruct (AS Y) as [A1 A2]. apply Forall_app in A1. destruct A1 as [A1 A3]. inversion A3; subst. split; [apply Forall_app; auto|].
    apply ss_app in A2. destruct A2 as (A2 & A4 & A5). inversion A4; subst. apply ss_app. split; [exact A2|]. split; [assumption|]. eapply Forall_impl; [|exact A5]. intros a A6. inversion A6; auto.
  - intros j e I. eapply lvl_down; [exact TO|]. rewrite e0. rewrite e1 in I. apply in_app_or in I. apply in_or_app. cbn. tauto.
Qed.
Lemma step_count : count t = S (count t1).
Proof. subst t t1. rewrite plug_app, (count_plug k0), (count_plug k0 tl), (count_elems tl), (count_elems (plug kl _)), e0, e1, !nsum_app. change (nsum ((i, E) :: elems r ++ kright kl)) with (S (nsum (elems r ++ kright kl))). rewrite !nsum_app. lia. Qed.
Lemma step_pre : kpre (kl ++ k0) = kpre k0.
Proof. rewrite !kpre_ksuf, ksuf_app by exact F. reflexivity. Qed.
Lemma step_has : forall q e, has t q e <-> has t1 q e \/ (q = kpre k0 ++ key i /\ e = ent i).
Proof.
  intros q e. subst t t1. rewrite plug_app. destruct (has_plug_iff k0) as (O & HO). rewrite !HO. setoid_rewrite (has_split _ _ _ _ _ e0 e1).
  split; [intros [A|(q' & -> & [A|[-> ->]])]|intros [[A|(q' & -> & A)]|[-> ->]]]; eauto 6.
Qed.
Lemma step_new : asc = true -> forall y e, ~ has t1 (kpre k0 ++ key i ++ y) e.
Proof.
  intros Ha y e (j & A & _). pose proof step_ok as TO1. pose proof TO as TO'. subst t t1. rewrite Ha in TO', TO1. clear TO. rename TO' into TO. rewrite plug_app in TO.
  assert (I : In (i, E) (elems (plug kl (T c l i E r)))) by (rewrite e0; apply in_or_app; cbn; auto).
  pose proof (path_of _ _ _ _ TO I y) as P. pose proof (key_ne _ _ _ _ _ TO I) as N.
  apply (at_path _ _ _ TO1 P) in A; [|intro Z; apply app_eq_nil in Z; tauto|reflexivity]. apply at_inv in A. destruct A as (i' & d' & I' & A).
  assert (I2 : In (i', d') (elems (plug kl (T c l i E r)))) by (rewrite e0; rewrite e1 in I'; apply in_app_or in I'; apply in_or_app; cbn; tauto).
  assert (X : i = i' /\ E = d') by (destruct A as [[EQ _]|(q' & EQ & _)]; [eapply (level_unique _ _ _ _ _ _ y []); eauto; rewrite app_nil_r; exact EQ|eapply level_unique; eauto]).
  destruct X as [<- <-]. apply lvl_hole in TO; auto. pose proof (lvl_P _ _ _ TO) as (_ & _ & _ & AS). destruct (AS eq_refl) as [_ SS]. rewrite e0, map_app in SS. cbn [map fst] in SS.
  apply ss_app in SS. destruct SS as (_ & S1 & S2). rewrite e1 in I'. apply (in_map fst) in I'. rewrite map_app in I'. cbn [fst] in I'. apply in_app_or in I'. destruct I' as [I'|I'].
  - rewrite Forall_forall in S2. specialize (S2 _ I'). inversion S2; subst. eapply slt_irr; [|eassumption]. reflexivity.
  - inversion S1 as [|? ? S3 S4]; subst. rewrite Forall_forall in S4. eapply slt_irr; [|exact (S4 _ I')]. reflexivity.
Qed.
Let q := kpre k0 ++ key i.
Lemma step_self : asc = true -> pruned t q q.
Proof.
  intros Ha. pose proof TO as TO'. rewrite Ha in TO'. split; [exists []; rewrite app_nil_r; reflexivity|]. intros a e HA (y & ->). subst q t. rewrite <- step_pre, <- app_assoc in HA. apply has_mid in HA; auto.
  destruct HA as [[-> _]|(j & A & _)]; [|inversion A; contradiction]. rewrite app_nil_r. split; [exists []; rewrite app_nil_r|left]; reflexivity.
Qed.
Lemma step_short : asc = true -> forall a z e, q = a ++ z -> has t1 a e -> exists y, kpre k0 = a ++ y /\ z = y ++ key i.
Proof.
  intros Ha a z e EQ HA. pose proof TO as TO'. rewrite Ha in TO'. assert (N : z <> []). { intros ->. rewrite app_nil_r in EQ. subst a q. apply (step_new Ha [] e). rewrite app_nil_r. exact HA. }
  assert (LE : length a <= length (kpre k0)).
  { rewrite <- step_pre. apply (mid_prefix (kl ++ k0) c l i E r []) with (z := z) (e := e); auto.
    - eapply path_of; [exact TO'|]. cbn [elems]. apply in_or_app. cbn. auto.
    - rewrite step_pre. exact EQ.
    - apply step_has. auto. }
  exists (skipn (length a) (kpre k0)). assert (X : kpre k0 = a ++ skipn (length a) (kpre k0)).
  { rewrite <- (firstn_skipn (length a) (kpre k0)) at 1. f_equal. apply (f_equal (firstn (length a))) in EQ. unfold q in EQ. rewrite !firstn_app, Nat.sub_diag, firstn_all in EQ. replace (length a - length (kpre k0)) with 0 in EQ by lia. cbn [firstn] in EQ. rewrite !app_nil_r in EQ. exact EQ. }
  split; [exact X|]. unfold q in EQ. rewrite X, <- app_assoc in EQ. apply app_inv_head in EQ. auto.
Qed.

(** the loop stops here *)
Lemma step_stop : asc = true -> (forall c1 l1 u r1 k1, k0 = FD c1 l1 u r1 :: k1 -> i_value u <> None \/ tl <> E) ->
  forall q' e, has t1 q' e <-> has t q' e /\ ~ pruned t q q'.
Proof.
  intros A ST q' e. split.
  - intros HA. split; [apply step_has; auto|]. intros [(z & EQ) PR]. destruct (step_short A q' z e EQ HA) as (y & EK & _).
    assert (KK : k0 = [] \/ exists c1 l1 u r1 k1, k0 = FD c1 l1 u r1 :: k1) by (destruct k0 as [|[?|?|c1 l1 u r1] k1]; try discriminate; eauto 8).
    pose proof step_ok as TO1. destruct KK as [Ek|(c1 & l1 & u & r1 & k1 & Ek)].
    + rewrite Ek in EK. cbn [kpre] in EK. symmetry in EK. apply app_eq_nil in EK. destruct EK as [-> _]. destruct HA as (j & HA & _). apply at_head in HA; [destruct HA as (_ & _ & _ & _ & HA); auto|]. eapply lvl_keyed. exact TO1.
    + assert (Nq : key i <> []) by (eapply key_ne; [exact TO|cbn [elems]; apply in_or_app; cbn; auto]).
      assert (HU : has t1 (kpre k0) (ent u)) by (subst t1; rewrite Ek; cbn [kpre]; rewrite plug_cons; apply has_here).
      destruct (ST _ _ _ _ _ Ek) as [VU|NE].
      * destruct (PR (kpre k0) (ent u)) as [_ [X|X]]; [apply step_has; auto|exists y; exact EK| |exact (VU X)].
        unfold q in X. rewrite <- (app_nil_r (kpre k0)) in X at 1. apply app_inv_head in X. auto.
      * assert (exists i2 d2, In (i2, d2) (elems tl)) as (i2 & d2 & I2) by (destruct tl as [|c2 l2 i2 d2 r2]; [congruence|exists i2, d2; cbn [elems]; apply in_or_app; cbn; auto]).
        assert (H2 : has t1 (kpre k0 ++ key i2) (ent i2)) by (exists i2; split; auto; subst t1; apply at_plug; eapply at_here; exact I2).
        destruct (PR _ _ (proj2 (step_has _ _) (or_introl H2))) as [(z2 & E2) _].
        -- exists (y ++ key i2). rewrite app_assoc, <- EK. reflexivity.
        -- destruct (step_short A _ _ _ E2 H2) as (y2 & E3 & _). rewrite <- app_assoc in E3. rewrite <- (app_nil_r (kpre k0)) in E3 at 1. apply app_inv_head in E3. symmetry in E3. apply app_eq_nil in E3. destruct E3 as [E3 _].
           unfold t1 in TO1. eapply key_ne; eauto.
  - intros [HA NP]. apply step_has in HA. destruct HA as [HA|[-> ->]]; auto. exfalso. apply NP. apply step_self. exact A.
Qed.
(** the loop goes on with the node above *)
Lemma step_go : asc = true -> forall c1 l1 u r1 k1, k0 = FD c1 l1 u r1 :: k1 -> i_value u = None ->
  forall q' e, has t1 q' e /\ ~ pruned t1 (kpre k0) q' <-> has t q' e /\ ~ pruned t q q'.
Proof.
  intros A c1 l1 u r1 k1 Ek VU q' e.
  assert (HU : has t1 (kpre k0) (ent u)) by (subst t1; rewrite Ek; cbn [kpre]; rewrite plug_cons; apply has_here).
  assert (X : has t1 q' e -> (pruned t1 (kpre k0) q' <-> pruned t q q')).
  { intros HA. split; intros [(z & EQ) PR].
    - split; [exists (z ++ key i); unfold q; rewrite EQ, <- app_assoc; reflexivity|]. intros a e' Ha EY. apply step_has in Ha. destruct Ha as [Ha|[-> ->]]; [|split; [exists []; rewrite app_nil_r|left]; reflexivity].
      destruct (PR _ _ Ha EY) as [(z2 & E2) VV]. split; [exists (z2 ++ key i); unfold q; rewrite E2, <- app_assoc; reflexivity|]. right. destruct VV as [->|VV]; [|exact VV].
      assert (TO1 := step_ok). rewrite A in TO1. rewrite (has_unique _ _ _ _ TO1 Ha HU). exact VU.
    - destruct (step_short A _ _ _ EQ HA) as (y & E1 & _). split; [exists y; exact E1|]. intros a e' Ha EY. destruct (PR a e') as [(z2 & E2) VV]; [apply step_has; auto|exact EY|].
      destruct (step_short A _ _ _ E2 Ha) as (y2 & E3 & _). split; [exists y2; exact E3|]. destruct VV as [->|VV]; [|right; exact VV]. exfalso. apply (step_new A [] e'). rewrite app_nil_r. exact Ha. }
  split; intros [HA NP].
  - split; [apply step_has; auto|]. rewrite <- X; auto.
  - apply step_has in HA. destruct HA as [HA|[-> ->]]; [|exfalso; apply NP; apply step_self; exact A]. split; auto. rewrite X; auto.
Qed.
End Step.

Lemma wp_remove_loop : forall asc fuel s k c l i r n x (Q : unit -> dtree -> Prop), length k < fuel -> inv s k (T c l i E r) n x -> tree_ok asc (plug k (T c l i E r)) ->
  count (plug k (T c l i E r)) <= n ->
  (forall s' t' n', inv s' [] t' n' x -> tree_ok asc t' -> n' + count (plug k (T c l i E r)) = n + count t' ->
     (asc = true -> forall q' e, has t' q' e <-> has (plug k (T c l i E r)) q' e /\ ~ pruned (plug k (T c l i E r)) (kpre k ++ key i) q') -> Q tt s') ->
  wp (remove_loop fuel (i_ptr i)) s Q.
Proof.
  induction fuel as [|fuel IH]; intros s k c l i r n x Q LF H TO CN HQ; [lia|].
  destruct (split_level k) as (kl & k0 & -> & F & K). destruct (level_rb _ _ _ _ TO F K) as (m & RB & CB).
  apply loop_unfold. eapply wp_upper; [exact F|exact K|exact H|]. eapply wp_unlink; [exact F|exact K|exact H|exact RB|exact CB|].
  clear s H. intros s tl m' H EL RB' CB'.
  pose proof (step_ok asc kl k0 c l r tl i m' F K TO EL RB' CB') as TO1.
  pose proof (step_count kl k0 c l r tl i F EL) as CO.
  assert (KP := step_pre kl k0 F).
  unfold rest. destruct n as [|n]; [lia|]. apply wp_bind. eapply wp_dec_len; [exact H|]. clear s H. intros s H. change (inv s k0 tl n x) in H.
  assert (KK : k0 = [] \/ exists c1 l1 u r1 k1, k0 = FD c1 l1 u r1 :: k1) by (destruct k0 as [|[?|?|c1 l1 u r1] k1]; try discriminate; eauto 8).
  assert (STOP : (forall c1 l1 u r1 k1, k0 = FD c1 l1 u r1 :: k1 -> i_value u <> None \/ tl <> E) -> Q tt s).
  { intros ST. apply (HQ s (plug k0 tl) n); [apply inv_plug; rewrite app_nil_r; exact H|exact TO1|lia|]. intros A q' e. rewrite KP.
    apply (step_stop asc kl k0 c l r tl i m' F K TO EL RB' CB' A ST). }
  destruct KK as [Ek|(c1 & l1 & u & r1 & k1 & Ek)].
  - assert (EP : kpar null k0 = null) by (rewrite Ek; reflexivity). rewrite EP. change (is_null null) with true. cbv iota. apply wp_bind. apply wp_ret. apply wp_ret. apply STOP. rewrite Ek. discriminate.
  - rewrite Ek in H. pose proof H as H0. apply (proj2 (inv_fill s k1 (FD c1 l1 u r1) tl n x)) in H. cbn [fill] in H.
    assert (EP : kpar null k0 = i_ptr u) by (rewrite Ek; reflexivity). rewrite EP. rewrite (nz_node _ _ _ _ _ _ _ _ _ H).
    apply wp_bind.
    assert (GV : forall Q' : option V -> dtree -> Prop, Q' (i_value u) s -> wp (get_value (i_ptr u)) s Q') by (intros Q' HQ'; unfold inv, whole in H; cbn [cells] in H; norm_in H; stp; exact HQ').
    assert (GD : forall Q' : ptr -> dtree -> Prop, Q' (pt tl) s -> wp (get_down (i_ptr u)) s Q') by (intros Q' HQ'; eapply wp_down; [exact H|exact HQ']).
    apply wp_bind. apply GV. destruct (i_value u) as [vu|] eqn:VU.
    + apply wp_ret. apply wp_ret. apply STOP. intros c2 l2 u2 r2 k2 E2. rewrite E2 in Ek. inversion Ek; subst. left. congruence.
    + apply wp_bind. apply GD. apply wp_ret. destruct tl as [|c2 l2 i2 d2 r2].
      * change (negb (is_null (pt E))) with false. cbv iota.
        assert (CO2 : plug k0 E = plug k1 (T c1 l1 u E r1)) by (rewrite Ek, plug_cons; reflexivity). rewrite CO2 in TO1, CO.
        eapply (IH s k1 c1 l1 u r1 n x); [rewrite Ek, app_length in LF; cbn in LF; lia|exact H|exact TO1|lia|].
        intros s' t' n' HI TO' CO' HH. apply (HQ s' t' n'); [exact HI|exact TO'|lia|]. intros A q' e. rewrite (HH A), KP.
        pose proof (step_go asc kl k0 c l r E i m' F K TO EL RB' CB' A c1 l1 u r1 k1 Ek VU q' e) as X. rewrite CO2 in X. assert (KE : kpre k0 = kpre k1 ++ key u) by (rewrite Ek; reflexivity). rewrite KE in X at 1. exact X.
      * assert (NZ : is_null (pt (T c2 l2 i2 d2 r2)) = false) by (eapply nz_node; exact H0). rewrite NZ. cbn [negb]. cbv iota. apply wp_ret. apply STOP. intros. right. discriminate.
Qed.

Lemma pruned_set : forall t0 t q q', (forall a e, has t0 a e -> a <> q -> has t a e) -> (forall a e, has t a e -> a <> q -> has t0 a e) -> (exists e, has t q e) -> (exists e, has t0 q e) -> pruned t0 q q' <-> pruned t q q'.
Proof.
  assert (X : forall t0 t q q', (forall a e, has t a e -> a <> q -> has t0 a e) -> (exists e, has t q e) -> (exists e, has t0 q e) -> pruned t0 q q' -> pruned t q q').
  { intros t0 t q q' S1 _ _ [A B]. split; auto. intros a e HA EX. destruct (list_eq_dec (list_eq_dec N.eq_dec) a q) as [->|N]; [split; [exists []; rewrite app_nil_r|left]; reflexivity|]. apply B; auto. }
  intros t0 t q q' S1 S2 Q1 Q2. split; apply X; auto.
Qed.
Theorem wp_remove_node : forall asc s k c l i d r n x, inv s k (T c l i d r) n x -> tree_ok asc (plug k (T c l i d r)) -> count (plug k (T c l i d r)) <= n ->
  wp (remove_node (i_ptr i)) s (fun old s' => old = i_value i /\ exists t' n', inv s' [] t' n' x /\ tree_ok asc t' /\ n' + count (plug k (T c l i d r)) = n + count t' /\
    (asc = true -> rem_spec (plug k (T c l i d r)) t' (kpre k ++ key i))).
Proof.
  intros asc s k c l i d r n x H TO CN. unfold remove_node. apply wp_bind. eapply wp_setv; [exact H|]. clear s H. intros s H.
  apply wp_bind. change (i_ptr i) with (i_ptr (setv i None)). eapply wp_down; [exact H|].
  pose proof (tree_ok_set asc k c l i d r (setv i None) TO eq_refl) as TO1. pose proof (count_set k c l i d r (setv i None)) as CO.
  destruct d as [|c2 l2 i2 d2 r2].
  - change (negb (is_null (pt E))) with false. cbv iota. apply wp_bind. apply wp_fun with (m := fun s => _).
    eapply wp_remove_loop; [|exact H|exact TO1|rewrite CO; exact CN|].
    + rewrite <- (app_nil_r k) in H. eapply fuel_kl; [exact H|]. eapply inv_pos. exact H.
    + clear s H. intros s t' n' HI TO' CO' HH. apply wp_ret. split; [reflexivity|]. exists t', n'. split; [exact HI|]. split; [exact TO'|]. split; [lia|]. intros A q' e'.
      rewrite (HH A). change (key (setv i None)) with (key i). rewrite A in TO. rewrite (has_set k c l i E r (setv i None) TO eq_refl).
      set (q := kpre k ++ key i). set (t := plug k (T c l i E r)) in *. set (t0 := plug k (T c l (setv i None) E r)).
      assert (HQ : has t q (ent i)) by apply has_here.
      assert (PP : pruned t0 q q' <-> pruned t q q').
      { apply pruned_set; [| |exists (ent i); exact HQ|exists (ent (setv i None)); apply (has_here k c l (setv i None) E r)].
        - intros a e Ha Na. apply (has_set k c l i E r (setv i None) TO eq_refl) in Ha. destruct Ha as [[_ Ha]|[Ha _]]; [exact Ha|]. contradiction.
        - intros a e Ha Na. apply (has_set k c l i E r (setv i None) TO eq_refl). left. split; auto. }
      rewrite PP. split.
      * intros [[[N Hq]|[-> ->]] NP].
        -- exists e'. auto.
        -- exists (ent i). split; [exact HQ|]. split; [exact NP|]. right. auto.
      * intros (e & He & NP & [[N ->]|[-> ->]]); split; auto. right. split; auto. rewrite (has_unique _ _ _ _ TO He HQ). reflexivity.
  - assert (NZ : is_null (pt (T c2 l2 i2 d2 r2)) = false). { unfold inv, whole in H. cbn [cells pt] in H. norm_in H. cbn [pt]. eqb_step. reflexivity. }
    rewrite NZ. cbn [negb]. cbv iota. apply wp_ret. split; [reflexivity|]. exists (plug k (T c l (setv i None) (T c2 l2 i2 d2 r2) r)), n.
    split; [apply inv_plug; rewrite app_nil_r; exact H|]. split; [exact TO1|]. split; [lia|]. intros A q' e'. rewrite A in TO.
    rewrite (has_set _ _ _ _ _ _ (setv i None) TO eq_refl). set (q := kpre k ++ key i). set (t := plug k (T c l i (T c2 l2 i2 d2 r2) r)) in *.
    assert (HQ : has t q (ent i)) by apply has_here.
    assert (NP : ~ pruned t q q').
    { intros [(z & EQ) PR]. assert (I2 : In (i2, d2) (elems (T c2 l2 i2 d2 r2))) by (cbn [elems]; apply in_or_app; cbn; auto).
      assert (H2 : has t (q ++ key i2) (ent i2)). { exists i2. split; auto. unfold q. rewrite <- app_assoc. apply at_plug. eapply at_down; [cbn [elems]; apply in_or_app; cbn; auto|]. eapply at_here. exact I2. }
      destruct (PR _ _ H2) as [(z2 & E2) _]; [exists (z ++ key i2); rewrite app_assoc, <- EQ; reflexivity|].
      rewrite <- app_assoc in E2. rewrite <- (app_nil_r q) in E2 at 1. apply app_inv_head in E2. symmetry in E2. apply app_eq_nil in E2. destruct E2 as [E2 _].
      apply (key_ne true (FD c l i r :: k) (T c2 l2 i2 d2 r2) i2 d2); auto. }
    split.
    + intros [[N Hq]|[-> ->]]; [exists e'|exists (ent i)]; auto 8.
    + intros (e & He & _ & [[N ->]|[-> ->]]); auto. right. split; auto. rewrite (has_unique _ _ _ _ TO He HQ). reflexivity.
Qed.
End A.

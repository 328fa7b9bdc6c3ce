(** [find], [find_node], [find_node_ext]: chain, callbacks, absolute names. *)
From Coq Require Import Permutation Sorted.
From Verif Require Import Base BaseLemmas NameModel TreeModel SpecName SpecOrd SpecScope OrdBase SpecTree TreeProofs PermTac TreeProofs2 TreeProofs3 TreeProofs4
  NameWireProofs NameOpsProofs NameOpsProofs2 NameCmpProofs NameCmpProofs2 TreePure TreePure2 TreeProofs5 TreeProofs6 TreeProofs7.
Open Scope list_scope.
Open Scope nat_scope.

Section F.
Context {V : Type} {SC : scope}.
Notation node := (node V). Notation dtree := (dtree V). Notation info := (info V). Notation tree := (tree V). Notation entry := (entry V).
Notation frame := (@frame V). Notation ctx := (@ctx V).
Implicit Types (s : dtree) (t : tree) (i : info) (p : ptr) (L R : list (ptr * node)) (k kl : ctx) (f : frame) (e : entry).

(** * The nodes above a hole *)
Fixpoint kanc k : list info := match k with [] => [] | FD _ _ i _ :: k' => i :: kanc k' | _ :: k' => kanc k' end.
Fixpoint knodes k : list (list label * entry) :=
  match k with [] => [] | FD _ _ i _ :: k' => (removelast (i_labels i ++ ksuf k'), ent i) :: knodes k' | _ :: k' => knodes k' end.
Lemma knodes_anc : forall k, map snd (knodes k) = map ent (kanc k).
Proof. induction k as [|[] k IH]; cbn; congruence. Qed.
Lemma plug_cons : forall f k t, plug (f :: k) t = plug k (fill f t). Proof. reflexivity. Qed.
Lemma kanc_len : forall asc k t, tree_ok asc (plug k t) -> length (kanc k) <= length (kpre k).
Proof.
  induction k as [|f k IH]; intros t H; [cbn; lia|]. rewrite plug_cons in H. specialize (IH _ H). destruct f as [c i d r|c l i d|c l i r]; cbn [kanc kpre]; auto.
  destruct (node_facts _ _ _ _ _ _ _ H) as [(N & _) _]. apply key_nonempty in N. rewrite app_length. cbn [length]. destruct (key i); [congruence|cbn; lia].
Qed.
Lemma removelast_full : forall ls : list label, removelast (ls ++ [[]]) = ls. Proof. intros. apply removelast_last. Qed.
Lemma name_ok_full : forall suf i, name_ok suf i -> i_labels i ++ suf = removelast (i_labels i ++ suf) ++ [[]] /\ wf_labels (removelast (i_labels i ++ suf)).
Proof. intros suf i (_ & ls & W & EQ). rewrite EQ, removelast_last. auto. Qed.
Lemma kpre_labels : forall k i, name_ok (ksuf k) i -> labels_of (removelast (i_labels i ++ ksuf k)) = kpre k ++ key i.
Proof. intros k i NO. unfold labels_of. rewrite <- (proj1 (name_ok_full _ _ NO)), kpre_ksuf. unfold key, lc_labels. rewrite map_app, rev_app_distr. reflexivity. Qed.

Lemma anc_sound : forall asc k t q, tree_ok asc (plug k t) -> q <> [] ->
  Forall (fun x => has (plug k t) (labels_of (fst x)) (snd x) /\ exists z, z <> [] /\ kpre k ++ q = labels_of (fst x) ++ z) (knodes k).
Proof.
  induction k as [|f k IH]; intros t q H N; [constructor|]. rewrite plug_cons in *. destruct f as [c i d r|c l i d|c l i r]; cbn [knodes kpre]; try (apply IH; auto).
  destruct (node_facts _ _ _ _ _ _ _ H) as [NO _]. constructor.
  - cbn [fst snd]. rewrite kpre_labels by exact NO. split; [apply has_here|]. exists q. auto.
  - eapply Forall_impl; [|apply (IH _ (key i ++ q) H); intro X; apply app_eq_nil in X; tauto]. cbn beta. intros x (A & z & Nz & Z). split; auto. exists z. split; auto. rewrite <- app_assoc. exact Z.
Qed.
Lemma anc_complete : forall k t q, tree_ok true (plug k t) -> path true k q -> q <> [] -> forall a z e, kpre k ++ q = a ++ z -> has (plug k t) a e -> length a <= length (kpre k) ->
  exists ls, labels_of ls = a /\ In (ls, e) (knodes k).
Proof.
  induction k as [|f k IH]; intros t q H P Nq a z e EQ HA LE.
  - exfalso. destruct a; [|cbn in LE; lia]. destruct HA as (j & A & _). apply at_head in A; [|eapply lvl_keyed; exact H]. destruct A as (_ & _ & _ & _ & A). auto.
  - rewrite plug_cons in *. inversion P as [|c i d r k' q1 P1 _|c l i d k' q1 P1 _|c l i r k' q1 P1]; subst; cbn [kpre knodes] in *; try (eapply IH; eauto; fail).
    destruct (node_facts _ _ _ _ _ _ _ H) as [NO _]. assert (NK : key i <> []) by (apply key_nonempty; apply NO).
    rewrite <- app_assoc in EQ. destruct (le_lt_dec (length a) (length (kpre k))) as [L1|L1].
    + destruct (IH _ (key i ++ q) H P1) with (a := a) (z := z) (e := e) as (ls & E1 & I1); auto; [intro X; apply app_eq_nil in X; tauto|]. exists ls. split; auto. right. exact I1.
    + assert (E1 : exists a2, a = kpre k ++ a2).
      { exists (skipn (length (kpre k)) a). rewrite <- (firstn_skipn (length (kpre k)) a) at 1. f_equal. apply (f_equal (firstn (length (kpre k)))) in EQ. rewrite !firstn_app, Nat.sub_diag, firstn_all in EQ. replace (length (kpre k) - length a) with 0 in EQ by lia. cbn [firstn] in EQ. rewrite !app_nil_r in EQ. auto. }
      destruct E1 as (a2 & ->). rewrite <- app_assoc in EQ. apply app_inv_head in EQ. rewrite !app_length in *.
      assert (N2 : a2 <> []) by (intros ->; cbn in L1; lia).
      assert (HD : hd [] a2 = hd [] (key i)). { apply (f_equal (hd [])) in EQ. rewrite !hd_app in EQ by auto. auto. }
      destruct HA as (j & A & Ej). apply (at_path k _ (key i ++ q) H P1) in A; [|exact N2|rewrite hd_app by auto; exact HD].
      destruct (sub_level _ _ _ H) as [NO1 SO]. destruct (SO eq_refl) as [_ SS]. apply name_ok_keyed in NO1. unfold keyed in NO1. rewrite Forall_forall in NO1.
      apply at_inv in A. destruct A as (i' & d' & I & A).
      assert (X : i = i' /\ t = d').
      { eapply ss_unique; [exact SS|cbn [fill elems]; apply in_or_app; cbn; auto|exact I|]. assert (N' : key i' <> []) by (apply key_nonempty; apply NO1; apply (in_map fst) in I; exact I).
        rewrite <- HD. destruct A as [[-> _]|(q' & -> & _)]; [auto|apply hd_app; auto]. }
      destruct X as [<- <-]. destruct A as [[-> ->]|(q' & -> & A)].
      * eexists. split; [|left; rewrite <- Ej; reflexivity]. apply kpre_labels. exact NO.
      * exfalso. rewrite app_length in LE. assert (q' = []) by (destruct q'; [reflexivity|cbn in LE; lia]). subst q'.
        apply at_head in A; [destruct A as (_ & _ & _ & _ & A); auto|]. eapply lvl_keyed. eapply lvl_mid. exact H.
Qed.
Lemma anc_sorted : forall asc k t, tree_ok asc (plug k t) -> StronglySorted (fun x y => length (fst y) < length (fst x)) (knodes k) /\ Forall (fun x => S (length (fst x)) <= length (kpre k)) (knodes k).
Proof.
  induction k as [|f k IH]; intros t H; [split; constructor|]. rewrite plug_cons in H. destruct (IH _ H) as [A B]. destruct f as [c i d r|c l i d|c l i r]; cbn [knodes kpre]; auto.
  destruct (node_facts _ _ _ _ _ _ _ H) as [NO _]. pose proof (key_nonempty _ (proj1 NO)) as NK.
  assert (LL : S (length (removelast (i_labels i ++ ksuf k))) = length (kpre k) + length (key i)).
  { pose proof (proj1 (name_ok_full _ _ NO)) as X. apply (f_equal (@length _)) in X. rewrite (app_length (removelast _)), (app_length (i_labels i)) in X. cbn [length] in X. rewrite kpre_ksuf, rev_lc_len, key_length. lia. }
  assert (LK : 0 < length (key i)) by (destruct (key i); [congruence|cbn; lia]).
  split.
  - constructor; auto. eapply Forall_impl; [|exact B]. cbn [fst]. intros x X. lia.
  - constructor; [cbn [fst]; rewrite app_length; lia|]. eapply Forall_impl; [|exact B]. cbn beta. intros x X. rewrite app_length. lia.
Qed.
Lemma ss_rev : forall (A : Type) (R : A -> A -> Prop) l, StronglySorted R l -> StronglySorted (fun x y => R y x) (rev l).
Proof.
  induction 1 as [|x l S IH F]; cbn; [constructor|]. apply ss_app. split; [exact IH|]. split; [repeat constructor|]. apply Forall_rev. eapply Forall_impl; [|exact F]. cbn beta. intros y Y. constructor; auto.
Qed.
Lemma long_prefix : forall k t q, tree_ok true (plug k t) -> path true k q -> forall a z e, kpre k ++ q = a ++ z -> has (plug k t) a e -> length (kpre k) < length a ->
  exists i d y, In (i, d) (elems t) /\ a = kpre k ++ key i ++ y /\ q = key i ++ y ++ z.
Proof.
  intros k t q H P a z e EQ (j & A & _) L1.
  assert (E1 : exists a2, a = kpre k ++ a2).
  { exists (skipn (length (kpre k)) a). rewrite <- (firstn_skipn (length (kpre k)) a) at 1. f_equal. apply (f_equal (firstn (length (kpre k)))) in EQ. rewrite !firstn_app, Nat.sub_diag, firstn_all in EQ. replace (length (kpre k) - length a) with 0 in EQ by lia. cbn [firstn] in EQ. rewrite !app_nil_r in EQ. auto. }
  destruct E1 as (a2 & ->). rewrite <- app_assoc in EQ. apply app_inv_head in EQ. rewrite !app_length in *.
  assert (N2 : a2 <> []) by (intros ->; cbn in L1; lia).
  assert (HD : hd [] a2 = hd [] q) by (rewrite EQ; symmetry; apply hd_app; auto).
  apply (at_path k _ q H P) in A; auto. apply at_inv in A. destruct A as (i' & d' & I & A). exists i', d'. destruct A as [[-> _]|(q' & -> & _)].
  - exists []. rewrite app_nil_r. auto.
  - exists q'. rewrite <- app_assoc in EQ. auto.
Qed.
Lemma miss_prefix : forall k t q, tree_ok true (plug k t) -> path true k q -> (forall i d y, In (i, d) (elems t) -> q <> key i ++ y) ->
  forall a z e, kpre k ++ q = a ++ z -> has (plug k t) a e -> length a <= length (kpre k).
Proof.
  intros k t q H P M a z e EQ HA. destruct (le_lt_dec (length a) (length (kpre k))) as [L1|L1]; [exact L1|exfalso].
  destruct (long_prefix _ _ _ H P _ _ _ EQ HA L1) as (i & d & y & I & _ & E1). eapply M; eauto.
Qed.
Lemma mid_prefix : forall k c l i d r w, tree_ok true (plug k (T c l i d r)) -> path true k (key i ++ w) ->
  forall a z e, kpre k ++ key i = a ++ z -> z <> [] -> has (plug k (T c l i d r)) a e -> length a <= length (kpre k).
Proof.
  intros k c l i d r w H P a z e EQ Nz HA. destruct (le_lt_dec (length a) (length (kpre k))) as [L1|L1]; [exact L1|exfalso].
  assert (EQ' : kpre k ++ key i ++ w = a ++ z ++ w) by (rewrite !app_assoc, EQ; reflexivity).
  destruct (long_prefix _ _ _ H P _ _ _ EQ' HA L1) as (i' & d' & y & I & E1 & E2).
  destruct (sub_level _ _ _ H) as [NO1 SO]. destruct (SO eq_refl) as [_ SS]. apply name_ok_keyed in NO1. unfold keyed in NO1. rewrite Forall_forall in NO1.
  assert (N' : key i' <> []) by (apply key_nonempty; apply NO1; apply (in_map fst) in I; exact I). assert (NK : key i <> []) by (apply key_nonempty; apply (node_facts _ _ _ _ _ _ _ H)).
  assert (X : i = i' /\ d = d'). { eapply ss_unique; [exact SS|cbn [elems]; apply in_or_app; cbn; auto|exact I|]. apply (f_equal (hd [])) in E2. rewrite !hd_app in E2 by auto. exact E2. }
  destruct X as [<- <-]. rewrite E1, <- !app_assoc in EQ. apply app_inv_head in EQ. apply (f_equal (@length _)) in EQ. rewrite !app_length in EQ. destruct z; [congruence|cbn in EQ; lia].
Qed.
Lemma anc_ancestors : forall k t q, tree_ok true (plug k t) -> path true k q -> q <> [] ->
  (forall a z e, kpre k ++ q = a ++ z -> z <> [] -> has (plug k t) a e -> length a <= length (kpre k)) ->
  ancestors (plug k t) (kpre k ++ q) (rev (knodes k)).
Proof.
  intros k t q H P Nq M. split; [|split].
  - apply Forall_rev. eapply anc_sound; eauto.
  - intros a z e EQ Nz HA. destruct (anc_complete k t q H P Nq a z e EQ HA) as (ls & A & B); [eapply M; eauto|]. exists ls. split; auto. apply in_rev in B. exact B.
  - apply ss_rev with (R := fun x y => length (fst y) < length (fst x)). eapply anc_sorted; eauto.
Qed.

(** the ancestors when the search stops early: there is a list of all of them *)
Lemma walk : forall N k t q, length q <= N -> tree_ok true (plug k t) -> path true k q -> q <> [] -> exists A2, ancestors (plug k t) (kpre k ++ q) (rev (knodes k) ++ A2).
Proof.
  induction N as [|N IH]; intros k t q LE H P Nq; [destruct q; [congruence|cbn in LE; lia]|].
  revert k LE H P. induction t as [|c l IHl i d IHd r IHr]; intros k LE H P.
  - exists []. rewrite app_nil_r. apply anc_ancestors; auto. intros a z e EQ _ HA. eapply miss_prefix; [exact H|exact P|intros i d y []|exact EQ|exact HA].
  - destruct (node_facts _ _ _ _ _ _ _ H) as [NO _]. assert (NK : key i <> []) by (apply key_nonempty; apply NO).
    destruct (slex (hd [] q) (hd [] (key i))) eqn:C.
    + apply slex_eq in C. pose proof (cls_spec q (key i) Nq NK) as CL. inversion CL as [E1 R1 C1|N1 N2 N3 R1 C1|x1 N1 E1 R1 C1|y1 N1 E1 R1 C1|s1 x1 y1 u1 v1 N1 E1 E2 N2 R1 C1].
      * exists []. rewrite app_nil_r. apply anc_ancestors; auto. rewrite E1 in *. intros a z e EQ Nz HA. eapply (mid_prefix k c l i d r []); eauto. rewrite app_nil_r. exact P.
      * congruence.
      * subst q. destruct (IH (FD c l i r :: k) d x1) as (L2 & AN); [rewrite app_length in LE; destruct (key i); [congruence|cbn in LE; lia]|exact H|constructor; exact P|exact N1|].
        cbn [kpre knodes rev] in AN. rewrite <- !app_assoc in AN. eexists. exact AN.
      * exists []. rewrite app_nil_r. apply anc_ancestors; auto. intros a z e EQ Nz HA. eapply miss_prefix; [exact H|exact P| |exact EQ|exact HA]. intros i' d' y I EQy.
        destruct (sub_level _ _ _ H) as [NO1 SO]. destruct (SO eq_refl) as [_ SS]. apply name_ok_keyed in NO1. unfold keyed in NO1. rewrite Forall_forall in NO1.
        assert (N' : key i' <> []) by (apply key_nonempty; apply NO1; apply (in_map fst) in I; exact I).
        assert (X : i = i' /\ d = d'). { eapply ss_unique; [exact SS|cbn [elems]; apply in_or_app; cbn; auto|exact I|]. rewrite <- C, EQy. apply hd_app. exact N'. }
        destruct X as [<- <-]. rewrite EQy in E1. apply (f_equal (@length _)) in E1. rewrite !app_length in E1. destruct y1; [congruence|cbn in E1; lia].
      * exists []. rewrite app_nil_r. apply anc_ancestors; auto. intros a z e EQ Nz HA. eapply miss_prefix; [exact H|exact P| |exact EQ|exact HA]. intros i' d' y I EQy.
        destruct (sub_level _ _ _ H) as [NO1 SO]. destruct (SO eq_refl) as [_ SS]. apply name_ok_keyed in NO1. unfold keyed in NO1. rewrite Forall_forall in NO1.
        assert (N' : key i' <> []) by (apply key_nonempty; apply NO1; apply (in_map fst) in I; exact I).
        assert (X : i = i' /\ d = d'). { eapply ss_unique; [exact SS|cbn [elems]; apply in_or_app; cbn; auto|exact I|]. rewrite <- C, EQy. apply hd_app. exact N'. }
        destruct X as [<- <-]. rewrite E1, E2, <- app_assoc in EQy. apply app_inv_head in EQy. cbn [app] in EQy. congruence.
    + apply (IHl (FL c i d r :: k)); auto. constructor; auto. split; [apply lt_neq; exact C|auto].
    + apply (IHr (FR c l i d :: k)); auto. constructor; auto. split; [intro X; rewrite X, slex_refl in C; discriminate|auto].
Qed.
Lemma full_ancestors : forall k c l i d r q, tree_ok true (plug k (T c l i d r)) -> path true k (key i ++ q) -> q <> [] ->
  exists A2, ancestors (plug k (T c l i d r)) (kpre k ++ key i ++ q) (rev (knodes k) ++ (removelast (i_labels i ++ ksuf k), ent i) :: A2).
Proof.
  intros k c l i d r q H P Nq. destruct (walk _ (FD c l i r :: k) d q (le_n _) H ltac:(constructor; exact P) Nq) as (L2 & AN).
  exists L2. cbn [kpre knodes rev] in AN. rewrite <- !app_assoc in AN. exact AN.
Qed.

(** * Chains *)
Definition chain_ok k (ch : chain) : Prop := length (ch_nodes ch) = MAX_LABEL_COUNT /\ ch_level ch = length (kanc k) /\ on_chain ch = rev (map i_ptr (kanc k)).
Lemma chain_new_ok : chain_ok [] chain_new.
Proof. split; [apply repeat_length|]. split; reflexivity. Qed.
Lemma push_ok : forall k ch p, chain_ok k ch -> length (kanc k) < MAX_LABEL_COUNT -> exists ch', chain_push ch p = Ok ch' /\ on_chain ch' = on_chain ch ++ [p] /\
  length (ch_nodes ch') = MAX_LABEL_COUNT /\ ch_level ch' = S (length (kanc k)) /\ ch_last ch' = ch_last ch /\ ch_result ch' = ch_result ch.
Proof.
  intros k ch p (A & B & C) L. unfold chain_push. rewrite B in *. rewrite (proj2 (Nat.ltb_lt _ _) L). cbn [assert_r rbind].
  assert (X : ch_nodes ch = firstn (length (kanc k)) (ch_nodes ch) ++ nth (length (kanc k)) (ch_nodes ch) 0 :: skipn (S (length (kanc k))) (ch_nodes ch)).
  { rewrite <- (firstn_skipn (length (kanc k)) (ch_nodes ch)) at 1. f_equal. rewrite <- A in L. revert L. generalize (ch_nodes ch), (length (kanc k)). clear. induction l as [|y l IH]; intros [|n] L; cbn in *; try lia; auto. apply IH. lia. }
  assert (LF : length (firstn (length (kanc k)) (ch_nodes ch)) = length (kanc k)) by (rewrite firstn_length; lia).
  assert (U : upd_r (ch_nodes ch) (length (kanc k)) p = Ok (firstn (length (kanc k)) (ch_nodes ch) ++ p :: skipn (S (length (kanc k))) (ch_nodes ch))).
  { rewrite X at 1. apply upd_r_app_mid. auto. }
  rewrite U. cbn [rbind]. eexists. split; [reflexivity|]. cbn [ch_nodes ch_level on_chain]. unfold on_chain. cbn [ch_nodes ch_level]. rewrite B.
  split; [|split; [|split; [lia|split; reflexivity]]].
  - rewrite firstn_app, LF. replace (length (kanc k) + 1 - length (kanc k)) with 1 by lia. cbn [firstn]. f_equal. rewrite firstn_firstn. f_equal. lia.
  - apply (f_equal (@length _)) in X. rewrite app_length in *. cbn [length] in *. lia.
Qed.
Definition kresult k : find_result := match kanc k with [] => fr_new | i :: _ => mkFR (i_ptr i) PartialMatch end.

(** * Absolute names *)
Lemma anc_cell : forall k h i, In i (kanc k) -> exists c rt lp rp pp dp, In (i_ptr i, cell c rt i lp rp pp dp) (kcells null true k h).
Proof.
  induction k as [|f k IH]; intros h i I; [inversion I|]. cbn [kcells]. destruct f as [c j d r|c l j d|c l j r]; cbn [kanc] in I.
  - destruct (IH (fptr (FL c j d r)) i I) as (c' & rt & lp & rp & pp & dp & X). do 6 eexists. apply in_or_app. right. exact X.
  - destruct (IH (fptr (FR c l j d)) i I) as (c' & rt & lp & rp & pp & dp & X). do 6 eexists. apply in_or_app. right. exact X.
  - destruct I as [<-|I].
    + do 6 eexists. left. reflexivity.
    + destruct (IH (fptr (FD c l j r)) i I) as (c' & rt & lp & rp & pp & dp & X). do 6 eexists. apply in_or_app. right. exact X.
Qed.
Lemma wp_chain_names : forall todo j s k h R root n x ch, St s (kcells null true k h ++ R) root n x -> chain_ok k ch -> j + todo = length (kanc k) ->
  wp (chain_names ch j todo) s (fun r s' => s' = s /\ r = map (fun i => seqf (i_labels i)) (skipn j (kanc k))).
Proof.
  induction todo as [|todo IH]; intros j s k h R root n x ch H CK LE.
  - cbn [chain_names]. apply wp_ret. split; auto. rewrite skipn_all2 by lia. reflexivity.
  - cbn [chain_names]. pose proof CK as (A & B & C). unfold on_chain in C. rewrite B in *. apply wp_bind. eapply wp_lift; [apply csub_ok; lia|].
    destruct (nth_error (kanc k) j) as [i|] eqn:NE; [|apply nth_error_None in NE; lia].
    assert (NI : nth_error (ch_nodes ch) (length (kanc k) - (j + 1)) = Some (i_ptr i)).
    { rewrite <- (firstn_skipn (length (kanc k)) (ch_nodes ch)), C. rewrite nth_error_app1 by (rewrite rev_length, map_length; lia).
      rewrite <- map_rev, nth_error_map. replace (nth_error (rev (kanc k)) (length (kanc k) - (j + 1))) with (Some i); [reflexivity|]. symmetry.
      apply nth_error_split in NE. destruct NE as (l1 & l2 & -> & <-). rewrite rev_app_distr. cbn [rev]. rewrite <- app_assoc. rewrite nth_error_app2 by (rewrite rev_length, app_length; cbn; lia).
      rewrite rev_length, app_length. cbn [length]. replace (length l1 + S (length l2) - (length l1 + 1) - length l2) with 0 by lia. reflexivity. }
    apply wp_bind. eapply wp_lift; [unfold idx; rewrite NI; reflexivity|]. destruct (anc_cell k h i (nth_error_In _ _ NE)) as (c & rt & lp & rp & pp & dp & I).
    apply wp_bind. assert (I' : In (i_ptr i, cell c rt i lp rp pp dp) (kcells null true k h ++ R)) by (apply in_or_app; auto). apply In_nth_error in I'. destruct I' as (m & I').
    eapply wp_get_name; [exact H|exact I'|]. apply wp_bind. eapply wp_mono; [eapply IH; [exact H|exact CK|lia]|]. cbn beta. intros r s' [-> ->]. apply wp_ret. split; auto.
    assert (SK : skipn j (kanc k) = i :: skipn (j + 1) (kanc k)).
    { clear - NE. revert j NE. induction (kanc k) as [|y l IH]; intros [|j] NE; try discriminate; cbn in *; [inversion NE; reflexivity|apply IH; exact NE]. }
    rewrite SK. reflexivity.
Qed.
Lemma name_ok_rel : forall suf i, name_ok suf i -> suf <> [] -> Forall no_nul_end (i_labels i) -> rel_piece (i_labels i).
Proof.
  intros suf i (N & ls & W & EQ) NS NN. destruct (exists_last NS) as (suf' & z & ->). rewrite app_assoc in EQ. apply app_inj_tail in EQ. destruct EQ as [EQ _].
  destruct W as [W _]. rewrite <- EQ in W. apply Forall_app in W. split; [apply W|]. split; [exact N|]. intros a l y E1 ->. rewrite E1 in NN. apply Forall_app in NN. destruct NN as [_ NN]. inversion NN as [|? ? X _]; subst. apply (X l). reflexivity.
Qed.
Lemma kanc_pieces : forall asc k t, tree_ok asc (plug k t) -> Forall (fun i => Forall no_nul_end (i_labels i)) (kanc k) -> (kanc k = [] /\ ksuf k = []) \/
  exists ms ls, map i_labels (kanc k) = ms ++ [full ls] /\ Forall rel_piece ms /\ Forall wf_label ls /\ ksuf k = List.concat ms ++ full ls.
Proof.
  induction k as [|f k IH]; intros t H NN; [left; auto|]. rewrite plug_cons in H. destruct f as [c i d r|c l i d|c l i r]; cbn [kanc ksuf] in *; try (eapply IH; eauto; fail).
  right. destruct (node_facts _ _ _ _ _ _ _ H) as [NO _]. inversion NN as [|? ? N1 N2]; subst. destruct (IH _ H N2) as [[A B]|(ms & ls & A & B & C & D)].
  - rewrite A, B in *. destruct NO as (_ & ls & W & EQ). rewrite app_nil_r in EQ. exists [], ls. cbn [map app List.concat]. rewrite EQ. split; [reflexivity|]. split; [constructor|]. split; [apply W|]. rewrite app_nil_r. reflexivity.
  - exists (i_labels i :: ms), ls. cbn [map app List.concat]. rewrite A. split; [reflexivity|]. split; [|split; [exact C|rewrite D, app_assoc; reflexivity]].
    constructor; auto. eapply name_ok_rel; [exact NO| |exact N1]. rewrite D. unfold full. intro X. apply app_eq_nil in X. destruct X as [_ X]. apply app_eq_nil in X. destruct X as [_ X]. discriminate.
Qed.
Lemma wp_abs_name : forall asc s k c l i d r n x ch, inv s k (T c l i d r) n x -> tree_ok asc (plug k (T c l i d r)) -> chain_ok k ch ->
  Forall (fun i => Forall no_nul_end (i_labels i)) (i :: kanc k) ->
  wp (get_absolute_name ch (seqf (i_labels i))) s (fun nm s' => s' = s /\ nm = name_of (removelast (i_labels i ++ ksuf k))).
Proof.
  intros asc s k c l i d r n x ch H TO CK NN. inversion NN as [|? ? N1 N2]; subst. destruct (node_facts _ _ _ _ _ _ _ TO) as [NO _].
  unfold get_absolute_name. pose proof CK as (A & B & C). rewrite B. destruct (kanc_pieces _ _ _ TO N2) as [[P1 P2]|(ms & ls & P1 & P2 & P3 & P4)].
  - rewrite P1, P2 in *. cbn [length Nat.eqb]. destruct NO as (_ & ls & W & EQ). rewrite app_nil_r in *. rewrite EQ, removelast_last. change (ls ++ [[]]) with (full ls). eapply wp_lift; [rewrite seq_concat_all_self; reflexivity|]. auto.
  - assert (NE : kanc k <> []) by (intro X; rewrite X in P1; destruct ms; discriminate). rewrite (proj2 (Nat.eqb_neq _ _)) by (destruct (kanc k); [congruence|discriminate]).
    apply wp_bind. unfold inv, whole in H. eapply wp_mono; [eapply (wp_chain_names _ 0); [exact H|exact CK|reflexivity]|]. cbn beta. intros nms s' [-> ->]. cbn [skipn].
    rewrite <- map_map, P1, map_app. cbn [map].
    assert (RP : rel_piece (i_labels i)). { eapply name_ok_rel; [exact NO| |exact N1]. rewrite P4. unfold full. intro X. apply app_eq_nil in X. destruct X as [_ X]. apply app_eq_nil in X. destruct X as [_ X]. discriminate. }
    destruct (name_ok_full _ _ NO) as [_ W].
    assert (EL : i_labels i ++ ksuf k = (i_labels i ++ List.concat ms ++ ls) ++ [[]]) by (rewrite P4; unfold full; rewrite !app_assoc; reflexivity).
    rewrite EL, removelast_last in *.
    eapply wp_lift; [unfold expect_r; rewrite seq_concat_all_spec by assumption; rewrite (proj2 (Nat.leb_le _ _)); [reflexivity|apply W]|]. auto.
Qed.

(** * Labels *)
Fixpoint klabs k : list label := match k with [] => [] | f :: k' => labs (fill f E) ++ klabs k' end.
Lemma labs_plug : forall k t x, In x (labs (plug k t)) <-> In x (klabs k) \/ In x (labs t).
Proof.
  induction k as [|f k IH]; intros t x; [cbn; tauto|]. rewrite plug_cons, IH. cbn [klabs]. rewrite in_app_iff. destruct f; cbn [fill labs]; rewrite !in_app_iff; cbn [In]; tauto.
Qed.
Lemma kanc_labs : forall k i x, In i (kanc k) -> In x (i_labels i) -> In x (klabs k).
Proof.
  induction k as [|f k IH]; intros i x I X; [inversion I|]. cbn [klabs]. apply in_or_app. destruct f; cbn [kanc] in I; try (right; eapply IH; eauto; fail). destruct I as [<-|I]; [left|right; eapply IH; eauto]. cbn [fill labs]. apply in_or_app. auto.
Qed.

(** * The search loop *)
Section Loop.
Variables (asc : bool) (md : mode) (ls : list label) (q0 : list label) (P : Type) (cb : option (callback P)).
Hypothesis W : wf_labels ls.
Hypothesis AS : asc = true -> scoped ls.
Hypothesis SM : safe_md asc md.
Hypothesis Q0 : length q0 <= MAX_LABEL_COUNT.

Definition seen k (p0 p : P) : Prop := visit cb (rev (knodes k)) p0 = inr p.
Lemma visit_app : forall (L1 L2 : list (list label * entry)) (p : P), visit (V := V) cb (L1 ++ L2) p = match visit cb L1 p with inl r => inl r | inr p' => match visit cb L2 p' with inl (b, e, p'') => inl (map snd L1 ++ b, e, p'') | inr p'' => inr p'' end end.
Proof.
  induction L1 as [|[l e] L1 IH]; intros L2 p; cbn [app visit map].
  - destruct (visit cb L2 p) as [[[? ?] ?]|]; reflexivity.
  - destruct (match e_cb e with true => _ | false => _ end) as [st p']. destruct st; [reflexivity|]. rewrite IH. destruct (visit cb L1 p') as [[[? ?] ?]|p'']; [reflexivity|]. destruct (visit cb L2 p'') as [[[? ?] ?]|]; reflexivity.
Qed.
Definition no_nul_if t : Prop := cb = None \/ Forall no_nul_end (labs t).

Definition ch_wf (ch : chain) : Prop := length (ch_nodes ch) = MAX_LABEL_COUNT /\ ch_level ch = length (on_chain ch).
Lemma chain_wf : forall k ch, chain_ok k ch -> ch_wf ch.
Proof. intros k ch (A & B & C). split; [exact A|]. rewrite C, B, rev_length, map_length. reflexivity. Qed.
(** what the chain says about the last comparison: made between the labels [q] and node [i] *)
Definition cmp_at (q : list label) i (ch : chain) : Prop := ch_last ch = i_ptr i /\
  cls q (key i) (cr_relation (ch_result ch)) (N.to_nat (cr_common (ch_result ch))) /\ (asc = true -> (cr_order (ch_result ch) ?= 0)%Z = olex q (key i)).
Definition last_ok k (q : list label) (ch : chain) : Prop :=
  match k with [] => ch_last ch = null | FL _ i _ _ :: _ | FR _ _ i _ :: _ => cmp_at q i ch | FD _ _ i _ :: _ => cmp_at (key i ++ q) i ch end.
Definition last_at k t (q : list label) (ch : chain) : Prop := match t with E => last_ok k q ch | T _ _ i _ _ => cmp_at q i ch /\ hd [] q = hd [] (key i) end.
Lemma wp_find_loop : forall fuel s k t n x ts fls ch (p0 p : P) (Q : find_result * chain * P -> dtree -> Prop),
  count t < fuel -> inv s k t n x -> tree_ok asc (plug k t) -> tgt ls ts fls -> path asc k (rev (lc_labels fls)) -> kpre k ++ rev (lc_labels fls) = q0 ->
  chain_ok k ch -> seen k p0 p -> no_nul_if (plug k t) -> last_ok k (rev (lc_labels fls)) ch ->
  (forall k' c l i d r ch' (p' : P), plug k' (T c l i d r) = plug k t -> inv s k' (T c l i d r) n x -> kpre k' ++ key i = q0 -> path asc k' (key i) -> seen k' p0 p' ->
     ch_wf ch' -> on_chain ch' = rev (map i_ptr (kanc k')) ++ [i_ptr i] -> cmp_at (key i) i ch' -> Q (mkFR (i_ptr i) ExactMatch, ch', p') s) ->
  (forall k' t' q ch' (p' : P), plug k' t' = plug k t -> inv s k' t' n x -> kpre k' ++ q = q0 -> q <> [] -> path asc k' q -> (forall i d y, In (i, d) (elems t') -> path asc k' q -> asc = true -> q <> key i ++ y) -> seen k' p0 p' ->
     ch_wf ch' -> on_chain ch' = rev (map i_ptr (kanc k')) -> last_at k' t' q ch' -> Q (kresult k', ch', p') s) ->
  (forall k' c l i d r q ch' (p1 p' : P), plug k' (T c l i d r) = plug k t -> inv s k' (T c l i d r) n x -> kpre k' ++ key i ++ q = q0 -> q <> [] -> path asc k' (key i ++ q) -> seen k' p0 p1 ->
     visit cb [(removelast (i_labels i ++ ksuf k'), ent i)] p1 = inl ([], ent i, p') ->
     ch_wf ch' -> on_chain ch' = rev (map i_ptr (kanc k')) -> cmp_at (key i ++ q) i ch' -> Q (mkFR (i_ptr i) PartialMatch, ch', p') s) ->
  wp (find_loop md fuel cb (pt t) (kresult k) ts ch p) s Q.
Proof.
  induction fuel as [|fuel IH]; intros s k t n x ts fls ch p0 p Q Fu H TO TG PA EQ0 CK SE NN LA HE HM HS; [lia|].
  assert (Nq : rev (lc_labels fls) <> []). { intro X. apply (tgt_ne _ _ _ TG). apply (f_equal (@length _)) in X. rewrite rev_lc_len in X. destruct fls; [reflexivity|discriminate]. }
  destruct t as [|c l i d r].
  - cbn [find_loop pt]. change (is_null null) with true. cbv iota. apply wp_ret. pose proof CK as (C1 & C2 & C3). eapply HM; eauto. eapply chain_wf; exact CK.
  - cbn [find_loop]. change (pt (T c l i d r)) with (i_ptr i). rewrite (nz_node _ _ _ _ _ _ _ _ _ H).
    cbn [count] in Fu. eapply (wp_compare_at_ord asc md ls W AS SM); [exact H|exact TO|exact TG|]. intros cr CL OR OL. cbv zeta.
    set (ch1 := mkChain (ch_level ch) (ch_nodes ch) (i_ptr i) cr). assert (CK1 : chain_ok k ch1) by exact CK.
    assert (CA : cmp_at (rev (lc_labels fls)) i ch1) by (split; [reflexivity|]; split; [exact CL|exact OL]).
    assert (LK : length (kanc k) < MAX_LABEL_COUNT).
    { pose proof (kanc_len _ _ _ TO). rewrite <- EQ0, app_length in Q0. destruct (rev (lc_labels fls)); [congruence|cbn [length] in Q0]. lia. }
    destruct (node_facts _ _ _ _ _ _ _ TO) as [NO _]. assert (NK : key i <> []) by (apply key_nonempty; apply NO).
    inversion CL as [E1 R1 C1|N1 N2 N3 R1 C1|x1 N1 E1 R1 C1|y1 N1 E1 R1 C1|s1 x1 y1 u1 v1 N1 E1 E2 N2 R1 C1].
    + destruct (push_ok k ch1 (i_ptr i) CK1 LK) as (ch' & A1 & A2 & A3 & A4 & A5 & A6). apply wp_bind. eapply wp_lift; [exact A1|]. apply wp_ret.
      assert (CA' : cmp_at (key i) i ch') by (unfold cmp_at in CA |- *; rewrite A5, A6; rewrite E1 in CA; exact CA).
      eapply HE; [reflexivity|exact H|rewrite <- E1; exact EQ0|rewrite <- E1; exact PA|exact SE| | |exact CA'].
      { split; [exact A3|]; rewrite A4, A2, app_length; destruct CK1 as (_ & _ & CK2); rewrite CK2, rev_length, map_length; cbn [length]; lia. }
      rewrite A2. f_equal. apply CK.
    + specialize (OR (eq_sym R1)). apply wp_bind. eapply wp_next; [exact H|]. destruct (cr_order cr <? 0)%Z eqn:Oz.
      * change (kresult k) with (kresult (FL c i d r :: k)).
        eapply (IH s (FL c i d r :: k) l); [lia|apply inv_fill; exact H|exact TO|exact TG|apply path_L; auto; eapply goes_lt; eauto|exact EQ0|exact CK1|exact SE|exact NN|exact CA|exact HE|exact HM|exact HS].
      * change (kresult k) with (kresult (FR c l i d :: k)).
        eapply (IH s (FR c l i d :: k) r); [lia|apply inv_fill; exact H|exact TO|exact TG|apply path_R; auto; eapply goes_gt; eauto|exact EQ0|exact CK1|exact SE|exact NN|exact CA|exact HE|exact HM|exact HS].
    + (* SubDomain *)
      apply wp_bind. unfold inv, whole in H. cbn [cells pt] in H. assert (H0 := H). norm_in H0. stp. clear H0.
      change (St s (kcells null true k (i_ptr i) ++ cells (kpar null k) (krt true k) (T c l i d r)) (kroot k (i_ptr i)) n x) with (inv s k (T c l i d r) n x) in H.
      apply wp_bind.
      assert (VI : wp (match i_cb i with true => match cb with Some f => let! nm := get_name (i_ptr i) in let! ab := get_absolute_name ch1 nm in ret (f (i_ptr i) ab p) | None => ret (false, p) end | false => ret (false, p) end) s
                 (fun r s' => s' = s /\ r = match i_cb i, cb with true, Some f => f (i_ptr i) (name_of (removelast (i_labels i ++ ksuf k))) p | _, _ => (false, p) end)).
      { destruct (i_cb i); [|apply wp_ret; auto]. destruct cb as [f|] eqn:CB; [|apply wp_ret; auto]. apply wp_bind. unfold inv, whole in H. cbn [cells pt] in H. assert (H0 := H). norm_in H0. stp. clear H0.
        change (St s (kcells null true k (i_ptr i) ++ cells (kpar null k) (krt true k) (T c l i d r)) (kroot k (i_ptr i)) n x) with (inv s k (T c l i d r) n x) in H.
        apply wp_bind. eapply wp_mono; [eapply wp_abs_name; [exact H|exact TO|exact CK1|]|].
        - destruct NN as [NN|NN]; [congruence|]. rewrite Forall_forall in NN. constructor; apply Forall_forall.
          + intros y Y. apply NN. apply labs_plug. right. cbn [labs]. apply in_or_app. auto.
          + intros j J. apply Forall_forall. intros y Y. apply NN. apply labs_plug. left. eapply kanc_labs; eauto.
        - cbn beta. intros nm s' [-> ->]. apply wp_ret. auto. }
      eapply wp_mono; [exact VI|]. clear VI. cbn beta. intros [stop p1] s' [-> VE].
      destruct stop.
      * apply wp_ret. eapply HS; [reflexivity|exact H| |exact N1|rewrite <- E1; exact PA|exact SE| |exact (chain_wf _ _ CK1)|apply CK|rewrite <- E1; exact CA].
        { rewrite <- E1. exact EQ0. }
        cbn [visit]. change (e_cb (ent i)) with (i_cb i). change (e_ptr (ent i)) with (i_ptr i). rewrite <- VE. reflexivity.
      * destruct (push_ok k ch1 (i_ptr i) CK1 LK) as (ch' & A1 & A2 & A3 & A4 & A5 & A6). apply wp_bind. eapply wp_lift; [exact A1|].
        destruct (tgt_strip _ _ _ (key i) x1 TG E1 NK N1) as (ts' & S1 & TG' & EQ'). apply wp_bind. eapply wp_lift; [exact S1|]. apply wp_bind. eapply wp_down; [exact H|].
        change (mkFR (i_ptr i) PartialMatch) with (kresult (FD c l i r :: k)).
        eapply (IH s (FD c l i r :: k) d); [lia|apply inv_fill; exact H|exact TO|exact TG'|rewrite EQ'; apply path_D; rewrite <- E1; exact PA| | | |exact NN| |exact HE|exact HM|exact HS].
        -- rewrite EQ'. cbn [kpre]. rewrite <- app_assoc, <- E1. exact EQ0.
        -- split; [exact A3|]. cbn [kanc map rev length]. split; [exact A4|]. rewrite A2. f_equal. apply CK.
        -- unfold seen in *. cbn [knodes rev]. rewrite visit_app, SE. cbn [visit]. change (e_cb (ent i)) with (i_cb i). change (e_ptr (ent i)) with (i_ptr i). rewrite <- VE. reflexivity.
        -- cbn [last_ok]. rewrite EQ', <- E1. unfold cmp_at in CA |- *. rewrite A5, A6. exact CA.
    + (* SuperDomain *) apply wp_ret. eapply HM; [reflexivity|exact H|exact EQ0|exact Nq|exact PA| |exact SE|exact (chain_wf _ _ CK1)|apply CK|split; [exact CA|rewrite E1, hd_app by exact Nq; reflexivity]].
      intros i' d' y I PA' A EQy. rewrite A in TO. destruct (sub_level _ _ _ TO) as [NO1 SO]. destruct (SO eq_refl) as [_ SS]. apply name_ok_keyed in NO1. unfold keyed in NO1. rewrite Forall_forall in NO1.
      assert (N' : key i' <> []) by (apply key_nonempty; apply NO1; apply (in_map fst) in I; exact I).
      assert (X : i = i' /\ d = d'). { eapply ss_unique; [exact SS|cbn [elems]; apply in_or_app; cbn; auto|exact I|]. rewrite E1, hd_app by exact Nq. rewrite EQy. apply hd_app. exact N'. }
      destruct X as [<- <-]. rewrite EQy in E1. apply (f_equal (@length _)) in E1. rewrite !app_length in E1. destruct y1; [congruence|cbn in E1; lia].
    + apply wp_ret. eapply HM; [reflexivity|exact H|exact EQ0|exact Nq|exact PA| |exact SE|exact (chain_wf _ _ CK1)|apply CK|split; [exact CA|rewrite E1, E2, !hd_app by exact N1; reflexivity]].
      intros i' d' y I PA' A EQy. rewrite A in TO. destruct (sub_level _ _ _ TO) as [NO1 SO]. destruct (SO eq_refl) as [_ SS]. apply name_ok_keyed in NO1. unfold keyed in NO1. rewrite Forall_forall in NO1.
      assert (N' : key i' <> []) by (apply key_nonempty; apply NO1; apply (in_map fst) in I; exact I).
      assert (X : i = i' /\ d = d'). { eapply ss_unique; [exact SS|cbn [elems]; apply in_or_app; cbn; auto|exact I|]. rewrite <- (hd_app (key i') y N'), <- EQy, E1, E2, !hd_app by exact N1. reflexivity. }
      destruct X as [<- <-]. rewrite E1, E2, <- app_assoc in EQy. apply app_inv_head in EQy. cbn [app] in EQy. congruence.
Qed.
End Loop.

Lemma knodes_ptr : forall k, map (fun x => e_ptr (snd x)) (rev (knodes k)) = rev (map i_ptr (kanc k)).
Proof. intros k. rewrite map_rev. f_equal. induction k as [|[] k IH]; cbn; congruence. Qed.
Lemma qof_len : forall ls, wf_labels ls -> length (qof ls) <= MAX_LABEL_COUNT.
Proof. intros ls W. pose proof (wf_count127 _ W). unfold qof, MAX_LABEL_COUNT. rewrite rev_lc_len, full_len. lia. Qed.

Lemma wp_find_ext : forall P asc md ls (cb : option (callback P)) s t n x (p0 : P), wf_labels ls -> (asc = true -> scoped ls) -> safe_md asc md ->
  inv s [] t n x -> tree_ok asc t -> cb = None \/ Forall no_nul_end (labs t) ->
  wp (find_node_ext md (name_of ls) chain_new cb p0) s (fun a s' => s' = s /\
    (fr_node (fst (fst a)) = null \/ exists k c l i d r, t = plug k (T c l i d r) /\ i_ptr i = fr_node (fst (fst a))) /\
    (fr_node (fst (fst a)) = null -> fr_flag (fst (fst a)) = NotFound) /\
    (asc = true -> find_ext_spec cb t (qof ls) p0 (fst (fst a)) (snd (fst a)) (snd a))).
Proof.
  intros P asc md ls cb s t n x p0 W AS SM H TO NN. unfold find_node_ext. apply wp_fun with (m := fun s => _).
  destruct (tgt_init ls W) as (ts & E1 & TG). apply wp_bind. eapply wp_lift; [exact E1|].
  assert (RT : dt_root s = pt t) by (destruct H as (_ & H & _); exact H). assert (NX : dt_next s = x) by (destruct H as (_ & _ & _ & H); exact H).
  assert (CN : count t <= x).
  { destruct (St_len _ _ _ _ _ H) as [Y|[Y _]]; unfold whole in Y; cbn [kcells app] in Y; [rewrite cells_count in Y; lia|]. destruct t; [cbn; lia|discriminate]. }
  rewrite RT, NX. change fr_new with (kresult (@nil frame)).
  eapply (wp_find_loop asc md ls (qof ls) P cb W AS SM (qof_len ls W) _ s [] t n x ts (full ls)); [lia|exact H|exact TO|exact TG|constructor|reflexivity|apply chain_new_ok|reflexivity|exact NN|reflexivity| | |].
  - intros k c l i d r ch' p' EP HI EQ PA SE LN OC LA. cbn [fst snd fr_node]. split; auto. cbn [plug fold_left] in EP. split; [right; exists k, c, l, i, d, r; auto|]. split.
    { intro X. pose proof (nz_node _ _ _ _ _ _ _ _ _ HI) as Z. rewrite X in Z. discriminate. }
    intros ->. rewrite <- EP in *. assert (TOk := TO).
    exists (rev (knodes k)). rewrite SE. split; [rewrite <- EQ; apply anc_ancestors; auto; [apply key_nonempty; apply (node_facts _ _ _ _ _ _ _ TO)|]|].
    { intros a z e EA Nz HA. eapply (mid_prefix k c l i d r []); [exact TO|rewrite app_nil_r; exact PA|exact EA|exact Nz|exact HA]. }
    cbn [fr_flag fr_node]. split; auto. split.
    + unfold find_spec. cbn [fr_flag fr_node]. exists (ent i). split; [rewrite <- EQ; apply has_here|reflexivity].
    + rewrite OC, knodes_ptr. reflexivity.
  - intros k t' q ch' p' EP HI EQ Nq PA M SE LN OC LA. cbn [fst snd]. split; auto. cbn [plug fold_left] in EP. rewrite <- EP in *.
    assert (RS : kresult k = fr_new /\ kanc k = [] \/ exists kl c l i r k1, k = kl ++ FD c l i r :: k1 /\ flat kl /\ kresult k = mkFR (i_ptr i) PartialMatch /\ kpre k = kpre k1 ++ key i).
    { clear. induction k as [|f k IH]; [left; auto|]. destruct f as [c i d r|c l i d|c l i r].
      - destruct IH as [[A B]|(kl & c1 & l1 & i1 & r1 & k1 & -> & F & R & K)]; [left; auto|right]. exists (FL c i d r :: kl), c1, l1, i1, r1, k1. repeat split; auto. constructor; auto. exact I.
      - destruct IH as [[A B]|(kl & c1 & l1 & i1 & r1 & k1 & -> & F & R & K)]; [left; auto|right]. exists (FR c l i d :: kl), c1, l1, i1, r1, k1. repeat split; auto. constructor; auto. exact I.
      - right. exists [], c, l, i, r, k. repeat split; auto. constructor. }
    split; [|split].
    + destruct RS as [[-> _]|(kl & c & l & i & r & k1 & -> & F & R & K)]; [left; reflexivity|right]. exists k1, c, l, i, (plug kl t'), r. rewrite R, plug_app. auto.
    + intros X. destruct RS as [[-> _]|(kl & c & l & i & r & k1 & -> & F & R & K)]; [reflexivity|exfalso]. rewrite R in X. cbn [fr_node] in X.
      apply inv_plug in HI. apply inv_fill in HI. cbn [fill] in HI. pose proof (nz_node _ _ _ _ _ _ _ _ _ HI) as Z. rewrite X in Z. discriminate.
    + intros ->. assert (MP := miss_prefix k t' q TO PA (fun i d y I => M i d y I PA eq_refl)).
      exists (rev (knodes k)). rewrite SE. split; [rewrite <- EQ; apply anc_ancestors; auto; intros a z e EA _ HA; eapply MP; eauto|]. split; auto.
      destruct RS as [[-> KA]|(kl & c & l & i & r & k1 & -> & F & R & K)].
      * split; [|cbn [fr_flag fr_new]; rewrite app_nil_r, OC, knodes_ptr; reflexivity]. unfold find_spec. cbn [fr_flag fr_node fr_new]. split; auto. intros a z e EA HA. rewrite <- EQ in EA.
        destruct (anc_complete _ _ _ TO PA Nq _ _ _ EA HA (MP _ _ _ EA HA)) as (ls' & _ & I2). apply (in_map snd) in I2. rewrite knodes_anc, KA in I2. exact I2.
      * rewrite R. split; [|cbn [fr_flag]; rewrite app_nil_r, OC, knodes_ptr; reflexivity]. unfold find_spec. cbn [fr_flag fr_node]. rewrite <- EQ. split.
        { intros e HA. assert (EA : kpre (kl ++ FD c l i r :: k1) ++ q = (kpre (kl ++ FD c l i r :: k1) ++ q) ++ []) by (rewrite app_nil_r; reflexivity).
          pose proof (MP _ _ _ EA HA) as X. rewrite app_length in X. destruct q; [congruence|cbn in X; lia]. }
        exists (kpre (kl ++ FD c l i r :: k1)), q, (ent i). split; auto. split; auto. split; [|split; [reflexivity|exact MP]].
        rewrite K, plug_app. cbn [plug fold_left]. change (fold_left _ k1 ?u) with (plug k1 u). apply has_here.
  - intros k c l i d r q ch' p1 p' EP HI EQ Nq PA SE VI LN OC LA. cbn [fst snd fr_node]. split; auto. cbn [plug fold_left] in EP. rewrite <- EP in *. split; [right; exists k, c, l, i, d, r; auto|]. split.
    { intro X. pose proof (nz_node _ _ _ _ _ _ _ _ _ HI) as Z. rewrite X in Z. discriminate. }
    intros ->. destruct (full_ancestors k c l i d r q TO PA Nq) as (L2 & AN). exists (rev (knodes k) ++ (removelast (i_labels i ++ ksuf k), ent i) :: L2).
    rewrite <- EQ. split; [exact AN|]. rewrite visit_app, SE. change ((removelast (i_labels i ++ ksuf k), ent i) :: L2) with ([(removelast (i_labels i ++ ksuf k), ent i)] ++ L2). rewrite visit_app, VI.
    split; auto. split; [reflexivity|]. rewrite OC, app_nil_r, map_map. symmetry. apply knodes_ptr.
Qed.
(** the chain left by [find_node] *)
Lemma pop_ok : forall ch (L : list ptr) p, ch_wf ch -> on_chain ch = L ++ [p] -> exists ch', chain_pop ch = Ok (p, ch') /\ on_chain ch' = L /\ length (ch_nodes ch') = MAX_LABEL_COUNT /\ ch_level ch' = length L.
Proof.
  intros ch L0 p [A B] C. rewrite C, app_length in B. cbn [length] in B. unfold chain_pop. rewrite (proj2 (Nat.ltb_lt _ _)) by lia. cbn [assert_r rbind].
  unfold csub. rewrite (proj2 (Nat.leb_le _ _)) by lia. cbn [rbind]. unfold on_chain in C.
  assert (N : nth_error (ch_nodes ch) (ch_level ch - 1) = Some p).
  { rewrite <- (firstn_skipn (ch_level ch) (ch_nodes ch)), C, B. replace (length L0 + 1 - 1) with (length L0) by lia. rewrite <- app_assoc, nth_error_app2, Nat.sub_diag by lia. reflexivity. }
  unfold idx. rewrite N. cbn [rbind]. eexists. split; [reflexivity|]. cbn [on_chain ch_nodes ch_level]. split; [|split; [exact A|lia]]. unfold on_chain. cbn [ch_nodes ch_level].
  rewrite <- (firstn_skipn (ch_level ch) (ch_nodes ch)), C, firstn_app, firstn_app. rewrite B. replace (length L0 + 1 - 1) with (length L0) by lia. rewrite Nat.sub_diag, firstn_all, app_length. cbn [firstn length]. replace (length L0 - (length L0 + 1)) with 0 by lia. cbn [firstn]. rewrite !app_nil_r. reflexivity.
Qed.
Lemma wp_find_chain : forall asc md ls s t n x, wf_labels ls -> (asc = true -> scoped ls) -> safe_md asc md -> inv s [] t n x -> tree_ok asc t ->
  wp (find_node md (name_of ls) chain_new) s (fun a s' => s' = s /\
    (fr_flag (fst a) = NotFound \/ exists k c l i d r ch', t = plug k (T c l i d r) /\ i_ptr i = fr_node (fst a) /\ chain_pop (snd a) = Ok (fr_node (fst a), ch') /\ chain_ok k ch')).
Proof.
  intros asc md ls s t n x W AS SM H TO. unfold find_node. apply wp_bind. unfold find_node_ext. apply wp_fun with (m := fun s => _).
  destruct (tgt_init ls W) as (ts & E1 & TG). apply wp_bind. eapply wp_lift; [exact E1|].
  assert (RT : dt_root s = pt t) by (destruct H as (_ & H & _); exact H). assert (NX : dt_next s = x) by (destruct H as (_ & _ & _ & H); exact H).
  assert (CN : count t <= x).
  { destruct (St_len _ _ _ _ _ H) as [Y|[Y _]]; unfold whole in Y; cbn [kcells app] in Y; [rewrite cells_count in Y; lia|]. destruct t; [cbn; lia|discriminate]. }
  rewrite RT, NX. change fr_new with (kresult (@nil frame)).
  eapply (wp_find_loop asc md ls (qof ls) unit None W AS SM (qof_len ls W) _ s [] t n x ts (full ls)); [lia|exact H|exact TO|exact TG|constructor|reflexivity|apply chain_new_ok|reflexivity|left; reflexivity|reflexivity| | |].
  - intros k c l i d r ch' p' EP HI EQ PA SE LN OC LA. apply wp_ret. cbn [fst snd fr_node fr_flag]. split; auto. right. destruct (pop_ok _ _ _ LN OC) as (ch2 & A1 & A2 & A3 & A4). exists k, c, l, i, d, r, ch2. cbn [plug fold_left] in EP. repeat split; auto.
    rewrite A4, rev_length, map_length. reflexivity.
  - intros k t' q ch' p' EP HI EQ Nq PA M SE LN OC LA. apply wp_ret. cbn [fst snd]. split; auto. cbn [plug fold_left] in EP.
    assert (RS : kresult k = fr_new /\ kanc k = [] \/ exists kl c l i r k1, k = kl ++ FD c l i r :: k1 /\ kresult k = mkFR (i_ptr i) PartialMatch /\ kanc k = i :: kanc k1).
    { clear. induction k as [|f k IH]; [left; auto|]. destruct f as [c i d r|c l i d|c l i r].
      - destruct IH as [[A B]|(kl & c1 & l1 & i1 & r1 & k1 & -> & R & K)]; [left; auto|right]. exists (FL c i d r :: kl), c1, l1, i1, r1, k1. repeat split; auto.
      - destruct IH as [[A B]|(kl & c1 & l1 & i1 & r1 & k1 & -> & R & K)]; [left; auto|right]. exists (FR c l i d :: kl), c1, l1, i1, r1, k1. repeat split; auto.
      - right. exists [], c, l, i, r, k. repeat split; auto. }
    destruct RS as [[R _]|(kl & c & l & i & r & k1 & Ek & R & KA)]; rewrite R; [left; reflexivity|right]. cbn [fr_node].
    rewrite KA in OC. cbn [map rev] in OC. destruct (pop_ok _ _ _ LN OC) as (ch2 & A1 & A2 & A3 & A4). exists k1, c, l, i, (plug kl t'), r, ch2. rewrite <- EP, Ek, plug_app. repeat split; auto.
    rewrite A4, rev_length, map_length. reflexivity.
  - intros k c l i d r q ch' p1 p' EP HI EQ Nq PA SE VI LN OC LA. exfalso. cbn [visit] in VI. destruct (e_cb (ent i)); discriminate.
Qed.
End F.

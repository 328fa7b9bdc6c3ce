(** Cloning a domain tree; which nodes stay allocated. *)
From Coq Require Import Permutation Sorted.
From Verif Require Import Base BaseLemmas NameModel TreeModel SpecName SpecOrd SpecScope OrdBase SpecTree SpecHist NameCmpProofs NameCmpProofs2 TreeProofs PermTac TreeProofs2 TreeProofs3 TreeProofs4
  TreePure TreePure2 TreeProofs5 TreeProofs6 TreeProofs7 TreeProofs8 TreeProofs9 TreeProofs10 TreeProofs11 TreeProofs12 TreeProofs13 TreeProofs14 TreeProofs15.
Open Scope list_scope.
Open Scope nat_scope.

Section A.
Context {V : Type} {SC : scope}.
Notation node := (node V). Notation dtree := (dtree V). Notation info := (info V). Notation tree := (tree V). Notation entry := (entry V).
Notation frame := (@frame V). Notation ctx := (@ctx V).
Implicit Types (s : dtree) (t : tree) (i : info) (k kl kr : ctx) (f : frame).

(** * The top level is one node *)
Lemma top_hd : forall i, name_ok [] i -> hd [] (key i) = [].
Proof. intros i (N & ls & W & EQ). rewrite app_nil_r in EQ. unfold key. rewrite EQ. unfold lc_labels. rewrite map_app, rev_app_distr. reflexivity. Qed.
Lemma top_single : forall t, tree_ok true t -> t = E \/ exists i d, t = T Black E i d E.
Proof.
  intros t H. inversion H as [suf t0 (R & CB & NO & SO) _]; subst. destruct t as [|c l i d r]; [auto|]. right. cbn [col] in CB. subst c.
  destruct (SO eq_refl) as [_ SS]. clear SO. cbn [elems] in NO, SS. rewrite map_app in *. cbn [map fst] in *.
  assert (HI : hd [] (key i) = []). { apply top_hd. rewrite Forall_forall in NO. apply NO. apply in_elt. }
  assert (EL : elems l = []).
  { destruct (elems l) as [|[j dj] L]; auto. exfalso. cbn [map app fst] in *. inversion SS as [|? ? _ F]; subst. rewrite Forall_forall in F. specialize (F i (in_elt _ _ _)). unfold slt in F. inversion NO as [|? ? NJ _]; subst. rewrite HI, (top_hd _ NJ) in F. discriminate. }
  rewrite EL in *. cbn [map app] in *. inversion SS as [|? ? _ F]; subst. inversion NO as [|? ? _ NR]; subst.
  assert (ER : elems r = []).
  { destruct (elems r) as [|[j dj] L]; auto. exfalso. cbn [map fst] in *. inversion F as [|? ? F1 _]; subst. inversion NR as [|? ? NJ _]; subst. unfold slt in F1. rewrite HI, (top_hd _ NJ) in F1. discriminate. }
  exists i, d. destruct l; [|cbn in EL; destruct (elems l1); discriminate]. destruct r; [|cbn in ER; destruct (elems r1); discriminate]. reflexivity.
Qed.

(** * clone *)
Definition solo i (x : ptr) : tree := T Red E (mkI x (i_labels i) (i_value i) false false) E E.
Lemma clone_run : forall s i d n x, inv s [] (T Black E i d E) n x -> 0 < x -> exists s2, clone s = Ok s2 /\ dt_root s2 = x /\ dt_len s2 = n /\ dt_next s2 = S x /\
  St s2 (cells null false (solo i x) ++ cells null true (T Black E i d E)) x n (S x).
Proof.
  intros s i d n x H X0. pose proof H as ((ND & F) & RT & LN & NX). unfold whole in *. cbn [kcells app kpar krt kroot pt] in *. unfold clone. rewrite NX, RT.
  assert (W : @wp V quiet _ (deep_clone (S x) (i_ptr i)) s (fun p s' => p = x /\ St s' (cells null false (solo i x) ++ cells null true (T Black E i d E)) (i_ptr i) n (S x))).
  { cbn [deep_clone]. unfold inv, whole in H. cbn [kcells app kpar krt kroot pt] in H. cbn [cells] in H.
    apply wp_bind. eapply wp_deref with (k := 0); [exact H|reflexivity|].
    apply wp_bind. cbn [nd_name nd_value cell]. eapply wp_new_cell; [exact H|exact X0|]. intros s' i' Ei H'.
    apply wp_bind. eapply wp_get_left with (k := 1); [exact H'|reflexivity|]. change (is_null (pt E)) with true. cbv iota. apply wp_bind. apply wp_ret.
    apply wp_bind. eapply wp_get_right with (k := 1); [exact H'|reflexivity|]. change (is_null (pt E)) with true. cbv iota. apply wp_bind. apply wp_ret.
    apply wp_ret. split; [rewrite Ei; reflexivity|]. unfold solo. cbn [cells app pt]. cbn [i_ptr]. rewrite Ei in H'. exact H'. }
  apply quiet_total in W. destruct W as (p & s' & E0 & -> & HS). rewrite E0. eexists. split; [reflexivity|]. cbn [dt_root dt_len dt_next]. split; [reflexivity|]. split; [exact LN|]. destruct HS as (HH & H1 & H2 & H3). split; [exact H3|].
  split; [|cbn; auto]. destruct HH as [A B]. split; [exact A|]. exact B.
Qed.
Lemma solo_has : forall i x q e, has (solo i x) q e <-> q = key i /\ e = mkEnt x (i_value i) false false.
Proof.
  intros i x q e. split.
  - intros (j & A & <-). apply at_inv in A. destruct A as (i' & d' & [I|[]] & A). inversion I; subst. destruct A as [[-> ->]|(q' & -> & A)]; [auto|]. inversion A; contradiction.
  - intros [-> ->]. exists (mkI x (i_labels i) (i_value i) false false). split; [|reflexivity]. eapply (at_here _ (mkI x (i_labels i) (i_value i) false false)). cbn. auto.
Qed.
Lemma solo_find : forall md (SP : sc_panic -> md = Debug) ls s2 i R x n, wf_labels ls -> scoped ls -> name_ok [] i -> scoped (i_labels i) ->
  St s2 (cells null false (solo i x) ++ R) x n (S x) -> wp (find md (name_of ls)) s2 (fun r s' => s' = s2 /\ find_spec (solo i x) (labels_of ls) r).
Proof.
  intros md SP ls s2 i R x n W AS NO AI H.
  unfold find, find_node, find_node_ext. apply wp_bind. apply wp_bind. apply wp_fun with (m := fun s => _). destruct (tgt_init ls W) as (ts & E1 & TG). apply wp_bind. eapply wp_lift; [exact E1|].
  pose proof H as (_ & RT & _ & NX). rewrite RT, NX. set (i' := mkI x (i_labels i) (i_value i) false false).
  remember (S x) as fu eqn:Efu. change x with (i_ptr i') at 1. cbn [find_loop]. unfold solo in H. cbn [cells app pt] in H. fold i' in H. rewrite (St_nz 0 _ _ _ _ _ _ _ H eq_refl).
  eapply (wp_compare _ true md ls ts (full ls) i' [] s2 _ _ _ _ _ _ _ _ _ _ 0); [exact W|auto|apply safe_true; exact SP|exact TG|exact NO|auto|exact H|reflexivity|].
  intros cr CL OR. cbv zeta. change (key i') with (key i) in CL. change (rev (lc_labels (full ls))) with (labels_of ls) in CL. change (i_ptr i') with x in *.
  assert (HQ : hd [] (labels_of ls) = []) by (unfold labels_of, lc_labels; rewrite map_app, rev_app_distr; reflexivity).
  assert (NK : key i <> []) by (apply key_nonempty; apply NO).
  inversion CL as [EQ R1 C1|N1 N2 N3 R1 C1|x1 N1 EQ R1 C1|y1 N1 EQ R1 C1|s1 x1 y1 u1 v1 N1 EQ EK N2 R1 C1].
  - apply wp_bind. eapply wp_lift; [reflexivity|]. apply wp_ret. apply wp_ret. apply wp_ret. split; auto. unfold find_spec. cbn [fr_flag fr_node]. exists (mkEnt x (i_value i) false false). split; [|reflexivity]. apply solo_has. auto.
  - exfalso. apply N3. rewrite HQ. symmetry. apply top_hd. exact NO.
  - apply wp_bind. eapply wp_is_cb with (k := 0); [exact H|reflexivity|]. apply wp_bind. apply wp_ret. apply wp_bind. eapply wp_lift; [reflexivity|].
    destruct (tgt_strip ls ts (full ls) (key i) x1 TG EQ NK N1) as (ts' & S1 & _). apply wp_bind. eapply wp_lift; [exact S1|]. apply wp_bind. eapply wp_get_down with (k := 0); [exact H|reflexivity|].
    assert (FN : forall (fz : nat) (ch : chain) r, find_loop (V := V) (P := unit) md fz None null r ts' ch tt = ret (r, ch, tt)) by (intros [|fz] ch0 r; reflexivity).
    rewrite FN. apply wp_ret. apply wp_ret. apply wp_ret. split; auto. unfold find_spec. cbn [fr_flag fr_node]. split.
    + intros e HA. apply solo_has in HA. destruct HA as [HA _]. rewrite HA in EQ. apply (f_equal (@length _)) in EQ. rewrite app_length in EQ. destruct x1; [congruence|cbn in EQ; lia].
    + exists (key i), x1, (mkEnt x (i_value i) false false). split; [exact EQ|]. split; [exact N1|]. split; [apply solo_has; auto|]. split; [reflexivity|]. intros a' z' e' _ HA. apply solo_has in HA. destruct HA as [-> _]. lia.
  - apply wp_ret. apply wp_ret. apply wp_ret. split; auto. unfold find_spec. cbn [fr_flag fr_node fr_new]. split; [reflexivity|]. intros a z e EA HA. apply solo_has in HA. destruct HA as [-> _]. rewrite EA, <- app_assoc in EQ. apply (f_equal (@length _)) in EQ. rewrite !app_length in EQ. destruct y1; [congruence|cbn in EQ; lia].
  - apply wp_ret. apply wp_ret. apply wp_ret. split; auto. unfold find_spec. cbn [fr_flag fr_node fr_new]. split; [reflexivity|]. intros a z e EA HA. apply solo_has in HA. destruct HA as [-> _]. rewrite EQ, EK, <- app_assoc in EA. apply app_inv_head in EA. cbn [app] in EA. congruence.
Qed.
Lemma at_top : forall i (d : tree) q j, at_ (T Black E i d E) q j -> exists z, q = key i ++ z.
Proof. intros i d q j A. apply at_inv in A. destruct A as (i' & d' & [I|[]] & A). inversion I; subst. destruct A as [[-> ->]|(q' & -> & A)]; [exists []; rewrite app_nil_r; auto|eauto]. Qed.
Theorem clone_spec : forall md ops, (sc_panic -> md = Debug) -> Forall (op_ok true) ops -> wp (history md ops) tree_new (fun _ s => exists t, shape s t /\
  (t = E -> clone s = Panic) /\
  (t <> E -> exists s2, clone s = Ok s2 /\
     shape (mkDT (dt_heap s2) (dt_next s2) (dt_root s) (dt_len s)) t /\
     forall ls, wf_labels ls -> scoped ls -> wp (lookup md ls) s (fun p s' => s' = s /\ wp (lookup md ls) s2 (fun p2 s2' => s2' = s2 /\
       (fst p = NotFound <-> fst p2 = NotFound) /\ (fst p2 = ExactMatch -> fst p = ExactMatch /\ snd p2 = snd p) /\ (count t = 1 -> p2 = p))))).
Proof.
  intros md ops SP OK. eapply wp_mono; [apply good_ops; auto|]. intros [] s (t & n & x & H & TO & _ & X0).
  exists t. split; [eapply shape_inv; eauto|]. split.
  - intros ->. destruct H as (_ & RT & _ & NX). cbn [kroot pt] in RT. unfold clone. rewrite RT. reflexivity.
  - intros NE. destruct (top_single _ TO) as [->|(i & d & ->)]; [congruence|]. destruct (clone_run _ _ _ _ _ H X0) as (s2 & E0 & RT & LN & NX & HS). exists s2. split; [exact E0|]. split.
    { destruct H as (_ & HR & _). split; [exact HR|]. destruct HS as ((ND & F) & _). rewrite map_app in ND. apply Forall_app in F. split; [eapply nd_l; exact ND|]. apply F. }
    clear RT LN NX. inversion TO as [suf t0 (_ & _ & NO & SO) _]; subst suf t0. destruct (SO eq_refl) as [AI _]. cbn [elems map fst app] in NO, AI. inversion NO as [|? ? NI _]; subst. inversion AI as [|? ? AI1 _]; subst.
    intros ls W AS. eapply wp_mono; [eapply lookup_run; eauto|]. intros [fl v] s' (-> & r & _ & EF & FS & XV). cbn [fst snd] in *. subst fl. split; [reflexivity|].
    assert (GV : get_value x s2 = (Ok (i_value i), s2)).
    { destruct HS as ((_ & F) & _). inversion F as [|? ? [[P1 _] P2] _]; subst. cbn [fst snd i_ptr cell pt] in *. unfold get_value, bind, deref, is_null. rewrite (proj2 (Nat.eqb_neq _ 0)) by lia. rewrite P2. reflexivity. }
    assert (W2 : wp (lookup md ls) s2 (fun p2 s2' => s2' = s2 /\ exists r2, find_spec (solo i x) (labels_of ls) r2 /\ p2 = (fr_flag r2, match fr_flag r2 with NotFound => None | _ => i_value i end))).
    { unfold lookup. apply wp_bind. eapply wp_mono; [eapply (solo_find md SP ls s2 i _ x n W AS NI AI1 HS)|]. intros r2 s' (-> & FS2). pose proof FS2 as F3. unfold fr_value. unfold find_spec in F3. destruct (fr_flag r2) eqn:F2.
      - destruct F3 as (e & HA & EP). apply solo_has in HA. destruct HA as [_ ->]. cbn [e_ptr] in EP. rewrite <- EP. apply wp_bind. eapply wp_ok; [exact GV|]. apply wp_ret. split; auto. exists r2. rewrite F2. auto.
      - apply wp_bind. apply wp_ret. apply wp_ret. split; auto. exists r2. rewrite F2. auto.
      - destruct F3 as (_ & a & z & e & _ & _ & HA & EP & _). apply solo_has in HA. destruct HA as [_ ->]. cbn [e_ptr] in EP. rewrite <- EP. apply wp_bind. eapply wp_ok; [exact GV|]. apply wp_ret. split; auto. exists r2. rewrite F2. auto. }
    eapply wp_mono; [exact W2|]. clear W2. intros p2 s' (-> & r2 & FS2 & ->). cbn [fst snd]. split; [reflexivity|].
    set (t0 := T Black E i d E) in *. assert (HT : has t0 (key i) (ent i)) by (exists i; split; [eapply at_here; cbn; auto|reflexivity]).
    assert (PF : forall a z e, labels_of ls = a ++ z -> has t0 a e -> exists z', labels_of ls = key i ++ z'). { intros a z e EQ (j & A & _). apply at_top in A. destruct A as (z' & ->). rewrite <- app_assoc in EQ. eauto. }
    assert (HX : has (solo i x) (key i) (mkEnt x (i_value i) false false)) by (apply solo_has; auto).
    assert (ENF : fr_flag r = NotFound <-> fr_flag r2 = NotFound).
    { split; intros FN.
      - unfold find_spec in FS. rewrite FN in FS. destruct FS as [_ FS]. unfold find_spec in FS2. destruct (fr_flag r2); auto; exfalso.
        + destruct FS2 as (e & HA & _). apply solo_has in HA. destruct HA as [EQ _]. apply (FS (key i) [] (ent i)); [rewrite app_nil_r; exact EQ|exact HT].
        + destruct FS2 as (_ & a & z & e & EQ & _ & HA & _). apply solo_has in HA. destruct HA as [-> _]. exact (FS _ _ _ EQ HT).
      - unfold find_spec in FS2. rewrite FN in FS2. destruct FS2 as [_ FS2]. unfold find_spec in FS. destruct (fr_flag r); auto; exfalso.
        + destruct FS as (e & HA & _). destruct (PF (labels_of ls) [] e) as (z' & EZ); [rewrite app_nil_r; reflexivity|exact HA|]. exact (FS2 _ _ _ EZ HX).
        + destruct FS as (_ & a & z & e & EQ & _ & HA & _). destruct (PF _ _ _ EQ HA) as (z' & EZ). exact (FS2 _ _ _ EZ HX). }
    assert (EEX : fr_flag r2 = ExactMatch -> fr_flag r = ExactMatch /\ i_value i = v).
    { intros F2. unfold find_spec in FS2. rewrite F2 in FS2. destruct FS2 as (e & HA & _). apply solo_has in HA. destruct HA as [EQ _]. unfold find_spec in FS. destruct (fr_flag r) eqn:FR.
      - split; auto. destruct XV as (q & e' & HA' & _ & -> & EQ'). rewrite (EQ' eq_refl), EQ in HA'. rewrite (has_unique _ _ _ _ TO HA' HT). reflexivity.
      - exfalso. assert (fr_flag r2 = NotFound) by (apply ENF; reflexivity). congruence.
      - exfalso. destruct FS as [N _]. apply (N (ent i)). rewrite EQ. exact HT. }
    split; [exact ENF|]. split; [intros F2; destruct (EEX F2) as [A B]; rewrite F2; auto|].
    intros C1. subst t0. cbn [count] in C1. assert (d = E) by (destruct d; auto; cbn in C1; lia). subst d.
    assert (SH : forall q e, has (T Black E i E E) q e -> q = key i /\ e = ent i).
    { intros q e (j & A & <-). apply at_inv in A. destruct A as (i' & d' & [I|[]] & A). inversion I; subst. destruct A as [[-> ->]|(q' & -> & A)]; [auto|]. inversion A; contradiction. }
    unfold find_spec in FS, FS2. destruct (fr_flag r2) eqn:F2.
    + destruct (EEX eq_refl) as [A B]. rewrite A, B. auto.
    + assert (FN : fr_flag r = NotFound) by (apply ENF; reflexivity). rewrite FN in XV. rewrite FN, XV. auto.
    + destruct (fr_flag r) eqn:FR.
      * exfalso. destruct FS as (e & HA & _). apply SH in HA. destruct HA as [EQ _]. destruct FS2 as [N _]. apply (N (mkEnt x (i_value i) false false)). rewrite EQ. exact HX.
      * exfalso. assert (PartialMatch = NotFound) by (apply ENF; reflexivity). discriminate.
      * destruct XV as (q & e & HA & _ & -> & _). apply SH in HA. destruct HA as [_ ->]. auto.
Qed.

(** * Which nodes are allocated *)
Definition grows s s' : Prop := dt_next s <= dt_next s' /\ forall p, dt_heap s' p = None <-> dt_heap s p = None /\ ~ (dt_next s <= p < dt_next s').
Definition keeps {A} (m : MT V A) : Prop := forall s r s', m s = (r, s') -> grows s s'.
Lemma grows_refl : forall s, grows s s.
Proof. intros s. split; [lia|]. intros p. split; [intros H; split; [exact H|lia]|tauto]. Qed.
Lemma grows_trans : forall s1 s2 s3, grows s1 s2 -> grows s2 s3 -> grows s1 s3.
Proof. intros s1 s2 s3 [A B] [C D]. split; [lia|]. intros p. rewrite D, B. split; [intros [[X Y] Z]; split; [exact X|lia]|intros [X Y]; split; [split; [exact X|]|]; lia]. Qed.
Lemma k_ret : forall A (a : A), keeps (ret a). Proof. intros A a s r s' H. inversion H. apply grows_refl. Qed.
Lemma k_lift : forall A (a : res A), keeps (lift a). Proof. intros A a s r s' H. unfold lift in H. destruct a; inversion H; apply grows_refl. Qed.
Lemma k_bind : forall A B (m : MT V A) (g : A -> MT V B), keeps m -> (forall a, keeps (g a)) -> keeps (bind m g).
Proof. intros A B m g HM HG s r s' H. unfold bind in H. destruct (m s) as [[a| | |] s1] eqn:E0; [|inversion H; subst; eapply HM; eauto..]. eapply grows_trans; [eapply HM; eauto|eapply HG; eauto]. Qed.
Lemma k_fun : forall A (m : dtree -> MT V A), (forall s, keeps (m s)) -> keeps (fun s => m s s).
Proof. intros A m H s r s' E0. eapply H; eauto. Qed.
Lemma k_deref : forall p, keeps (deref p). Proof. intros p s r s' H. unfold deref in H. inversion H. apply grows_refl. Qed.
Lemma k_store : forall p g, keeps (store p g).
Proof.
  intros p g s r s' H. unfold store in H. destruct (dt_heap s p) as [m|] eqn:E0; [|inversion H; apply grows_refl]. destruct (is_null p); inversion H; [subst; apply grows_refl|]. split; [cbn; lia|]. cbn [dt_heap dt_next]. intros q. unfold hset. destruct (Nat.eqb_spec q p) as [->|N].
  - rewrite E0. split; [discriminate|intros [X _]; discriminate].
  - split; [intros X; split; [exact X|lia]|tauto].
Qed.
Lemma k_new : forall nm v, keeps (node_new nm v).
Proof.
  intros nm v s r s' H. unfold node_new in H. inversion H. split; [cbn; lia|]. cbn [dt_heap dt_next]. intros q. unfold hset. destruct (Nat.eqb_spec q (dt_next s)) as [->|N].
  - split; [discriminate|lia].
  - split; [intros X; split; [exact X|lia]|tauto].
Qed.
Lemma k_set_root : forall q, keeps (set_root q). Proof. intros q s r s' H. inversion H. exact (grows_refl _). Qed.
Lemma k_read_root : keeps (read_loc LRoot). Proof. intros s r s' H. inversion H. apply grows_refl. Qed.
Lemma k_add_len : forall n, keeps (add_len n). Proof. intros n s r s' H. inversion H. exact (grows_refl _). Qed.
Ltac kk := repeat first
  [ apply k_ret | apply k_lift | apply k_deref | apply k_store | apply k_new | apply k_set_root | apply k_read_root | apply k_add_len
  | apply k_bind; [|let a := fresh "a" in intros a; try destruct a]
  | match goal with |- keeps (if ?b then _ else _) => destruct b end
  | match goal with |- keeps (match ?b with _ => _ end) => destruct b end
  | progress cbv beta iota zeta
  | assumption
  ].
Ltac ku := unfold get_left, get_right, get_parent, get_down, get_name, get_value, set_left, set_right, set_parent, set_down, set_name, set_value, set_color, is_black, is_red, get_color, set_subtree_root, is_subtree_root, set_callback, set_wildcard, is_callback_enabled in *.
Lemma k_read : forall l, keeps (read_loc l). Proof. intros [|p]; cbn [read_loc]; ku; kk. Qed.
Lemma k_write : forall l q, keeps (write_loc l q). Proof. intros [|p] q; cbn [write_loc]; ku; kk. Qed.
Lemma k_conn : forall l a b c, keeps (connect_child l a b c). Proof. intros. unfold connect_child. ku. kk; apply k_write. Qed.
Lemma k_lrot : forall l p, keeps (left_rotate l p). Proof. intros. unfold left_rotate. ku. kk; apply k_write. Qed.
Lemma k_rrot : forall l p, keeps (right_rotate l p). Proof. intros. unfold right_rotate. ku. kk; apply k_write. Qed.
Lemma k_gp : forall p, keeps (grand_parent p). Proof. intros. unfold grand_parent. ku. kk. Qed.
Lemma k_uncle : forall p, keeps (uncle p). Proof. intros. unfold uncle. apply k_bind; [apply k_gp|intros a]. ku. kk. Qed.
Opaque write_loc read_loc connect_child left_rotate right_rotate grand_parent uncle.
Lemma k_iloop : forall fuel l p, keeps (insert_fixup_loop fuel l p).
Proof.
  induction fuel as [|fuel IH]; intros l p; cbn [insert_fixup_loop]; [apply k_lift|]. apply k_bind; [apply k_read|intros r]. destruct (p =? r); [apply k_ret|].
  apply k_bind; [ku; kk|intros par]. apply k_bind; [ku; kk|intros pb]. destruct pb; [apply k_ret|]. apply k_bind; [apply k_uncle|intros u]. apply k_bind; [apply k_gp|intros g]. ku.
  kk; try apply IH; try apply k_lrot; try apply k_rrot; try apply k_write.
Qed.
Lemma k_ifix : forall l p, keeps (insert_fixup l p).
Proof. intros l p. unfold insert_fixup. apply (k_fun _ (fun s => (insert_fixup_loop (S (dt_next s)) l p;; let! r := read_loc l in set_color r Black))). intros s. apply k_bind; [apply k_iloop|intros _]. apply k_bind; [apply k_read|intros r]. ku. kk. Qed.
Lemma k_split : forall p n, keeps (split_to_parent p n). Proof. intros. unfold split_to_parent. ku. kk. Qed.
Lemma k_fission : forall p n, keeps (node_fission p n).
Proof. intros. unfold node_fission. apply k_bind; [apply k_split|intros u]. ku. kk; apply k_conn. Qed.
Opaque node_fission insert_fixup split_to_parent.
Lemma k_insloop : forall md fuel v par up cur o (t : labelslice), keeps (insert_loop md fuel v par up cur o t).
Proof. induction fuel as [|fuel IH]; intros v par up cur o t; cbn [insert_loop]; ku; kk; try apply IH; try apply k_fission. Qed.
Lemma k_insert : forall md nm v, keeps (insert (V := V) md nm v).
Proof.
  intros md nm v. unfold insert. intros s r s' H. match type of H with (bind ?m ?g) s = _ => assert (K : keeps (bind m g)) end; [|exact (K _ _ _ H)]. clear H. apply k_bind; [apply k_lift|intros ts]. apply k_bind; [apply k_insloop|intros rr]. ku. kk; try apply k_write; try apply k_ifix.
Qed.
Lemma k_findloop : forall P md fuel (cb : option (callback P)) p r (t : labelslice) ch (pa : P), keeps (find_loop (V := V) md fuel cb p r t ch pa).
Proof.
  induction fuel as [|fuel IH]; intros cb p r t ch pa; cbn [find_loop]; ku; kk; try apply IH.
  all: unfold get_absolute_name; kk.
  all: match goal with |- keeps (chain_names _ _ ?td) => generalize 0; generalize td end; intros td; induction td as [|td IHt]; intros j; cbn [chain_names]; ku; kk; apply IHt.
Qed.
Lemma k_find : forall md nm, keeps (find (V := V) md nm).
Proof.
  intros md nm. unfold find, find_node. apply k_bind; [|intros [r c]; apply k_ret]. apply k_bind; [|intros [[r c] u]; apply k_ret]. unfold find_node_ext. apply (k_fun _ (fun s => let! ts := lift (slice_of_name nm) in find_loop md (S (dt_next s)) None (dt_root s) fr_new ts chain_new tt)). intros s. apply k_bind; [apply k_lift|intros ts]. apply k_findloop.
Qed.
Opaque insert find.
Lemma k_op : forall md (o : op V), ~ is_remove o -> ~ is_clear o -> keeps (do_op md o).
Proof.
  intros md o NR NC. destruct o as [ls v|ls|ls|ls|ls v|ls b|ls b|]; cbn [is_remove is_clear do_op] in *; try tauto; unfold on_exact; (apply k_bind; [first [apply k_insert|apply k_find]|intros a]); ku; kk.
Qed.

Transparent write_loc read_loc connect_child left_rotate right_rotate grand_parent uncle node_fission insert_fixup split_to_parent insert find.
(** without removals the allocated nodes are those of the tree *)
Definition exact_heap s t : Prop := (forall p, dt_heap s p <> None <-> In p (ptrs (cells null true t))).
Lemma exact_step : forall asc md (o : op V) s t n x s' t' n' x', ~ is_remove o -> step_rel asc md o s t n x s' t' n' x' -> exact_heap s t -> exact_heap s' t'.
Proof.
  intros asc md o s t n x s' t' n' x' NR (G & G' & RUN & CO & _) EX. pose proof G as (H & TO & CN & X0). pose proof G' as (H' & _).
  assert (IN' : forall p, In p (ptrs (cells null true t')) -> dt_heap s' p <> None).
  { destruct H' as ((_ & F) & _). unfold whole in F. cbn [kcells app kpar krt] in F. intros p I. unfold ptrs in I. apply in_map_iff in I. destruct I as ([q m] & <- & I). rewrite Forall_forall in F. destruct (F _ I) as [_ HH]. cbn [fst snd] in *. congruence. }
  assert (DC : is_clear o \/ ~ is_clear o) by (destruct o; cbn; tauto). destruct DC as [C|NC].
  - destruct o; try contradiction. cbn [do_op] in RUN. destruct (quiet_total _ _ _ _ (@wp_clear V quiet _ _ _ _ _ (good_quiet _ _ _ _ _ G))) as ([] & s1 & E1 & (H1 & _) & A & B). assert (EQ : (Ok tt, s') = (Ok tt, s1)) by congruence. inversion EQ; subst s1.
    assert (t' = E). { destruct H' as (_ & R1 & _). destruct H1 as (_ & R2 & _). cbn [kroot pt] in R1, R2. destruct t' as [|c l i d r]; auto. exfalso. cbn [pt] in R1. destruct G' as (((_ & F) & _) & _). unfold whole in F. cbn [kcells app cells] in F. inversion F as [|? ? [[P1 _] _] _]; subst. cbn [fst] in P1. rewrite R2 in R1. rewrite <- R1 in P1. unfold null in P1. lia. }
    subst t'. intros p. split; [|intros I; destruct I]. intros X. exfalso. destruct (in_dec Nat.eq_dec p (ptrs (cells null true t))) as [I|I]; [rewrite (A p I) in X; congruence|]. rewrite (B p I) in X. apply I. apply EX. exact X.
  - destruct (CO NC) as (C1 & C2 & C3). specialize (C3 NR). destruct (k_op md o NR NC _ _ _ RUN) as [_ GR].
    assert (NX : dt_next s = x) by apply H. assert (NX' : dt_next s' = x') by apply H'. rewrite NX, NX' in GR.
    assert (DOM : forall p, dt_heap s' p <> None <-> In p (ptrs (cells null true t) ++ seq x (x' - x))).
    { intros p. rewrite in_app_iff, in_seq, <- (EX p), GR. replace (x + (x' - x)) with x' by lia. destruct (dt_heap s p); split; intros Y.
      - left. discriminate. - intros [Z _]. discriminate. - right. destruct (Nat.le_gt_cases x p), (Nat.lt_ge_cases p x'); auto; exfalso; apply Y; split; auto; lia.
      - intros [_ Z]. destruct Y as [Y|Y]; [congruence|tauto]. }
    intros p. split; [|apply IN']. intros X. apply DOM in X. revert X. apply (NoDup_length_incl (l := ptrs (cells null true t'))).
    + destruct H' as ((ND & _) & _). exact ND.
    + rewrite app_length, seq_length. unfold ptrs. rewrite !map_length, !cells_count. lia.
    + intros q I. apply DOM. apply IN'. exact I.
Qed.
Theorem drop_frees : forall asc md ops, sound_build asc md -> Forall (op_ok asc) ops -> Forall (fun o => ~ is_remove o) ops ->
  wp (history md ops) tree_new (fun _ s => exists s', clear s = (Ok tt, s') /\ forall p, dt_heap s' p = None).
Proof.
  intros asc md ops SM OK NR. eapply wp_mono; [apply (reached_good asc md (fun _ s t _ _ => exact_heap s t) ops SM OK)|].
  - intros p. cbn. split; [congruence|tauto].
  - intros o pre s t n x s' t' n' x' I EX ST. rewrite Forall_forall in NR. eapply exact_step; eauto.
  - intros [] s (t & n & x & G & EX). destruct (quiet_total _ _ _ _ (@wp_clear V quiet _ _ _ _ _ (good_quiet _ _ _ _ _ G))) as ([] & s' & E1 & _ & A & B). exists s'. split; [exact E1|]. intros p. destruct (in_dec Nat.eq_dec p (ptrs (cells null true t))) as [I|I]; [auto|]. rewrite (B p I). destruct (dt_heap s p) eqn:E2; auto. exfalso. apply I. apply EX. congruence.
Qed.
Theorem drop_reachable : forall asc md ops, sound_build asc md -> Forall (op_ok asc) ops ->
  wp (history md ops) tree_new (fun _ s => exists s' t, shape s t /\ clear s = (Ok tt, s') /\ forall p, dt_heap s' p = if in_dec Nat.eq_dec p (map fst (cells null true t)) then None else dt_heap s p).
Proof.
  intros asc md ops SM OK. eapply wp_mono; [apply (reached_good asc md (fun _ _ _ _ _ => True) ops SM OK I); auto|]. intros [] s (t & n & x & G & _).
  destruct (quiet_total _ _ _ _ (@wp_clear V quiet _ _ _ _ _ (good_quiet _ _ _ _ _ G))) as ([] & s' & E1 & _ & A & B). exists s', t. split; [eapply shape_inv; apply G|]. split; [exact E1|]. intros p. destruct (in_dec Nat.eq_dec p (map fst (cells null true t))) as [I|I]; [apply A; exact I|apply B; exact I].
Qed.
End A.

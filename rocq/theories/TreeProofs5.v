(** [insert]: search, split, link. *)
From Coq Require Import Permutation Sorted.
From Verif Require Import Base BaseLemmas NameModel TreeModel SpecName SpecOrd SpecScope OrdBase SpecTree TreeProofs PermTac TreeProofs2 TreeProofs3 TreeProofs4
  NameWireProofs NameOpsProofs NameOpsProofs2 NameCmpProofs NameCmpProofs2 TreePure TreePure2.
Open Scope list_scope.
Open Scope nat_scope.

(** the remaining target: a slice of the name [ls] from its first label on *)
Definition tgt (ls : list label) (ts : labelslice) (fls : list label) : Prop :=
  slice_rep ts fls /\ sl_first ts = 0 /\ exists m, full ls = fls ++ m.
Lemma tgt_init : forall ls, wf_labels ls -> exists ts, slice_of_name (name_of ls) = Ok ts /\ tgt ls ts (full ls).
Proof. intros ls W. destruct (slice_of_name_rep ls W) as (ts & A & B & C & D). exists ts. split; auto. split; auto. split; auto. exists []. rewrite app_nil_r. reflexivity. Qed.
Lemma tgt_ne : forall ls ts fls, tgt ls ts fls -> fls <> []. Proof. intros ls ts fls ((N & _) & _). exact N. Qed.
Lemma scoped_full : forall {SC : scope} ls, scoped ls -> scoped (full ls).
Proof. intros SC ls H. apply Forall_app. split; [exact H|]. constructor; [exact sc_root|constructor]. Qed.
Lemma tgt_facts : forall {SC : scope} ls ts fls, wf_labels ls -> tgt ls ts fls -> Forall label_ok fls /\ length fls <= 128 /\ (scoped ls -> scoped fls) /\ Forall small fls.
Proof.
  intros SC ls ts fls W (_ & _ & m & H). pose proof (wf_label_ok _ (proj1 W)) as L. rewrite H in L. apply Forall_app in L. split; [apply L|]. split.
  - pose proof (wf_count127 _ W). apply (f_equal (@length _)) in H. rewrite full_len, app_length in H. lia.
  - split; [intro A; apply scoped_full in A; rewrite H in A; apply Forall_app in A; apply A|].
    assert (Sm : Forall small (full ls)).
    { unfold full. apply Forall_app. split; [|constructor; [split; [cbn; lia|constructor]|constructor]]. eapply Forall_impl; [|exact (proj1 W)]. intros x [[_ Lx] B]. split; auto. }
    rewrite H in Sm. apply Forall_app in Sm. apply Sm.
Qed.
Lemma tgt_strip : forall ls ts fls key x, tgt ls ts fls -> rev (lc_labels fls) = key ++ x -> key <> [] -> x <> [] ->
  exists ts', sl_strip_right ts (length key) = Ok ts' /\ tgt ls ts' (firstn (length fls - length key) fls) /\ rev (lc_labels (firstn (length fls - length key) fls)) = x.
Proof.
  intros ls ts fls key x (R & F & m & H) EQ N Nx.
  assert (Le : length fls = length key + length x). { apply (f_equal (@length _)) in EQ. unfold lc_labels in EQ. rewrite rev_length, map_length, app_length in EQ. exact EQ. }
  assert (Lx : 0 < length x) by (destruct x; [congruence|cbn; lia]). assert (Lk : 0 < length key) by (destruct key; [congruence|cbn; lia]).
  destruct (rep_strip_right ts fls (length key) R ltac:(lia)) as (ts' & A & B). exists ts'. split; auto. split; [split; auto; split|].
  - unfold sl_strip_right in A. destruct (assert_r _); try discriminate. cbn [rbind] in A. destruct (csub _ _); try discriminate. cbn [rbind] in A. inversion A. exact F.
  - exists (skipn (length fls - length key) fls ++ m). rewrite app_assoc, firstn_skipn. exact H.
  - assert (X : rev (lc_labels fls) = rev (lc_labels (skipn (length fls - length key) fls)) ++ rev (lc_labels (firstn (length fls - length key) fls))).
    { rewrite <- rev_app_distr. unfold lc_labels. rewrite <- map_app, firstn_skipn. reflexivity. }
    rewrite X in EQ. assert (LL : length (rev (lc_labels (skipn (length fls - length key) fls))) = length key).
    { unfold lc_labels. rewrite rev_length, map_length, skipn_length. lia. }
    revert EQ LL. generalize (rev (lc_labels (skipn (length fls - length key) fls))) as a, (rev (lc_labels (firstn (length fls - length key) fls))) as b. clear.
    intros a b. revert key. induction a as [|y a IH]; intros [|z key] EQ LL; try discriminate; auto. cbn in EQ. injection EQ as _ EQ. eapply IH; eauto.
Qed.
Lemma tgt_seq : forall ls ts fls, wf_labels ls -> tgt ls ts fls -> into_label_sequence (name_of ls) (sl_first ts) (sl_last ts) = Ok (seqf fls).
Proof.
  intros ls ts fls W ((N & pre & post & opre & opost & D & O & F & L & B) & F0 & m & H). rewrite into_label_sequence_spec by exact W. rewrite F0 in *.
  assert (Lo : length opre = 0) by lia. assert (Ln : 0 < length fls) by (destruct fls; [congruence|cbn; lia]).
  assert (LT : length fls + length m = length ls + 1) by (apply (f_equal (@length _)) in H; rewrite full_len, app_length in H; lia).
  rewrite (proj2 (Nat.leb_le _ _)) by lia. rewrite (proj2 (Nat.leb_le _ _)) by lia. cbn [andb]. replace (sl_last ts - 0 + 1) with (length fls) by lia. cbn [skipn]. rewrite H, firstn_app, firstn_all, Nat.sub_diag. cbn [firstn]. rewrite app_nil_r. reflexivity.
Qed.
Section I.
Context {V : Type} {SC : scope}.
Notation node := (node V). Notation dtree := (dtree V). Notation info := (info V). Notation tree := (tree V).
Notation frame := (@frame V). Notation ctx := (@ctx V).
Implicit Types (s : dtree) (t : tree) (i : info) (p : ptr) (L R : list (ptr * node)) (k kl : ctx) (f : frame).

Lemma name_ok_facts : forall suf i, name_ok suf i -> Forall label_ok (i_labels i) /\ length (i_labels i) <= 128 /\ i_labels i <> [] /\ elen (i_labels i) <= 255.
Proof.
  intros suf i (N & ls & W & H). pose proof (wf_label_ok _ (proj1 W)) as L. unfold full in L. rewrite <- H in L. apply Forall_app in L. split; [apply L|].
  pose proof (wf_count127 _ W). pose proof (wf_elen _ W) as WE. pose proof (elen_full ls) as EF. unfold full in EF. rewrite <- H, elen_app in EF.
  apply (f_equal (@length _)) in H. rewrite !app_length in H. cbn [length] in H. repeat split; auto; lia.
Qed.
Lemma name_ok_small : forall suf i, name_ok suf i -> Forall small (i_labels i).
Proof.
  intros suf i (N & ls & W & H). assert (Sm : Forall small (ls ++ [[]])).
  { apply Forall_app. split; [|constructor; [split; [cbn; lia|constructor]|constructor]]. eapply Forall_impl; [|exact (proj1 W)]. intros x [[_ Lx] B]. split; auto. }
  rewrite <- H in Sm. apply Forall_app in Sm. apply Sm.
Qed.
(** the comparison at a node *)
Definition safe_md (asc : bool) (md : mode) := (asc = false -> md = Release) /\ (asc = true -> sc_panic -> md = Debug).
Lemma wp_compare_ord : forall A asc md ls ts fls i suf s L root n x c rt lp rp pp dp j (K : cmp_result -> MT V A) Q,
  wf_labels ls -> (asc = true -> scoped ls) -> safe_md asc md -> tgt ls ts fls -> name_ok suf i -> (asc = true -> scoped (i_labels i)) ->
  St s L root n x -> nth_error L j = Some (i_ptr i, cell c rt i lp rp pp dp) ->
  (forall cr, cls (rev (lc_labels fls)) (key i) (cr_relation cr) (N.to_nat (cr_common cr)) ->
     (cr_relation cr = NoRelation -> asc = true -> (cr_order cr ?= 0)%Z = slex (hd [] (rev (lc_labels fls))) (hd [] (key i))) ->
     (asc = true -> (cr_order cr ?= 0)%Z = olex (rev (lc_labels fls)) (key i)) -> wp (K cr) s Q) ->
  wp (let! nm := get_name (i_ptr i) in let! cs := lift (slice_of_seq nm) in let! cr := lift (sl_compare md false ts cs) in K cr) s Q.
Proof.
  intros A asc md ls ts fls i suf s L root n x c rt lp rp pp dp j K Q W AS [SM1 SM2] TG NO AI H HN HK.
  destruct (tgt_facts _ _ _ W TG) as (F1 & F2 & F3 & F4). destruct (name_ok_facts _ _ NO) as (I1 & I2 & I3 & I4). pose proof (name_ok_small _ _ NO) as I5.
  apply wp_bind. eapply wp_get_name; [exact H|exact HN|]. apply wp_bind. destruct (slice_of_seqf _ I3 I4) as (cs & E1 & R1). eapply wp_lift; [exact E1|]. apply wp_bind.
  pose proof (sl_compare_pcmp Debug ts cs fls (i_labels i) (proj1 TG) R1) as PD. pose proof (sl_compare_pcmp Release ts cs fls (i_labels i) (proj1 TG) R1) as PR. fold (key i) in PD, PR.
  rewrite (pcmp_debug _ _ _ _ (small_lc _ F4) (small_lc _ I5)) in PD. fold (key i) in PD. rewrite <- PR in PD.
  assert (OV : asc = true -> forall p : N * N, clash_labels (rev (lc_labels fls)) (key i) = Some p -> overflows p = true -> sc_panic).
  { intros AT p C O. destruct (clash_labels_in _ _ _ C) as (u & v & Iu & Iv & Cuv). unfold key in Iv. rewrite <- in_rev in Iu, Iv. unfold lc_labels in Iu, Iv. apply in_map_iff in Iu, Iv.
    destruct Iu as (u0 & <- & Iu). destruct Iv as (v0 & <- & Iv). specialize (F3 (AS AT)). specialize (AI AT). unfold scoped in F3, AI. rewrite Forall_forall in F3, AI. exact (sc_ok u0 v0 p (F3 _ Iu) (AI _ Iv) Cuv O). }
  destruct (sl_compare_spec Release false ts cs fls (i_labels i) (proj1 TG) R1 F1 I1) as (cr & E2 & C1 & C2 & _); auto; [left; reflexivity|].
  assert (Nq : rev (lc_labels fls) <> []). { intro X. apply (tgt_ne _ _ _ TG). apply (f_equal (@length _)) in X. unfold lc_labels in X. rewrite rev_length, map_length in X. destruct fls; [reflexivity|discriminate]. }
  pose proof (key_nonempty _ I3) as Nk. pose proof (cls_spec _ _ Nq Nk) as CL. change (nrmls false) with lc_labels in *. fold (key i) in *.
  assert (ovd : (exists p : N * N, clash_labels (rev (lc_labels fls)) (key i) = Some p /\ overflows p = true) \/ (forall p : N * N, clash_labels (rev (lc_labels fls)) (key i) = Some p -> overflows p = false)).
  { destruct (clash_labels (rev (lc_labels fls)) (key i)) as [p|]; [|right; discriminate]. destruct (overflows p) eqn:O; [left; eauto|right; intros p0 E0; inversion E0; subst; exact O]. }
  assert (RUN : forall md', md' = Release \/ (forall p : N * N, clash_labels (rev (lc_labels fls)) (key i) = Some p -> overflows p = false) -> sl_compare md' false ts cs = Ok cr).
  { intros [|] [X|X]; try exact E2; [discriminate|]. rewrite PD. destruct (clash_labels (rev (lc_labels fls)) (key i)) as [p|]; [rewrite (X _ eq_refl)|]; exact E2. }
  assert (CLS : cls (rev (lc_labels fls)) (key i) (cr_relation cr) (N.to_nat (cr_common cr))).
  { rewrite C2, C1, Nat2N.id. replace (length fls) with (length (rev (lc_labels fls))) by (unfold lc_labels; rewrite rev_length, map_length; reflexivity). rewrite <- (key_length i). exact CL. }
  assert (OLEX : (forall p : N * N, clash_labels (rev (lc_labels fls)) (key i) = Some p -> overflows p = false) -> (cr_order cr ?= 0)%Z = olex (rev (lc_labels fls)) (key i)).
  { intros NOV. pose proof (small_lc _ F4) as Sq. pose proof (small_lc _ I5) as Sk. fold (key i) in Sk. unfold olex. rewrite slabels by assumption.
    assert (LQ : length (rev (lc_labels fls)) = length fls) by (unfold lc_labels; rewrite rev_length, map_length; reflexivity).
    assert (0 < length fls) by (rewrite <- LQ; destruct (rev (lc_labels fls)); [congruence|cbn; lia]). assert (0 < length (i_labels i)) by (rewrite <- key_length; destruct (key i); [congruence|cbn; lia]).
    pose proof (pcmp_exact Release _ _ 0 (Z.of_nat (length fls) - Z.of_nat (length (i_labels i)))%Z Sq Sk ltac:(rewrite LQ, key_length; reflexivity) ltac:(lia)) as PE.
    rewrite <- PR, E2 in PE. destruct (clash_labels (rev (lc_labels fls)) (key i)) as [[u v]|].
    - rewrite (NOV _ eq_refl) in PE. cbn [andb] in PE. destruct PE as (r & X & _ & Y). inversion X; subst. exact Y.
    - destruct PE as (r & X & Y). inversion X; subst. exact Y. }
  destruct asc.
  - destruct ovd as [(p & C & O)|NOV].
    + pose proof (OV eq_refl p C O) as SP. specialize (SM2 eq_refl SP). subst md. apply (wp_panic _ _ _ _ s SP). unfold lift. rewrite PD, C, O. reflexivity.
    + eapply wp_lift; [apply RUN; right; exact NOV|]. apply HK; [exact CLS| |intros _; exact (OLEX NOV)]. intros RN _. rewrite RN in CLS. inversion CLS as [|Nq' Nk' Nh| | |].
      pose proof (small_lc _ F4) as Sq. pose proof (small_lc _ I5) as Sk. fold (key i) in Sk. revert PR E2 NOV Nh Sq Sk. destruct (rev (lc_labels fls)) as [|u q]; [congruence|]. destruct (key i) as [|v k]; [congruence|]. cbn [hd]. intros PR E2 NOV Nh Sq Sk.
      inversion Sq; inversion Sk; subst. destruct (pcmp_hd Release u v q k 0 (Z.of_nat (length fls) - Z.of_nat (length (i_labels i)))%Z) as [X|[X|(r & X & Y)]]; auto.
      * rewrite <- PR, E2 in X. discriminate.
      * destruct (clash_octets u v) as [p|] eqn:C; [|contradiction]. rewrite (NOV p (clash_labels_hd _ _ _ _ _ C)) in X. discriminate.
      * rewrite <- PR, E2 in X. inversion X; subst. exact Y.
  - rewrite (SM1 eq_refl). eapply wp_lift; [exact E2|]. apply HK; [exact CLS| |]; discriminate.
Qed.
Lemma wp_compare : forall A asc md ls ts fls i suf s L root n x c rt lp rp pp dp j (K : cmp_result -> MT V A) Q,
  wf_labels ls -> (asc = true -> scoped ls) -> safe_md asc md -> tgt ls ts fls -> name_ok suf i -> (asc = true -> scoped (i_labels i)) ->
  St s L root n x -> nth_error L j = Some (i_ptr i, cell c rt i lp rp pp dp) ->
  (forall cr, cls (rev (lc_labels fls)) (key i) (cr_relation cr) (N.to_nat (cr_common cr)) ->
     (cr_relation cr = NoRelation -> asc = true -> (cr_order cr ?= 0)%Z = slex (hd [] (rev (lc_labels fls))) (hd [] (key i))) -> wp (K cr) s Q) ->
  wp (let! nm := get_name (i_ptr i) in let! cs := lift (slice_of_seq nm) in let! cr := lift (sl_compare md false ts cs) in K cr) s Q.
Proof.
  intros A asc md ls ts fls i suf s L root n x c rt lp rp pp dp j K Q W AS SM TG NO AI H HN HK.
  eapply wp_compare_ord; eauto.
Qed.
End I.

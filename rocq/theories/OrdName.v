(** The order of names and label sequences, for all octets; on label sets without overflow it is a total order. *)
From Verif Require Import Base BaseLemmas NameModel RenderModel SpecName SpecOrd SpecScope
  NameWireProofs NameOpsProofs NameOpsProofs2 NameCmpProofs NameCmpProofs2 OrdBase.
Open Scope list_scope.
Open Scope nat_scope.

(** Label sequences with or without the root label. *)
Lemma shape_small : forall fls, seq_shape fls -> Forall small fls.
Proof.
  assert (A : forall l, Forall wf_label l -> Forall small l) by (intros l H; eapply Forall_impl; [|exact H]; intros x [[_ L] B]; split; auto).
  intros fls [_ [F|(ls & F & ->)]]; [apply A; exact F|]. apply Forall_app. split; [apply A; exact F|]. constructor; [|constructor]. split; [cbn; lia|constructor].
Qed.
Lemma labels_elen : forall l, Forall wf_label l -> 2 * length l <= elen l.
Proof. induction 1 as [|x l W F IH]; cbn; [lia|]. unfold elen, body in *. cbn [flat_map length app enc_label]. rewrite app_length. destruct W. cbn [length]. lia. Qed.
Lemma shape_count : forall fls, seq_shape fls -> length fls <= 128.
Proof.
  intros fls [L [F|(ls & F & ->)]]; rewrite body_len in L.
  - pose proof (labels_elen _ F). lia.
  - rewrite elen_app in L. pose proof (labels_elen _ F). rewrite app_length. cbn [length]. assert (elen [[]] = 1) by reflexivity. lia.
Qed.
Theorem seq_cmp_exact : forall md fa fb, seq_shape fa -> seq_shape fb -> fa <> [] -> fb <> [] -> seq_cmp md (seqf fa) (seqf fb) = signed_order md fa fb.
Proof.
  intros md fa fb Sa Sb Na Nb. unfold seq_cmp.
  destruct (slice_of_seqf fa Na (proj1 Sa)) as (ca & Ea & Ra). destruct (slice_of_seqf fb Nb (proj1 Sb)) as (cb & Eb & Rb). rewrite Ea, Eb. cbn [rbind].
  rewrite (sl_compare_pcmp md ca cb fa fb Ra Rb). unfold signed_order, clash, canonical_cmp.
  pose proof (shape_count _ Sa). pose proof (shape_count _ Sb). assert (0 < length fa) by (destruct fa; [congruence|cbn; lia]). assert (0 < length fb) by (destruct fb; [congruence|cbn; lia]).
  assert (T : forall z, (if (z <? 0)%Z then Lt else if (0 <? z)%Z then Gt else Eq) = (z ?= 0)%Z).
  { intros z. destruct (Z.ltb_spec z 0), (Z.ltb_spec 0 z); symmetry; [lia|apply Z.compare_lt_iff; lia|apply Z.compare_gt_iff; lia|apply Z.compare_eq_iff; lia]. }
  pose proof (pcmp_exact md (rev (lc_labels fa)) (rev (lc_labels fb)) 0 (Z.of_nat (length fa) - Z.of_nat (length fb))%Z (small_lc _ (shape_small _ Sa)) (small_lc _ (shape_small _ Sb))
    ltac:(rewrite !rev_length; unfold lc_labels; rewrite !map_length; reflexivity) ltac:(lia)) as P.
  destruct (clash_labels _ _) as [[x y]|].
  - destruct (overflows (x, y)); cbn [andb] in P.
    + destruct md; [rewrite P; reflexivity|]. destruct P as (r & -> & _ & P). cbn [rbind]. rewrite T, P. reflexivity.
    + destruct P as (r & -> & _ & P). cbn [rbind]. rewrite T, P. reflexivity.
  - destruct P as (r & -> & P). cbn [rbind]. rewrite T, P. reflexivity.
Qed.
Lemma full_shape : forall ls, wf_labels ls -> seq_shape (full ls).
Proof. intros ls [F L]. split; [rewrite body_full; exact L|]. right. exists ls. split; [exact F|reflexivity]. Qed.
Lemma full_clash : forall a b, clash (full a) (full b) = clash a b.
Proof. intros. unfold clash, full, lc_labels. rewrite !map_app, !rev_app_distr. reflexivity. Qed.
Lemma full_canonical : forall a b, canonical_cmp (full a) (full b) = canonical_cmp a b.
Proof. intros. unfold canonical_cmp, full, lc_labels. rewrite !map_app, !rev_app_distr. reflexivity. Qed.
Theorem name_cmp_exact : forall md a b, wf_labels a -> wf_labels b -> name_cmp md (name_of a) (name_of b) = signed_order md a b.
Proof.
  intros md a b Wa Wb. assert (E : name_cmp md (name_of a) (name_of b) = seq_cmp md (seqf (full a)) (seqf (full b))).
  { unfold name_cmp, get_relation, seq_cmp, slice_of_name, slice_of_seq, label_count. rewrite !name_of_full. unfold seqf. cbn [n_raw n_offsets ls_data ls_offsets].
    destruct (csub _ 1) as [i| | |]; cbn [rbind]; auto. destruct (csub _ 1) as [j| | |]; cbn [rbind]; auto. destruct (sl_compare _ _ _ _) as [r| | |]; cbn [rbind]; auto. f_equal.
    destruct (Z.ltb_spec (cr_order r) 0), (Z.ltb_spec 0 (cr_order r)); [lia|apply Z.compare_lt_iff; lia|apply Z.compare_gt_iff; lia|apply Z.compare_eq_iff; lia]. }
  rewrite E, seq_cmp_exact by (first [apply full_shape; assumption|unfold full; destruct a; discriminate|unfold full; destruct b; discriminate]).
  unfold signed_order. rewrite full_clash, full_canonical. reflexivity.
Qed.
Theorem get_relation_debug : forall a b, wf_labels a -> wf_labels b ->
  get_relation Debug (name_of a) (name_of b) = match clash a b with Some p => if overflows p then Panic else get_relation Release (name_of a) (name_of b) | None => get_relation Release (name_of a) (name_of b) end.
Proof.
  intros a b Wa Wb. unfold get_relation. destruct (slice_of_name_rep a Wa) as (sa & Ea & Ra & _). destruct (slice_of_name_rep b Wb) as (sb & Eb & Rb & _). rewrite Ea, Eb. cbn [rbind].
  rewrite !(sl_compare_pcmp _ sa sb (full a) (full b) Ra Rb). rewrite <- full_clash. unfold clash.
  apply pcmp_debug; apply small_lc, shape_small, full_shape; assumption.
Qed.
(** * Equal in the order means equal, for all octets *)
Lemma clash_octets_self : forall x, clash_octets x x = None.
Proof. induction x as [|c x IH]; cbn; auto. rewrite N.eqb_refl. exact IH. Qed.
Lemma clash_labels_self : forall a, clash_labels a a = None.
Proof. induction a as [|x a IH]; cbn; auto. rewrite clash_octets_self, Nat.eqb_refl. exact IH. Qed.
Lemma clash_labels_bytes : forall a b x y, Forall small a -> Forall small b -> clash_labels a b = Some (x, y) -> byte x /\ byte y /\ x <> y.
Proof.
  induction a as [|l a IH]; intros [|m b] x y Fa Fb H; try discriminate. inversion Fa as [|? ? [L B] Fa']; subst. inversion Fb as [|? ? [L' B'] Fb']; subst. cbn in H.
  destruct (clash_octets l m) as [[u v]|] eqn:C; [inversion H; subst; exact (clash_bytes _ _ _ _ B B' C)|]. destruct (_ =? _); [eapply IH; eauto|discriminate].
Qed.
Lemma signed_order_eq : forall md fa fb, Forall small fa -> Forall small fb -> (signed_order md fa fb = Ok Eq <-> same_name fa fb).
Proof.
  intros md fa fb Ma Mb. unfold signed_order. split; intros H.
  - destruct (clash fa fb) as [[x y]|] eqn:C; [|inversion H as [H1]; apply canonical_eq; exact H1].
    destruct (clash_labels_bytes _ _ _ _ (small_lc _ Ma) (small_lc _ Mb) C) as (Bx & By & Ne). assert (Nz : (signed x ?= signed y)%Z <> Eq) by (intros Z0; apply Z.compare_eq_iff in Z0; apply Ne, signed_inj; auto).
    exfalso. destruct (overflows (x, y)); [destruct md; [discriminate|]|]; inversion H as [H1]; [destruct (signed x ?= signed y)%Z; cbn in H1; congruence|congruence].
  - unfold clash. rewrite H, clash_labels_self. rewrite (proj2 (canonical_eq fa fb) H). reflexivity.
Qed.

(** * Label sets without overflow *)
Lemma okeys_inj : forall a b, map okey a = map okey b -> a = b.
Proof. induction a as [|x a IH]; intros [|y b] H; try discriminate; auto. cbn [map] in H. inversion H as [[H1 H2]]. apply okey_inj in H1. subst. f_equal. auto. Qed.
Lemma okeyss_inj : forall a b, map (map okey) a = map (map okey) b -> a = b.
Proof. induction a as [|x a IH]; intros [|y b] H; try discriminate; auto. cbn [map] in H. inversion H as [[H1 H2]]. apply okeys_inj in H1. subst. f_equal. auto. Qed.
Lemma clash_in : forall (P : label -> Prop) a b p, Forall P a -> Forall P b -> clash_labels a b = Some p -> exists x y, P x /\ P y /\ clash_octets x y = Some p.
Proof.
  intros P a. induction a as [|x a IH]; intros [|y b] p Fa Fb H; try discriminate. inversion Fa; inversion Fb; subst. cbn [clash_labels] in H. destruct (clash_octets x y) as [q|] eqn:C.
  - inversion H; subst. exists x, y. auto.
  - destruct (_ =? _); [eapply IH; eauto|discriminate].
Qed.
Lemma order_calm : forall md a b, Forall small a -> Forall small b -> (forall x y p, In x a -> In y b -> clash_octets (lc_label x) (lc_label y) = Some p -> overflows p = false) ->
  signed_order md a b = Ok (signed_cmp a b).
Proof.
  intros md a b Sa Sb NO. unfold signed_order, signed_cmp, clash, canonical_cmp. rewrite slabels by (apply small_lc; assumption). destruct (clash_labels _ _) as [[x y]|] eqn:C; [|reflexivity].
  assert (O : overflows (x, y) = false); [|rewrite O; reflexivity].
  assert (X : forall (P Q : label -> Prop) u v p, Forall P u -> Forall Q v -> clash_labels u v = Some p -> exists x y, P x /\ Q y /\ clash_octets x y = Some p).
  { clear. intros P Q u. induction u as [|x u IH]; intros [|y v] p Fa Fb H; try discriminate. inversion Fa; inversion Fb; subst. cbn [clash_labels] in H. destruct (clash_octets x y) as [q|] eqn:C.
    - inversion H; subst. exists x, y. auto.
    - destruct (_ =? _); [eapply IH; eauto|discriminate]. }
  assert (R : forall l, Forall (fun z => exists w, In w l /\ z = lc_label w) (rev (lc_labels l))).
  { intros l. apply Forall_rev. unfold lc_labels. apply Forall_map. apply Forall_forall. intros w I. eauto. }
  destruct (X _ _ _ _ _ (R a) (R b) C) as (u & v & (u' & Iu & ->) & (v' & Iv & ->) & C'). eauto.
Qed.
Theorem name_cmp_calm : forall md L a b, no_overflow L -> wf_labels a -> wf_labels b -> Forall L a -> Forall L b -> name_cmp md (name_of a) (name_of b) = Ok (signed_cmp a b).
Proof.
  intros md L a b NO Wa Wb Fa Fb. rewrite name_cmp_exact by assumption. pose proof (shape_small _ (full_shape a Wa)) as Sa. pose proof (shape_small _ (full_shape b Wb)) as Sb. apply Forall_app in Sa. apply Forall_app in Sb.
  apply order_calm; [apply Sa|apply Sb|]. intros x y p Ix Iy C. rewrite Forall_forall in Fa, Fb. eapply NO; [apply Fa; exact Ix|apply Fb; exact Iy|exact C].
Qed.
Theorem seq_cmp_calm : forall md L a b, no_overflow L -> seq_shape a -> seq_shape b -> a <> [] -> b <> [] -> Forall (fun x => L x \/ x = []) a -> Forall (fun x => L x \/ x = []) b -> seq_cmp md (seqf a) (seqf b) = Ok (signed_cmp a b).
Proof.
  intros md L a b NO Wa Wb Na Nb Fa Fb. rewrite seq_cmp_exact by assumption. apply order_calm; [apply shape_small; exact Wa|apply shape_small; exact Wb|]. intros x y p Ix Iy C. rewrite Forall_forall in Fa, Fb.
  destruct (Fa x Ix) as [Lx| ->]; [|discriminate]. destruct (Fb y Iy) as [Ly| ->]; [exact (NO x y p Lx Ly C)|]. destruct x; discriminate C.
Qed.
Theorem signed_cmp_total : (forall a b, signed_cmp a b = Eq <-> same_name a b) /\ (forall a b, signed_cmp b a = CompOpp (signed_cmp a b)) /\
  (forall a b c, signed_cmp a b = Lt -> signed_cmp b c = Lt -> signed_cmp a c = Lt).
Proof.
  split; [|split].
  - intros a b. unfold signed_cmp, same_name. split; intros H.
    + apply lex_labels_eq, okeyss_inj in H. apply (f_equal (@rev _)) in H. rewrite !rev_involutive in H. exact H.
    + rewrite H. apply lex_labels_refl.
  - intros a b. apply lex_labels_opp.
  - intros a b c. apply lex_labels_trans.
Qed.
(** A debug build never answers wrongly. *)
Theorem name_cmp_debug : forall a b, wf_labels a -> wf_labels b -> name_cmp Debug (name_of a) (name_of b) = Panic \/ name_cmp Debug (name_of a) (name_of b) = Ok (signed_cmp a b).
Proof.
  intros a b Wa Wb. rewrite name_cmp_exact by assumption. pose proof (shape_small _ (full_shape a Wa)) as Sa. pose proof (shape_small _ (full_shape b Wb)) as Sb. apply Forall_app in Sa. apply Forall_app in Sb.
  unfold signed_order, signed_cmp, clash, canonical_cmp. rewrite slabels by (apply small_lc; first [apply Sa|apply Sb]). destruct (clash_labels _ _) as [[x y]|]; [|right; reflexivity].
  destruct (overflows (x, y)); [left|right]; reflexivity.
Qed.
Lemma calm_clash : forall L a b p, no_overflow L -> Forall L a -> Forall L b -> clash a b = Some p -> overflows p = false.
Proof.
  intros L a b p NO Fa Fb C. unfold clash in C. assert (R : forall l, Forall L l -> Forall (fun z => exists w, L w /\ z = lc_label w) (rev (lc_labels l))).
  { intros l F. apply Forall_rev. unfold lc_labels. apply Forall_map. eapply Forall_impl; [|exact F]. intros w I. eauto. }
  destruct (clash_in _ _ _ _ (R a Fa) (R b Fb) C) as (u & v & (u' & Iu & ->) & (v' & Iv & ->) & C'). exact (NO _ _ _ Iu Iv C').
Qed.
Theorem get_relation_calm : forall md L a b, no_overflow L -> wf_labels a -> wf_labels b -> Forall L a -> Forall L b -> get_relation md (name_of a) (name_of b) = get_relation Release (name_of a) (name_of b).
Proof.
  intros md L a b NO Wa Wb Fa Fb. destruct md; [|reflexivity]. rewrite get_relation_debug by assumption. destruct (clash a b) as [p|] eqn:C; [|reflexivity]. rewrite (calm_clash L a b p NO Fa Fb C). reflexivity.
Qed.

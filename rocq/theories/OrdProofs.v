(** [Eq] and [Ord] of Name (any octets), LabelSequence, RRType and RData. *)
From Verif Require Import Base BaseLemmas NameModel RenderModel CodesModel RDataModel MsgModel EqModel SpecName SpecBuf SpecCodes SpecMsg SpecScope SpecEq SpecOrd
  NameWireProofs NameOpsProofs NameOpsProofs2 NameCmpProofs NameCmpProofs2 CodesProofs EqProofs OrdBase OrdName TreeProofs5 FitProofs.
Open Scope list_scope.
Open Scope nat_scope.

(** * Equality of sequences *)
Lemma body_inj : forall a b, body a = body b -> a = b.
Proof. intros a b H. apply enc_inj_any. unfold enc. rewrite H. reflexivity. Qed.
Lemma list_eqb_eq : forall a b, list_eqb a b = true <-> a = b.
Proof. exact octets_eqb_eq. Qed.
Lemma eq_case_iff : forall a b, eq_ignore_ascii_case a b = true <-> map lc a = map lc b.
Proof.
  induction a as [|x a IH]; intros [|y b]; cbn; try (split; congruence). rewrite andb_true_iff, N.eqb_eq, IH. change lower_case with lc. split; [intros [-> ->]; reflexivity|intros H; inversion H; auto].
Qed.
Lemma small_lc_body : forall ls, Forall small ls -> map lc (body ls) = body (lc_labels ls).
Proof.
  induction 1 as [|x l [L B] F IH]; auto. cbn [lc_labels map]. unfold body in *. cbn [flat_map]. rewrite map_app, IH. f_equal.
  unfold enc_label. cbn [map]. unfold lc_label, blen. rewrite map_length. f_equal. apply lc_small. lia.
Qed.
Theorem seq_equals_spec : forall fa fb, seq_shape fa -> seq_shape fb ->
  (seq_equals (seqf fa) (seqf fb) true = true <-> fa = fb) /\ (seq_equals (seqf fa) (seqf fb) false = true <-> same_name fa fb).
Proof.
  intros fa fb Sa Sb. pose proof (shape_small _ Sa) as Ma. pose proof (shape_small _ Sb) as Mb. unfold seq_equals, seqf. cbn [ls_data]. destruct (Nat.eqb_spec (length (body fa)) (length (body fb))) as [E|E]; cbn [negb].
  - rewrite list_eqb_eq, eq_case_iff, !small_lc_body by assumption. split; (split; intros H; [apply body_inj in H; exact H|unfold same_name in *; rewrite H; reflexivity]).
  - split; (split; [discriminate|]); intros H; exfalso; apply E.
    + subst. reflexivity.
    + unfold same_name in H. pose proof (small_lc_body _ Ma) as Qa. pose proof (small_lc_body _ Mb) as Qb. rewrite H in Qa. apply (f_equal (@length N)) in Qa, Qb. rewrite map_length in Qa, Qb. lia.
Qed.
(** * RData *)
Lemma data_of_inj : forall t u v, data_of t = Some v -> data_of u = Some v -> t = u.
Proof. intros t u v Ht Hu. rewrite <- Ht in Hu. destruct t; try discriminate Ht; destruct u; try discriminate Hu; reflexivity. Qed.
Lemma variant_inj : forall a b, variant_index a = variant_index b -> a = b.
Proof. intros a b H. destruct a; destruct b; try reflexivity; discriminate H. Qed.
Lemma rdata_types : forall t u a b, wf_rdata t a -> wf_rdata u b -> rd_var a = rd_var b -> t = u.
Proof. intros t u a b (Ha & _) (Hb & _) E. rewrite E in Ha. eapply data_of_inj; eauto. Qed.
Theorem rdata_eq_any : forall t u a b, wf_rdata t a -> wf_rdata u b -> exists e, rdata_eq a b = Ok e /\ (e = true <-> lower_rdata a = lower_rdata b).
Proof.
  intros t u a b A B. destruct (N.eq_dec (variant_index (rd_var a)) (variant_index (rd_var b))) as [E|E].
  - apply variant_inj in E. pose proof (rdata_types _ _ _ _ A B E). subst u. eapply rdata_eq_spec; eauto.
  - exists false. unfold rdata_eq. destruct (N.eqb_spec (variant_index (rd_var a)) (variant_index (rd_var b))); [congruence|]. split; [reflexivity|]. split; [discriminate|].
    intros H. exfalso. apply E. apply (f_equal rd_var) in H. cbn in H. rewrite H. reflexivity.
Qed.
Definition vkey (a : rdata) : list (list (list N)) := [[variant_index (rd_var a)]] :: rkey a.
Lemma rdata_cmp_any : forall L md t u a b, no_overflow L -> wf_rdata t a -> wf_rdata u b -> rdata_from L a -> rdata_from L b -> rdata_cmp md a b = Ok (rcmp (vkey a) (vkey b)).
Proof.
  intros L md t u a b NO A B Xa Xb. unfold vkey, rcmp. cbn [lexg]. unfold kcmp. cbn [lexg]. destruct (N.compare_spec (variant_index (rd_var a)) (variant_index (rd_var b))) as [E|E|E].
  - apply variant_inj in E. pose proof (rdata_types _ _ _ _ A B E). subst u. rewrite (rdata_cmp_spec L md t a b) by assumption. reflexivity.
  - unfold rdata_cmp. rewrite (proj2 (N.compare_lt_iff _ _) E). reflexivity.
  - unfold rdata_cmp. rewrite (proj2 (N.compare_gt_iff _ _) E). reflexivity.
Qed.
Lemma vkey_lower : forall t u a b, wf_rdata t a -> wf_rdata u b -> (vkey a = vkey b <-> lower_rdata a = lower_rdata b).
Proof.
  intros t u a b A B. unfold vkey. split; intros H.
  - inversion H as [[H1 H2]]. apply variant_inj in H1. pose proof (rdata_types _ _ _ _ A B H1). subst u. eapply rkey_lower; eauto.
  - assert (E : rd_var a = rd_var b) by (apply (f_equal rd_var) in H; exact H). pose proof (rdata_types _ _ _ _ A B E). subst u. rewrite E. f_equal. eapply rkey_lower; eauto.
Qed.
Theorem rdata_order : forall L md, no_overflow L ->
  (forall t u a b, wf_rdata t a -> wf_rdata u b -> rdata_from L a -> rdata_from L b ->
     exists c, rdata_cmp md a b = Ok c /\ rdata_cmp md b a = Ok (CompOpp c) /\ (c = Eq <-> rdata_eq a b = Ok true)) /\
  (forall t u v a b c, wf_rdata t a -> wf_rdata u b -> wf_rdata v c -> rdata_from L a -> rdata_from L b -> rdata_from L c ->
     rdata_cmp md a b = Ok Lt -> rdata_cmp md b c = Ok Lt -> rdata_cmp md a c = Ok Lt).
Proof.
  intros L md NO. destruct laws_r as (L1 & L2 & L3). split.
  - intros t u a b A B Xa Xb. exists (rcmp (vkey a) (vkey b)). rewrite (rdata_cmp_any L md t u), (rdata_cmp_any L md u t) by assumption. split; [reflexivity|]. split; [rewrite L2; reflexivity|].
    rewrite L1, (vkey_lower t u) by assumption. destruct (rdata_eq_any t u a b A B) as (e & -> & E). rewrite <- E. split; congruence.
  - intros t u v a b c A B C Xa Xb Xc. rewrite (rdata_cmp_any L md t u), (rdata_cmp_any L md u v), (rdata_cmp_any L md t v) by assumption. intros H1 H2. assert (I : forall x y : comparison, Ok x = Ok y -> x = y) by (intros x y H; inversion H; reflexivity). apply I in H1. apply I in H2. f_equal. exact (L3 _ _ _ H1 H2).
Qed.
Lemma signed_ascii : forall c, (c < 128)%N -> signed c = Z.of_N c.
Proof. intros c H. unfold signed. destruct (N.ltb_spec c 128); [reflexivity|lia]. Qed.
Lemma ascii_clash : forall x y a b, Forall (fun c => c < 128)%N x -> Forall (fun c => c < 128)%N y -> clash_octets x y = Some (a, b) -> (a < 128)%N /\ (b < 128)%N /\ lex_bytes x y = (a ?= b)%N /\ a <> b.
Proof.
  induction x as [|c x IH]; intros [|d y] a b Fx Fy H; try discriminate. inversion Fx; inversion Fy; subst. cbn in *. destruct (N.eqb_spec c d).
  - subst. rewrite N.compare_refl. apply IH; auto.
  - inversion H; subst. repeat split; auto. destruct (N.compare_spec a b); auto. congruence.
Qed.
Lemma ascii_clash_labels : forall ra rb a b, ascii_labels ra -> ascii_labels rb -> clash_labels ra rb = Some (a, b) -> (a < 128)%N /\ (b < 128)%N /\ lex_labels ra rb = (a ?= b)%N.
Proof.
  induction ra as [|x ra IH]; intros [|y rb] a b Fa Fb H; try discriminate. inversion Fa; inversion Fb; subst. cbn [clash_labels lex_labels] in *.
  destruct (clash_octets x y) as [[u v]|] eqn:C.
  - inversion H; subst. destruct (ascii_clash x y a b) as (A1 & A2 & A3 & Ne); auto. split; [exact A1|]. split; [exact A2|]. rewrite A3. destruct (N.compare_spec a b); auto. congruence.
  - destruct (Nat.eqb_spec (length x) (length y)) as [E|E]; [|discriminate]. rewrite (clash_lex _ _ C), E, Nat.compare_refl. apply IH; auto.
Qed.
Lemma ascii_lc : forall ls, ascii_labels ls -> ascii_labels (rev (lc_labels ls)).
Proof. intros ls H. unfold ascii_labels. apply Forall_rev. unfold lc_labels. apply Forall_map. eapply Forall_impl; [|exact H]. intros l L. exact (nrm_ascii false l L). Qed.
Lemma signed_order_ascii : forall md a b, ascii_labels a -> ascii_labels b -> signed_order md a b = Ok (canonical_cmp a b).
Proof.
  intros md a b A B. unfold signed_order. destruct (clash a b) as [[x y]|] eqn:C; [|reflexivity]. destruct (ascii_clash_labels _ _ _ _ (ascii_lc a A) (ascii_lc b B) C) as (X & Y & L).
  unfold overflows. cbn [fst snd]. rewrite !signed_ascii by assumption. unfold canonical_cmp. rewrite L.
  destruct (Z.leb_spec (-128) (Z.of_N x - Z.of_N y)); [|lia]. destruct (Z.leb_spec (Z.of_N x - Z.of_N y) 127); [|lia]. cbn [andb negb]. rewrite N2Z.inj_compare. reflexivity.
Qed.

(** Proofs for C99: equality of messages. *)
From Coq Require Import Permutation.
From Verif Require Import Base BaseLemmas NameModel RenderModel CodesModel RDataModel MsgModel EqModel MsgEqModel SpecName SpecBuf SpecCodes SpecMsg SpecScope SpecEq SpecMsgEq
  NameOpsProofs2 MsgProofs2 MsgProofs4 EqProofs.

Lemma and_then_spec : forall a b (P Q : Prop), (exists x, a = Ok x /\ (x = true <-> P)) -> (exists y, b = Ok y /\ (y = true <-> Q)) ->
  exists e, and_then a b = Ok e /\ (e = true <-> P /\ Q).
Proof.
  intros a b P Q (x & -> & X) (y & -> & Y). cbn [and_then rbind]. unfold and_then. cbn [rbind]. destruct x.
  - exists y. split; auto. tauto.
  - exists false. split; auto. split; [discriminate|]. intros [H _]. apply X in H. discriminate.
Qed.
Lemma opcode_eqb_eq : forall a b, (opcode_index a =? opcode_index b) = true <-> a = b.
Proof. intros a b. rewrite Nat.eqb_eq. split; [|congruence]. destruct a, b; (reflexivity || discriminate). Qed.
Lemma rcode_eqb_eq : forall a b, (rcode_index a =? rcode_index b) = true <-> a = b.
Proof. intros a b. rewrite Nat.eqb_eq. split; [|congruence]. destruct a, b; (reflexivity || discriminate). Qed.
Lemma rrclass_eqb_eq : forall a b, rrclass_eqb a b = true <-> a = b.
Proof.
  intros a b. destruct a, b; cbn [rrclass_eqb]; (split; intro H; try reflexivity; try discriminate).
  - apply N.eqb_eq in H. congruence.
  - injection H as ->. apply N.eqb_refl.
Qed.
Lemma rrtype_eqb_eq' : forall a b, rrtype_eqb a b = true <-> a = b.
Proof.
  intros a b. destruct a, b; cbn [rrtype_eqb]; (split; intro H; try reflexivity; try discriminate).
  - apply N.eqb_eq in H. congruence.
  - injection H as ->. apply N.eqb_refl.
Qed.
Lemma header_eq_eq : forall a b, header_eq a b = true <-> a = b.
Proof.
  intros [i f o r q n s d] [i' f' o' r' q' n' s' d']. unfold header_eq. cbn [h_id h_flag h_opcode h_rcode h_qd h_an h_ns h_ar]. rewrite !andb_true_iff, !N.eqb_eq, opcode_eqb_eq, rcode_eqb_eq.
  split; [intros (((((((-> & ->) & ->) & ->) & ->) & ->) & ->) & ->); reflexivity|]. intros E. injection E as -> -> -> -> -> -> -> ->. tauto.
Qed.
Lemma name_eq_owner : forall a b, wf_name a -> wf_name b -> exists e, name_eq a b = Ok e /\ (e = true <-> same_owner a b).
Proof.
  intros a b A B. pose (rs := fun n => mkRRset n TA CIN 0 []). destruct (is_same_spec (rs a) (rs b)) as (c & E & H); [exact A|exact B|].
  unfold is_same_rrset in E. cbn in E. exists c. split; [exact E|]. rewrite H. unfold same_set. cbn. tauto.
Qed.
Lemma question_eq_spec : forall a b, wf_name (q_name a) -> wf_name (q_name b) -> exists e, question_eq a b = Ok e /\ (e = true <-> same_question a b).
Proof.
  intros a b A B. unfold question_eq, same_question. apply and_then_spec; [apply name_eq_owner; auto|]. eexists. split; [reflexivity|]. rewrite andb_true_iff, rrtype_eqb_eq', rrclass_eqb_eq. tauto.
Qed.
Section Sort.
Context (L : label -> Prop) (md : mode) (sort : list rdata -> res (list rdata)).
Hypothesis NO : no_overflow L.
Hypothesis So : forall t, sorts L md t sort.
Lemma rrset_eq_alike : forall a b, in_range L a -> in_range L b -> no_repeat a -> exists e, rrset_eq sort a b = Ok e /\ (e = true <-> alike a b).
Proof.
  intros a b (A1 & A2 & A3) (B1 & B2 & B3) D. destruct (Nat.lt_ge_cases (length (rs_rdatas a)) 4) as [H|H].
  - apply (eq_small (rs_type a) a b); auto.
  - destruct (Nat.lt_ge_cases (length (rs_rdatas b)) 4) as [H'|H'].
    + unfold rrset_eq. destruct (is_same_spec a b) as (e & -> & E); auto. cbn [rbind]. exists false. split.
      * destruct e; [|reflexivity]. cbn [negb]. destruct (Nat.eqb_spec (length (rs_rdatas a)) (length (rs_rdatas b))); [lia|reflexivity].
      * split; [discriminate|]. intros [_ P]. apply Permutation_length in P. rewrite !map_length in P. lia.
    + apply (eq_large (rs_type a) a b) with (L := L) (md := md); auto.
Qed.
Lemma same_set_refl : forall a, wf_name (rs_name a) -> same_set a a.
Proof. intros a W. split; auto. apply same_owner_refl. exact W. Qed.
Lemma rrset_eq_refl : forall a, in_range L a -> rrset_eq sort a a = Ok true.
Proof.
  intros a (A1 & A2 & A3). destruct (Nat.lt_ge_cases (length (rs_rdatas a)) 4) as [H|H].
  - apply (eq_small_complete (rs_type a) a a); auto; [apply same_set_refl; exact A1|apply Permutation_refl].
  - destruct (eq_large (rs_type a) a a (conj A1 (conj eq_refl A2)) (conj A1 A2) L md sort NO H (A3 H) (A3 H) (So _)) as (e & E & X). rewrite E. f_equal. apply X.
    split; [apply same_set_refl; exact A1|apply Permutation_refl].
Qed.
Lemma rrsets_eq_alike : forall l l', Forall (in_range L) l -> Forall (in_range L) l' -> Forall no_repeat l -> length l = length l' ->
  exists e, rrsets_eq sort l l' = Ok e /\ (e = true <-> Forall2 alike l l').
Proof.
  induction l as [|a l IH]; intros [|b l'] A B D E; try discriminate; cbn [rrsets_eq].
  - exists true. split; auto. split; auto.
  - inversion A; subst. inversion B; subst. inversion D; subst. destruct (and_then_spec (rrset_eq sort a b) (rrsets_eq sort l l') (alike a b) (Forall2 alike l l')) as (e & -> & X).
    + apply rrset_eq_alike; auto.
    + apply IH; auto.
    + exists e. split; auto. rewrite X. split; [intros []; constructor; auto|intros F; inversion F; auto].
Qed.
Lemma section_eq_alike : forall s s', (forall l rs, s = Some l -> In rs l -> in_range L rs /\ no_repeat rs) -> (forall l rs, s' = Some l -> In rs l -> in_range L rs) ->
  exists e, section_eq sort s s' = Ok e /\ (e = true <-> alike_sections s s').
Proof.
  intros [l|] [l'|] A B; cbn [section_eq alike_sections]; try (eexists; split; [reflexivity|]; split; [discriminate|tauto]); [|eexists; split; [reflexivity|tauto]].
  destruct (Nat.eqb_spec (length l) (length l')) as [E|E].
  - apply rrsets_eq_alike; auto; apply Forall_forall; intros rs I; first [exact (B l' rs eq_refl I) | exact (proj1 (A l rs eq_refl I)) | exact (proj2 (A l rs eq_refl I))].
  - exists false. split; auto. split; [discriminate|]. intros F. exfalso. apply E. clear - F. induction F; cbn [length]; auto.
Qed.
Lemma section_eq_refl : forall s, (forall l rs, s = Some l -> In rs l -> in_range L rs) -> section_eq sort s s = Ok true.
Proof.
  intros [l|] A; [|reflexivity]. cbn [section_eq]. rewrite Nat.eqb_refl. specialize (A l). revert A. induction l as [|a l IH]; intros A; [reflexivity|]. cbn [rrsets_eq].
  rewrite rrset_eq_refl by (apply (A a); auto; left; reflexivity). cbn [and_then rbind]. unfold and_then. cbn [rbind]. apply IH. intros rs _ I. apply (A rs); auto. right. exact I.
Qed.
Lemma response_eq_alike : forall a b, in_range_response L a -> all_sets no_repeat a -> in_range_response L b -> exists e, response_eq sort a b = Ok e /\ (e = true <-> alike_responses a b).
Proof.
  intros a b (A1 & A2) A3 (B1 & B2). unfold response_eq, alike_responses.
  assert (G : forall s s', In s [r_answer a; r_authority a; r_additional a] -> In s' [r_answer b; r_authority b; r_additional b] -> exists e, section_eq sort s s' = Ok e /\ (e = true <-> alike_sections s s')).
  { intros s s' I I'. apply section_eq_alike; [intros l rs -> J; split; [eapply A2; eauto|eapply A3; eauto]|intros l rs -> J; eapply B2; eauto]. }
  apply and_then_spec; [eexists; split; [reflexivity|]; apply header_eq_eq|]. apply and_then_spec; [apply question_eq_spec; auto|].
  apply and_then_spec; [apply G; cbn [In]; auto|]. apply and_then_spec; apply G; cbn [In]; auto.
Qed.
Lemma response_eq_refl : forall a, in_range_response L a -> response_eq sort a a = Ok true.
Proof.
  intros a (A1 & A2). unfold response_eq. destruct (question_eq_spec (r_question a) (r_question a) A1 A1) as (e & -> & E).
  assert (e = true) as -> by (apply E; split; auto; apply same_owner_refl; exact A1). rewrite (proj2 (header_eq_eq _ _) eq_refl).
  rewrite !section_eq_refl; try (intros l rs X J; eapply A2; eauto; cbn [In]; rewrite X; auto). reflexivity.
Qed.
Lemma notify_eq_alike : forall a b, wf_name (q_name (nq_question a)) -> wf_name (q_name (nq_question b)) ->
  (forall rs, nq_soa a = Some rs -> in_range L rs /\ no_repeat rs) -> (forall rs, nq_soa b = Some rs -> in_range L rs) ->
  exists e, notify_eq sort a b = Ok e /\ (e = true <-> nq_header a = nq_header b /\ same_question (nq_question a) (nq_question b) /\
    match nq_soa a, nq_soa b with None, None => True | Some x, Some y => alike x y | _, _ => False end).
Proof.
  intros a b A B SA SB. unfold notify_eq. apply and_then_spec; [eexists; split; [reflexivity|apply header_eq_eq]|]. apply and_then_spec; [apply question_eq_spec; auto|].
  destruct (nq_soa a) as [x|], (nq_soa b) as [y|]; try (eexists; split; [reflexivity|]; split; [discriminate|tauto]); [|eexists; split; [reflexivity|tauto]].
  destruct (SA x eq_refl). apply rrset_eq_alike; auto.
Qed.
End Sort.
Lemma request_eq_spec : forall a b, wf_name (q_name (rq_question a)) -> wf_name (q_name (rq_question b)) ->
  exists e, request_eq a b = Ok e /\ (e = true <-> rq_header a = rq_header b /\ same_question (rq_question a) (rq_question b)).
Proof. intros a b A B. apply and_then_spec; [eexists; split; [reflexivity|apply header_eq_eq]|]. apply question_eq_spec; auto. Qed.
Lemma notify_response_eq_spec : forall a b, wf_name (q_name (np_question a)) -> wf_name (q_name (np_question b)) ->
  exists e, notify_response_eq a b = Ok e /\ (e = true <-> np_header a = np_header b /\ same_question (np_question a) (np_question b)).
Proof. intros a b A B. apply and_then_spec; [eexists; split; [reflexivity|apply header_eq_eq]|]. apply question_eq_spec; auto. Qed.

(** * An equivalence *)
Lemma alike_sym : forall a b, alike a b -> alike b a.
Proof. intros a b ((T & O) & P). split; [split; [congruence|apply same_owner_sym; exact O]|]. apply Permutation_sym. exact P. Qed.
Lemma alike_trans : forall a b c, alike a b -> alike b c -> alike a c.
Proof. intros a b c ((T & O) & P) ((T' & O') & P'). split; [split; [congruence|eapply same_owner_trans; eauto]|]. eapply Permutation_trans; eauto. Qed.
Lemma alike_sections_sym : forall a b, alike_sections a b -> alike_sections b a.
Proof. intros [l|] [l'|]; cbn; auto. intros F. induction F; constructor; auto using alike_sym. Qed.
Lemma alike_sections_trans : forall a b c, alike_sections a b -> alike_sections b c -> alike_sections a c.
Proof.
  intros [l|] [l'|] [l''|]; cbn; try tauto. intros F. revert l''. induction F; intros l2 G; inversion G; subst; constructor; eauto using alike_trans.
Qed.
Lemma same_question_sym : forall a b, same_question a b -> same_question b a.
Proof. intros a b (A & B & C). split; [apply same_owner_sym; exact A|]. auto. Qed.
Lemma same_question_trans : forall a b c, same_question a b -> same_question b c -> same_question a c.
Proof. intros a b c (A & B & C) (A' & B' & C'). split; [eapply same_owner_trans; eauto|]. split; congruence. Qed.
Lemma alike_responses_sym : forall a b, alike_responses a b -> alike_responses b a.
Proof. intros a b (A & B & C & D & E). split; [congruence|]. split; [apply same_question_sym; exact B|]. auto using alike_sections_sym. Qed.
Lemma alike_responses_trans : forall a b c, alike_responses a b -> alike_responses b c -> alike_responses a c.
Proof.
  intros a b c (A & B & C & D & E) (A' & B' & C' & D' & E'). split; [congruence|]. split; [eapply same_question_trans; eauto|].
  split; [|split]; eapply alike_sections_trans; eauto.
Qed.

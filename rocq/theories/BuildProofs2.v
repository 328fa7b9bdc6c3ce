(** Proofs for C103: builder calls do not interfere. *)
From Verif Require Import Base BaseLemmas NameModel CodesModel MsgModel SpecName SpecCodes SpecMsg SpecBuild CodesProofs.

Lemma same_section_eq : forall a b, same_section a b = true <-> a = b. Proof. intros [] []; cbn; split; intros; try reflexivity; discriminate. Qed.
Lemma same_flag_bit : forall f g, N.eqb (flag_bit g) (flag_bit f) = same_flag f g. Proof. intros [] []; reflexivity. Qed.
Lemma put_header : forall r s v, r_header (put_section r s v) = r_header r. Proof. intros r [] v; reflexivity. Qed.
Lemma put_question : forall r s v, r_question (put_section r s v) = r_question r. Proof. intros r [] v; reflexivity. Qed.
Lemma put_get : forall r s v, get_section (put_section r s v) s = v. Proof. intros r [] v; reflexivity. Qed.
Lemma put_other : forall r s s' v, same_section s' s = false -> get_section (put_section r s v) s' = get_section r s'. Proof. intros r [] [] v H; try reflexivity; discriminate. Qed.
Lemma add_put : forall r s rs r', add_rrset r s rs = Ok r' -> exists v, r' = put_section r s v.
Proof.
  intros r s rs r' H. unfold add_rrset in H. destruct (get_section r s) as [l|]; [|injection H as <-; eauto].
  unfold rbind in H. destruct (find_same rs l) as [[i|]| | |]; try discriminate; [|injection H as <-; eauto].
  destruct (idx l i) as [old| | |]; try discriminate. destruct (upd_r l i _) as [l'| | |]; try discriminate. injection H as <-. eauto.
Qed.
(** a call leaves header and question to the setters, and the other sections alone *)
Definition is_setter (o : bop) : bool := match o with BId _ | BSet _ | BClear _ | BOpcode _ | BRcode _ | BQuestion _ | BMake => true | _ => false end.
Lemma section_call : forall o r r', bop_call o r = Ok r' -> is_setter o = false -> exists s v, r' = put_section r s v /\ (forall s', works_on s' o = same_section s' s) \/ r' = r.
Proof.
  intros o r r' H S. destruct o; try discriminate S; cbn [bop_call works_on] in *.
  - unfold add_edns in H. destruct (add_put _ _ _ _ H) as (v & ->). exists SAdditional, v. auto.
  - destruct (add_put _ _ _ _ H) as (v & ->). eauto.
  - injection H as <-. unfold remove_rrset_by. destruct (get_section r s) as [l|]; [|exists s, None; auto]. eexists s, _. left. split; [reflexivity|auto].
  - injection H as <-. unfold clear_section. exists s, None. auto.
  - injection H as <-. unfold with_section. eexists s, _. left. split; [reflexivity|auto].
Qed.
Definition counts_of (h : header) : N * N * N * N := (h_qd h, h_an h, h_ns h, h_ar h).
Lemma call_settings : forall o r r', bop_call o r = Ok r' -> (h_flag (r_header r) < 65536)%N ->
  (h_flag (r_header r') < 65536)%N /\
  h_id (r_header r') = final sets_id [o] (h_id (r_header r)) /\ h_opcode (r_header r') = final sets_opcode [o] (h_opcode (r_header r)) /\
  h_rcode (r_header r') = final sets_rcode [o] (h_rcode (r_header r)) /\ r_question r' = final sets_question [o] (r_question r) /\
  counts_of (r_header r') = counts_of (r_header r) /\ forall f, header_is_set (r_header r') f = final (sets_flag f) [o] (header_is_set (r_header r) f).
Proof.
  intros o r r' H F.
  assert (FL : forall g b, r' = set_rflag g b r -> (h_flag (r_header r') < 65536)%N /\ h_id (r_header r') = h_id (r_header r) /\ h_opcode (r_header r') = h_opcode (r_header r) /\
     h_rcode (r_header r') = h_rcode (r_header r) /\ r_question r' = r_question r /\ counts_of (r_header r') = counts_of (r_header r) /\
     forall f, header_is_set (r_header r') f = if same_flag f g then b else header_is_set (r_header r) f).
  { intros g b ->. unfold set_rflag, map_header. cbn [r_header r_question].
    assert (X := fun f => set_flag_spec (r_header r) g f b F). pose proof (X g) as (_ & A1 & A2 & A3 & A4 & A5 & A6 & A7 & A8). unfold counts_of. rewrite A1, A2, A3, A4, A5, A6, A7.
    split; [exact A8|]. do 5 (split; [reflexivity|]). intros f. destruct (X f) as (Y & _). rewrite Y, same_flag_bit. reflexivity. }
  destruct (is_setter o) eqn:S.
  - destruct o; try discriminate S; cbn [bop_call final sets_id sets_opcode sets_rcode sets_question sets_flag] in *; apply Ok_inj in H;
      try (destruct (FL _ _ (eq_sym H)) as (B0 & B1 & B2 & B3 & B4 & B5 & B6); split; [exact B0|]; do 5 (split; [assumption|]); intros g; rewrite B6;
           match goal with |- context [same_flag ?x ?y] => destruct (same_flag x y) end; reflexivity);
      subst r'; cbn [set_id set_opcode set_rcode set_question map_header r_header r_question h_flag]; repeat split; auto.
  - destruct (section_call _ _ _ H S) as (s & v & [[-> _]| ->]).
    + rewrite put_header, put_question. destruct o; try discriminate S; cbn [final sets_id sets_opcode sets_rcode sets_question sets_flag]; repeat split; auto.
    + destruct o; try discriminate S; cbn [final sets_id sets_opcode sets_rcode sets_question sets_flag]; repeat split; auto.
Qed.
Lemma final_cons : forall A (sel : bop -> option A) o l a, final sel (o :: l) a = final sel l (final sel [o] a). Proof. reflexivity. Qed.
Theorem build_settings : forall ops r r', build ops r = Ok r' -> (h_flag (r_header r) < 65536)%N ->
  h_id (r_header r') = final sets_id ops (h_id (r_header r)) /\ h_opcode (r_header r') = final sets_opcode ops (h_opcode (r_header r)) /\
  h_rcode (r_header r') = final sets_rcode ops (h_rcode (r_header r)) /\ r_question r' = final sets_question ops (r_question r) /\
  (forall f, header_is_set (r_header r') f = final (sets_flag f) ops (header_is_set (r_header r) f)) /\
  h_qd (r_header r') = h_qd (r_header r) /\ h_an (r_header r') = h_an (r_header r) /\ h_ns (r_header r') = h_ns (r_header r) /\ h_ar (r_header r') = h_ar (r_header r).
Proof.
  induction ops as [|o ops IH]; intros r r' H F; cbn [build] in H.
  - apply Ok_inj in H. subst r'. cbn [final]. repeat split.
  - unfold rbind in H. destruct (bop_call o r) as [r1| | |] eqn:E; try discriminate. destruct (call_settings _ _ _ E F) as (F1 & A1 & A2 & A3 & A4 & A5 & A6).
    destruct (IH _ _ H F1) as (B1 & B2 & B3 & B4 & B5 & B6 & B7 & B8 & B9). unfold counts_of in A5. injection A5 as C1 C2 C3 C4.
    rewrite (final_cons _ sets_id o ops), (final_cons _ sets_opcode o ops), (final_cons _ sets_rcode o ops), (final_cons _ sets_question o ops), <- A1, <- A2, <- A3, <- A4. do 4 (split; [assumption|]). split; [intros f; rewrite (final_cons _ (sets_flag f) o ops), <- A6; apply B5|]. repeat split; congruence.
Qed.

(** sections *)
Lemma add_same : forall r1 r2 s rs r1', get_section r1 s = get_section r2 s -> add_rrset r1 s rs = Ok r1' -> exists r2', add_rrset r2 s rs = Ok r2' /\ get_section r2' s = get_section r1' s.
Proof.
  intros r1 r2 s rs r1' E H. unfold add_rrset in *. rewrite <- E. destruct (get_section r1 s) as [l|]; [|apply Ok_inj in H; subst r1'; eexists; split; [reflexivity|rewrite !put_get; reflexivity]].
  unfold rbind in *. destruct (find_same rs l) as [[i|]| | |]; try discriminate; [|apply Ok_inj in H; subst r1'; eexists; split; [reflexivity|rewrite !put_get; reflexivity]].
  destruct (idx l i) as [old| | |]; try discriminate. destruct (upd_r l i _) as [l'| | |]; try discriminate. apply Ok_inj in H; subst r1'. eexists; split; [reflexivity|rewrite !put_get; reflexivity].
Qed.
Lemma call_section : forall s o r1 r2 r1', get_section r1 s = get_section r2 s -> bop_call o r1 = Ok r1' ->
  if works_on s o then exists r2', bop_call o r2 = Ok r2' /\ get_section r2' s = get_section r1' s else get_section r1' s = get_section r1 s.
Proof.
  intros s o r1 r2 r1' E H. destruct (works_on s o) eqn:W.
  - destruct o; try discriminate W; cbn [bop_call works_on] in *; apply same_section_eq in W.
    + subst s. eapply add_same; eauto.
    + subst s0. eapply add_same; eauto.
    + subst s0. apply Ok_inj in H. subst r1'. eexists. split; [reflexivity|]. unfold remove_rrset_by. rewrite <- E. destruct (get_section r1 s) as [l|] eqn:G; [rewrite !put_get; reflexivity|rewrite G, <- E; reflexivity].
    + subst s0. apply Ok_inj in H. subst r1'. eexists. split; [reflexivity|]. unfold clear_section. rewrite !put_get. reflexivity.
    + subst s0. apply Ok_inj in H. subst r1'. eexists. split; [reflexivity|]. unfold with_section. rewrite !put_get, E. reflexivity.
  - destruct (is_setter o) eqn:S.
    + destruct o; try discriminate S; cbn [bop_call] in H; apply Ok_inj in H; subst r1'; destruct s; reflexivity.
    + destruct (section_call _ _ _ H S) as (s' & v & [[-> X]| ->]); [|reflexivity]. apply put_other. rewrite <- X. exact W.
Qed.
Theorem build_sections : forall s ops r r', build ops r = Ok r' -> exists r'', build (filter (works_on s) ops) r = Ok r'' /\ get_section r'' s = get_section r' s.
Proof.
  intros s ops r r' H.
  assert (G : forall ops r1 r2 r1', get_section r1 s = get_section r2 s -> build ops r1 = Ok r1' -> exists r2', build (filter (works_on s) ops) r2 = Ok r2' /\ get_section r2' s = get_section r1' s).
  { clear. induction ops as [|o ops IH]; intros r1 r2 r1' E H; cbn [build filter] in *; [apply Ok_inj in H; subst r1'; eauto|].
    unfold rbind in H. destruct (bop_call o r1) as [r1a| | |] eqn:C; try discriminate. pose proof (call_section s o r1 r2 r1a E C) as X. destruct (works_on s o).
    - destruct X as (r2a & C2 & E2). cbn [build]. unfold rbind. rewrite C2. eapply IH; [symmetry; exact E2|exact H].
    - eapply IH; [|exact H]. congruence. }
  eapply G; eauto.
Qed.

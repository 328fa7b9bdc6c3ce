(** What a rendered response decodes to. *)
From Verif Require Import Base NameModel RenderModel CodesModel RDataModel MsgModel SpecName SpecBuf SpecCodes SpecMsg
  BaseLemmas BitLemmas NameWireProofs NameOpsProofs NameOpsProofs2 RenderProofs RenderProofs2 BufProofs LiveProofs CodesProofs WireProofs
  RDataProofs DecodeProofs MsgProofs MsgProofs2 MsgProofs3 MsgProofs4 MsgProofs5 MsgProofs6.

Lemma rrset_ok_like : forall rs, rrset_ok rs -> set_like rs.
Proof. intros rs (A & B & C & D & E & F & G). split; auto. Qed.
Lemma rrset_ok_records : forall rs, rrset_ok rs -> Forall rr_fine (rrs_of rs).
Proof.
  intros rs (A & B & C & D & E & F & G). unfold rrs_of. destruct (rs_rdatas rs) as [|d ds] eqn:Er.
  - constructor; [|constructor]. split; [exact A|]. split; [|unfold rr_legal; cbn; auto]. split; [exact B|]. split; [exact C|]. split; [exact D|]. exact Logic.I.
  - apply Forall_forall. intros x Hx. apply in_map_iff in Hx. destruct Hx as (y & <- & Hy). rewrite Forall_forall in E.
    split; [exact A|]. split; [|unfold rr_legal; cbn; discriminate]. split; [exact B|]. split; [exact C|]. split; [exact D|]. cbn. apply E. auto.
Qed.
Lemma section_ok_fine : forall b c s, section_ok b c s -> Forall rr_fine (records s).
Proof.
  intros b c [l|] [_ H]; cbn [records]; [|constructor]. destruct H as (_ & F & _). induction F; cbn [flat_map]; [constructor|].
  apply Forall_app. split; auto. apply rrset_ok_records. auto.
Qed.
Lemma section_ok_group : forall b c s, section_ok b c s -> group (records s) = s /\ opts_apart (records s) /\ (b = false -> first_not_opt (records s)).
Proof.
  intros b c s H. pose proof (section_ok_fine _ _ _ H) as Fi. destruct s as [l|]; destruct H as [_ H]; cbn [records] in *.
  - destruct H as (N & F & R & St). destruct (group_flat l N) as [E1 E2]; auto; [eapply Forall_impl; [|exact F]; apply rrset_ok_like|].
    split; auto. split.
    + apply opts_once_apart; auto. eapply Forall_impl; [|exact Fi]. intros x X. apply X.
    + intros Eb x xs Ex. destruct l as [|rs l]; [congruence|]. cbn [flat_map] in Ex. specialize (St Eb rs l eq_refl). unfold rrs_of in Ex.
      destruct (rs_rdatas rs); inversion Ex; subst; exact St.
  - split; auto. split; [exact Logic.I|]. intros _ x xs E. discriminate.
Qed.
Lemma consistent_acceptable : forall r, consistent r -> acceptable (records (r_answer r)) (records (r_authority r)) (records (r_additional r)).
Proof.
  intros r (_ & _ & _ & S1 & S2 & S3).
  destruct (section_ok_group _ _ _ S1) as (_ & A1 & B1). destruct (section_ok_group _ _ _ S2) as (_ & A2 & B2). destruct (section_ok_group _ _ _ S3) as (_ & A3 & _).
  assert (G : forall b c s, section_ok b c s -> Forall rr_legal (records s)).
  { intros b c s H. eapply Forall_impl; [|eapply section_ok_fine; eauto]. intros x X. apply X. }
  split; [apply Forall_app; split; [eapply G; eauto|apply Forall_app; split; eapply G; eauto]|]. do 3 (split; [assumption|]). auto.
Qed.
Lemma rr_fine_wf : forall xs, Forall rr_fine xs -> Forall rr_wf xs.
Proof. intros xs. apply Forall_impl. intros x X. apply X. Qed.
Lemma complete_decodes {KN : names} : forall r0 r a r', consistent r -> complete r0 r a r' -> (N.of_nat (mr_len r') <= 65535)%N ->
  message_at (mr_bytes r') (r_question r) (records (r_answer r)) (records (r_authority r)) (records (r_additional r)) /\ response_from_wire (mr_bytes r') = Ok r.
Proof.
  intros r0 r a r' Co (Ea & _ & I & (tl & Et) & P) Lm. pose proof Co as (Hk & Hq & Qk & S1 & S2 & S3).
  pose proof (mr_bytes_bytes _ _ I) as Bw. set (w := mr_bytes r') in *. pose proof (mr_bytes_len _ _ I) as Ln. fold w in Ln.
  assert (P' : Prrs (all_records r) (rd_of w) (head_size r) (mr_len r')) by (eapply mono_rrs; [|exact P]; intros i c; apply rdm_rd_of; auto).
  assert (Lh : head_size r <= length w).
  { rewrite Et. unfold head_bytes. rewrite !app_length. change (length (header_octets (r_header r))) with 12. unfold question_octets, head_size. rewrite !app_length. cbn [u16_bytes length]. lia. }
  unfold all_records in P'. apply Prrs_app in P'. destruct P' as (p1 & L1 & P1 & P'). apply Prrs_app in P'. destruct P' as (p2 & L2 & P2 & P3).
  apply Prrs_at in P1; auto; [|rewrite Ln; auto|eapply rr_fine_wf, section_ok_fine; eauto]. destruct P1 as [P1 G1].
  apply Prrs_at in P2; auto; [|rewrite Ln; auto|eapply rr_fine_wf, section_ok_fine; eauto]. destruct P2 as [P2 G2].
  apply Prrs_at in P3; auto; [|rewrite Ln; auto|eapply rr_fine_wf, section_ok_fine; eauto]. destruct P3 as [P3 G3].
  destruct (head_message (r_header r) (r_question r) tl (records (r_answer r)) (records (r_authority r)) (records (r_additional r))) as [Hm Eh];
    [exact Hk|exact Qk|exact Hq|exact (proj1 S1)|exact (proj1 S2)|exact (proj1 S3)| | |].
  { fold (head_bytes r). rewrite <- Et. exists p1, p2, (mr_len r'). auto. }
  { fold (head_bytes r). rewrite <- Et. auto. }
  fold (head_bytes r) in Hm, Eh. rewrite <- Et in Hm, Eh. split; auto.
  destruct (response_accepts w _ _ _ _ Bw Hm (consistent_acceptable r Co)) as (h & Eh' & ->). rewrite Eh in Eh'. inversion Eh'; subst h.
  unfold decoded. rewrite (proj1 (section_ok_group _ _ _ S1)), (proj1 (section_ok_group _ _ _ S2)), (proj1 (section_ok_group _ _ _ S3)). destruct r; reflexivity.
Qed.
Lemma tc_header_ok : forall h, header_ok h -> header_ok (tc_header h).
Proof.
  intros h Hk. pose proof (set_flag_ok h TC Hk) as [K1 K2]. destruct Hk as [(A & B & _) _].
  split; [|exact K2]. unfold tc_header. cbn [h_id h_qd h_an h_ns h_ar]. split; [exact A|]. split; [exact B|]. repeat split; reflexivity.
Qed.
Lemma u16_is_bytes : forall d, (d < 65536)%N -> bytes (u16_bytes d).
Proof.
  intros d H. repeat constructor; [|apply N.mod_lt; discriminate]. apply N.div_lt_upper_bound; [discriminate|]. exact H.
Qed.
Lemma head_is_bytes : forall h q, header_ok h -> question_ok q -> bytes (header_octets h ++ question_octets q).
Proof.
  intros h q Hk ((ls & W & En) & (Qt & _) & (Qc & _)). pose proof (header_flag_lt h Hk) as Hf. destruct Hk as ((A & B & C & D & E) & _).
  unfold header_octets, question_octets. cbn [flat_map]. repeat (apply Forall_app; split); try (apply u16_is_bytes; assumption); [constructor|].
  rewrite En. apply enc_bytes, W.
Qed.
Lemma cut_off_decodes : forall r a r', consistent r -> cut_off r a r' -> truncated r (mr_bytes r') /\ response_from_wire (mr_bytes r') = Ok (tc_only r).
Proof.
  intros r a r' (Hk & Hq & Qk & _) (_ & L & Eb). pose proof (tc_header_ok _ Hk) as Tk. pose proof Tk as (_ & Tf). pose proof (head_is_bytes _ _ Tk Qk) as Bh. split.
  - exists (header_flag (tc_header (r_header r))). split.
    + destruct (word_ok (h_opcode (tc_header (r_header r))) (h_rcode (tc_header (r_header r))) _ (flag_masked _ Tf)) as (W1 & W2 & W3 & W4 & W5 & W6).
      rewrite <- header_flag_word in *. split; [exact W1|]. split; [|auto].
      intros fl. transitivity (N.testbit (h_flag (tc_header (r_header r))) (flag_bit fl)).
      * rewrite <- W2, N.land_spec, mask_bits. replace (existsb _ _) with true; [rewrite andb_true_r; auto|].
        symmetry. apply existsb_exists. exists fl. split; [destruct fl; cbn; auto 10|apply N.eqb_refl].
      * unfold tc_header. cbn [h_flag header_set_flag]. rewrite hf_set_bit. unfold header_is_set. rewrite !hf_is_set_bit. destruct fl; cbn [flag_bit N.eqb Pos.eqb]; rewrite ?orb_false_r, ?orb_true_r; reflexivity.
    + rewrite Eb. unfold header_octets, question_octets, head_octets, tc_header. cbn [h_id h_qd h_an h_ns h_ar]. rewrite Hq. reflexivity.
  - destruct (head_message (tc_header (r_header r)) (r_question r) [] [] [] []) as [Hm Eh]; [exact Tk|exact Qk|exact Hq|reflexivity|reflexivity|reflexivity| | |].
    + exists (16 + length (n_raw (q_name (r_question r)))). eexists _, _. repeat split; reflexivity.
    + rewrite app_nil_r. exact Bh.
    + rewrite app_nil_r, <- Eb in Hm, Eh. assert (Bw : bytes (mr_bytes r')) by (rewrite Eb; exact Bh).
      destruct (response_accepts _ _ _ _ _ Bw Hm) as (h & Eh' & ->); [repeat split; try constructor; intros x xs X; discriminate|].
      rewrite Eh in Eh'. inversion Eh'; subst h. unfold decoded, tc_only, tc_header. cbn. rewrite Hq. reflexivity.
Qed.

(** Messages: statements for the property files. *)
From Verif Require Import Base NameModel RenderModel CodesModel RDataModel MsgModel SpecName SpecBuf SpecCodes SpecMsg
  BaseLemmas BitLemmas NameWireProofs NameOpsProofs NameOpsProofs2 RenderProofs RenderProofs2 BufProofs LiveProofs CodesProofs WireProofs
  RDataProofs DecodeProofs MsgProofs MsgProofs2 MsgProofs3 MsgProofs4 MsgProofs5 MsgProofs6 MsgProofs7 IndepProofs FirstProofs FitProofs.

(** C26, C27, C62 *)
Lemma rdata_wire_layout : forall dat hs r t rd r', bytes dat -> history (mr_new dat) hs r -> wf_rdata t rd ->
  rdata_to_wire rd r = (Ok tt, r') -> fields_at (mr_bytes r') (mr_len r) (mr_len r') (rd_fields rd).
Proof.
  intros dat hs r t rd r' B H W Q. destruct (history_inv _ _ _ B H) as [I _].
  pose proof (emitted _ _ _ _ _ I (mono_rdata rd) (emits_rdata t rd W) Q) as P.
  pose proof (emits_rdata t rd W _ r I) as E. rewrite Q in E. destruct E as (X & I' & _).
  pose proof W as (_ & ks & _ & F). eapply fields_at_P; eauto; [eapply mr_bytes_bytes; eauto|]. rewrite (mr_bytes_len _ _ I'). destruct X. auto.
Qed.
Lemma rdata_to_wire_safe : forall dat hs r t rd, bytes dat -> history (mr_new dat) hs r -> wf_rdata t rd -> safe (fst (rdata_to_wire rd r)).
Proof.
  intros dat hs r t rd B H W. destruct (history_inv _ _ _ B H) as [I _]. pose proof (emits_rdata t rd W _ r I) as E.
  destruct (rdata_to_wire rd r) as [[| | |] r']; destruct E as (_ & _ & E); try (destruct E; fail); split; discriminate.
Qed.
Lemma rdata_from_wire_total : forall w p t L, bytes w -> p <= length w -> (L < 65536)%N ->
  exists a q, rdata_from_wire t L (mkIn w p) = (a, mkIn w q) /\ q <= length w /\ safe a.
Proof. intros w p t L B Lp HL. destruct (tdec_rdata w B t L p HL Lp) as (a & q & E & Lq & Sf & _). eauto. Qed.
Lemma rdata_from_wire_iff : forall w p t L rd q, bytes w -> p <= length w -> (L < 65536)%N ->
  (rdata_from_wire t L (mkIn w p) = (Ok rd, mkIn w q) <-> wf_rdata t rd /\ q = p + N.to_nat L /\ fields_at w p q (rd_fields rd)).
Proof.
  intros w p t L rd q B Lp HL. split.
  - intros H. destruct (tdec_rdata w B t L p HL Lp) as (a & q' & E & Lq & Sf & K). rewrite H in E. inversion E; subst a q'.
    destruct (K rd eq_refl) as (_ & A1 & A2 & A3). auto.
  - intros (W & Eq & F). pose proof W as (_ & ks & _ & Fk). apply (rdata_dec t rd w p q L); auto. eapply fields_at_P; eauto.
Qed.

(** C30, C28, C29 *)
Lemma response_outcome : forall dat r a r', bytes dat -> consistent r -> (N.of_nat (length dat) <= 65535)%N -> response_to_wire r (mr_new dat) = (a, r') ->
  if head_size r <=? length dat
  then (a = Ok (mr_len r') /\ message_at (mr_bytes r') (r_question r) (records (r_answer r)) (records (r_authority r)) (records (r_additional r)) /\
        length (mr_bytes r') = mr_len r' /\ response_from_wire (mr_bytes r') = Ok r /\ (all_records r <> [] -> head_size r < mr_len r')) \/
       (all_records r <> [] /\ (a = Ok (head_size r) /\ truncated r (mr_bytes r') /\ response_from_wire (mr_bytes r') = Ok (tc_only r) \/ a = Panic))
  else a = Err.
Proof.
  intros dat r a r' B Co Ld H. pose proof (response_render all_names dat r B Co (response_known_all r)) as R. rewrite H in R.
  destruct (head_size r <=? length dat); auto. destruct R as [C|(Nr & [C|C])]; [left|right|right; auto].
  - pose proof C as (Ea & Eb & I' & (tl & Et) & P). split; auto.
    assert (Lc : (N.of_nat (mr_len r') <= 65535)%N).
    { pose proof (inv_len _ _ I'). assert (cap r' = length dat); [|lia].
      pose proof (proj1 (simple_body r Co)) as (P' & Em). specialize (Em _ _ (inv_new dat B)). rewrite Eb in Em. destruct Em as ((_ & Cc & _) & _). exact Cc. }
    destruct (complete_decodes (mr_new dat) r a r' Co C Lc) as [Hm Hd]. split; auto. pose proof (mr_bytes_len _ _ I') as Ln. split; auto. split; auto.
    intros Nr. pose proof (mr_bytes_bytes _ _ I') as Bw. pose proof Co as (_ & _ & _ & S1 & S2 & S3).
    assert (Fi : Forall rr_wf (all_records r)) by (unfold all_records; rewrite !Forall_app; repeat split; eapply rr_fine_wf, section_ok_fine; eauto).
    assert (P2 : Prrs (all_records r) (rd_of (mr_bytes r')) (head_size r) (mr_len r')) by (eapply mono_rrs; [|exact P]; intros i c; apply rdm_rd_of; auto).
    assert (Lh : head_size r <= length (mr_bytes r')).
    { rewrite Et. unfold head_bytes. rewrite !app_length. change (length (header_octets (r_header r))) with 12. unfold question_octets, head_size. rewrite !app_length. cbn [u16_bytes length]. lia. }
    apply Prrs_at in P2; auto; [|rewrite Ln; auto]. destruct P2 as [P2 _]. apply rrs_at_le in P2; auto. destruct (all_records r); [contradiction|]. cbn [length] in P2. lia.
  - split; auto. left. split; [apply C|]. eapply cut_off_decodes; eauto.
Qed.
Lemma response_round_trip : forall dat r n r', bytes dat -> consistent r -> (N.of_nat (length dat) <= 65535)%N -> response_to_wire r (mr_new dat) = (Ok n, r') ->
  all_records r = [] \/ n <> head_size r ->
  n = length (mr_bytes r') /\ message_at (mr_bytes r') (r_question r) (records (r_answer r)) (records (r_authority r)) (records (r_additional r)) /\ response_from_wire (mr_bytes r') = Ok r.
Proof.
  intros dat r n r' B Co Ld H Hn. pose proof (response_outcome dat r _ r' B Co Ld H) as R. destruct (head_size r <=? length dat); [|discriminate].
  destruct R as [(A1 & A2 & A3 & A4 & A5)|(Nr & [(A1 & _)|A1])]; [|exfalso|discriminate].
  - inversion A1; subst n. auto.
  - inversion A1. destruct Hn; auto.
Qed.
Lemma reencode : forall w r dat n r', bytes w -> bytes dat -> (N.of_nat (length dat) <= 65535)%N -> response_from_wire w = Ok r ->
  response_to_wire r (mr_new dat) = (Ok n, r') -> all_records r = [] \/ n <> head_size r -> response_from_wire (mr_bytes r') = Ok r.
Proof.
  intros w r dat n r' Bw B Ld H E Hn. destruct (response_from_wire_sound w r Bw H) as (an & ns & ar & _ & _ & Co & _).
  eapply response_round_trip; eauto.
Qed.
Lemma response_accepts_iff : forall w, bytes w -> ((exists r, response_from_wire w = Ok r) <-> exists q an ns ar, message_at w q an ns ar /\ acceptable an ns ar).
Proof.
  intros w Bw. split.
  - intros (r & H). destruct (response_from_wire_sound w r Bw H) as (an & ns & ar & Hm & Ha & _). eauto 10.
  - intros (q & an & ns & ar & Hm & Ha). destruct (response_accepts w q an ns ar Bw Hm Ha) as (h & _ & E). eauto.
Qed.

(** C32: the runs *)
Lemma grp_runs : forall xs last r0, run_of r0 last -> exists runs, List.concat runs = r0 ++ xs /\ Forall2 run_of runs (grp last xs).
Proof.
  induction xs as [|x xs IH]; intros last r0 R; cbn [grp].
  - exists [r0]. cbn [List.concat]. rewrite app_nil_r. split; auto.
  - destruct (sameb last (single x)).
    + destruct (IH (grow last x) (r0 ++ [x])) as (runs & E & F).
      { destruct R as (y & ys & -> & A1 & A2 & A3 & A4 & A5). exists y, (ys ++ [x]). split; auto. unfold grow. cbn [rs_name rs_type rs_class rs_ttl rs_rdatas].
        do 4 (split; [assumption|]). change (y :: ys ++ [x]) with ((y :: ys) ++ [x]). rewrite A5. rewrite flat_map_app. cbn [flat_map]. rewrite app_nil_r. reflexivity. }
      exists runs. split; auto. rewrite E, <- app_assoc. reflexivity.
    + destruct (IH (single x) [x]) as (runs & E & F).
      { exists x, []. unfold single. cbn [rs_name rs_type rs_class rs_ttl rs_rdatas flat_map]. rewrite app_nil_r. repeat split. }
      exists (r0 :: runs). cbn [List.concat]. rewrite E. split; auto.
Qed.
Lemma group_collects : forall xs, collects xs (group xs).
Proof.
  intros [|x xs]; unfold collects, group.
  - exists []. split; constructor.
  - destruct (grp_runs xs (single x) [x]) as (runs & E & F); [|eauto].
    exists x, []. unfold single. cbn [rs_name rs_type rs_class rs_ttl rs_rdatas flat_map]. rewrite app_nil_r. repeat split.
Qed.
Lemma response_sections : forall w r, bytes w -> response_from_wire w = Ok r -> exists an ns ar,
  message_at w (r_question r) an ns ar /\ acceptable an ns ar /\ consistent r /\ header_from_wire (mkIn w 0) = (Ok (r_header r), mkIn w 12) /\
  (Forall2 rr_like an (records (r_answer r)) /\ Forall2 rr_like ns (records (r_authority r)) /\ Forall2 rr_like ar (records (r_additional r))) /\
  (collects an (r_answer r) /\ collects ns (r_authority r) /\ collects ar (r_additional r)) /\
  (uniform an -> records (r_answer r) = an) /\ (uniform ns -> records (r_authority r) = ns) /\ (uniform ar -> records (r_additional r) = ar).
Proof.
  intros w r Bw H. destruct (response_from_wire_sound w r Bw H) as (an & ns & ar & Hm & Ha & Co & L1 & L2 & L3 & U).
  destruct (response_accepts w _ an ns ar Bw Hm Ha) as (h & Eh & E). rewrite H in E.
  assert (Er : r = decoded h (r_question r) an ns ar) by congruence.
  assert (E1 : r_header r = h) by (rewrite Er; reflexivity). assert (E2 : r_answer r = group an) by (rewrite Er; reflexivity).
  assert (E3 : r_authority r = group ns) by (rewrite Er; reflexivity). assert (E4 : r_additional r = group ar) by (rewrite Er; reflexivity).
  exists an, ns, ar. split; auto. split; auto. split; auto. split; [rewrite E1; exact Eh|]. split; auto. split; auto.
  rewrite E2, E3, E4. auto using group_collects.
Qed.

(** C34 *)
Lemma head_question : forall h q tl, header_ok h -> question_ok q ->
  let w := (header_octets h ++ question_octets q) ++ tl in
  let p := 16 + length (n_raw (q_name q)) in bytes w ->
  12 <= length w /\ header_from_wire (mkIn w 0) = (Ok h, mkIn w 12) /\ question_at w 12 p q.
Proof.
  intros h q tl Hk Qk w p Bw.
  assert (Ew : w = header_octets h ++ question_octets q ++ tl) by (unfold w; rewrite app_assoc; auto).
  pose proof (header_octets_P h (question_octets q ++ tl) Hk) as P. rewrite <- Ew in P.
  destruct (decodes_header h Hk w 0 12 Bw ltac:(lia) P) as [E L]. split; [exact L|]. split; [exact E|].
  destruct Qk as ((ls & W & En) & Qt & Qc).
  pose proof (Pbytes_mid (header_octets h) (question_octets q) tl) as Q. rewrite <- Ew in Q. change (length (header_octets h)) with 12 in Q.
  unfold question_octets in Q at 1. apply Pbytes_app in Q. destruct Q as (x & Lx & Q1 & Q2). apply Pbytes_app in Q2. destruct Q2 as (y & Ly & Q2 & Q3).
  assert (Ex : x = 12 + wire_len ls) by (destruct Q1 as [-> _]; rewrite En; reflexivity).
  assert (Lw : x <= length w) by (eapply Pbytes_in; eauto). assert (Lw2 : y <= length w) by (eapply Pbytes_in; eauto).
  apply octets_P in Q2, Q3; auto. assert (Ey : y = x + 2) by (destruct Q2 as [-> _]; reflexivity).
  exists ls, x. split; auto. split; auto. split.
  { rewrite En in Q1. cbn [name_of n_raw] in Q1. unfold enc in Q1. apply Pbytes_app in Q1. destruct Q1 as (z & Lz & Q11 & Q12).
    rewrite <- (app_nil_r ls). destruct Q11 as [Ez Q11]. rewrite body_len in Ez. destruct Q12 as [Ex2 Q12]. cbn [length] in Ex2. subst z.
    apply wname_body; [apply W| |].
    - split; [rewrite body_len; auto|]. exact Q11.
    - replace x with (12 + elen ls + 1) by lia. constructor. specialize (Q12 0 0%N eq_refl). rewrite Nat.add_0_r in Q12. exact Q12. }
  split; auto. subst y. split; auto. split; auto. split.
  - replace (x + 4) with (12 + length (question_octets q)); auto. unfold question_octets. rewrite En, !app_length. cbn [n_raw name_of u16_bytes length]. unfold wire_len in Ex. lia.
  - unfold p. rewrite En. cbn [n_raw name_of]. unfold wire_len in Ex. lia.
Qed.
Lemma request_round_trip : forall dat rq, bytes dat -> request_ok rq ->
  let (a, r') := request_to_wire rq (mr_new dat) in
  if 16 + length (n_raw (q_name (rq_question rq))) <=? length dat
  then a = Ok (length (mr_bytes r')) /\ request_from_wire (mr_bytes r') = Ok rq else a = Err.
Proof.
  intros dat rq B (Hk & Hq & Ha & Qk). pose proof Qk as ((ls & W & En) & _).
  pose proof (head_spec all_names dat (rq_header rq) (rq_question rq) ls B Hk Qk W En (fun s Hs => Logic.I)) as H.
  replace (request_to_wire rq (mr_new dat)) with (((header_to_wire (rq_header rq) ;; question_to_wire (rq_question rq)) ;; mr_length) (mr_new dat)) by (rewrite bind_assoc; reflexivity).
  unfold bind at 1. destruct ((header_to_wire (rq_header rq) ;; question_to_wire (rq_question rq)) (mr_new dat)) as [a r1]. destruct H as (I1 & C1 & A1).
  assert (El : length (n_raw (q_name (rq_question rq))) = wire_len ls) by (rewrite En; reflexivity).
  rewrite El. destruct (16 + wire_len ls <=? length dat); [|subst a; reflexivity].
  destruct A1 as (-> & B1 & L1). unfold mr_length. rewrite (mr_bytes_len _ _ I1). split; auto.
  pose proof (mr_bytes_bytes _ _ I1) as Bw.
  rewrite B1 in *. rewrite <- (app_nil_r (header_octets (rq_header rq) ++ question_octets (rq_question rq))) in *.
  destruct (head_question (rq_header rq) (rq_question rq) [] Hk Qk Bw) as (L & E & Q).
  set (w := (header_octets (rq_header rq) ++ question_octets (rq_question rq)) ++ []) in *.
  pose proof (question_dec w 12 _ _ Bw L Q) as D.
  unfold request_from_wire, request_from_buf, bind, ib_new, ensure. rewrite E, Hq. cbn [N.eqb Pos.eqb]. rewrite D, Ha. cbn. destruct rq; reflexivity.
Qed.
Lemma request_decoded_ok : forall w r, bytes w -> request_from_wire w = Ok r ->
  header_from_wire (mkIn w 0) = (Ok (rq_header r), mkIn w 12) /\ request_ok r /\
  u16_at w 4 = 1%N /\ u16_at w 6 = 0%N /\ exists e, question_at w 12 e (rq_question r).
Proof.
  intros w r Bw H. destruct (request_decoded w r Bw H) as (E & Hk & (C1 & C2 & _) & A1 & A2 & e & Q).
  split; auto. split; [|eauto]. split; auto. split; [congruence|]. split; [congruence|]. eapply question_at_ok; eauto.
Qed.

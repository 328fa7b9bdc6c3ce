(** Response::to_wire: the three outcomes, and what the bytes decode to. *)
From Verif Require Import Base NameModel RenderModel CodesModel RDataModel MsgModel SpecName SpecBuf SpecCodes SpecMsg
  BaseLemmas BitLemmas NameWireProofs NameOpsProofs NameOpsProofs2 RenderProofs RenderProofs2 BufProofs LiveProofs CodesProofs WireProofs
  RDataProofs DecodeProofs MsgProofs MsgProofs2 MsgProofs3 MsgProofs4 MsgProofs5.

Lemma extends_bytes : forall r r', extends r r' -> log_ok r -> log_ok r' -> exists tl, mr_bytes r' = mr_bytes r ++ tl /\ length tl = mr_len r' - mr_len r.
Proof.
  intros r r' (H1 & H2 & H3) L L'. exists (skipn (mr_len r) (mr_bytes r')). rewrite skipn_length, mr_bytes_length by auto. split; auto.
  rewrite <- (firstn_skipn (mr_len r) (mr_bytes r')) at 1. f_equal. unfold mr_bytes, ob_bytes, log_ok, ob_capacity, mr_len in *.
  rewrite firstn_firstn, Nat.min_l by auto. apply nth_error_ext. intros i. destruct (Nat.lt_ge_cases i (ob_len (mr_buf r))).
  - rewrite !nth_firstn by auto. auto.
  - transitivity (@None N); [|symmetry]; apply nth_error_None; rewrite firstn_length; lia.
Qed.
(** All names of the response (with their ancestors) are known. *)
Definition response_known {KN : names} (r : response) : Prop := all_known (q_name (r_question r)) /\
  forall s rs, s = r_answer r \/ s = r_authority r \/ s = r_additional r -> forall l, s = Some l -> In rs l -> rrset_known rs.
Lemma section_ok_wf {KN : names} : forall b c s, section_ok b c s -> (forall rs l, s = Some l -> In rs l -> rrset_known rs) -> section_wf s.
Proof.
  intros b c [l|] [_ H] Kn; cbn [section_wf]; auto. destruct H as (_ & F & _). split; apply Forall_forall.
  - intros rs Hrs. rewrite Forall_forall in F. destruct (F rs Hrs) as (W & _ & _ & _ & D & _). split; auto. rewrite Forall_forall in *. intros d Hd. apply D. auto.
  - intros rs Hrs. eapply Kn; eauto.
Qed.
Definition head_bytes (r : response) : list N := header_octets (r_header r) ++ question_octets (r_question r).
(** The whole message, without the truncation logic. *)
Definition body_to_wire (r : response) : M render unit :=
  header_to_wire (r_header r) ;; question_to_wire (r_question r) ;; mapM_ section_to_wire [r_answer r; r_authority r; r_additional r].
Lemma sections_whole : forall resp pos ss r r', sections_to_wire resp pos ss r = (Ok None, r') <-> mapM_ section_to_wire ss r = (Ok tt, r').
Proof.
  intros resp pos. induction ss as [|s ss IH]; intros r r'; cbn [sections_to_wire mapM_].
  - unfold ret. split; intros H; inversion H; auto.
  - unfold bind. destruct (section_to_wire s r) as [[[]| | |] r1]; try (split; discriminate); auto.
    split; [|discriminate]. destruct (response_truncate resp pos r1) as [[[]| | |] r2]; unfold ret; discriminate.
Qed.
Definition complete {KN : names} (r0 : render) (r : response) (a : res nat) (r' : render) : Prop :=
  a = Ok (mr_len r') /\ body_to_wire r r0 = (Ok tt, r') /\ inv (fun _ => false) r' /\ (exists tl, mr_bytes r' = head_bytes r ++ tl) /\
  Prrs (all_records r) (rdm (fun _ => false) r') (head_size r) (mr_len r').
Definition cut_off (r : response) (a : res nat) (r' : render) : Prop :=
  a = Ok (head_size r) /\ log_ok r' /\ mr_bytes r' = header_octets (tc_header (r_header r)) ++ question_octets (r_question r).
Lemma response_render (K : names) : forall dat r, bytes dat -> consistent r -> response_known r ->
  let (a, r') := response_to_wire r (mr_new dat) in
  if head_size r <=? length dat then complete (mr_new dat) r a r' \/ (all_records r <> [] /\ (cut_off r a r' \/ a = Panic)) else a = Err.
Proof.
  intros dat r B (Hk & Hq1 & Qk & S1 & S2 & S3) (Kq & Kr). pose proof Qk as ((ls & W & En) & _).
  pose proof (head_spec K dat (r_header r) (r_question r) ls B Hk Qk W En (fun s Hs => Kq ls s En Hs)) as H.
  assert (Hs : head_size r = 16 + wire_len ls) by (unfold head_size; rewrite En; reflexivity).
  assert (R : response_to_wire r (mr_new dat) = ((header_to_wire (r_header r) ;; question_to_wire (r_question r)) ;;
    (let! pos := mr_length in
     let! early := sections_to_wire r pos [r_answer r; r_authority r; r_additional r] in
     match early with Some n => ret n | None => mr_length end)) (mr_new dat)).
  { rewrite bind_assoc. reflexivity. }
  rewrite R. unfold bind at 1. destruct ((header_to_wire (r_header r) ;; question_to_wire (r_question r)) (mr_new dat)) as [a r1] eqn:E1.
  destruct H as (I1 & C1 & A1). rewrite Hs. destruct (16 + wire_len ls <=? length dat); [|subst a; reflexivity].
  destruct A1 as (-> & B1 & L1). unfold bind at 1, mr_length at 1. rewrite L1.
  assert (Fw : Forall section_wf [r_answer r; r_authority r; r_additional r]).
  { repeat constructor; eapply section_ok_wf; eauto; intros rs l E Hin; eapply Kr; eauto. }
  destruct (sections_spec r (16 + wire_len ls) _ _ r1 Fw I1) as (a & r2 & E2 & D). unfold bind at 1. rewrite E2.
  assert (Er : flat_map records [r_answer r; r_authority r; r_additional r] = all_records r) by (cbn [flat_map]; rewrite app_nil_r; reflexivity).
  rewrite Er in D. destruct D as [(-> & X2 & I2 & P2)|(r3 & X3 & I3 & N3 & E3)].
  - unfold mr_length. left. split; auto. split.
    { unfold body_to_wire. rewrite <- bind_assoc. unfold bind at 1. rewrite E1. apply (sections_whole r (16 + wire_len ls)). auto. }
    split; auto. destruct (extends_bytes r1 r2 X2 (inv_len _ _ I1) (inv_len _ _ I2)) as (tl & Et & _).
    split; [exists tl; rewrite Et, B1; auto|]. rewrite Hs, <- L1. auto.
  - destruct (extends_bytes r1 r3 X3 (inv_len _ _ I1) (inv_len _ _ I3)) as (tl & Et & _).
    destruct (response_truncate_spec r r3 (question_octets (r_question r)) tl) as (b & r4 & E4 & D4); auto; [apply (inv_len _ _ I3)|rewrite Et, B1, app_assoc; auto|].
    replace (12 + length (question_octets (r_question r))) with (16 + wire_len ls) in E4
      by (unfold question_octets; rewrite En, !app_length; cbn [n_raw name_of u16_bytes length]; unfold wire_len; lia).
    unfold bind in E3. rewrite E4 in E3. destruct tl as [|x tl].
    + subst b. inversion E3; subst. auto.
    + destruct D4 as (-> & B4 & L4). unfold ret in E3. inversion E3; subst. unfold ret. right. split; auto. left. split; [rewrite Hs; auto|]. auto.
Qed.

(** * Decoding it *)
Lemma Pbytes_here : forall l rest, Pbytes l (rd_of (l ++ rest)) 0 (length l).
Proof. intros l rest. split; auto. intros i c Hi. unfold rd_of. cbn [Nat.add]. rewrite nth_error_app1; auto. apply nth_error_Some. congruence. Qed.
Lemma Pbytes_mid : forall pre l rest, Pbytes l (rd_of (pre ++ l ++ rest)) (length pre) (length pre + length l).
Proof.
  intros pre l rest. split; auto. intros i c Hi. unfold rd_of. rewrite nth_error_app2 by lia. replace (length pre + i - length pre) with i by lia.
  rewrite nth_error_app1; auto. apply nth_error_Some. congruence.
Qed.
Lemma header_octets_P : forall h rest, header_ok h -> Pheader h (rd_of (header_octets h ++ rest)) 0 12.
Proof.
  intros h rest Hk. pose proof (header_flag_lt h Hk) as Hf. destruct Hk as ((H1 & H2 & H3 & H4 & H5) & _).
  pose proof (Pbytes_here (header_octets h) rest) as P. change (length (header_octets h)) with 12 in P.
  set (rd := rd_of (header_octets h ++ rest)) in *. clearbody rd. unfold header_octets in P. cbn [flat_map] in P. rewrite app_nil_r in P.
  rewrite <- !be16_u16 in P by auto. unfold Pheader.
  repeat (apply Pbytes_app in P; destruct P as (? & ? & ? & P); eexists; split; [eassumption|]; split; [assumption|]). exact P.
Qed.
Lemma head_message : forall h q tl an ns ar, header_ok h -> question_ok q -> h_qd h = 1%N ->
  h_an h = blen an -> h_ns h = blen ns -> h_ar h = blen ar ->
  let w := (header_octets h ++ question_octets q) ++ tl in
  let p := 16 + length (n_raw (q_name q)) in
  (exists p1 p2 p3, rrs_at w p p1 an /\ rrs_at w p1 p2 ns /\ rrs_at w p2 p3 ar) -> bytes w ->
  message_at w q an ns ar /\ header_from_wire (mkIn w 0) = (Ok h, mkIn w 12).
Proof.
  intros h q tl an ns ar Hk Qk Hqd Han Hns Har w p (p1 & p2 & p3 & R1 & R2 & R3) Bw.
  assert (Ew : w = header_octets h ++ question_octets q ++ tl) by (unfold w; rewrite app_assoc; auto).
  pose proof (header_octets_P h (question_octets q ++ tl) Hk) as P. rewrite <- Ew in P.
  destruct (decodes_header h Hk w 0 12 Bw ltac:(lia) P) as [E L]. split; auto.
  pose proof (Pheader_bytes _ _ _ _ P) as (_ & _ & _ & C1 & C2 & C3 & C4). cbn [Nat.add] in *.
  destruct Hk as ((K1 & K2 & K3 & K4 & K5) & _). split; [exact L|]. unfold u16_at. rewrite C1, C2, C3, C4, !be16_be by auto.
  do 4 (split; [congruence|]). exists p, p1, p2, p3. split; auto.
  destruct Qk as ((ls & W & En) & Qt & Qc).
  pose proof (Pbytes_mid (header_octets h) (question_octets q) tl) as Q. rewrite <- Ew in Q. change (length (header_octets h)) with 12 in Q.
  unfold question_octets in Q at 1. apply Pbytes_app in Q. destruct Q as (x & Lx & Q1 & Q2). apply Pbytes_app in Q2. destruct Q2 as (y & Ly & Q2 & Q3).
  assert (Ex : x = 12 + wire_len ls) by (destruct Q1 as [-> _]; rewrite En; reflexivity).
  assert (Lw : x <= length w) by (eapply Pbytes_in; eauto). assert (Lw2 : y <= length w) by (eapply Pbytes_in; eauto).
  apply octets_P in Q2, Q3; auto. assert (Ey : y = x + 2) by (destruct Q2 as [-> _]; reflexivity).
  exists ls, x. split; auto. split; auto. split.
  { rewrite En in Q1. cbn [name_of n_raw] in Q1. unfold enc in Q1. apply Pbytes_app in Q1. destruct Q1 as (z & Lz & Q11 & Q12).
    rewrite <- (app_nil_r ls). destruct Q11 as [Ez Q11]. rewrite body_len in Ez. destruct Q12 as [Ex2 Q12]. cbn [length] in Ex2. subst z.
    apply wname_body; [apply W| |].
    - split; [rewrite body_len; auto|]. exact Q11.
    - replace x with (12 + elen ls + 1) by lia. constructor. specialize (Q12 0 0%N eq_refl). rewrite Nat.add_0_r in Q12. exact Q12. }
  split; auto. subst y. split; auto. split; auto. split.
  - replace (x + 4) with (12 + length (question_octets q)); auto. unfold question_octets. rewrite En, !app_length. cbn [n_raw name_of u16_bytes length]. unfold wire_len in Ex. lia.
  - unfold p. rewrite En. cbn [n_raw name_of]. unfold wire_len in Ex. lia.
Qed.

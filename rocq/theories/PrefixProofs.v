(** Messages rendered behind other octets (C117). *)
From Verif Require Import Base NameModel RenderModel CodesModel RDataModel MsgModel SpecName SpecBuf SpecCodes SpecMsg BaseLemmas NameWireProofs
  RenderProofs RenderProofs2 BufProofs WireProofs RDataProofs MsgProofs MsgProofs4 MsgProofs5 IndepProofs MsgProofs6 MsgProofs8 LiveProofs.

Lemma nameless_inv : forall dat h r, bytes dat -> history (mr_new dat) h r -> names_in h = [] -> @inv no_names (hmask h) r.
Proof.
  intros dat h r B H N0. apply (@history_inv_k no_names dat h r B H). intros e ls c s He Eo _.
  assert (X : In ls (names_in h)) by (unfold names_in; apply in_flat_map; exists e; rewrite Eo; cbn; auto). rewrite N0 in X. destruct X.
Qed.
(** Header and question, with no name written before. *)
Lemma head_any : forall m r0 h q ls, @inv no_names m r0 -> header_ok h -> question_ok q -> wf_labels ls -> q_name q = name_of ls ->
  let (a, r) := (header_to_wire h ;; question_to_wire q) r0 in
  @inv all_names m r /\ extends r0 r /\
  if mr_len r0 + (16 + wire_len ls) <=? ob_capacity (mr_buf r0) then a = Ok tt /\ mr_bytes r = mr_bytes r0 ++ (header_octets h ++ question_octets q)
  else a = Err.
Proof.
  intros m r0 h q ls I0 Hk (Qn & Qt & Qc) W En.
  pose proof (@logs_header no_names h Hk m r0 I0) as H. unfold bind.
  destruct (header_to_wire h r0) as [a r1]. destruct H as (I1 & X1 & A1). pose proof X1 as (_ & C1 & _).
  change (length (header_octets h)) with 12 in A1.
  assert (R : question_to_wire q r1 = (write_name (name_of ls) true ;; (rrtype_to_wire (q_type q) ;; rrclass_to_wire (q_class q))) r1).
  { unfold question_to_wire. rewrite En. reflexivity. }
  destruct (mr_len r0 + 12 <=? ob_capacity (mr_buf r0)) eqn:C.
  2:{ subst a. split; [eapply (inv_known no_names); [intros ? []|auto]|]. split; auto.
      replace (mr_len r0 + (16 + wire_len ls) <=? ob_capacity (mr_buf r0)) with false; auto. symmetry. apply Nat.leb_gt. apply Nat.leb_gt in C. lia. }
  destruct A1 as (-> & B1 & L1). rewrite R. unfold bind at 1.
  pose proof (first_name all_names _ r1 ls I1 W (fun s Hs => Logic.I)) as F. destruct (write_name (name_of ls) true r1) as [a r2]. destruct F as (I2 & X2 & A2).
  pose proof X2 as (_ & C2 & _). pose proof (extends_trans _ _ _ X1 X2) as X12. rewrite L1, C1 in A2.
  destruct (mr_len r0 + 12 + wire_len ls <=? ob_capacity (mr_buf r0)) eqn:C'.
  2:{ destruct A2 as [-> _]. split; auto. split; auto. replace (mr_len r0 + (16 + wire_len ls) <=? ob_capacity (mr_buf r0)) with false; auto. symmetry. apply Nat.leb_gt. apply Nat.leb_gt in C'. lia. }
  destruct A2 as (-> & B2 & L2).
  assert (Lg : @logs all_names (rrtype_to_wire (q_type q) ;; rrclass_to_wire (q_class q)) (u16_bytes (rrtype_u16 (q_type q)) ++ u16_bytes (rrclass_u16 (q_class q)))).
  { apply logs_seq; apply logs_u16; [apply Qt|apply Qc]. }
  specialize (Lg _ r2 I2). destruct ((rrtype_to_wire (q_type q) ;; rrclass_to_wire (q_class q)) r2) as [a r3]. destruct Lg as (I3 & X3 & A3).
  rewrite L2, C2, C1 in A3. change (length (u16_bytes (rrtype_u16 (q_type q)) ++ u16_bytes (rrclass_u16 (q_class q)))) with 4 in A3.
  split; auto. split; [eapply extends_trans; eauto|]. replace (mr_len r0 + 12 + wire_len ls + 4) with (mr_len r0 + (16 + wire_len ls)) in A3 by lia.
  destruct (mr_len r0 + (16 + wire_len ls) <=? ob_capacity (mr_buf r0)); auto.
  destruct A3 as (-> & B3 & L3). split; auto. rewrite B3, B2, B1. unfold question_octets. rewrite En, <- !app_assoc. reflexivity.
Qed.

Theorem request_behind : forall dat h r0 rq, bytes dat -> history (mr_new dat) h r0 -> names_in h = [] -> request_ok rq ->
  let (a, r') := request_to_wire rq r0 in
  if mr_len r0 + (16 + length (n_raw (q_name (rq_question rq)))) <=? length dat
  then exists w, a = Ok (length (mr_bytes r')) /\ mr_bytes r' = mr_bytes r0 ++ w /\ request_from_wire w = Ok rq
  else a = Err.
Proof.
  intros dat h r0 rq B H N0 (Hk & Hq & Ha & Qk). pose proof Qk as ((ls & W & En) & _).
  pose proof (nameless_inv dat h r0 B H N0) as I0.
  assert (C : ob_capacity (mr_buf r0) = length dat) by (eapply hist_capacity; eauto).
  pose proof (head_any _ r0 (rq_header rq) (rq_question rq) ls I0 Hk Qk W En) as X.
  replace (request_to_wire rq r0) with (((header_to_wire (rq_header rq) ;; question_to_wire (rq_question rq)) ;; mr_length) r0) by (rewrite bind_assoc; reflexivity).
  unfold bind at 1. destruct ((header_to_wire (rq_header rq) ;; question_to_wire (rq_question rq)) r0) as [a r1]. destruct X as (I1 & C1 & A1).
  assert (El : length (n_raw (q_name (rq_question rq))) = wire_len ls) by (rewrite En; reflexivity).
  rewrite El. rewrite C in A1. destruct (mr_len r0 + (16 + wire_len ls) <=? length dat); [|subst a; reflexivity].
  destruct A1 as (-> & B1). unfold mr_length. rewrite (mr_bytes_len _ _ I1).
  exists (header_octets (rq_header rq) ++ question_octets (rq_question rq)). split; [reflexivity|]. split; [exact B1|].
  pose proof (mr_bytes_bytes _ _ I1) as Bw. rewrite B1 in Bw. apply Forall_app in Bw. destruct Bw as [_ Bw].
  rewrite <- (app_nil_r (header_octets (rq_header rq) ++ question_octets (rq_question rq))) in *.
  destruct (head_question (rq_header rq) (rq_question rq) [] Hk Qk Bw) as (L & E & Q).
  set (w := (header_octets (rq_header rq) ++ question_octets (rq_question rq)) ++ []) in *.
  pose proof (question_dec w 12 _ _ Bw L Q) as D.
  unfold request_from_wire, request_from_buf, bind, ib_new, ensure. rewrite E, Hq. cbn [N.eqb Pos.eqb]. rewrite D, Ha. cbn. destruct rq; reflexivity.
Qed.
(** The same for a response without records. *)
Theorem response_behind : forall dat h r0 r, bytes dat -> history (mr_new dat) h r0 -> names_in h = [] -> consistent r ->
  r_answer r = None -> r_authority r = None -> r_additional r = None ->
  let (a, r') := response_to_wire r r0 in
  if mr_len r0 + (16 + length (n_raw (q_name (r_question r)))) <=? length dat
  then exists w, a = Ok (length (mr_bytes r')) /\ mr_bytes r' = mr_bytes r0 ++ w /\ response_from_wire w = Ok r
  else a = Err.
Proof.
  intros dat h r0 r B H N0 (Hk & Hq & Qk & [Ha _] & [Hs _] & [Hd _]) A1 A2 A3. pose proof Qk as ((ls & W & En) & _).
  rewrite A1 in Ha. rewrite A2 in Hs. rewrite A3 in Hd. change (h_an (r_header r) = 0%N) in Ha. change (h_ns (r_header r) = 0%N) in Hs. change (h_ar (r_header r) = 0%N) in Hd.
  pose proof (nameless_inv dat h r0 B H N0) as I0.
  assert (C : ob_capacity (mr_buf r0) = length dat) by (eapply hist_capacity; eauto).
  pose proof (head_any _ r0 (r_header r) (r_question r) ls I0 Hk Qk W En) as X.
  replace (response_to_wire r r0) with (((header_to_wire (r_header r) ;; question_to_wire (r_question r)) ;; let! pos := mr_length in mr_length) r0).
  2:{ unfold response_to_wire. rewrite bind_assoc, A1, A2, A3. reflexivity. }
  unfold bind at 1. destruct ((header_to_wire (r_header r) ;; question_to_wire (r_question r)) r0) as [a r1]. destruct X as (I1 & C1 & B0).
  assert (El : length (n_raw (q_name (r_question r))) = wire_len ls) by (rewrite En; reflexivity).
  rewrite El. rewrite C in B0. destruct (mr_len r0 + (16 + wire_len ls) <=? length dat); [|subst a; reflexivity].
  destruct B0 as (-> & B1). unfold bind, mr_length. rewrite (mr_bytes_len _ _ I1).
  exists (header_octets (r_header r) ++ question_octets (r_question r)). split; [reflexivity|]. split; [exact B1|].
  pose proof (mr_bytes_bytes _ _ I1) as Bw. rewrite B1 in Bw. apply Forall_app in Bw. destruct Bw as [_ Bw].
  rewrite <- (app_nil_r (header_octets (r_header r) ++ question_octets (r_question r))) in *.
  destruct (head_question (r_header r) (r_question r) [] Hk Qk Bw) as (L & E & Q).
  set (w := (header_octets (r_header r) ++ question_octets (r_question r)) ++ []) in *.
  pose proof (question_dec w 12 _ _ Bw L Q) as D.
  unfold response_from_wire, response_from_buf, bind, ib_new, ensure. rewrite E, Hq. cbn [N.eqb Pos.eqb]. unfold ret at 1. rewrite D, Ha, Hs, Hd. cbn. destruct r; cbn in *; subst; reflexivity.
Qed.

(** Whole messages: decoding is total, accepts exactly the well-formed messages, and says what the octets say. *)
From Verif Require Import Base NameModel RenderModel CodesModel RDataModel MsgModel SpecName SpecBuf SpecCodes SpecMsg
  BaseLemmas BitLemmas NameWireProofs NameOpsProofs NameOpsProofs2 RenderProofs RenderProofs2 BufProofs CodesProofs WireProofs
  RDataProofs DecodeProofs MsgProofs MsgProofs2 MsgProofs3.

Lemma tdec_self : forall A w p (m : M inbuf A) W, tdec w p m W -> tdec w p m (fun v q => W v q /\ m (mkIn w p) = (Ok v, mkIn w q)).
Proof.
  intros A w p m W (r & q & E & L & Sf & H). exists r, q. split; auto. split; auto. split; auto. intros v ->. destruct (H v eq_refl). auto.
Qed.
Lemma tdec_header : forall w p, bytes w -> p <= length w -> tdec w p header_from_wire (fun h q => q = p + 12 /\ header_ok h /\
  h_qd h = u16_at w (p + 4) /\ h_an h = u16_at w (p + 6) /\ h_ns h = u16_at w (p + 8) /\ h_ar h = u16_at w (p + 10)).
Proof.
  intros w p Bw L. eapply tdec_weaken; [apply (tdec_self _ _ _ _ (fun _ _ => True))|].
  - unfold header_from_wire. do 6 (eapply tdec_bind; [apply tdec_u16; auto; lia|intros ? ? ? (-> & _ & _)]). apply tdec_ret; auto. lia.
  - cbn beta. intros h q Lq [_ H]. pose proof (header_decoded_ok _ _ _ _ Bw L H) as Hk.
    destruct (header_decode_inv _ _ _ _ Bw L H) as (_ & Eb & H1 & H2 & H3 & H4 & H5 & _). inversion Eb; subst q. unfold u16_at. auto 10.
Qed.
Lemma tdec_question : forall w p, bytes w -> p <= length w -> tdec w p question_from_wire (fun v q => question_at w p q v).
Proof.
  intros w p Bw Lp. unfold question_from_wire. eapply tdec_bind; [apply tdec_name; auto|]. intros n m Lm (ls & Wl & -> & Wn & Lt).
  eapply tdec_bind with (W1 := fun t q => q = m + 2 /\ type_ok t /\ octets w m q (u16_bytes (rrtype_u16 t))).
  { unfold rrtype_from_wire. eapply tdec_bind; [apply tdec_u16; auto; lia|]. intros v q Lq (-> & Bv & O). apply tdec_ret; [lia|].
    destruct (type_new_ok _ Bv) as [T1 T2]. rewrite T2. auto. }
  intros t q Lq (-> & Tt & Ot).
  eapply tdec_bind with (W1 := fun t q => q = m + 2 + 2 /\ class_ok t /\ octets w (m + 2) q (u16_bytes (rrclass_u16 t))).
  { unfold rrclass_from_wire. eapply tdec_bind; [apply tdec_u16; auto; lia|]. intros v q Lq' (-> & Bv & O). apply tdec_ret; [lia|].
    destruct (class_new_ok _ Bv) as [T1 T2]. rewrite T2. auto. }
  intros c q Lq2 (-> & Tc & Oc). apply tdec_ret; [lia|]. replace (m + 2 + 2) with (m + 4) in * by lia.
  exists ls, m. cbn [q_name q_type q_class]. auto 10.
Qed.
Lemma question_at_le : forall w s e q, question_at w s e q -> s <= e <= length w.
Proof.
  intros w s e q (ls & m & W & En & Hn & Wt & Ht & Wc & Hc & ->). apply octets_lt in Hc. pose proof (wname_end_pos _ _ _ _ _ Hn). lia.
Qed.
Lemma question_dec : forall w s e q, bytes w -> s <= length w -> question_at w s e q -> question_from_wire (mkIn w s) = (Ok q, mkIn w e).
Proof.
  intros w s e q Bw Ls (ls & m & W & En & Hn & Wt & Ht & Wc & Hc & ->).
  unfold question_from_wire, bind. destruct (decodes_name ls W w s m Bw Ls Hn) as [-> L1].
  apply octets_P in Ht; [|auto]. rewrite <- be16_u16 in Ht by apply Wt. destruct (decodes_type _ Wt w m _ Bw L1 Ht) as [-> L2].
  apply octets_P in Hc; [|auto]. rewrite <- be16_u16 in Hc by apply Wc. destruct (decodes_class _ Wc w _ _ Bw L2 Hc) as [-> L3].
  unfold ret. rewrite <- En. destruct q; reflexivity.
Qed.
Lemma question_at_ok : forall w s e q, question_at w s e q -> question_ok q.
Proof. intros w s e q (ls & m & W & En & Hn & Wt & Ht & Wc & Hc & _). split; [exists ls; auto|auto]. Qed.

(** OPT records next to each other. *)
Lemma same_owner_trans : forall a b c, same_owner a b -> same_owner b c -> same_owner a c.
Proof.
  intros a b c (x & y & X & Y & -> & -> & S1) (y' & z & Y' & Z & E & -> & S2). apply name_of_inj in E; [|apply Y|apply Y']. subst y'.
  exists x, z. unfold same_name in *. intuition congruence.
Qed.
Lemma opt_once_apart : forall xs last y, wf_owner last -> owners_wf xs -> rs_type last = rr_type y -> same_owner (rs_name last) (rr_owner y) ->
  (opt_once last xs <-> opts_apart (y :: xs)).
Proof.
  induction xs as [|x xs IH]; intros last y Wo F Et Eo; cbn [opt_once]; [cbn; tauto|].
  apply Forall_cons_iff in F. destruct F as [Fx F]. destruct (sameb_spec last (single x) Wo Fx) as [_ Sp].
  change (opts_apart (y :: x :: xs)) with (~ (rr_type y = TOPT /\ rr_type x = TOPT /\ same_owner (rr_owner y) (rr_owner x)) /\ opts_apart (x :: xs)).
  destruct (sameb last (single x)) eqn:Sb.
  - destruct (proj1 Sp eq_refl) as [T O]. cbn [single rs_type rs_name] in T, O. rewrite (IH (grow last x) x); auto.
    split; intros [A B]; split; auto; [intros (_ & X & _); auto|]. intros X. apply A. split; [congruence|]. split; auto.
    eapply same_owner_trans; [apply same_owner_sym; exact Eo|exact O].
  - rewrite (IH (single x) x); auto; [|apply same_owner_refl; auto]. split; [|tauto]. intros A. split; auto. intros (X & Y & Z).
    apply diff_false_true. apply Sp. split; [cbn [single rs_type]; congruence|]. eapply same_owner_trans; eauto.
Qed.
Lemma opts_once_apart : forall xs, owners_wf xs -> (opts_once xs <-> opts_apart xs).
Proof.
  intros [|x xs] F; cbn [opts_once]; [cbn; tauto|]. apply Forall_cons_iff in F. destruct F as [Fx F].
  apply opt_once_apart; auto. apply same_owner_refl. auto.
Qed.
Lemma starts_first : forall t xs, is_add t = false -> (starts_ok (is_add t) xs <-> first_not_opt xs).
Proof. intros t xs E. unfold starts_ok, first_not_opt. rewrite E. tauto. Qed.
Lemma starts_add : forall xs, starts_ok true xs. Proof. intros xs X. discriminate. Qed.
Lemma rrs_at_len : forall w xs s e, bytes w -> s <= length w -> rrs_at w s e xs -> s <= e <= length w.
Proof.
  intros w xs. induction xs as [|x xs IH]; intros s e Bw Ls H; cbn [rrs_at] in H; [lia|].
  destruct H as (m & H1 & H2). pose proof (rr_at_le _ _ _ _ Bw H1). specialize (IH m e Bw ltac:(lia) H2). lia.
Qed.

(** * Response *)
Definition decoded (h : header) (q : question) (an ns ar : list rr) : response := mkResponse h q (group an) (group ns) (group ar).
Definition counts_of (w : list N) (h : header) : Prop := h_qd h = u16_at w 4 /\ h_an h = u16_at w 6 /\ h_ns h = u16_at w 8 /\ h_ar h = u16_at w 10.
Lemma tdec_response : forall w, bytes w -> tdec w 0 response_from_buf (fun r e => exists h q an ns ar,
  header_from_wire (mkIn w 0) = (Ok h, mkIn w 12) /\ header_ok h /\ counts_of w h /\
  message_at w q an ns ar /\ acceptable an ns ar /\ r = decoded h q an ns ar).
Proof.
  intros w Bw. unfold response_from_buf. eapply tdec_bind; [apply tdec_self, tdec_header; auto; lia|].
  intros h p Lp ((-> & Hk & C1 & C2 & C3 & C4) & Eh). cbn [Nat.add] in *. apply tdec_ensure; [lia|]. intros Cq. apply N.eqb_eq in Cq.
  eapply tdec_bind; [apply tdec_question; auto; lia|]. intros q p0 L0 Hq.
  eapply tdec_bind; [apply tdec_section; auto; lia|]. intros s1 p1 L1 (an & N1 & R1 & G1 & S1 & O1 & ->).
  eapply tdec_bind; [apply tdec_section; auto; lia|]. intros s2 p2 L2 (ns & N2 & R2 & G2 & S2 & O2 & ->).
  eapply tdec_bind; [apply tdec_section; auto; lia|]. intros s3 p3 L3 (ar & N3 & R3 & G3 & S3 & O3 & ->).
  apply tdec_ret; [lia|]. exists h, q, an, ns, ar. split; auto. split; auto. split; [repeat split; auto|]. split; [|split; [|reflexivity]].
  - split; [lia|]. unfold blen. rewrite N1, N2, N3, !N2Nat.id. do 4 (split; [congruence|]). exists p0, p1, p2, p3. auto.
  - split; [repeat (apply Forall_app; split; auto)|]. apply opts_once_apart in O1, O2, O3; eauto using rrs_at_owner.
    repeat (split; [assumption|]). split; [apply (starts_first SAnswer)|apply (starts_first SAuthority)]; auto.
Qed.
Lemma response_from_wire_total : forall w, bytes w -> safe (response_from_wire w).
Proof. intros w Bw. destruct (tdec_response w Bw) as (r & q & E & _ & Sf & _). unfold response_from_wire, ib_new. rewrite E. exact Sf. Qed.
Lemma response_decoded : forall w r, bytes w -> response_from_wire w = Ok r -> exists h q an ns ar,
  header_from_wire (mkIn w 0) = (Ok h, mkIn w 12) /\ header_ok h /\ counts_of w h /\
  message_at w q an ns ar /\ acceptable an ns ar /\ r = decoded h q an ns ar.
Proof.
  intros w r Bw H. destruct (tdec_response w Bw) as (r' & q & E & _ & _ & K). unfold response_from_wire, ib_new in H. rewrite E in H. cbn [fst] in H.
  destruct (K r H) as [_ X]. exact X.
Qed.
Lemma header_dec_len : forall w, bytes w -> 12 <= length w -> exists h, header_from_wire (mkIn w 0) = (Ok h, mkIn w 12).
Proof.
  intros w Bw L. assert (G : forall p, p + 2 <= length w -> read_u16 (mkIn w p) = (Ok (be_val (bytes_at w p 2)), mkIn w (p + 2))).
  { intros p Lp. pose proof (read_call_spec R16 w p Bw ltac:(lia)) as E. unfold read_spec in E. replace (p + 2 <=? length w) with true in E by (symmetry; apply Nat.leb_le; lia).
    unfold read_call, bind in E. destruct (read_u16 (mkIn w p)) as [[x| | |] b]; unfold ret in E; inversion E. auto. }
  unfold header_from_wire, bind. rewrite G by lia. rewrite G by (cbn; lia). rewrite G by (cbn; lia). rewrite G by (cbn; lia).
  rewrite G by (cbn; lia). rewrite G by (cbn; lia). unfold ret. cbn [Nat.add]. eauto.
Qed.
Lemma response_accepts : forall w q an ns ar, bytes w -> message_at w q an ns ar -> acceptable an ns ar -> exists h,
  header_from_wire (mkIn w 0) = (Ok h, mkIn w 12) /\ response_from_wire w = Ok (decoded h q an ns ar).
Proof.
  intros w q an ns ar Bw (L & C1 & C2 & C3 & C4 & p0 & p1 & p2 & p3 & Hq & H1 & H2 & H3) (Lg & O1 & O2 & O3 & F1 & F2).
  destruct (header_dec_len w Bw L) as (h & Eh). exists h. split; auto.
  destruct (header_decode_inv w 0 _ _ Bw ltac:(lia) Eh) as (_ & _ & _ & D1 & D2 & D3 & D4 & _). cbn [Nat.add] in *. fold (u16_at w 4) (u16_at w 6) (u16_at w 8) (u16_at w 10) in *.
  pose proof (question_at_le _ _ _ _ Hq) as Q. apply Forall_app in Lg. destruct Lg as [G1 Lg]. apply Forall_app in Lg. destruct Lg as [G2 G3].
  pose proof (rrs_at_len w an p0 p1 Bw ltac:(lia) H1). pose proof (rrs_at_len w ns p1 p2 Bw ltac:(lia) H2). pose proof (rrs_at_len w ar p2 p3 Bw ltac:(lia) H3).
  apply opts_once_apart in O1, O2, O3; eauto using rrs_at_owner.
  unfold response_from_wire, response_from_buf, ib_new, bind. rewrite Eh. rewrite D1, C1. unfold ensure. rewrite N.eqb_refl. unfold ret at 1.
  rewrite (question_dec w 12 p0 q) by (auto; lia). rewrite D2, C2, D3, C3, D4, C4.
  rewrite (section_dec w an p0 p1 SAnswer) by (auto; try lia; apply starts_first; auto).
  rewrite (section_dec w ns p1 p2 SAuthority) by (auto; try lia; apply starts_first; auto).
  rewrite (section_dec w ar p2 p3 SAdditional) by (auto; try lia; apply starts_add). reflexivity.
Qed.
(** What is decoded is consistent and has the records of the wire. *)
Lemma response_from_wire_sound : forall w r, bytes w -> response_from_wire w = Ok r -> exists an ns ar,
  message_at w (r_question r) an ns ar /\ acceptable an ns ar /\ consistent r /\
  Forall2 rr_like an (records (r_answer r)) /\ Forall2 rr_like ns (records (r_authority r)) /\ Forall2 rr_like ar (records (r_additional r)) /\
  (uniform an -> records (r_answer r) = an) /\ (uniform ns -> records (r_authority r) = ns) /\ (uniform ar -> records (r_additional r) = ar).
Proof.
  intros w r Bw H. destruct (response_decoded w r Bw H) as (h & q & an & ns & ar & Eh & Hk & (D1 & D2 & D3 & D4) & Hm & Ha & ->).
  exists an, ns, ar. cbn [decoded r_question r_answer r_authority r_additional].
  split; auto. split; auto. destruct Hm as (L & C1 & C2 & C3 & C4 & p0 & p1 & p2 & p3 & Hq & H1 & H2 & H3). destruct Ha as (Lg & O1 & O2 & O3 & F1 & F2).
  pose proof (question_at_le _ _ _ _ Hq) as Q. apply Forall_app in Lg. destruct Lg as [G1 Lg]. apply Forall_app in Lg. destruct Lg as [G2 G3].
  pose proof (rrs_at_len w an p0 p1 Bw ltac:(lia) H1). pose proof (rrs_at_len w ns p1 p2 Bw ltac:(lia) H2). pose proof (rrs_at_len w ar p2 p3 Bw ltac:(lia) H3).
  apply opts_once_apart in O1, O2, O3; eauto using rrs_at_owner.
  apply rrs_at_fine in H1, H2, H3; auto; try lia.
  destruct (group_sound an false H1 O1) as [A1 A2]; [intros _; exact F1|].
  destruct (group_sound ns false H2 O2) as [B1 B2]; [intros _; exact F2|].
  destruct (group_sound ar true H3 O3) as [E1 E2]; [apply starts_add|].
  split.
  - split; auto. cbn [decoded r_header r_question r_answer r_authority r_additional]. rewrite D1, D2, D3, D4, C1, C2, C3, C4.
    split; auto. split; [eapply question_at_ok; eauto|]. auto.
  - do 3 (split; [assumption|]). split; [|split]; apply group_exact; auto.
Qed.

(** * Request *)
Lemma tdec_request : forall w, bytes w -> tdec w 0 request_from_buf (fun r e =>
  header_from_wire (mkIn w 0) = (Ok (rq_header r), mkIn w 12) /\ header_ok (rq_header r) /\ counts_of w (rq_header r) /\
  u16_at w 4 = 1%N /\ u16_at w 6 = 0%N /\ question_at w 12 e (rq_question r)).
Proof.
  intros w Bw. unfold request_from_buf. eapply tdec_bind; [apply tdec_self, tdec_header; auto; lia|].
  intros h p Lp ((-> & Hk & C1 & C2 & C3 & C4) & Eh). cbn [Nat.add] in *. destruct (N.eqb_spec (h_qd h) 1) as [Cq|Cq]; [|unfold bind; apply tdec_fail; lia].
  eapply tdec_bind; [apply tdec_question; auto; lia|]. intros q p0 L0 Hq.
  apply tdec_ensure; [lia|]. intros Ca. apply N.eqb_eq in Ca. apply tdec_ensure; [lia|]. intros _. apply tdec_ret; [lia|]. cbn [rq_header rq_question].
  split; auto. split; auto. split; [repeat split; auto|]. split; [congruence|]. split; [congruence|auto].
Qed.
Lemma request_from_wire_total : forall w, bytes w -> safe (request_from_wire w).
Proof. intros w Bw. destruct (tdec_request w Bw) as (r & q & E & _ & Sf & _). unfold request_from_wire, ib_new. rewrite E. exact Sf. Qed.
Lemma request_decoded : forall w r, bytes w -> request_from_wire w = Ok r ->
  header_from_wire (mkIn w 0) = (Ok (rq_header r), mkIn w 12) /\ header_ok (rq_header r) /\ counts_of w (rq_header r) /\
  u16_at w 4 = 1%N /\ u16_at w 6 = 0%N /\ exists e, question_at w 12 e (rq_question r).
Proof.
  intros w r Bw H. destruct (tdec_request w Bw) as (r' & q & E & _ & _ & K). unfold request_from_wire, ib_new in H. rewrite E in H. cbn [fst] in H.
  destruct (K r H) as (_ & A1 & A2 & A3 & A4 & A5 & A6). eauto 10.
Qed.

(** Messages beyond 64 KiB (C118): the round trip without a bound on the buffer. *)
From Verif Require Import Base NameModel RenderModel CodesModel RDataModel MsgModel SpecName SpecBuf SpecCodes SpecMsg SpecBig
  BaseLemmas BitLemmas NameWireProofs NameOpsProofs NameOpsProofs2 RenderProofs RenderProofs2 BufProofs LiveProofs CodesProofs WireProofs
  RDataProofs DecodeProofs MsgProofs MsgProofs2 MsgProofs3 MsgProofs4 MsgProofs5 MsgProofs6 MsgProofs7 MsgProofs8 IndepProofs FirstProofs FitProofs LocalProofs.

Lemma Pfield_size : forall v rd s e, Pfield v rd s e -> e <= s + field_room v.
Proof.
  assert (T : forall d, length (flat_map string_octets d) = list_sum (map (fun t => 1 + length t) d)).
  { induction d as [|t d IH]; [reflexivity|]. cbn [flat_map map]. rewrite app_length, IH. change (list_sum (?x :: ?l)) with (x + list_sum l). reflexivity. }
  intros v rd s e H. destruct v; cbn [Pfield] in H; unfold field_room; cbn [field_size].
  all: lazymatch type of H with
       | Pbytes _ _ _ _ => destruct H as [-> _]; rewrite ?T; unfold be16, be32, string_octets; cbn [length]; lia
       | _ => idtac end.
  destruct H as (ls & W & -> & H). apply wname_end in H. change (length (n_raw (name_of ls))) with (wire_len ls). lia.
Qed.
Lemma Pfields_size : forall vs rd s e, Pfields vs rd s e -> e <= s + list_sum (map field_room vs).
Proof.
  induction vs as [|v vs IH]; intros rd s e H; cbn [Pfields] in H.
  - red in H. lia.
  - destruct H as (m & _ & H1 & H2). apply Pfield_size in H1. apply IH in H2. cbn [map]. change (list_sum (?x :: ?l)) with (x + list_sum l). lia.
Qed.

Lemma Prr_at_any : forall w s e x, bytes w -> s <= length w -> data_fits x -> rr_wf x -> Prr x (rd_of w) s e -> rr_at w s e x /\ e <= length w.
Proof.
  intros w s e x Bw Ls Lw (Wt & Wc & Wl & Wd) (k & Lk & (m & Lm & (ls & W & En & Hn) & (m1 & L1 & Ht & m2 & L2 & Hc & Htt)) & Hd).
  pose proof (wname_end_bound _ _ _ _ _ Hn) as Bm.
  pose proof (Pbytes_in _ _ _ _ Bm Ht) as B1. pose proof (Pbytes_in _ _ _ _ B1 Hc) as B2. pose proof (Pbytes_in _ _ _ _ B2 Htt) as B3.
  assert (E1 : m1 = m + 2) by (destruct Ht as [-> _]; reflexivity). assert (E2 : m2 = m + 4) by (destruct Hc as [-> _]; cbn [be16 length]; lia).
  assert (E3 : k = m + 8) by (destruct Htt as [-> _]; cbn [be32 length]; lia). subst m1 m2 k.
  apply octets_P in Ht, Hc, Htt; auto. rewrite be16_u16 in Ht by apply Wt. rewrite be16_u16 in Hc by apply Wc. rewrite be32_u32 in Htt by apply Wl.
  assert (G : forall L, (L < 65536)%N -> Pbytes (be16 L) (rd_of w) (m + 8) (m + 10) ->
     e = m + 10 + N.to_nat L ->
     match rr_data x with None => L = 0%N | Some rd => L <> 0%N /\ wf_rdata (rr_type x) rd /\ fields_at w (m + 10) e (rd_fields rd) end ->
     rr_at w s e x).
  { intros L HL HP He Hm. exists ls, m, L. apply octets_P in HP; [|lia]. rewrite be16_u16 in HP by auto.
    do 12 (split; [assumption|]). assumption. }
  unfold data_fits in Lw. destruct (rr_data x) as [rd|].
  - destruct Hd as (Le & HL & HF). destruct Wd as [Wd Ho]. replace (m + 8 + 2) with (m + 10) in * by lia.
    pose proof (proj1 (has_octets_pos _ _ _ _ _ Wd HF) Ho) as Pos.
    pose proof (Pfields_size _ _ _ _ HF) as Sz.
    pose proof (wf_rdata_fields _ _ Wd) as [F _].
    assert (Lm10 : m + 10 <= length w) by (apply Pbytes_in in HL; lia).
    assert (HF' : fields_at w (m + 10) e (rd_fields rd)) by (eapply fields_at_P; eauto).
    assert (Le2 : e <= length w).
    { clear - HF F Bw Lm10. unfold Prdata in HF. revert HF Lm10. generalize (m + 10). induction F as [|k v ks vs W F IH]; intros p HF Lp; cbn [Pfields] in HF.
      - red in HF. lia.
      - destruct HF as (j & Lj & H1 & H2). pose proof (Pfield_in _ _ _ _ _ W Bw Lp H1). eapply IH; eauto. lia. }
    split; auto. apply G with (L := N.of_nat (e - (m + 10))); auto; try lia.
    + rewrite as_u16_small in HL by lia. replace (e - (m + 8) - 2) with (e - (m + 10)) in HL by lia. auto.
    + split; [lia|auto].
  - pose proof (Pbytes_in _ _ _ _ B3 Hd). assert (Ee : e = m + 10) by (destruct Hd as [-> _]; cbn [be16 length]; lia). subst e.
    split; auto. apply G with (L := 0%N); auto; lia.
Qed.
Lemma Prrs_at_any : forall w xs s e, bytes w -> s <= length w -> Forall data_fits xs -> Forall rr_wf xs -> Prrs xs (rd_of w) s e -> rrs_at w s e xs /\ e <= length w.
Proof.
  intros w xs s e Bw Ls Lw F. revert s Ls. induction F as [|x xs W F IH]; intros s Ls H; cbn [Prrs rrs_at] in *.
  - red in H. subst. auto.
  - destruct H as (m & Lm & H1 & H2). inversion Lw; subst. destruct (Prr_at_any w s m x Bw Ls ltac:(auto) W H1) as [A Lm']. destruct (IH ltac:(auto) m Lm' H2) as [B Le]. split; auto. exists m. auto.
Qed.
Lemma complete_decodes_any {KN : names} : forall r0 r a r', consistent r -> complete r0 r a r' -> Forall data_fits (all_records r) ->
  message_at (mr_bytes r') (r_question r) (records (r_answer r)) (records (r_authority r)) (records (r_additional r)) /\ response_from_wire (mr_bytes r') = Ok r.
Proof.
  intros r0 r a r' Co (Ea & _ & I & (tl & Et) & P) Df. pose proof Co as (Hk & Hq & Qk & S1 & S2 & S3).
  pose proof (mr_bytes_bytes _ _ I) as Bw. set (w := mr_bytes r') in *. pose proof (mr_bytes_len _ _ I) as Ln. fold w in Ln.
  assert (P' : Prrs (all_records r) (rd_of w) (head_size r) (mr_len r')) by (eapply mono_rrs; [|exact P]; intros i c; apply rdm_rd_of; auto).
  assert (Lh : head_size r <= length w).
  { rewrite Et. unfold head_bytes. rewrite !app_length. change (length (header_octets (r_header r))) with 12. unfold question_octets, head_size. rewrite !app_length. cbn [u16_bytes length]. lia. }
  unfold all_records in P', Df. apply Forall_app in Df. destruct Df as [D1 Df]. apply Forall_app in Df. destruct Df as [D2 D3].
  apply Prrs_app in P'. destruct P' as (p1 & L1 & P1 & P'). apply Prrs_app in P'. destruct P' as (p2 & L2 & P2 & P3).
  apply Prrs_at_any in P1; auto; [|eapply rr_fine_wf, section_ok_fine; eauto]. destruct P1 as [P1 G1].
  apply Prrs_at_any in P2; auto; [|eapply rr_fine_wf, section_ok_fine; eauto]. destruct P2 as [P2 G2].
  apply Prrs_at_any in P3; auto; [|eapply rr_fine_wf, section_ok_fine; eauto]. destruct P3 as [P3 G3].
  destruct (head_message (r_header r) (r_question r) tl (records (r_answer r)) (records (r_authority r)) (records (r_additional r))) as [Hm Eh];
    [exact Hk|exact Qk|exact Hq|exact (proj1 S1)|exact (proj1 S2)|exact (proj1 S3)| | |].
  { fold (head_bytes r). rewrite <- Et. exists p1, p2, (mr_len r'). auto. }
  { fold (head_bytes r). rewrite <- Et. auto. }
  fold (head_bytes r) in Hm, Eh. rewrite <- Et in Hm, Eh. split; auto.
  destruct (response_accepts w _ _ _ _ Bw Hm (consistent_acceptable r Co)) as (h & Eh' & ->). rewrite Eh in Eh'. inversion Eh'; subst h.
  unfold decoded. rewrite (proj1 (section_ok_group _ _ _ S1)), (proj1 (section_ok_group _ _ _ S2)), (proj1 (section_ok_group _ _ _ S3)). destruct r; reflexivity.
Qed.
Lemma outcome_any : forall dat r a r', bytes dat -> consistent r -> Forall data_fits (all_records r) -> response_to_wire r (mr_new dat) = (a, r') -> a <> Panic ->
  if head_size r <=? length dat
  then (a = Ok (mr_len r') /\ message_at (mr_bytes r') (r_question r) (records (r_answer r)) (records (r_authority r)) (records (r_additional r)) /\
        length (mr_bytes r') = mr_len r' /\ response_from_wire (mr_bytes r') = Ok r) \/
       (all_records r <> [] /\ a = Ok (head_size r) /\ truncated r (mr_bytes r') /\ response_from_wire (mr_bytes r') = Ok (tc_only r))
  else a = Err.
Proof.
  intros dat r a r' B Co Df H Np. pose proof (response_render all_names dat r B Co (response_known_all r)) as R. rewrite H in R.
  destruct (head_size r <=? length dat); auto. destruct R as [C|(Nr & [C|C])]; [left|right|congruence].
  - pose proof C as (Ea & Eb & I' & _). split; auto.
    destruct (complete_decodes_any (mr_new dat) r a r' Co C Df) as [Hm Hd]. split; auto. split; [exact (mr_bytes_len _ _ I')|auto].
  - split; auto. split; [apply C|]. eapply cut_off_decodes; eauto.
Qed.
(** No octets decode to a response with longer data. *)
Lemma field_at_least : forall w s e v, field_at w s e v -> s + field_least v <= e.
Proof.
  intros w s e v H.
  assert (T : forall d, length (flat_map string_octets d) = list_sum (map (fun t => 1 + length t) d)).
  { induction d as [|t d IH]; [reflexivity|]. cbn [flat_map map]. rewrite app_length, IH. change (list_sum (?x :: ?l)) with (x + list_sum l). reflexivity. }
  destruct v; cbn [field_at] in H; unfold field_least; cbn [field_size].
  all: lazymatch type of H with
       | octets _ _ _ _ => destruct H as (-> & _); rewrite ?T; unfold u16_bytes, u32_bytes, string_octets; cbn [length]; lia
       | _ => idtac end.
  destruct H as (ls & W & -> & H). apply wname_end in H. lia.
Qed.
Lemma fields_at_least : forall vs w s e, fields_at w s e vs -> s + list_sum (map field_least vs) <= e.
Proof.
  induction vs as [|v vs IH]; intros w s e H; cbn [fields_at] in H.
  - subst. cbn. lia.
  - destruct H as (m & H1 & H2). apply field_at_least in H1. apply IH in H2. cbn [map]. change (list_sum (?x :: ?l)) with (x + list_sum l). lia.
Qed.
Definition data_least (x : rr) : nat := match rr_data x with None => 0 | Some rd => list_sum (map field_least (rd_fields rd)) end.
Lemma rr_at_least : forall w s e x, rr_at w s e x -> ~ data_over x /\ s + data_least x <= e.
Proof.
  intros w s e x (ls & m & L & W & En & Hn & _ & _ & _ & _ & _ & _ & HL & _ & He & Hd). apply wname_end in Hn. unfold data_over, data_least.
  destruct (rr_data x) as [rd|]; [|split; [auto|lia]]. destruct Hd as (_ & _ & F). apply fields_at_least in F. split; lia.
Qed.
Lemma rrs_at_least : forall w xs s e, rrs_at w s e xs -> Forall (fun x => ~ data_over x) xs /\ s + list_sum (map data_least xs) <= e.
Proof.
  intros w xs. induction xs as [|x xs IH]; intros s e H; cbn [rrs_at] in H.
  - subst. split; [constructor|cbn; lia].
  - destruct H as (m & H1 & H2). apply rr_at_least in H1. apply IH in H2. destruct H1 as [A1 A2], H2 as [B1 B2]. split; [constructor; auto|].
    cbn [map]. change (list_sum (?x :: ?l)) with (x + list_sum l). lia.
Qed.
Lemma like_over : forall xs ys, Forall2 rr_like xs ys -> Forall (fun x => ~ data_over x) xs -> Forall (fun x => ~ data_over x) ys.
Proof.
  intros xs ys F. induction F as [|x y xs ys (_ & E & _) F IH]; intros H; [constructor|]. inversion H; subst. constructor; auto. unfold data_over in *. rewrite <- E. auto.
Qed.
Lemma decoded_not_over : forall w r, bytes w -> response_from_wire w = Ok r -> Forall (fun x => ~ data_over x) (all_records r).
Proof.
  intros w r Bw H. destruct (response_from_wire_sound w r Bw H) as (an & ns & ar & Hm & _ & _ & F1 & F2 & F3 & _).
  destruct Hm as (_ & _ & _ & _ & _ & p0 & p1 & p2 & p3 & _ & H1 & H2 & H3). apply rrs_at_least in H1, H2, H3.
  unfold all_records. apply Forall_app. split; [|apply Forall_app; split]; eapply like_over; eauto; tauto.
Qed.
Lemma message_least : forall w q an ns ar, bytes w -> message_at w q an ns ar -> list_sum (map data_least (an ++ ns ++ ar)) <= length w.
Proof.
  intros w q an ns ar Bw (L & _ & _ & _ & _ & p0 & p1 & p2 & p3 & Q & H1 & H2 & H3). apply question_at_le in Q.
  pose proof (rrs_at_len w an p0 p1 Bw ltac:(lia) H1). pose proof (rrs_at_len w ns p1 p2 Bw ltac:(lia) H2). pose proof (rrs_at_len w ar p2 p3 Bw ltac:(lia) H3).
  apply rrs_at_least in H1, H2, H3. rewrite !map_app, !list_sum_app. lia.
Qed.
(** C64 in a buffer of any size. *)
Lemma fits_any : forall dat r nss, bytes dat -> consistent r -> response_names r = map name_of nss -> collision_free nss -> plain_size r <= length dat ->
  exists r', response_to_wire r (mr_new dat) = (Ok (mr_len r'), r') /\ mr_len r' <= plain_size r /\ (Forall data_fits (all_records r) -> bytes (mr_bytes r') /\ length (mr_bytes r') = mr_len r' /\ message_at (mr_bytes r') (r_question r) (records (r_answer r)) (records (r_authority r)) (records (r_additional r)) /\ response_from_wire (mr_bytes r') = Ok r).
Proof.
  intros dat r nss B Co Ns Cf L. set (K := among nss : names).
  assert (An : forall n, In n (response_names r) -> @all_known K n).
  { intros n Hn ls s -> Hs. rewrite Ns in Hn. apply in_map_iff in Hn. destruct Hn as (ls' & E & Hin). exists ls'. split; auto.
    assert (ls' = ls); [|subst; auto]. apply enc_inj_any. inversion E. auto. }
  assert (Kr : @response_known K r).
  { split; [apply An; left; auto|]. intros s rs Hs l El Hin.
    assert (G : forall x, In x (rrs_of rs) -> In x (all_records r)).
    { intros x Hx. assert (In x (records s)) by (rewrite El; cbn [records]; apply in_flat_map; eauto). unfold all_records. rewrite !in_app_iff. destruct Hs as [Hs|[Hs|Hs]]; subst s; auto. }
    assert (G2 : forall x n, In x (rrs_of rs) -> In n (rr_names x) -> @all_known K n).
    { intros x n Hx Hn. apply An. right. apply in_flat_map. exists x. auto. }
    unfold rrs_of in *. split.
    - destruct (rs_rdatas rs) as [|d ds]; eapply G2; try (left; reflexivity); left; reflexivity.
    - apply Forall_forall. intros d Hd. apply Forall_forall. intros v Hv. destruct v; try exact Logic.I. cbn [field_known].
      destruct (rs_rdatas rs) as [|d0 ds]; [destruct Hd|]. eapply G2; [apply in_map_iff; exists d; split; [reflexivity|exact Hd]|].
      right. cbn [rr_data]. apply in_flat_map. exists (VName n). split; auto. left. auto. }
  pose proof (no_collision_of nss Cf) as NC. pose proof Co as (Hk & Hq1 & Qk & S1 & S2 & S3). destruct Kr as [Kq Ks].
  assert (Fb : @fits K (body_to_wire r) (plain_size r)).
  { unfold body_to_wire. eapply fits_conv with (n := 12 + ((length (n_raw (q_name (r_question r))) + 4) + list_sum (map rr_size (all_records r)))).
    - unfold plain_size, head_size. lia.
    - apply fits_seq; [unfold header_to_wire; change 12 with (2 + (2 + (2 + (2 + (2 + 2))))); repeat (apply fits_seq; [apply fits_u16|]); apply fits_u16|].
      apply fits_seq.
      + unfold question_to_wire. apply fits_seq; [apply fits_name; auto; apply Qk|]. change 4 with (2 + 2). apply fits_seq; apply fits_u16.
      + unfold all_records. rewrite !map_app, !sum_app. cbn [mapM_].
        apply fits_seq; [eapply fits_section; eauto|]. apply fits_seq; [eapply fits_section; eauto|].
        eapply fits_conv; [|apply fits_seq; [eapply fits_section; eauto|apply fits_ret]]. lia. }
  destruct (Fb (fun _ => false) (mr_new dat) (@inv_new K dat B) L) as (r' & E & Lr & I' & _). change (mr_len (mr_new dat)) with 0 in Lr.
  exists r'. pose proof (body_render _ _ _ E) as Ew. split; auto. split; [exact Lr|]. intros Df.
  split; [exact (@mr_bytes_bytes K _ _ I')|]. split; [exact (@mr_bytes_len K _ _ I')|]. eapply (@complete_decodes_any K); [exact Co|exact (body_complete K dat r r' B Co (conj Kq Ks) E)|exact Df].
Qed.

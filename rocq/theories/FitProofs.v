(** A response whose uncompressed size fits is rendered completely, unless names collide in the compression table. *)
From Verif Require Import Base NameModel RenderModel CodesModel RDataModel MsgModel SpecName SpecBuf SpecCodes SpecMsg
  BaseLemmas BitLemmas NameWireProofs NameOpsProofs NameOpsProofs2 RenderProofs RenderProofs2 BufProofs LiveProofs CodesProofs WireProofs
  RDataProofs DecodeProofs MsgProofs MsgProofs2 MsgProofs3 MsgProofs4 MsgProofs5 MsgProofs6 MsgProofs7 IndepProofs FirstProofs.

Lemma append_len : forall g vs r r', guards g (length vs) -> on_buf (append_if g vs) r = (Ok tt, r') -> mr_len r' = mr_len r + length vs.
Proof.
  intros g vs r r' G H. rewrite on_buf_if in H. destruct (g (mr_buf r)) eqn:E; [|discriminate]. apply G in E. fold (mr_len r) in E.
  destruct (append_ok vs r E) as (_ & B & _). rewrite H in B. auto.
Qed.
Section Known.
Context {KN : names}.
Lemma write_name_size : forall m r ls c r', inv m r -> wf_labels ls -> write_name (name_of ls) c r = (Ok tt, r') -> mr_len r' <= mr_len r + wire_len ls.
Proof.
  intros m r ls c r' I F H. destruct (wn_search_top m r ls c I F) as (s & r1 & S1 & (B1 & B2 & B3) & I1 & S4).
  unfold write_name in H. rewrite label_count_of in H. unfold bind at 1 in H. rewrite S1 in H. destruct s as [[lu off]| | |]; try discriminate. destruct S4 as [Fo _].
  unfold bind at 1, get at 1 in H. replace (mr_len r) with (mr_len r1) by (unfold mr_len; rewrite B1; auto).
  unfold bind at 1 in H. destruct Fo as [[-> ->]|(-> & pre & suf & e & E & Sn & _ & -> & Ho & W)].
  - replace (negb c || (length ls + 1 =? length ls + 1)) with true in H by (rewrite Nat.eqb_refl, orb_true_r; auto). rewrite N.eqb_refl in H. cbn [negb] in H. rewrite andb_false_r in H.
    destruct (on_buf (ob_write_bytes (n_raw (name_of ls))) r1) as [[[]| | |] r2] eqn:E2; try discriminate.
    apply (append_len (fun b => ob_len b + length (n_raw (name_of ls)) <=? ob_capacity b) (n_raw (name_of ls)) r1 r2 (guard_le _)) in E2.
    unfold bind, ret in H. apply wn_register_buf in H. unfold mr_len in *. rewrite H, E2. cbn [name_of n_raw]. unfold wire_len. lia.
  - subst ls. replace (negb true || (length pre =? length (pre ++ suf) + 1)) with false in H by (symmetry; apply Nat.eqb_neq; rewrite app_length; lia).
    replace (off =? NO_OFFSET)%N with false in H by (symmetry; apply N.eqb_neq; unfold NO_OFFSET; lia). cbn [negb andb] in H.
    match type of H with (match ?w r1 with _ => _ end) = _ => destruct (w r1) as [[[]| | |] r2] eqn:E2; try discriminate end.
    assert (L2 : mr_len r2 = mr_len r1 + elen pre).
    { destruct (0 <? length pre) eqn:E0.
      - assert (Eo : idx (n_offsets (name_of (pre ++ suf))) (length pre) = Ok (N.of_nat (elen pre))) by apply idx_offs.
        assert (Es : slice (n_raw (name_of (pre ++ suf))) 0 (N.to_nat (N.of_nat (elen pre))) = Ok (body pre)).
        { rewrite Nat2N.id. unfold name_of. cbn [n_raw]. rewrite enc_app. apply slice_pre. rewrite body_len. auto. }
        unfold bind at 1, lift at 1 in E2. rewrite Eo in E2. unfold bind at 1, lift at 1 in E2. rewrite Es in E2.
        apply (append_len (fun b => ob_len b + length (body pre) <=? ob_capacity b) (body pre) r1 r2 (guard_le _)) in E2. rewrite body_len in E2. auto.
      - inversion E2; subst. bl. destruct pre; [cbn; lia|cbn in E0; lia]. }
    unfold bind at 1 in H. destruct (on_buf (ob_write_u16 _) r2) as [[[]| | |] r3] eqn:E3; try discriminate.
    apply (append_len (fun b => ob_len b + 2 <=? ob_capacity b) (be16 _) r2 r3 (guard_le 2)) in E3. apply wn_register_buf in H. cbn [length be16] in E3.
    assert (mr_len r' = mr_len r3) by (unfold mr_len; rewrite H; auto). rewrite wire_elen, elen_app. destruct suf as [|l suf]; [congruence|]. rewrite elen_cons.
    destruct F as [F _]. apply Forall_app in F. destruct F as [_ F]. apply Forall_inv in F. destruct F as [F _]. lia.
Qed.
Hypothesis NC : no_collision.
(** [w] succeeds with at most [n] octets when there is room for [n]. *)
Definition fits (w : M render unit) (n : nat) : Prop := forall m r, inv m r -> mr_len r + n <= cap r ->
  exists r', w r = (Ok tt, r') /\ mr_len r' <= mr_len r + n /\ inv m r' /\ cap r' = cap r.
Lemma fits_seq : forall w1 w2 n1 n2, fits w1 n1 -> fits w2 n2 -> fits (w1 ;; w2) (n1 + n2).
Proof.
  intros w1 w2 n1 n2 H1 H2 m r I L. destruct (H1 m r I ltac:(lia)) as (r1 & E1 & L1 & I1 & C1). destruct (H2 m r1 I1 ltac:(lia)) as (r2 & E2 & L2 & I2 & C2).
  exists r2. unfold bind. rewrite E1. split; auto. split; [lia|]. split; auto. congruence.
Qed.
Lemma fits_ret : fits (ret tt) 0.
Proof. intros m r I L. exists r. split; auto. split; [lia|auto]. Qed.
Lemma fits_append : forall g vs P, guards g (length vs) -> emits (on_buf (append_if g vs)) P -> fits (on_buf (append_if g vs)) (length vs).
Proof.
  intros g vs P G E m r I L. specialize (E m r I). rewrite on_buf_if in *. replace (g (mr_buf r)) with true in * by (symmetry; apply G; exact L).
  destruct (append_ok vs r L) as (B1 & B2 & B3 & _). destruct (on_buf (ob_append vs) r) as [a r']. cbn [fst snd] in *. subst a. destruct E as (_ & I' & _).
  exists r'. split; auto. split; [lia|auto].
Qed.
Lemma fits_u8 : forall d, (d < 256)%N -> fits (mr_write_u8 d) 1. Proof. intros d H. exact (fits_append _ [d] _ guard_u8 (emits_u8 d H)). Qed.
Lemma fits_u16 : forall d, fits (mr_write_u16 d) 2. Proof. intros d. exact (fits_append _ (be16 d) _ (guard_le 2) (emits_u16 d)). Qed.
Lemma fits_u32 : forall d, fits (mr_write_u32 d) 4. Proof. intros d. exact (fits_append _ (be32 d) _ (guard_le 4) (emits_u32 d)). Qed.
Lemma fits_bytes : forall d, bytes d -> fits (mr_write_bytes d) (length d). Proof. intros d H. exact (fits_append _ d _ (guard_le _) (emits_bytes d H)). Qed.
Lemma fits_name : forall n, wf_name n -> all_known n -> fits (write_name n true) (length (n_raw n)).
Proof.
  intros n (ls & W & ->) Kn m r I L. change (length (n_raw (name_of ls))) with (wire_len ls) in *.
  destruct (write_name_fits m r ls true I W (fun s => Kn ls s eq_refl) NC L) as (r' & E). exists r'. split; auto.
  pose proof (write_name_size m r ls true r' I W E). pose proof (write_name_full ls true m r W (fun s => Kn ls s eq_refl) I) as A. rewrite E in A.
  destruct A as ((_ & C & _) & I' & _). auto.
Qed.
Lemma fits_map : forall A (f : A -> M render unit) (g : A -> nat) l, Forall (fun a => fits (f a) (g a)) l -> fits (mapM_ f l) (list_sum (map g l)).
Proof. intros A f g l H. induction H; cbn [mapM_ map list_sum fold_right]; [apply fits_ret|]. apply fits_seq; auto. Qed.
Lemma fits_bin : forall d, wf_string d -> fits (byte_binary_to_wire d) (1 + length d).
Proof. intros d [L B]. unfold byte_binary_to_wire. apply fits_seq; [apply fits_u8; apply N.mod_lt; discriminate|apply fits_bytes; auto]. Qed.
Lemma sum_ones : forall (o : list N), list_sum (map (fun _ => 1) o) = length o.
Proof. induction o; cbn [map list_sum fold_right length] in *; auto. Qed.
Lemma fits_octets : forall o, bytes o -> fits (mapM_ mr_write_u8 o) (length o).
Proof. intros o B. rewrite <- (sum_ones o). apply (fits_map _ _ (fun _ => 1)). eapply Forall_impl; [|exact B]. intros a Ha. apply fits_u8. auto. Qed.
Lemma fits_field : forall k v, wf_field k v -> field_known v -> fits (field_to_wire v) (field_size v).
Proof.
  intros k v W Kn. destruct k, v; cbn [wf_field] in W; try (destruct W; fail); cbn [field_to_wire field_size].
  - apply fits_octets. apply W.
  - apply fits_octets. apply W.
  - apply fits_name; auto.
  - apply fits_u8. auto.
  - apply fits_u16.
  - apply fits_u32.
  - apply fits_u16.
  - apply (fits_map _ _ (fun t => 1 + length t)). eapply Forall_impl; [|exact W]. intros a. apply fits_bin.
  - apply fits_bin. auto.
  - apply fits_bytes. auto.
Qed.
Lemma fits_rdata : forall t rd, wf_rdata t rd -> rdata_known rd -> fits (rdata_to_wire rd) (list_sum (map field_size (rd_fields rd))).
Proof.
  intros t rd W Kn. apply wf_rdata_fields in W. destruct W as [F _]. unfold rdata_to_wire. apply fits_map. unfold rdata_known in Kn. revert Kn.
  induction F as [|k v ks vs Wk F IH]; intros Kn; constructor; apply Forall_cons_iff in Kn; destruct Kn; eauto using fits_field.
Qed.
Lemma fits_rdlen : forall body P n, mono P -> emits body P -> (forall rd s e, P rd s e -> s < e) -> fits body n -> fits (with_rdlen body) (2 + n).
Proof.
  intros bd P n MP E Pos Fb m r I L.
  pose proof (emits_rdlen bd P MP E m r I) as A.
  assert (X : exists r', with_rdlen bd r = (Ok tt, r') /\ mr_len r' <= mr_len r + (2 + n)).
  { clear A. unfold with_rdlen. unfold bind at 1, mr_length at 1.
    assert (L1 : mr_len r + 2 < cap r).
    { destruct (Nat.lt_ge_cases (mr_len r + 2) (cap r)); auto. exfalso. assert (n = 0) by lia. subst n.
      destruct (Fb m r I ltac:(lia)) as (r' & E' & L' & _). specialize (E m r I). rewrite E' in E. destruct E as (_ & _ & Q). apply Pos in Q. lia. }
    destruct (skip_spec 2 m r I L1) as (r1 & E1 & X1 & N1 & I1 & R1). unfold bind at 1. rewrite E1.
    set (m1 := fun i => m i || ((mr_len r <=? i) && (i <? mr_len r + 2))) in *. destruct X1 as (_ & C1 & _).
    destruct (Fb m1 r1 I1 ltac:(lia)) as (r2 & E2 & L2 & I2 & C2). unfold bind at 1. rewrite E2. unfold bind at 1, mr_length at 1.
    assert (L3 : mr_len r1 <= mr_len r2).
    { specialize (E m1 r1 I1). rewrite E2 in E. destruct E as ((Q & _) & _). auto. }
    unfold bind, lift. rewrite csub_ok by lia. rewrite csub_ok by lia.
    set (L' := as_u16 _).
    destruct (patch_spec (be16 L') (mr_len r) m1 r2) as (r3 & E3 & I3 & Len3 & _); auto.
    { apply be16_bytes. } { cbn [length be16]. lia. }
    { cbn [length be16]. intros i Hi. unfold m1. apply orb_true_iff. right. apply andb_true_iff. rewrite Nat.leb_le, Nat.ltb_lt. lia. }
    exists r3. split; [|lia]. rewrite <- E3. unfold mr_write_u16_at, on_buf, ob_write_u16_at. unfold mr_len in *.
    replace (ob_len (mr_buf r) + 2 <=? ob_len (mr_buf r2)) with true by (symmetry; apply Nat.leb_le; lia). reflexivity. }
  destruct X as (r' & Er & Lr). rewrite Er in A. destruct A as ((_ & Cp & _) & I' & _). exists r'. auto.
Qed.
Definition x_of (rs : rrset) (d : option rdata) : rr := mkRR (rs_name rs) (rs_type rs) (rs_class rs) (rs_ttl rs) d.
Lemma fits_prefix : forall rs, wf_name (rs_name rs) -> all_known (rs_name rs) -> fits (rr_prefix_to_wire rs) (length (n_raw (rs_name rs)) + 8).
Proof.
  intros rs W Kn. unfold rr_prefix_to_wire. apply fits_seq; [apply fits_name; auto|]. change 8 with (2 + (2 + 4)).
  apply fits_seq; [apply fits_u16|]. apply fits_seq; [apply fits_u16|apply fits_u32].
Qed.
Lemma fits_conv : forall w n n', n = n' -> fits w n -> fits w n'.
Proof. intros. subst. auto. Qed.
Lemma fits_rrset : forall rs, rrset_ok rs -> rrset_known rs -> fits (rrset_to_wire rs) (list_sum (map rr_size (rrs_of rs))).
Proof.
  intros rs (W & _ & _ & _ & D & _) [Kn Kd]. unfold rrset_to_wire, rrs_of. destruct (rs_rdatas rs) as [|d ds].
  - eapply fits_conv; [|apply fits_seq; [apply fits_prefix; auto|apply fits_u16]]. cbn [map list_sum fold_right]. unfold rr_size. cbn [rr_owner rr_data]. lia.
  - rewrite map_map. apply fits_map. apply Forall_forall. intros x Hx. rewrite Forall_forall in D, Kd. destruct (D x Hx) as [Wd Ho]. specialize (Kd x Hx).
    eapply fits_conv; [|apply fits_seq; [apply fits_prefix; auto|apply (fits_rdlen (rdata_to_wire x) (Prdata x) (list_sum (map field_size (rd_fields x))))]].
    + unfold rr_size. cbn [rr_owner rr_data]. lia.
    + apply mono_rdata.
    + eapply emits_rdata_k; eauto.
    + intros p s e H. apply (has_octets_pos _ _ _ _ _ Wd H). auto.
    + eapply fits_rdata; eauto.
Qed.
Lemma sum_app : forall a b, list_sum (a ++ b) = list_sum a + list_sum b.
Proof. induction a as [|x a IH]; intros b; auto. change (x + list_sum (a ++ b) = x + list_sum a + list_sum b). rewrite IH. lia. Qed.
Lemma sum_flat : forall A B (f : A -> list B) g l, list_sum (map (fun a => list_sum (map g (f a))) l) = list_sum (map g (flat_map f l)).
Proof. intros A B f g l. induction l; auto. cbn [map flat_map]. rewrite map_app, sum_app, <- IHl. reflexivity. Qed.
Lemma fits_section : forall b c s, section_ok b c s -> (forall rs l, s = Some l -> In rs l -> rrset_known rs) -> fits (section_to_wire s) (list_sum (map rr_size (records s))).
Proof.
  intros b c [l|] [_ H] Kn; cbn [section_to_wire records]; [|apply fits_ret]. destruct H as (_ & F & _). rewrite <- sum_flat. apply fits_map.
  rewrite Forall_forall in *. intros x Hx. apply fits_rrset; auto. eapply Kn; eauto.
Qed.
End Known.

Lemma enc_inj_any : forall a b, enc a = enc b -> a = b.
Proof.
  unfold enc, body. induction a as [|x a IH]; intros [|y b] H; auto.
  - apply (f_equal (@length N)) in H. cbn [flat_map app length enc_label] in H. rewrite !app_length in H. cbn [length] in H. lia.
  - apply (f_equal (@length N)) in H. cbn [flat_map app length enc_label] in H. rewrite !app_length in H. cbn [length] in H. lia.
  - cbn [flat_map enc_label app] in H. rewrite <- !app_assoc in H. inversion H as [[E1 E2]]. unfold blen in E1. apply Nat2N.inj in E1.
    assert (E : x = y /\ flat_map enc_label a ++ [0%N] = flat_map enc_label b ++ [0%N]); [|destruct E as [-> E]; f_equal; auto].
    clear - E1 E2. revert y E1 E2. induction x as [|c x IHx]; intros [|d y] E1 E2; try discriminate; auto. cbn [app] in E2. inversion E2; subst. cbn [length] in E1.
    destruct (IHx y) as [-> E]; auto.
Qed.
Lemma body_complete (K : names) : forall dat r r', bytes dat -> consistent r -> response_known r -> body_to_wire r (mr_new dat) = (Ok tt, r') ->
  complete (mr_new dat) r (Ok (mr_len r')) r'.
Proof.
  intros dat r r' B (Hk & Hq1 & Qk & S1 & S2 & S3) (Kq & Kr) Eb. pose proof Qk as ((ls & W & En) & _).
  pose proof (head_spec K dat (r_header r) (r_question r) ls B Hk Qk W En (fun s Hs => Kq ls s En Hs)) as H.
  assert (Hs : head_size r = 16 + wire_len ls) by (unfold head_size; rewrite En; reflexivity).
  split; auto. split; auto. unfold body_to_wire in Eb. rewrite <- bind_assoc in Eb. unfold bind at 1 in Eb.
  destruct ((header_to_wire (r_header r) ;; question_to_wire (r_question r)) (mr_new dat)) as [a r1] eqn:E1.
  destruct H as (I1 & C1 & A1). destruct (16 + wire_len ls <=? length dat); [|subst a; discriminate]. destruct A1 as (-> & B1 & L1).
  assert (Fw : Forall section_wf [r_answer r; r_authority r; r_additional r]).
  { repeat constructor; eapply section_ok_wf; eauto; intros rs l E Hin; eapply Kr; eauto. }
  apply (sections_whole r (mr_len r1)) in Eb. destruct (sections_spec r (mr_len r1) _ _ r1 Fw I1) as (a & r2 & E2 & D). rewrite Eb in E2. inversion E2; subst a r2.
  assert (Er : flat_map records [r_answer r; r_authority r; r_additional r] = all_records r) by (cbn [flat_map]; rewrite app_nil_r; reflexivity).
  rewrite Er in D. destruct D as [(_ & X2 & I2 & P2)|(r3 & X3 & I3 & N3 & E3)].
  - split; auto. destruct (extends_bytes r1 r' X2 (inv_len _ _ I1) (inv_len _ _ I2)) as (tl & Et & _).
    split; [exists tl; rewrite Et, B1; auto|]. rewrite Hs, <- L1. auto.
  - exfalso. unfold bind in E3. destruct (response_truncate r (mr_len r1) r3) as [[[]| | |] r4]; unfold ret in E3; discriminate.
Qed.
Lemma response_fits : forall dat r nss, bytes dat -> consistent r -> response_names r = map name_of nss -> collision_free nss -> plain_size r <= length dat ->
  exists r', response_to_wire r (mr_new dat) = (Ok (mr_len r'), r') /\ mr_len r' <= plain_size r /\ (N.of_nat (length dat) <= 65535 -> response_from_wire (mr_bytes r') = Ok r)%N.
Proof.
  intros dat r nss B Co Ns Cf L. set (K := among nss : names).
  assert (An : forall n, In n (response_names r) -> @all_known K n).
  { intros n Hn ls s -> Hs. rewrite Ns in Hn. apply in_map_iff in Hn. destruct Hn as (ls' & E & Hin). exists ls'. split; auto.
    assert (ls' = ls); [|subst; auto]. apply enc_inj_any. inversion E. auto. }
  assert (Kr : @response_known K r).
  { split; [apply An; left; auto|]. intros s rs Hs l El Hin.
    assert (G : forall x, In x (rrs_of rs) -> In x (all_records r)).
    { intros x Hx. assert (In x (records s)) by (rewrite El; cbn [records]; apply in_flat_map; eauto). unfold all_records. rewrite !in_app_iff. destruct Hs as [Hs|[Hs|Hs]]; subst s; auto. }
    assert (G2 : forall x n, In x (rrs_of rs) -> In n (rr_names x) -> @all_known K n).
    { intros x n Hx Hn. apply An. right. apply in_flat_map. exists x. auto. }
    unfold rrs_of in *. split.
    - destruct (rs_rdatas rs) as [|d ds]; eapply G2; try (left; reflexivity); left; reflexivity.
    - apply Forall_forall. intros d Hd. apply Forall_forall. intros v Hv. destruct v; try exact Logic.I. cbn [field_known].
      destruct (rs_rdatas rs) as [|d0 ds]; [destruct Hd|]. eapply G2; [apply in_map_iff; exists d; split; [reflexivity|exact Hd]|].
      right. cbn [rr_data]. apply in_flat_map. exists (VName n). split; auto. left. auto. }
  pose proof (no_collision_of nss Cf) as NC. pose proof Co as (Hk & Hq1 & Qk & S1 & S2 & S3). destruct Kr as [Kq Ks].
  assert (Fb : @fits K (body_to_wire r) (plain_size r)).
  { unfold body_to_wire. eapply fits_conv with (n := 12 + ((length (n_raw (q_name (r_question r))) + 4) + list_sum (map rr_size (all_records r)))).
    - unfold plain_size, head_size. lia.
    - apply fits_seq; [unfold header_to_wire; change 12 with (2 + (2 + (2 + (2 + (2 + 2))))); repeat (apply fits_seq; [apply fits_u16|]); apply fits_u16|].
      apply fits_seq.
      + unfold question_to_wire. apply fits_seq; [apply fits_name; auto; apply Qk|]. change 4 with (2 + 2). apply fits_seq; apply fits_u16.
      + unfold all_records. rewrite !map_app, !sum_app. cbn [mapM_].
        apply fits_seq; [eapply fits_section; eauto|]. apply fits_seq; [eapply fits_section; eauto|].
        eapply fits_conv; [|apply fits_seq; [eapply fits_section; eauto|apply fits_ret]]. lia. }
  destruct (Fb (fun _ => false) (mr_new dat) (@inv_new K dat B) L) as (r' & E & Lr & I' & _). change (mr_len (mr_new dat)) with 0 in Lr.
  exists r'. pose proof (body_render _ _ _ E) as Ew. split; auto. split; [exact Lr|]. intros Ld.
  eapply (@complete_decodes K); [exact Co|exact (body_complete K dat r r' B Co (conj Kq Ks) E)|]. pose proof (@inv_len K _ _ I'). assert (cap r' = length dat); [|lia].
  pose proof (proj1 (simple_body r Co)) as (P & Em). specialize (Em _ _ (inv_new dat B)). rewrite E in Em. destruct Em as ((_ & Cc & _) & _). exact Cc.
Qed.

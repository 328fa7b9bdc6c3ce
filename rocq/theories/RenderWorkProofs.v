(** Writing a name takes bounded work (C114). *)
From Verif Require Import Base NameModel RenderModel SpecName SpecBuf SpecRenderWork BaseLemmas BitLemmas NameWireProofs NameOpsProofs
  RenderProofs RenderProofs2 BufProofs LiveProofs MsgProofs5 IndepProofs FitProofs CompProofs WorkProofs.

(** ** Runs: from [p] on there are plain labels, up to a root label or one pointer to a place where the same holds.
    No pointer leads to a pointer. *)
Inductive run (rd : nat -> option N) : nat -> Prop :=
| run_root : forall p, rd p = Some 0%N -> (N.of_nat p <= 16639)%N -> run rd p
| run_label : forall p n, rd p = Some (N.of_nat n) -> 1 <= n <= 63 -> (N.of_nat p <= 16639)%N -> run rd (p + 1 + n) -> run rd p
| run_ptr : forall p n hi lo, rd p = Some (N.of_nat n) -> 1 <= n <= 63 -> (N.of_nat p <= 16639)%N ->
    rd (p + 1 + n) = Some (192 + hi)%N -> (hi < 64)%N -> rd (p + 1 + n + 1) = Some lo -> run rd (N.to_nat (256 * hi + lo)) -> run rd p.
Definition at_run (rd : nat -> option N) (p : nat) : Prop :=
  run rd p \/ exists hi lo, rd p = Some (192 + hi)%N /\ (hi < 64)%N /\ rd (p + 1) = Some lo /\ run rd (N.to_nat (256 * hi + lo)).
Lemma run_mono : forall (rd rd' : nat -> option N), (forall i c, rd i = Some c -> rd' i = Some c) -> forall p, run rd p -> run rd' p.
Proof. intros rd rd' H p R. induction R; [eapply run_root|eapply run_label|eapply run_ptr]; eauto. Qed.
Lemma run_at : forall rd p, run rd p -> exists c, rd p = Some c /\ (c < 64)%N /\ (N.of_nat p <= 16639)%N /\ (c <> 0%N -> at_run rd (p + 1 + N.to_nat c)).
Proof.
  intros rd p R. destruct R.
  - exists 0%N. split; [auto|]. split; [lia|]. split; [auto|]. intros []; auto.
  - exists (N.of_nat n). split; [auto|]. split; [lia|]. split; [auto|]. intros _. rewrite Nat2N.id. left. auto.
  - exists (N.of_nat n). split; [auto|]. split; [lia|]. split; [auto|]. intros _. rewrite Nat2N.id. right. exists hi, lo. auto.
Qed.
(** A run starts at every label of [d], if what follows [d] is the end of one. *)
Lemma run_body : forall rd d p, Forall wf_label d -> Pbytes (body d) rd p (p + elen d) -> (N.of_nat (p + elen d) <= 16639)%N -> at_run rd (p + elen d) -> d <> [] -> run rd p.
Proof.
  induction d as [|l d IH]; intros p F B L A N; [congruence|]. apply Forall_cons_iff in F. destruct F as [[F1 F2] F]. rewrite elen_cons in *.
  destruct B as [_ B].
  assert (Z : rd p = Some (N.of_nat (length l))) by (rewrite <- (Nat.add_0_r p); apply B; reflexivity).
  destruct d as [|l2 d].
  - rewrite elen_nil in *. replace (p + (1 + length l + 0)) with (p + 1 + length l) in A by lia.
    destruct A as [A|(hi & lo & A1 & A2 & A3 & A4)]; [eapply run_label|eapply run_ptr]; eauto; lia.
  - eapply run_label; [exact Z|lia|lia|]. apply IH; auto; [|lia| |discriminate].
    + split; [rewrite body_len; lia|]. intros i c Hi. rewrite <- (B (1 + length l + i) c); [f_equal; lia|].
      change (body (l :: l2 :: d)) with ((blen l :: l) ++ body (l2 :: d)). rewrite nth_error_app2 by (cbn [length]; lia).
      replace (1 + length l + i - length (blen l :: l)) with i by (cbn [length]; lia). exact Hi.
    + replace (p + 1 + length l + elen (l2 :: d)) with (p + (1 + length l + elen (l2 :: d))) by lia. auto.
Qed.

(** ** Every item of the table points at a run *)
Definition on_runs (m : nat -> bool) (r : render) : Prop := forall k it, slot r k it -> run (rdm m r) (N.to_nat (item_pos it)).

Lemma at_rdm : forall m r p c, rdm m r p = Some c -> ob_at (mr_buf r) p = Ok c.
Proof.
  intros m r p c H. unfold rdm in H. destruct (m p); [discriminate|]. unfold ob_at. fold (mr_len r). destruct (p <? mr_len r); [|discriminate].
  apply idx_nth. exact H.
Qed.
Lemma add_offset_slot : forall h o l r r', add_offset h o l r = Ok r' -> mr_buf r' = mr_buf r /\ mr_hashes r' = mr_hashes r /\
  forall k it, slot r' k it -> slot r k it \/ it = item_new l o h.
Proof.
  intros h o l r r' H. unfold add_offset in H. set (b := N.to_nat (h mod 64)) in *.
  destruct (idx_r _ (mr_counts r) b) as [[c Ec]|Ec]; rewrite Ec in H; [|discriminate]. cbn [rbind] in H.
  destruct (c + 1 =? RESERVED_ITEMS); [apply Ok_inj in H; subst r'; auto|].
  destruct (idx_r _ (mr_table r) b) as [[row E]|E]; rewrite E in H; [|discriminate]. cbn [rbind] in H.
  unfold upd_r in H. destruct (c <? length row) eqn:L1; [|discriminate]. cbn [rbind] in H.
  destruct (b <? length (mr_table r)) eqn:L2; [|discriminate]. cbn [rbind] in H.
  destruct (b <? length (mr_counts r)) eqn:L3; [|discriminate]. cbn [rbind] in H. apply Ok_inj in H. subst r'. cbn [mr_buf mr_hashes]. bl.
  split; auto. split; auto. apply idx_ok_inv in E, Ec. destruct E as [E _]. destruct Ec as [Ec _].
  intros k it (row' & c' & i & A1 & A2 & A3 & A4). cbn [mr_table mr_counts] in *. destruct (Nat.eq_dec k b) as [->|Nk].
  - rewrite nth_upd_same in A1, A2 by lia. inversion A1; inversion A2; subst row' c'. destruct (Nat.eq_dec i c) as [->|Ni].
    + right. rewrite nth_upd_same in A4 by lia. inversion A4. auto.
    + left. rewrite nth_upd_other in A4 by auto. exists row, c, i. split; auto. split; auto. split; auto. lia.
  - left. rewrite nth_upd_other in A1, A2 by auto. exists row', c', i. auto.
Qed.
Lemma register_slots : forall m d i p n len r a r', Forall wf_label d -> Pbytes (body d) (rdm m r) p (p + elen d) ->
  (n <= length d \/ rdm m r (p + elen d) = Some 0%N) ->
  (forall j h, nth_error (mr_hashes r) j = Some h -> j < i + length d -> (h < 4294967296)%N) ->
  wn_register n i p len r = (a, r') ->
  forall k it, slot r' k it -> slot r k it \/ exists d1 d2, d = d1 ++ d2 /\ d2 <> [] /\ (N.of_nat (p + elen d1) <= 16383)%N /\ item_pos it = N.of_nat (p + elen d1).
Proof.
  induction d as [|l d IH]; intros i p n len r a r' F B Hn Hh H k it Si.
  - left. destruct n as [|n]; cbn [wn_register] in H; [inversion H; subst; auto|].
    destruct Hn as [Hn|Hn]; [cbn in Hn; lia|]. rewrite elen_nil, Nat.add_0_r in Hn. unfold bind at 1, get at 1 in H. unfold bind at 1, lift at 1 in H.
    rewrite (at_rdm _ _ _ _ Hn) in H. cbn in H. inversion H; subst. auto.
  - destruct n as [|n]; [cbn [wn_register] in H; inversion H; subst; auto|]. cbn [wn_register] in H.
    apply Forall_cons_iff in F. destruct F as [[F1 F2] F]. pose proof B as [_ B'].
    assert (Z : rdm m r p = Some (blen l)) by (rewrite <- (Nat.add_0_r p); apply B'; reflexivity).
    unfold bind at 1, get at 1 in H. unfold bind at 1, lift at 1 in H. rewrite (at_rdm _ _ _ _ Z) in H.
    replace (blen l =? 0)%N with false in H by (symmetry; apply N.eqb_neq; unfold blen; lia).
    destruct (MAX_COMPRESS_POINTER <? p) eqn:Ep; [inversion H; subst; auto|]. apply Nat.ltb_ge in Ep. unfold MAX_COMPRESS_POINTER in Ep.
    unfold bind at 1, lift at 1 in H. destruct (idx_r _ (mr_hashes r) i) as [[hh Ei]|Ei]; rewrite Ei in H; [|inversion H; subst; auto].
    unfold bind at 1, modify_r at 1 in H. destruct (add_offset _ _ _ r) as [r1| | |] eqn:Ea; try (inversion H; subst; auto; fail).
    destruct (add_offset_slot _ _ _ _ _ Ea) as (Eb & Eh & Sl).
    unfold bind at 1, lift at 1 in H. rewrite u8_add_ok in H by (unfold blen; lia).
    assert (St : N.to_nat (blen l + 1) = 1 + length l) by (unfold blen; lia). rewrite St in H.
    assert (Hp : forall k it, slot r1 k it -> slot r k it \/ item_pos it = N.of_nat p).
    { intros k1 it1 S1. apply Sl in S1. destruct S1 as [S1| ->]; [auto|right]. apply idx_ok_inv in Ei. destruct Ei as [Ei _].
      rewrite as_u16_small by lia.
      destruct (item_new_fields (as_u8 (N.of_nat len)) (N.of_nat p) hh) as (_ & G & _); auto; [apply N.mod_lt; discriminate|lia|].
      eapply Hh; [exact Ei|]. cbn [length]. lia. }
    assert (Here : slot r1 k it -> slot r k it \/ exists d1 d2, l :: d = d1 ++ d2 /\ d2 <> [] /\ (N.of_nat (p + elen d1) <= 16383)%N /\ item_pos it = N.of_nat (p + elen d1)).
    { intro S1. apply Hp in S1. destruct S1 as [S1|S1]; [auto|right]. exists [], (l :: d). rewrite elen_nil, Nat.add_0_r. split; auto. split; [discriminate|]. split; [lia|auto]. }
    unfold bind at 1, lift at 1 in H. destruct (csub len (1 + length l)) as [len'| | |]; try (inversion H; subst; auto; fail).
    rewrite elen_cons in *.
    assert (RD : forall i, rdm m r1 i = rdm m r i) by (apply rdm_buf; auto).
    edestruct (IH (i + 1) (p + (1 + length l)) n len' r1 a r') as [S1|(d1 & d2 & T1 & T2 & T3 & T4)]; try exact H; try exact Si; auto.
    + split; [rewrite body_len; lia|]. intros j c Hj. rewrite RD. rewrite <- (B' (1 + length l + j) c); [f_equal; lia|].
      change (body (l :: d)) with ((blen l :: l) ++ body d). rewrite nth_error_app2 by (cbn [length]; lia).
      replace (1 + length l + j - length (blen l :: l)) with j by (cbn [length]; lia). exact Hj.
    + destruct Hn as [Hn|Hn]; [left; cbn [length] in Hn; lia|right]. rewrite RD, <- Hn. f_equal. lia.
    + rewrite Eh. intros j h0 Hj Lj. eapply Hh; [exact Hj|]. cbn [length]. lia.
    + right. exists (l :: d1), d2. rewrite elen_cons. split; [cbn; congruence|]. split; auto. split; [lia|]. rewrite T4. f_equal. lia.
Qed.

(** What the search returns is the position of an item. *)
Lemma fo_loop_item : forall b h items nb off, fst (fo_loop b h items nb) = Ok off -> off = NO_OFFSET \/ exists it, In it items /\ off = item_pos it.
Proof.
  induction items as [|it items IH]; intros nb off H; cbn [fo_loop] in H; [left; cbn in H; congruence|].
  unfold bind in H. destruct (nc_compare b h it nb) as [[[]| | |] nb1]; cbn in H; try discriminate.
  - right. exists it. split; [left; auto|congruence].
  - apply IH in H. destruct H as [H|(it' & H1 & H2)]; [auto|right]. exists it'. split; [right; auto|auto].
Qed.
Lemma find_offset_item : forall r raw h off, find_offset r raw h = Ok off -> off = NO_OFFSET \/ exists k it, slot r k it /\ off = item_pos it.
Proof.
  intros r raw h off Ho. unfold find_offset in Ho. set (b := N.to_nat (h mod 64)) in *.
  destruct (idx_r _ (mr_table r) b) as [[row E]|E]; rewrite E in Ho; [|discriminate]. cbn [rbind] in Ho.
  destruct (idx_r _ (mr_counts r) b) as [[c Ec]|Ec]; rewrite Ec in Ho; [|discriminate]. cbn [rbind] in Ho.
  unfold slice in Ho. destruct ((0 <=? c) && (c <=? length row)) eqn:El; [|discriminate]. cbn [rbind] in Ho.
  rewrite Nat.sub_0_r in Ho. change (skipn 0 row) with row in Ho. apply fo_loop_item in Ho. destruct Ho as [Ho|(it & Hi & Ho)]; [auto|right].
  exists b, it. split; [|auto]. apply idx_ok_inv in E, Ec. destruct E as [E _]. destruct Ec as [Ec _].
  apply In_nth_error in Hi. destruct Hi as [k Hk].
  assert (k < c) by (assert (k < length (firstn c row)) by (apply nth_error_Some; congruence); rewrite firstn_length in *; lia).
  rewrite nth_firstn in Hk by auto. exists row, c, k. auto.
Qed.
Lemma wn_search_item : forall k c nm lu level r lu' off r', wn_search k c nm lu level r = (Ok (lu', off), r') ->
  off = NO_OFFSET \/ exists b it, slot r b it /\ off = item_pos it.
Proof.
  induction k as [|k IH]; intros c nm lu level r lu' off r' H; cbn [wn_search] in H; [left; inversion H; auto|].
  set (lv := if 0 <? lu then level + 1 else level) in *. unfold bind at 1, lift at 1 in H.
  destruct (nr_is_root _) as [[]| | |]; try discriminate; [left; inversion H; auto|].
  unfold bind at 1, lift at 1 in H. destruct (nr_hash _) as [hh| | |]; try discriminate.
  unfold bind at 1, modify_r at 1 in H. destruct (upd_r (mr_hashes r) lu hh) as [hs| | |]; cbn [rbind] in H; try discriminate.
  set (r1 := mkRender _ _ _ _) in *.
  assert (Sm : forall b it, slot r1 b it -> slot r b it) by (intros b it; apply slot_same; reflexivity).
  destruct c.
  - unfold bind at 1, get at 1 in H. unfold bind at 1, lift at 1 in H. destruct (nr_raw _) as [raw| | |]; try discriminate.
    unfold bind at 1, lift at 1 in H. destruct (find_offset r1 raw hh) as [o| | |] eqn:Ef; try discriminate.
    destruct (o =? NO_OFFSET)%N eqn:Eo; cbn [negb] in H.
    + apply IH in H. destruct H as [H|(b & it & H1 & H2)]; [auto|right; exists b, it; auto].
    + inversion H; subst. apply find_offset_item in Ef. destruct Ef as [Ef|(b & it & H1 & H2)]; [auto|right; exists b, it; auto].
  - apply IH in H. destruct H as [H|(b & it & H1 & H2)]; [auto|right; exists b, it; auto].
Qed.

Lemma on_runs_mono : forall m m' r r', mr_table r' = mr_table r -> mr_counts r' = mr_counts r -> (forall i c, rdm m r i = Some c -> rdm m' r' i = Some c) ->
  on_runs m r -> on_runs m' r'.
Proof. intros m m' r r' T C Mo O k it Si. eapply run_mono; [exact Mo|]. apply (O k). eapply slot_same; [| |exact Si]; auto. Qed.
Lemma registered_runs : forall m r d p n i len r' a, Forall wf_label d -> elen d <= 254 -> on_runs m r -> Pbytes (body d) (rdm m r) p (p + elen d) ->
  (d <> [] -> (N.of_nat (p + elen d) <= 16639)%N -> at_run (rdm m r) (p + elen d)) ->
  (n <= length d \/ rdm m r (p + elen d) = Some 0%N) ->
  (forall j h, nth_error (mr_hashes r) j = Some h -> j < i + length d -> (h < 4294967296)%N) ->
  wn_register n i p len r = (a, r') -> on_runs m r'.
Proof.
  intros m r d p n i len r' a F Ld O B A Hn Hh H k it Si.
  assert (RD : forall j, rdm m r' j = rdm m r j) by (apply rdm_buf; eapply wn_register_buf; eauto).
  apply (run_mono (rdm m r)); [intros j c Hj; rewrite RD; auto|].
  destruct (register_slots m d i p n len r a r' F B Hn Hh H k it Si) as [S1|(d1 & d2 & T1 & T2 & T3 & T4)]; [apply (O k); auto|].
  rewrite T4, Nat2N.id. subst d. rewrite elen_app in *. apply Forall_app in F. destruct F as [_ F].
  apply (run_body _ d2); auto.
  - destruct B as [_ B]. split; [rewrite body_len; lia|]. intros j c Hj. rewrite <- Nat.add_assoc. apply B.
    unfold body. rewrite flat_map_app. fold (body d1). fold (body d2). rewrite nth_error_app2 by (rewrite body_len; lia). rewrite body_len.
    replace (elen d1 + j - elen d1) with j by lia. exact Hj.
  - lia.
  - rewrite <- Nat.add_assoc. apply A; [|lia]. intro Q. apply app_eq_nil in Q. destruct Q. congruence.
Qed.
Lemma hashes_small : forall r ls n, hashes_ok r ls n -> forall j h, nth_error (mr_hashes r) j = Some h -> j < n -> j < length ls -> (h < 4294967296)%N.
Proof. intros r ls n H j h Hj L1 L2. rewrite (H j L1 L2) in Hj. inversion Hj. apply name_hash_bound. Qed.

Lemma write_name_runs : forall m r ls c a r', inv m r -> wf_labels ls -> on_runs m r -> write_name (name_of ls) c r = (a, r') -> on_runs m r'.
Proof.
  intros m r ls c a0 r' I F O H. destruct (wn_search_top m r ls c I F) as (a & r1 & S1 & (B1 & B2 & B3) & I1 & S4).
  assert (O1 : on_runs m r1) by (eapply on_runs_mono; [exact B2|exact B3| |exact O]; intros i x; rewrite (rdm_buf m r r1 B1); auto).
  unfold write_name in H. rewrite label_count_of in H. unfold bind at 1 in H. rewrite S1 in H.
  destruct a as [[lu off]| | |]; try (apply pair_inj in H; destruct H as [_ <-]; exact O1).
  destruct S4 as [Fo Hh]. pose proof (wn_search_item _ _ _ _ _ _ _ _ _ S1) as Sl.
  unfold bind at 1, get at 1 in H. change (ob_len (mr_buf r1)) with (mr_len r1) in H.
  unfold bind at 1 in H. destruct Fo as [[-> ->]|(-> & pre & suf & e & E & Sn & _ & -> & Ho & W)].
  - replace (negb c || (length ls + 1 =? length ls + 1)) with true in H by (rewrite Nat.eqb_refl, orb_true_r; auto). rewrite N.eqb_refl in H. cbn [negb] in H. rewrite andb_false_r in H.
    change (n_raw (name_of ls)) with (enc ls) in H.
    pose proof (emits_bytes (enc ls) (enc_bytes _ (proj1 F)) m r1 I1) as A. unfold mr_write_bytes in A.
    destruct (on_buf (ob_write_bytes (enc ls)) r1) as [a2 r2] eqn:E2. destruct (on_buf_tables _ _ _ _ _ E2) as (T2 & C2 & H2). destruct A as (X2 & I2 & A).
    assert (O2 : on_runs m r2) by (eapply on_runs_mono; [exact T2|exact C2| |exact O1]; apply extends_rdm; auto).
    destruct a2 as [[]| | |]; try (apply pair_inj in H; destruct H as [_ <-]; exact O2). destruct A as [P1 P2]. rewrite enc_len in P1.
    change (wn_register (length ls + 1) 0 (mr_len r1) (name_len (name_of ls)) r2 = (a0, r')) in H.
    assert (Pz : rdm m r2 (mr_len r1 + elen ls) = Some 0%N).
    { apply P2. unfold enc. rewrite nth_error_app2 by (rewrite body_len; lia). rewrite body_len, Nat.sub_diag. auto. }
    apply (registered_runs m r2 ls (mr_len r1) (length ls + 1) 0 (name_len (name_of ls)) r' a0); auto.
    + apply F.
    + destruct F as [_ F]. rewrite wire_elen in F. lia.
    + split; [rewrite body_len; auto|]. intros i x Hi. apply P2. unfold enc. rewrite nth_error_app1; auto. apply nth_error_Some. congruence.
    + intros _ L. left. apply run_root; auto.
    + rewrite H2. intros j h Hj Lj. cbn [Nat.add] in Lj. eapply (hashes_small r1 ls); eauto. lia.
  - subst ls. replace (negb true || (length pre =? length (pre ++ suf) + 1)) with false in H by (symmetry; apply Nat.eqb_neq; rewrite app_length; lia).
    replace (off =? NO_OFFSET)%N with false in H by (symmetry; apply N.eqb_neq; unfold NO_OFFSET; lia). cbn [negb andb] in H.
    match type of H with (match ?w r1 with _ => _ end) = _ => set (w0 := w) in * end.
    assert (Fp : Forall wf_label pre) by (apply wf_app in F; apply F).
    assert (Eo : idx (n_offsets (name_of (pre ++ suf))) (length pre) = Ok (N.of_nat (elen pre))) by apply idx_offs.
    assert (Es : slice (n_raw (name_of (pre ++ suf))) 0 (N.to_nat (N.of_nat (elen pre))) = Ok (body pre)).
    { rewrite Nat2N.id. unfold name_of. cbn [n_raw]. rewrite enc_app. apply slice_pre. rewrite body_len. auto. }
    assert (Ew : emits w0 (Pbytes (body pre))).
    { subst w0. destruct (0 <? length pre) eqn:E0.
      - rewrite Eo. apply emits_lift. rewrite Es. apply emits_lift. apply emits_bytes. apply body_bytes. auto.
      - bl. destruct pre; [|simpl in E0; lia]. eapply emits_conseq; [|apply emits_ret].
        intros rd s e' ->. split; [simpl; lia|]. intros i x Hi. destruct i; discriminate. }
    assert (Hw : forall a r0 r0', w0 r0 = (a, r0') -> mr_table r0' = mr_table r0 /\ mr_counts r0' = mr_counts r0 /\ mr_hashes r0' = mr_hashes r0).
    { intros a r0 r0'. subst w0. destruct (0 <? length pre).
      - rewrite Eo. unfold bind at 1, lift at 1. rewrite Es. unfold bind at 1, lift at 1. apply on_buf_tables.
      - unfold ret. intros Q. inversion Q. auto. }
    specialize (Ew m r1 I1). destruct (w0 r1) as [a2 r2] eqn:E2. destruct (Hw _ _ _ E2) as (T2 & C2 & H2). destruct Ew as (X2 & I2 & A1).
    assert (O2 : on_runs m r2) by (eapply on_runs_mono; [exact T2|exact C2| |exact O1]; apply extends_rdm; auto).
    destruct a2 as [[]| | |]; try (apply pair_inj in H; destruct H as [_ <-]; exact O2).
    unfold bind at 1 in H.
    pose proof (emits_u16 (N.lor off COMPRESS_POINTER_MARK16) m r2 I2) as A. unfold mr_write_u16 in A.
    destruct (on_buf (ob_write_u16 _) r2) as [a3 r3] eqn:E3. destruct (on_buf_tables _ _ _ _ _ E3) as (T3 & C3 & H3). destruct A as (X3 & I3 & A2).
    assert (O3 : on_runs m r3) by (eapply on_runs_mono; [exact T3|exact C3| |exact O2]; apply extends_rdm; auto).
    destruct a3 as [[]| | |]; try (apply pair_inj in H; destruct H as [_ <-]; exact O3).
    rewrite ptr_bytes in A2 by auto. destruct A2 as [P1 P2]. cbn [length] in P1.
    pose proof (P2 0 _ eq_refl) as P20. pose proof (P2 1 _ eq_refl) as P21. rewrite Nat.add_0_r in P20.
    assert (L2 : mr_len r2 = mr_len r1 + elen pre) by (destruct A1 as [Q1 _]; rewrite body_len in Q1; auto).
    apply (registered_runs m r3 pre (mr_len r1) (length pre) 0 (name_len (name_of (pre ++ suf))) r' a0); auto.
    + destruct F as [_ F]. rewrite wire_elen, elen_app in F. lia.
    + destruct A1 as [Q1 Q2]. split; [rewrite body_len; auto|]. intros i x Hi. eapply extends_rdm; eauto.
    + intros _ _. rewrite <- L2. right. exists (off / 256)%N, (off mod 256)%N. split; auto. split; [apply N.div_lt_upper_bound; lia|]. split; auto.
      replace (256 * (off / 256) + off mod 256)%N with off by (apply N.div_mod; discriminate).
      destruct Sl as [Sl|(b & it & Sl & ->)]; [unfold NO_OFFSET in Sl; lia|].
      eapply run_mono; [|apply (O b it Sl)]. intros i x Hi. eapply extends_rdm; [exact X3|]. eapply extends_rdm; [exact X2|]. rewrite (rdm_buf m r r1 B1). auto.
    + rewrite H3, H2. intros j h Hj Lj. cbn [Nat.add] in Lj. eapply (hashes_small r1 (pre ++ suf)); eauto. rewrite app_length. lia.
Qed.

(** Every history keeps to runs. *)
Lemma history_runs : forall dat h r, bytes dat -> history (mr_new dat) h r -> on_runs (hmask h) r.
Proof.
  intros dat h r B H. induction H as [|h r o r' H IH V C|h r o r' H IH V C].
  - intros k it (row & c & i & _ & H2 & H3 & _). exfalso. cbn [mr_counts mr_new] in H2. apply nth_error_In in H2. apply repeat_spec in H2. lia.
  - destruct (history_inv dat h r B H) as [I K].
    destruct (history_inv dat _ r' B (hist_ok _ _ _ _ _ H V C)) as [I' _].
    assert (Dec : (exists ls c, o = MName ls c) \/ (forall ls c, o <> MName ls c)) by (destruct o; eauto; right; intros; discriminate).
    destruct Dec as [(ls & c & ->)|No].
    { cbn [mop_call mop_ok] in *. eapply on_runs_mono with (r := r'); [reflexivity|reflexivity| |eapply write_name_runs; [exact I|exact V|exact IH|exact C]].
      intros i x Hx. rewrite <- Hx. apply rdm_ext. reflexivity. }
    destruct (other_tables o r _ r' No C) as [T Cn]. eapply on_runs_mono; [exact T|exact Cn| |exact IH].
    assert (Emit : forall w P, w = mop_call o -> emits w P -> (match o with MSkip _ => False | _ => True end) ->
      forall i c, rdm (hmask h) r i = Some c -> rdm (hmask (mkEv o (mr_len r) (mr_len r') true :: h)) r' i = Some c).
    { intros w P -> Em Ns i c Hc. specialize (Em _ _ I). rewrite C in Em. destruct Em as (X & _).
      rewrite (rdm_ext _ (hmask h)); [eapply extends_rdm; eauto|]. intro j. unfold hmask. cbn [existsb ev_op]. destruct o; auto. destruct Ns. }
    assert (Patch : forall p vs, bytes vs -> reserved h p (p + length vs) -> mop_call o r = on_buf (ob_store p vs) r ->
       (match o with MAt8 _ _ | MAt16 _ _ => True | _ => False end) ->
      forall i c, rdm (hmask h) r i = Some c -> rdm (hmask (mkEv o (mr_len r) (mr_len r') true :: h)) r' i = Some c).
    { intros p vs Bv Rv Q Ns i c Hc.
      assert (L : p + length vs <= mr_len r) by (destruct Rv as (e & n & R1 & R2 & R3 & R4 & R5); apply K in R1; lia).
      destruct (patch_spec vs p _ r Bv I L) as (r2 & E & I2 & L2 & R2 & _); [intros j Hj; eapply hmask_reserved; eauto|].
      rewrite Q, E in C. apply pair_inj in C. destruct C as [_ C]. subst r2.
      rewrite (rdm_ext _ (hmask h)); [rewrite R2; auto|]. intro j. unfold hmask. cbn [existsb ev_op]. destruct o; auto; destruct Ns. }
    destruct o; cbn [mop_ok] in V.
    + destruct (No ls compress); auto.
    + eapply Emit; [reflexivity|cbn [mop_call]; apply emits_u8; auto|exact Logic.I].
    + eapply Emit; [reflexivity|cbn [mop_call]; apply emits_u16; auto|exact Logic.I].
    + eapply Emit; [reflexivity|cbn [mop_call]; apply emits_u32; auto|exact Logic.I].
    + eapply Emit; [reflexivity|cbn [mop_call]; apply emits_bytes; auto|exact Logic.I].
    + cbn [mop_call] in C. destruct (Nat.lt_ge_cases (mr_len r + n) (ob_capacity (mr_buf r))) as [L|L].
      * destruct (skip_spec n _ r I L) as (r2 & E & X & L2 & I2 & R2). rewrite E in C. apply pair_inj in C. destruct C as [_ C]. subst r2.
        intros i c Hc. rewrite (rdm_ext _ (fun i => hmask h i || ((mr_len r <=? i) && (i <? mr_len r + n)))); [auto|].
        intro j. unfold hmask. cbn [existsb ev_op ev_ok ev_start ev_end]. rewrite L2. cbn [andb]. apply orb_comm.
      * unfold mr_skip, on_buf, ob_skip in C. unfold mr_len in L. replace (ob_len (mr_buf r) + n <? ob_capacity (mr_buf r)) with false in C
          by (symmetry; apply Nat.ltb_ge; auto). discriminate.
    + destruct V as [V1 V2]. apply (Patch p [d]); auto; [repeat constructor; auto|].
      cbn [mop_call]. unfold mr_write_u8_at, on_buf, ob_write_u8_at. destruct V2 as (e & n & R1 & R2 & R3 & R4 & R5).
      apply K in R1. unfold mr_len in R1. ift. reflexivity.
    + destruct V as [V1 V2]. apply (Patch p (be16 d)); auto; [apply be16_bytes|].
      cbn [mop_call]. unfold mr_write_u16_at, on_buf, ob_write_u16_at. destruct V2 as (e & n & R1 & R2 & R3 & R4 & R5).
      apply K in R1. unfold mr_len in R1. ift. reflexivity.
  - destruct (history_inv dat h r B H) as [I K].
    assert (Hm : forall i, hmask (mkEv o (mr_len r) (mr_len r') false :: h) i = hmask h i).
    { intro i. unfold hmask. cbn [existsb ev_op ev_ok]. destruct o; auto. }
    assert (Dec : (exists ls c, o = MName ls c) \/ (forall ls c, o <> MName ls c)) by (destruct o; eauto; right; intros; discriminate).
    destruct Dec as [(ls & c & ->)|No].
    { cbn [mop_call mop_ok] in *. eapply on_runs_mono with (r := r'); [reflexivity|reflexivity| |eapply write_name_runs; [exact I|exact V|exact IH|exact C]].
      intros i x Hx. rewrite <- Hx. apply rdm_ext. exact Hm. }
    destruct (other_tables o r _ r' No C) as [T Cn]. eapply on_runs_mono; [exact T|exact Cn| |exact IH].
    intros i c Hc. rewrite (rdm_ext _ (hmask h) r' i Hm).
    assert (Obf : forall b g f, on_buf (fun b => if g b : bool then f b else (Err, b)) r = (Err, r') ->
       f (mr_buf r) = (Ok tt, b) \/ g (mr_buf r) = false -> r' = r).
    { intros b g f Q O. unfold on_buf in Q. destruct (g (mr_buf r)) eqn:Eg.
      - destruct O as [O|O]; [|discriminate]. rewrite O in Q. discriminate.
      - inversion Q. destruct r; reflexivity. }
    assert (Emit : forall w P, w = mop_call o -> emits w P -> extends r r').
    { intros w P -> Em. specialize (Em _ _ I). rewrite C in Em. destruct Em as (X & _). auto. }
    assert (Same : r' = r -> extends r r') by (intros ->; apply extends_refl).
    apply (extends_rdm (hmask h) r r'); auto.
    destruct o; cbn [mop_ok mop_call] in *.
      + destruct (No ls compress); auto.
      + eapply Emit; [reflexivity|apply emits_u8; auto].
      + eapply Emit; [reflexivity|apply emits_u16; auto].
      + eapply Emit; [reflexivity|apply emits_u32; auto].
      + eapply Emit; [reflexivity|apply emits_bytes; auto].
      + apply Same. eapply (Obf _ (fun b => ob_len b + n <? ob_capacity b)); [exact C|]. left. reflexivity.
      + destruct V as [V1 V2]. apply Same.
        destruct (ob_store_spec [d] p (mr_buf r)) as (b' & Eb & _).
        { destruct V2 as (e & n & R1 & R2 & R3 & R4 & R5). apply K in R1. unfold mr_len in R1. cbn [length]. lia. }
        { apply I. }
        eapply (Obf b' (fun b => p <? ob_len b)); [exact C|]. left. auto.
      + destruct V as [V1 V2]. apply Same.
        destruct (ob_store_spec (be16 d) p (mr_buf r)) as (b' & Eb & _).
        { destruct V2 as (e & n & R1 & R2 & R3 & R4 & R5). apply K in R1. unfold mr_len in R1. cbn [length be16]. lia. }
        { apply I. }
        eapply (Obf b' (fun b => p + 2 <=? ob_len b)); [exact C|]. left. auto.
Qed.

(** ** Costs *)
(** The plain call gives [a] and [s']; the budgeted one gives the same and costs [c]. *)
Definition does {S A} (mp : M (S * nat) A) (m : M S A) (s : S) (c : nat) (a : res A) (s' : S) : Prop :=
  m s = (a, s') /\ forall j, mp (s, c + j) = (a, (s', j)).
Definition bad {A B} (x : res A) (y : res B) : Prop := match x, y with Err, Err | Panic, Panic | Hang, Hang => True | _, _ => False end.
Lemma does_bind : forall S A B (mp : M (S * nat) A) (m : M S A) (fp : A -> M (S * nat) B) (f : A -> M S B) s c1 c2 x s1 a s',
  does mp m s c1 (Ok x) s1 -> does (fp x) (f x) s1 c2 a s' -> does (bind mp fp) (bind m f) s (c1 + c2) a s'.
Proof. intros S A B mp m fp f s c1 c2 x s1 a s' [H1 H2] [H3 H4]. split; [unfold bind; rewrite H1; auto|]. intro j. unfold bind. rewrite <- Nat.add_assoc, H2. auto. Qed.
Lemma does_stop : forall S A B (mp : M (S * nat) A) (m : M S A) (fp : A -> M (S * nat) B) (f : A -> M S B) s c x s1 a,
  does mp m s c x s1 -> bad x a -> does (bind mp fp) (bind m f) s c a s1.
Proof.
  intros S A B mp m fp f s c x s1 a [H1 H2] Hb. split; [unfold bind; rewrite H1; destruct x, a; auto; destruct Hb|].
  intro j. unfold bind. rewrite H2. destruct x, a; auto; destruct Hb.
Qed.
Lemma does_ret : forall S A (a : A) (s : S), does (ret a) (ret a) s 0 (Ok a) s.
Proof. intros S A a s. split; reflexivity. Qed.
Lemma does_lift : forall S A (x : res A) (s : S), does (lift x) (lift x) s 0 x s.
Proof. intros S A x s. split; reflexivity. Qed.
Lemma does_free : forall S A (m : M S A) (s : S) a s', m s = (a, s') -> does (free m) m s 0 a s'.
Proof. intros S A m s a s' E. split; [auto|]. intro j. unfold free. cbn. rewrite E; reflexivity. Qed.
Lemma does_look : forall S b p (s : S), does (look b p) (lift (ob_at b p)) s 1 (ob_at b p) s.
Proof. intros S b p s. split; reflexivity. Qed.
Lemma does_get : forall S A (fp : S -> M (S * nat) A) (f : S -> M S A) s c a s', does (fp s) (f s) s c a s' -> does (bind get (fun '(x, _) => fp x)) (bind get f) s c a s'.
Proof. intros S A fp f s c a s' [H1 H2]. split; [auto|]. intro j. unfold bind, get. cbn. apply H2. Qed.

Section Cost.
Variable m : nat -> bool.
Variable r : render.
Hypothesis I : inv m r.

Lemma run_next : forall p f (s : inbuf), run (rdm m r) p -> exists c,
  does (next_label_paid (S f) (mr_buf r) p) (lift (next_label_loop (S f) (mr_buf r) p)) s 1 (Ok (c, N.of_nat (p + 1))) s /\
  (c < 64)%N /\ (N.of_nat p <= 16639)%N /\ (c <> 0%N -> at_run (rdm m r) (p + 1 + N.to_nat c)).
Proof.
  intros p f s R. destruct (run_at _ _ R) as (c & A1 & A2 & A3 & A4). exists c. pose proof (at_rdm _ _ _ _ A1) as B.
  split; [|auto]. cbn [next_label_loop next_label_paid]. rewrite B. cbn [rbind]. unfold COMPRESS_POINTER_MARK8. rewrite land192_small by lia.
  split; [rewrite as_u16_small by lia; reflexivity|].
  intro j. unfold bind, look, pay, bind, lift. cbn [snd fst Nat.add]. rewrite B, land192_small by lia. rewrite as_u16_small by lia. reflexivity.
Qed.
Lemma at_run_next : forall p f (s : inbuf), at_run (rdm m r) p -> exists c q k, k <= 3 /\
  does (next_label_paid (S (S f)) (mr_buf r) p) (lift (next_label_loop (S (S f)) (mr_buf r) p)) s k (Ok (c, N.of_nat (q + 1))) s /\
  (c < 64)%N /\ (N.of_nat q <= 16639)%N /\ (c <> 0%N -> at_run (rdm m r) (q + 1 + N.to_nat c)).
Proof.
  intros p f s [R|(hi & lo & A1 & A2 & A3 & A4)].
  - destruct (run_next p (S f) s R) as (c & B1 & B2). exists c, p, 1. split; [lia|auto].
  - destruct (run_next _ f s A4) as (c & [B1 B2] & B3). exists c, (N.to_nat (256 * hi + lo)), 3. split; [lia|].
    pose proof (at_rdm _ _ _ _ A1) as C1. pose proof (at_rdm _ _ _ _ A3) as C2. destruct (land192_big hi A2) as [L1 L2].
    split; [|auto]. split.
    + rewrite <- B1. f_equal. cbn [next_label_loop]. rewrite C1. cbn [rbind]. unfold COMPRESS_POINTER_MARK8. rewrite L1, C2. cbn [rbind]. rewrite L2, (N.mul_comm hi 256). reflexivity.
    + intro j. rewrite <- B2. clear B1 B2.
      change (next_label_paid (S (S f)) (mr_buf r) p) with
        (let! c := look (mr_buf r) p in if (N.land c COMPRESS_POINTER_MARK8 =? COMPRESS_POINTER_MARK8)%N then
          let! nb := look (mr_buf r) (p + 1) in next_label_paid (S f) (mr_buf r) (N.to_nat (N.land c 63 * 256 + nb))
          else ret (c, as_u16 (N.of_nat (p + 1))) : M (inbuf * nat) (N * N)).
      unfold bind at 1, look at 1, pay at 1, bind at 1, lift at 1. cbn [snd fst Nat.add]. rewrite C1. unfold COMPRESS_POINTER_MARK8. rewrite L1.
      unfold bind at 1, look at 1, pay at 1, bind at 1, lift at 1. cbn [snd fst Nat.add]. rewrite C2, L2, (N.mul_comm hi 256). reflexivity.
Qed.
(** The name buffer is only moved, and not past its end. *)
Definition along (s s' : inbuf) : Prop := ib_data s' = ib_data s /\ (ib_pos s <= ib_len s -> ib_pos s' <= ib_len s).
Lemma along_refl : forall s, along s s.
Proof. split; auto. Qed.
Lemma along_trans : forall a b c, along a b -> along b c -> along a c.
Proof. intros a b c [A1 A2] [B1 B2]. split; [congruence|]. unfold ib_len in *. rewrite A1 in B2. auto. Qed.
Lemma read_u8_cases : forall s, (exists c, read_u8 s = (Ok c, mkIn (ib_data s) (ib_pos s + 1)) /\ along s (mkIn (ib_data s) (ib_pos s + 1))) \/ read_u8 s = (Err, s).
Proof.
  intros [d p]. destruct (nth_error d p) as [c|] eqn:E.
  - left. exists c. split; [apply read_u8_ok; auto|]. split; [auto|]. unfold ib_len. cbn [ib_data ib_pos]. intros _.
    assert (p < length d) by (apply nth_error_Some; congruence). lia.
  - right. unfold read_u8, ib_len. cbn [ib_data ib_pos]. apply nth_error_None in E. replace (p <? length d) with false by (symmetry; apply Nat.ltb_ge; auto). auto.
Qed.
(** Comparing octets: one look each. *)
Lemma bytes_does : forall n p s, exists c a s', does (nc_bytes_paid (mr_buf r) n p) (nc_bytes (mr_buf r) n p) s c a s' /\
  along s s' /\ ib_pos s <= ib_pos s' /\ c <= ib_pos s' - ib_pos s + 1 /\
  (forall p', a = Ok (Some p') -> p' = (p + N.of_nat n)%N /\ c = n /\ ib_pos s' = ib_pos s + n).
Proof.
  induction n as [|n IH]; intros p s.
  - exists 0, (Ok (Some p)), s. split; [apply does_ret|]. split; [eauto using along_refl, along_trans|]. split; [lia|]. split; [lia|]. intros p' Q. inversion Q. split; [lia|]. split; lia.
  - cbn [nc_bytes nc_bytes_paid].
    pose proof (does_look inbuf (mr_buf r) (N.to_nat p) s) as D1.
    destruct (ob_at (mr_buf r) (N.to_nat p)) as [ch1| | |] eqn:E1.
    2: (exists 1, Err, s; split; [eapply does_stop; [exact D1|exact Logic.I]|]; split; [eauto using along_refl, along_trans|]; split; [lia|]; split; [lia|discriminate]).
    2: (exists 1, Panic, s; split; [eapply does_stop; [exact D1|exact Logic.I]|]; split; [eauto using along_refl, along_trans|]; split; [lia|]; split; [lia|discriminate]).
    2: (exists 1, Hang, s; split; [eapply does_stop; [exact D1|exact Logic.I]|]; split; [eauto using along_refl, along_trans|]; split; [lia|]; split; [lia|discriminate]).
    destruct (read_u8_cases s) as [(ch2 & E2 & AL)|E2].
    2: { exists (1 + 0), Err, s. split; [eapply does_bind; [exact D1|]; eapply does_stop; [apply does_free; exact E2|exact Logic.I]|]. split; [eauto using along_refl, along_trans|]. split; [lia|]. split; [lia|discriminate]. }
    set (s2 := mkIn (ib_data s) (ib_pos s + 1)) in *.
    destruct (ch1 =? ch2)%N eqn:E3.
    2: { exists (1 + (0 + 0)), (Ok None), s2. split; [eapply does_bind; [exact D1|]; eapply does_bind; [apply does_free; exact E2|]; cbn beta; rewrite E3; apply does_ret|].
         split; [eauto using along_refl, along_trans|]. split; [cbn; lia|]. split; [cbn; lia|discriminate]. }
    destruct (p + 1 <? 65536)%N eqn:E4.
    2: { exists (1 + (0 + 0)), Panic, s2. split; [eapply does_bind; [exact D1|]; eapply does_bind; [apply does_free; exact E2|]; cbn beta; rewrite E3; eapply does_stop; [apply does_lift|exact Logic.I]|].
         split; [eauto using along_refl, along_trans|]. split; [cbn; lia|]. split; [cbn; lia|discriminate]. }
    destruct (IH (p + 1)%N s2) as (c & a & s' & B1 & B2 & B3 & B4 & B5).
    exists (1 + (0 + (0 + c))), a, s'. split.
    + eapply does_bind; [exact D1|]. eapply does_bind; [apply does_free; exact E2|]. cbn beta. rewrite E3. eapply does_bind; [apply does_lift|]. exact B1.
    + split; [eauto using along_refl, along_trans|]. cbn [ib_pos s2] in B3, B4, B5. split; [lia|]. split; [lia|]. intros p' Q. destruct (B5 p' Q) as (-> & -> & ->). split; [lia|]. split; lia.
Qed.
(** Comparing two names. *)
Lemma loop_does : forall f p s, at_run (rdm m r) (N.to_nat p) -> exists c a s', does (nc_loop_paid f (mr_buf r) p) (nc_loop f (mr_buf r) p) s c a s' /\
  along s s' /\ ib_pos s <= ib_pos s' /\ c <= 3 * (ib_pos s' - ib_pos s) + 3.
Proof.
  induction f as [|f IH]; intros p s A.
  - exists 0, Hang, s. split; [apply does_lift|]. split; [eauto using along_refl, along_trans|]. lia.
  - cbn [nc_loop nc_loop_paid]. unfold next_label.
    destruct (at_run_next (N.to_nat p) (ob_len (mr_buf r)) s A) as (c & q & k & Lk & D1 & L1 & L2 & A2).
    destruct (read_u8_cases s) as [(n & E2 & AL)|E2].
    2: { exists (k + 0), Err, s. split; [eapply does_bind; [exact D1|]; eapply does_stop; [apply does_free; exact E2|exact Logic.I]|]. split; [eauto using along_refl, along_trans|]. lia. }
    set (s2 := mkIn (ib_data s) (ib_pos s + 1)) in *.
    destruct (negb (n =? c)%N) eqn:E3.
    { exists (k + (0 + 0)), (Ok false), s2. split; [eapply does_bind; [exact D1|]; eapply does_bind; [apply does_free; exact E2|]; cbn beta iota; rewrite E3; apply does_ret|]. split; [eauto using along_refl, along_trans|]. cbn. lia. }
    destruct (n =? 0)%N eqn:E4.
    { exists (k + (0 + 0)), (Ok true), s2. split; [eapply does_bind; [exact D1|]; eapply does_bind; [apply does_free; exact E2|]; cbn beta iota; rewrite E3, E4; apply does_ret|]. split; [eauto using along_refl, along_trans|]. cbn. lia. }
    apply negb_false_iff in E3. apply N.eqb_eq in E3. subst n. apply N.eqb_neq in E4.
    destruct (bytes_does (N.to_nat c) (N.of_nat (q + 1)) s2) as (c2 & a2 & s3 & D3 & S1 & S2 & S3 & S4). cbn [ib_pos s2] in S2, S3, S4.
    assert (D2 : forall cc a s', does (let! x := nc_bytes_paid (mr_buf r) (N.to_nat c) (N.of_nat (q + 1)) in match x with None => ret false | Some p' => nc_loop_paid f (mr_buf r) p' end)
                    (let! x := nc_bytes (mr_buf r) (N.to_nat c) (N.of_nat (q + 1)) in match x with None => ret false | Some p' => nc_loop f (mr_buf r) p' end) s2 cc a s' ->
       does (nc_loop_paid (S f) (mr_buf r) p) (nc_loop (S f) (mr_buf r) p) s (k + (0 + cc)) a s').
    { intros cc a s' D. cbn [nc_loop nc_loop_paid]. unfold next_label. eapply does_bind; [exact D1|]. eapply does_bind; [apply does_free; exact E2|]. cbn beta iota.
      rewrite N.eqb_refl. cbn [negb]. replace (c =? 0)%N with false by (symmetry; apply N.eqb_neq; auto). exact D. }
    destruct a2 as [[p'|]| | |].
    + destruct (S4 p' eq_refl) as (-> & -> & P3).
      destruct (IH (N.of_nat (q + 1) + N.of_nat (N.to_nat c))%N s3) as (c4 & a4 & s4 & D4 & T1 & T2 & T3).
      { rewrite <- Nat2N.inj_add, Nat2N.id. auto. }
      exists (k + (0 + (N.to_nat c + c4))), a4, s4. split; [apply D2; eapply does_bind; [exact D3|exact D4]|]. split; [eauto using along_trans|]. lia.
    + exists (k + (0 + (c2 + 0))), (Ok false), s3. split; [apply D2; eapply does_bind; [exact D3|apply does_ret]|]. split; [eauto using along_refl, along_trans|]. lia.
    + exists (k + (0 + c2)), Err, s3. split; [apply D2; eapply does_stop; [exact D3|exact Logic.I]|]. split; [eauto using along_refl, along_trans|]. lia.
    + exists (k + (0 + c2)), Panic, s3. split; [apply D2; eapply does_stop; [exact D3|exact Logic.I]|]. split; [eauto using along_refl, along_trans|]. lia.
    + exists (k + (0 + c2)), Hang, s3. split; [apply D2; eapply does_stop; [exact D3|exact Logic.I]|]. split; [eauto using along_refl, along_trans|]. lia.
Qed.
Lemma compare_does : forall h it s, run (rdm m r) (N.to_nat (item_pos it)) -> exists c a s',
  does (nc_compare_paid (mr_buf r) h it) (nc_compare (mr_buf r) h it) s c a s' /\ along s s' /\ ib_pos s <= ib_pos s' /\ c <= 3 * (ib_pos s' - ib_pos s) + 3.
Proof.
  intros h it s R. destruct (negb (item_hash it =? h)%N || negb (item_len it =? as_u8 (N.of_nat (ib_len s)))%N) eqn:E.
  - exists 0, (Ok false), s. split; [|split; [apply along_refl|lia]]. unfold nc_compare_paid, nc_compare. apply (does_get _ _ (fun nb => if negb (item_hash it =? h)%N || negb (item_len it =? as_u8 (N.of_nat (ib_len nb)))%N then ret false else nc_loop_paid (S (ib_len nb)) (mr_buf r) (item_pos it))).
    cbn beta. rewrite E. apply does_ret.
  - destruct (loop_does (S (ib_len s)) (item_pos it) s) as (c & a & s' & D & T); [left; auto|]. exists c, a, s'. split; [|auto].
    unfold nc_compare_paid, nc_compare. apply (does_get _ _ (fun nb => if negb (item_hash it =? h)%N || negb (item_len it =? as_u8 (N.of_nat (ib_len nb)))%N then ret false else nc_loop_paid (S (ib_len nb)) (mr_buf r) (item_pos it))).
    cbn beta. rewrite E. exact D.
Qed.
Lemma fo_does : forall h items s, (forall it, In it items -> run (rdm m r) (N.to_nat (item_pos it))) -> exists c a s',
  does (fo_loop_paid (mr_buf r) h items) (fo_loop (mr_buf r) h items) s c a s' /\ along s s' /\ ib_pos s <= ib_pos s' /\ c <= 3 * (ib_pos s' - ib_pos s) + 4 * length items.
Proof.
  induction items as [|it items IH]; intros s H.
  - exists 0, (Ok NO_OFFSET), s. split; [apply does_ret|]. split; [eauto using along_refl, along_trans|lia].
  - destruct (compare_does h it s (H it (or_introl eq_refl))) as (c & a & s1 & D1 & T1 & T2 & T3).
    assert (D : forall cc b s', does (let! eq := nc_compare_paid (mr_buf r) h it in if eq : bool then ret (item_pos it) else fo_loop_paid (mr_buf r) h items)
                 (let! eq := nc_compare (mr_buf r) h it in if eq : bool then ret (item_pos it) else fo_loop (mr_buf r) h items) s cc b s' ->
       does (fo_loop_paid (mr_buf r) h (it :: items)) (fo_loop (mr_buf r) h (it :: items)) s (S cc) b s').
    { intros cc b s' [Q1 Q2]. split; [exact Q1|]. intro j. exact (Q2 j). }
    cbn [length]. destruct a as [[]| | |].
    + exists (S (c + 0)), (Ok (item_pos it)), s1. split; [apply D; eapply does_bind; [exact D1|apply does_ret]|]. split; [eauto using along_refl, along_trans|lia].
    + destruct (IH s1) as (c2 & a2 & s2 & D2 & U1 & U2 & U3); [intros i Hi; apply H; right; auto|].
      exists (S (c + c2)), a2, s2. split; [apply D; eapply does_bind; [exact D1|exact D2]|]. split; [eauto using along_trans|lia].
    + exists (S c), Err, s1. split; [apply D; eapply does_stop; [exact D1|exact Logic.I]|]. split; [eauto using along_refl, along_trans|lia].
    + exists (S c), Panic, s1. split; [apply D; eapply does_stop; [exact D1|exact Logic.I]|]. split; [eauto using along_refl, along_trans|lia].
    + exists (S c), Hang, s1. split; [apply D; eapply does_stop; [exact D1|exact Logic.I]|]. split; [eauto using along_refl, along_trans|lia].
Qed.
End Cost.

(** One search in the table. *)
Definition few (r : render) : Prop := Forall (fun c => c <= 15) (mr_counts r).
Lemma find_does : forall m r raw h, few r -> on_runs m r -> exists c a, does (find_offset_paid raw h) (lift (find_offset r raw h)) r c a r /\ c <= 3 * length raw + 60.
Proof.
  intros m r raw h Fw O. unfold find_offset_paid, find_offset. set (b := N.to_nat (h mod 64)) in *.
  destruct (idx_r _ (mr_table r) b) as [[row E]|E]; rewrite E; cbn [rbind]; [|exists 0, Panic; split; [split; [reflexivity|intro j; cbn beta iota; rewrite E; reflexivity]|lia]].
  destruct (idx_r _ (mr_counts r) b) as [[c Ec]|Ec]; rewrite Ec; cbn [rbind]; [|exists 0, Panic; split; [split; [reflexivity|intro j; cbn beta iota; rewrite E, Ec; reflexivity]|lia]].
  unfold slice. destruct ((0 <=? c) && (c <=? length row)) eqn:El; cbn [rbind]; [|exists 0, Panic; split; [split; [reflexivity|intro j; cbn beta iota; rewrite E, Ec; cbn [rbind]; rewrite El; reflexivity]|lia]].
  rewrite Nat.sub_0_r. change (skipn 0 row) with row. pose proof E as E0. pose proof Ec as Ec0. apply idx_ok_inv in E, Ec. destruct E as [E _]. destruct Ec as [Ec _].
  assert (Lc : c <= 15) by (unfold few in Fw; rewrite Forall_forall in Fw; apply Fw; eapply nth_error_In; eauto).
  destruct (fo_does m r h (firstn c row) (ib_new raw)) as (cc & a & s' & [D1 D2] & [_ T1] & T2 & T3).
  { intros it Hi. apply (O b). apply In_nth_error in Hi. destruct Hi as [k Hk].
    assert (k < c) by (assert (k < length (firstn c row)) by (apply nth_error_Some; congruence); rewrite firstn_length in *; lia).
    rewrite nth_firstn in Hk by auto. exists row, c, k. auto. }
  rewrite D1. cbn [fst]. exists cc, a. split.
  - split; [reflexivity|]. intro j. cbn beta iota. rewrite E0, Ec0. cbn [rbind]. rewrite El, Nat.sub_0_r. change (skipn 0 row) with row. rewrite D2. reflexivity.
  - unfold ib_len, ib_new in *. cbn [ib_data ib_pos] in *. specialize (T1 (Nat.le_0_l _)). rewrite firstn_length in T3. lia.
Qed.
Lemma raw_short : forall nm lv raw, nr_raw (mkRef lv nm) = Ok raw -> length raw <= length (n_raw nm).
Proof.
  intros nm lv raw H. unfold nr_raw in H. cbn [nr_name nr_level] in H. destruct (idx _ _) as [o| | |]; cbn [rbind] in H; try discriminate.
  unfold slice in H. destruct (_ && _); [|discriminate]. apply Ok_inj in H. subst raw. rewrite firstn_length, skipn_length. lia.
Qed.
Lemma search_does : forall m k c nm lu lv r, few r -> on_runs m r -> exists cc a r', does (wn_search_paid k c nm lu lv) (wn_search k c nm lu lv) r cc a r' /\
  cc <= k * (3 * length (n_raw nm) + 60) /\ (forall lu' off, a = Ok (lu', off) -> lu' <= lu + k).
Proof.
  intros m. induction k as [|k IH]; intros c nm lu lv r Fw O.
  - cbn [wn_search wn_search_paid]. exists 0, (Ok (lu, NO_OFFSET)), r. split; [apply does_ret|]. split; [lia|]. intros lu' off Q. inversion Q. lia.
  - set (l1 := if 0 <? lu then lv + 1 else lv). set (W := 3 * length (n_raw nm) + 60) in *.
    assert (Mul : S k * W = W + k * W) by reflexivity.
    destruct (nr_is_root (mkRef l1 nm)) as [[]| | |] eqn:E1.
    { exists (0 + 0), (Ok (lu + 1, NO_OFFSET)), r. split; [cbn [wn_search wn_search_paid]; fold l1; rewrite E1; eapply does_bind; [apply does_lift|apply does_ret]|]. split; [lia|]. intros lu' off Q. inversion Q. lia. }
    2: (exists 0, Err, r; split; [cbn [wn_search wn_search_paid]; fold l1; rewrite E1; eapply does_stop; [apply does_lift|exact Logic.I]|split; [lia|discriminate]]).
    2: (exists 0, Panic, r; split; [cbn [wn_search wn_search_paid]; fold l1; rewrite E1; eapply does_stop; [apply does_lift|exact Logic.I]|split; [lia|discriminate]]).
    2: (exists 0, Hang, r; split; [cbn [wn_search wn_search_paid]; fold l1; rewrite E1; eapply does_stop; [apply does_lift|exact Logic.I]|split; [lia|discriminate]]).
    destruct (nr_hash (mkRef l1 nm)) as [h| | |] eqn:E2.
    2: (exists (0 + 0), Err, r; split; [cbn [wn_search wn_search_paid]; fold l1; rewrite E1; eapply does_bind; [apply does_lift|]; cbn beta iota; rewrite E2; eapply does_stop; [apply does_lift|exact Logic.I]|split; [lia|discriminate]]).
    2: (exists (0 + 0), Panic, r; split; [cbn [wn_search wn_search_paid]; fold l1; rewrite E1; eapply does_bind; [apply does_lift|]; cbn beta iota; rewrite E2; eapply does_stop; [apply does_lift|exact Logic.I]|split; [lia|discriminate]]).
    2: (exists (0 + 0), Hang, r; split; [cbn [wn_search wn_search_paid]; fold l1; rewrite E1; eapply does_bind; [apply does_lift|]; cbn beta iota; rewrite E2; eapply does_stop; [apply does_lift|exact Logic.I]|split; [lia|discriminate]]).
    set (w := modify_r (fun r => let? hs := upd_r (mr_hashes r) lu h in Ok (mkRender (mr_buf r) (mr_table r) (mr_counts r) hs))).
    assert (Ew : (exists r1, w r = (Ok tt, r1) /\ few r1 /\ on_runs m r1) \/ w r = (Panic, r)).
    { unfold w, modify_r, upd_r. destruct (lu <? length (mr_hashes r)); cbn [rbind]; [left|right; reflexivity].
      eexists. split; [reflexivity|]. split; [exact Fw|]. eapply on_runs_mono; [reflexivity|reflexivity| |exact O]. intros i x Hi. exact Hi. }
    destruct Ew as [(r1 & Ew & F1 & O1)|Ew].
    2: { exists (0 + (0 + 0)), Panic, r. split; [cbn [wn_search wn_search_paid]; fold l1; rewrite E1; eapply does_bind; [apply does_lift|]; cbn beta iota; rewrite E2; eapply does_bind; [apply does_lift|]; cbn beta; eapply does_stop; [apply does_free; exact Ew|exact Logic.I]|split; [lia|discriminate]]. }
    assert (D : forall cc a r', does (if c then let! raw := lift (nr_raw (mkRef l1 nm)) in let! off := find_offset_paid raw h in
                   if negb (off =? NO_OFFSET)%N then ret (lu, off) else wn_search_paid k c nm (lu + 1) l1 else wn_search_paid k c nm (lu + 1) l1)
                  (if c then let! r := get in let! raw := lift (nr_raw (mkRef l1 nm)) in let! off := lift (find_offset r raw h) in
                   if negb (off =? NO_OFFSET)%N then ret (lu, off) else wn_search k c nm (lu + 1) l1 else wn_search k c nm (lu + 1) l1) r1 cc a r' ->
      does (wn_search_paid (S k) c nm lu lv) (wn_search (S k) c nm lu lv) r (0 + (0 + (0 + cc))) a r').
    { intros cc a r' Q. cbn [wn_search wn_search_paid]. fold l1. eapply does_bind; [rewrite E1; apply does_lift|]. cbn beta iota. eapply does_bind; [rewrite E2; apply does_lift|]. cbn beta.
      eapply does_bind; [apply does_free; exact Ew|]. cbn beta. exact Q. }
    destruct (IH c nm (lu + 1) l1 r1 F1 O1) as (c2 & a2 & r2 & D2 & L2 & N2).
    assert (N2' : forall lu' off, a2 = Ok (lu', off) -> lu' <= lu + S k) by (intros lu' off Q; apply N2 in Q; lia).
    destruct c.
    2: { exists (0 + (0 + (0 + c2))), a2, r2. split; [apply D; exact D2|]. split; [lia|auto]. }
    assert (Dg : forall cc a r', does (let! raw := lift (nr_raw (mkRef l1 nm)) in let! off := find_offset_paid raw h in
                   if negb (off =? NO_OFFSET)%N then ret (lu, off) else wn_search_paid k true nm (lu + 1) l1)
                  (let! raw := lift (nr_raw (mkRef l1 nm)) in let! off := lift (find_offset r1 raw h) in
                   if negb (off =? NO_OFFSET)%N then ret (lu, off) else wn_search k true nm (lu + 1) l1) r1 cc a r' ->
       does (wn_search_paid (S k) true nm lu lv) (wn_search (S k) true nm lu lv) r (0 + (0 + (0 + cc))) a r') by (intros cc a r' Q; apply D; exact Q).
    destruct (nr_raw (mkRef l1 nm)) as [raw| | |] eqn:E3.
    2: (exists (0 + (0 + (0 + 0))), Err, r1; split; [apply Dg; try rewrite E3; eapply does_stop; [apply does_lift|exact Logic.I]|split; [lia|discriminate]]).
    2: (exists (0 + (0 + (0 + 0))), Panic, r1; split; [apply Dg; try rewrite E3; eapply does_stop; [apply does_lift|exact Logic.I]|split; [lia|discriminate]]).
    2: (exists (0 + (0 + (0 + 0))), Hang, r1; split; [apply Dg; try rewrite E3; eapply does_stop; [apply does_lift|exact Logic.I]|split; [lia|discriminate]]).
    pose proof (raw_short _ _ _ E3) as Lr.
    destruct (find_does m r1 raw h F1 O1) as (c3 & a3 & D3 & L3).
    assert (L3' : c3 <= W) by (unfold W; lia).
    destruct a3 as [off| | |].
    2: (exists (0 + (0 + (0 + (0 + c3)))), Err, r1; split; [apply Dg; eapply does_bind; [apply does_lift|]; eapply does_stop; [exact D3|exact Logic.I]|split; [lia|discriminate]]).
    2: (exists (0 + (0 + (0 + (0 + c3)))), Panic, r1; split; [apply Dg; eapply does_bind; [apply does_lift|]; eapply does_stop; [exact D3|exact Logic.I]|split; [lia|discriminate]]).
    2: (exists (0 + (0 + (0 + (0 + c3)))), Hang, r1; split; [apply Dg; eapply does_bind; [apply does_lift|]; eapply does_stop; [exact D3|exact Logic.I]|split; [lia|discriminate]]).
    destruct (negb (off =? NO_OFFSET)%N) eqn:E4.
    + exists (0 + (0 + (0 + (0 + (c3 + 0))))), (Ok (lu, off)), r1. split; [|split; [lia|intros lu' o Q; inversion Q; lia]].
      apply Dg. eapply does_bind; [apply does_lift|]. eapply does_bind; [exact D3|]. cbn beta. rewrite E4. apply does_ret.
    + exists (0 + (0 + (0 + (0 + (c3 + c2))))), a2, r2. split; [|split; [lia|auto]].
      apply Dg. eapply does_bind; [apply does_lift|]. eapply does_bind; [exact D3|]. cbn beta. rewrite E4. exact D2.
Qed.
Lemma register_does : forall n i p len r, exists c a r', does (wn_register_paid n i p len) (wn_register n i p len) r c a r' /\ c <= n.
Proof.
  induction n as [|n IH]; intros i p len r.
  - exists 0, (Ok tt), r. split; [apply does_ret|lia].
  - set (fp := fun r : render => let! ll := look (mr_buf r) p in
      if (ll =? 0)%N then ret tt else if MAX_COMPRESS_POINTER <? p then ret tt else
        let! hash := lift (idx (mr_hashes r) i) in
        free (modify_r (add_offset hash (as_u16 (N.of_nat p)) (as_u8 (N.of_nat len)))) ;;
        let! step := lift (u8_add ll 1) in let! name_len' := lift (csub len (N.to_nat step)) in
        wn_register_paid n (i + 1) (p + N.to_nat step) name_len').
    set (f := fun r : render => let! ll := lift (ob_at (mr_buf r) p) in
      if (ll =? 0)%N then ret tt else if MAX_COMPRESS_POINTER <? p then ret tt else
        let! hash := lift (idx (mr_hashes r) i) in
        modify_r (add_offset hash (as_u16 (N.of_nat p)) (as_u8 (N.of_nat len))) ;;
        let! step := lift (u8_add ll 1) in let! name_len' := lift (csub len (N.to_nat step)) in
        wn_register n (i + 1) (p + N.to_nat step) name_len').
    cut (exists c a r', does (fp r) (f r) r c a r' /\ c <= S n).
    { intros (c & a & r' & D & L). exists c, a, r'. split; [|auto]. exact (does_get _ _ fp f r c a r' D). }
    unfold fp, f. pose proof (does_look render (mr_buf r) p r) as D1.
    destruct (ob_at (mr_buf r) p) as [ll| | |] eqn:E1.
    2: (exists 1, Err, r; split; [eapply does_stop; [exact D1|exact Logic.I]|lia]).
    2: (exists 1, Panic, r; split; [eapply does_stop; [exact D1|exact Logic.I]|lia]).
    2: (exists 1, Hang, r; split; [eapply does_stop; [exact D1|exact Logic.I]|lia]).
    match goal with |- exists c a r', does (bind _ ?gp) (bind _ ?g) _ _ _ _ /\ _ => cut (exists c a r', does (gp ll) (g ll) r c a r' /\ c <= n) end.
    { intros (c & a & r' & D & L). exists (1 + c), a, r'. split; [|lia]. eapply does_bind; [exact D1|exact D]. }
    cbn beta. destruct (ll =? 0)%N; [exists 0, (Ok tt), r; split; [apply does_ret|lia]|].
    destruct (MAX_COMPRESS_POINTER <? p); [exists 0, (Ok tt), r; split; [apply does_ret|lia]|].
    destruct (idx_r _ (mr_hashes r) i) as [[hh E2]|E2]; rewrite E2.
    2: (exists 0, Panic, r; split; [eapply does_stop; [apply does_lift|exact Logic.I]|lia]).
    destruct (modify_r (add_offset hh (as_u16 (N.of_nat p)) (as_u8 (N.of_nat len))) r) as [a3 r3] eqn:E3.
    destruct a3 as [[]| | |].
    2: (exists (0 + 0), Err, r3; split; [eapply does_bind; [apply does_lift|]; eapply does_stop; [apply does_free; exact E3|exact Logic.I]|lia]).
    2: (exists (0 + 0), Panic, r3; split; [eapply does_bind; [apply does_lift|]; eapply does_stop; [apply does_free; exact E3|exact Logic.I]|lia]).
    2: (exists (0 + 0), Hang, r3; split; [eapply does_bind; [apply does_lift|]; eapply does_stop; [apply does_free; exact E3|exact Logic.I]|lia]).
    match goal with |- exists c a r', does (bind _ ?gp) (bind _ ?g) _ _ _ _ /\ _ => cut (exists c a r', does (let! step := lift (u8_add ll 1) in let! name_len' := lift (csub len (N.to_nat step)) in
        wn_register_paid n (i + 1) (p + N.to_nat step) name_len') (let! step := lift (u8_add ll 1) in let! name_len' := lift (csub len (N.to_nat step)) in
        wn_register n (i + 1) (p + N.to_nat step) name_len') r3 c a r' /\ c <= n) end.
    { intros (c & a & r' & D & L). exists (0 + (0 + c)), a, r'. split; [|lia]. eapply does_bind; [apply does_lift|]. eapply does_bind; [apply does_free; exact E3|]. exact D. }
    destruct (u8_add ll 1) as [st| | |].
    2: (exists 0, Err, r3; split; [eapply does_stop; [apply does_lift|exact Logic.I]|lia]).
    2: (exists 0, Panic, r3; split; [eapply does_stop; [apply does_lift|exact Logic.I]|lia]).
    2: (exists 0, Hang, r3; split; [eapply does_stop; [apply does_lift|exact Logic.I]|lia]).
    destruct (csub len (N.to_nat st)) as [len'| | |] eqn:E5.
    2: (exists (0 + 0), Err, r3; split; [eapply does_bind; [apply does_lift|]; rewrite E5; eapply does_stop; [apply does_lift|exact Logic.I]|lia]).
    2: (exists (0 + 0), Panic, r3; split; [eapply does_bind; [apply does_lift|]; rewrite E5; eapply does_stop; [apply does_lift|exact Logic.I]|lia]).
    2: (exists (0 + 0), Hang, r3; split; [eapply does_bind; [apply does_lift|]; rewrite E5; eapply does_stop; [apply does_lift|exact Logic.I]|lia]).
    destruct (IH (i + 1) (p + N.to_nat st) len' r3) as (c & a & r' & D & L). exists (0 + (0 + c)), a, r'. split; [|lia].
    eapply does_bind; [apply does_lift|]. rewrite E5. eapply does_bind; [apply does_lift|]. exact D.
Qed.

Lemma name_does : forall m nm c r, few r -> on_runs m r -> exists cc a r', does (write_name_paid nm c) (write_name nm c) r cc a r' /\
  cc <= label_count nm * (3 * length (n_raw nm) + 61).
Proof.
  intros m nm c r Fw O. unfold write_name_paid, write_name. set (lc := label_count nm).
  destruct (search_does m lc c nm 0 0 r Fw O) as (c1 & a1 & r1 & D1 & L1 & N1).
  assert (Mul : lc * (3 * length (n_raw nm) + 61) = lc * (3 * length (n_raw nm) + 60) + lc) by lia.
  destruct a1 as [[lu off]| | |].
  2: (exists c1, Err, r1; split; [eapply does_stop; [exact D1|exact Logic.I]|lia]).
  2: (exists c1, Panic, r1; split; [eapply does_stop; [exact D1|exact Logic.I]|lia]).
  2: (exists c1, Hang, r1; split; [eapply does_stop; [exact D1|exact Logic.I]|lia]).
  specialize (N1 lu off eq_refl). cbn [Nat.add] in N1.
  match goal with |- exists cc a r', does (bind _ ?gp) (bind _ ?g) _ _ _ _ /\ _ => cut (exists cc a r', does (gp (lu, off)) (g (lu, off)) r1 cc a r' /\ cc <= lu) end.
  { intros (cc & a & r' & D & L). exists (c1 + cc), a, r'. split; [|lia]. eapply does_bind; [exact D1|exact D]. }
  cbn beta iota.
  match goal with |- exists cc a r', does (bind get (fun '(x, _) => @?gp x)) (bind get ?g) _ _ _ _ /\ _ => cut (exists cc a r', does (gp r1) (g r1) r1 cc a r' /\ cc <= lu) end.
  { intros (cc & a & r' & D & L). exists cc, a, r'. split; [|auto].
    match goal with |- does (bind get (fun '(x, _) => @?gp x)) (bind get ?g) _ _ _ _ => exact (does_get _ _ gp g r1 cc a r' D) end. }
  cbn beta zeta.
  match goal with |- exists cc a r', does (bind (free ?w1) (fun _ => bind (free ?w2) _)) _ _ _ _ _ /\ _ => set (u1 := w1); set (u2 := w2) end.
  destruct (u1 r1) as [a2 r2] eqn:E2. destruct a2 as [[]| | |].
  2: (exists 0, Err, r2; split; [eapply does_stop; [apply does_free; exact E2|exact Logic.I]|lia]).
  2: (exists 0, Panic, r2; split; [eapply does_stop; [apply does_free; exact E2|exact Logic.I]|lia]).
  2: (exists 0, Hang, r2; split; [eapply does_stop; [apply does_free; exact E2|exact Logic.I]|lia]).
  destruct (u2 r2) as [a3 r3] eqn:E3. destruct a3 as [[]| | |].
  2: (exists (0 + 0), Err, r3; split; [eapply does_bind; [apply does_free; exact E2|]; eapply does_stop; [apply does_free; exact E3|exact Logic.I]|lia]).
  2: (exists (0 + 0), Panic, r3; split; [eapply does_bind; [apply does_free; exact E2|]; eapply does_stop; [apply does_free; exact E3|exact Logic.I]|lia]).
  2: (exists (0 + 0), Hang, r3; split; [eapply does_bind; [apply does_free; exact E2|]; eapply does_stop; [apply does_free; exact E3|exact Logic.I]|lia]).
  destruct (register_does lu 0 (ob_len (mr_buf r1)) (name_len nm) r3) as (c4 & a4 & r4 & D4 & L4).
  exists (0 + (0 + c4)), a4, r4. split; [|lia]. eapply does_bind; [apply does_free; exact E2|]. eapply does_bind; [apply does_free; exact E3|]. exact D4.
Qed.

Lemma write_name_bounded : forall dat h r ls c k, bytes dat -> history (mr_new dat) h r -> wf_labels ls ->
  (length ls + 1) * (3 * wire_len ls + 61) <= k -> write_name_within k (name_of ls) c r = write_name (name_of ls) c r.
Proof.
  intros dat h r ls c k B H F L. destruct (history_inv dat h r B H) as [I _].
  destruct (name_does (hmask h) (name_of ls) c r) as (cc & a & r' & [D1 D2] & Lc).
  - apply (inv_cnt _ _ I).
  - eapply history_runs; eauto.
  - rewrite label_count_of in Lc. change (n_raw (name_of ls)) with (enc ls) in Lc. rewrite enc_len in Lc. rewrite wire_elen in L.
    replace (elen ls + 1) with (1 + elen ls) in * by lia.
    unfold write_name_within. replace k with (cc + (k - cc)) by lia. rewrite D2, D1. reflexivity.
Qed.
Lemma write_name_constant : forall dat h r ls c, bytes dat -> history (mr_new dat) h r -> wf_labels ls ->
  write_name_within (N.to_nat 105728) (name_of ls) c r = write_name (name_of ls) c r.
Proof.
  intros dat h r ls c B H F. eapply write_name_bounded; eauto.
  assert (L1 : length ls <= 127).
  { apply wf_count127. auto. }
  assert (L2 : wire_len ls <= 255) by apply F. clear - L1 L2.
  assert ((length ls + 1) * (3 * wire_len ls + 61) <= 128 * 826) by (apply Nat.mul_le_mono; lia). lia.
Qed.

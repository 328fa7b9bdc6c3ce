(** Comparison of names; subdomain test; label sequences; Display. *)
From Verif Require Import Base BaseLemmas NameModel SpecName NameWireProofs NameOpsProofs NameOpsProofs2 NameCmpProofs.

Lemma nrml_false : forall l, nrml false l = lc_label l. Proof. reflexivity. Qed.
Lemma nrmls_false : forall l, nrmls false l = lc_labels l. Proof. reflexivity. Qed.
Lemma rev_full : forall ls, rev (lc_labels (full ls)) = [] :: rev (lc_labels ls).
Proof. intros. unfold full, lc_labels. rewrite map_app, rev_app_distr. reflexivity. Qed.
Lemma wf_label_ok : forall ls, Forall wf_label ls -> Forall label_ok (full ls).
Proof.
  intros. unfold full. apply Forall_app. split.
  - eapply Forall_impl; [|exact H]. intros a []. split; auto. lia.
  - repeat constructor.
Qed.
Lemma ascii_full : forall ls, ascii_labels ls <-> Forall ascii (full ls).
Proof.
  intros. unfold full, ascii_labels, ascii. rewrite Forall_app. split; [|tauto].
  intros. split; auto.
Qed.

Lemma get_relation_spec : forall md a b, wf_labels a -> wf_labels b ->
  (md = Release \/ (ascii_labels a /\ ascii_labels b)) ->
  exists r, get_relation md (name_of a) (name_of b) = Ok r /\
    cr_common r = N.of_nat (common_labels a b) /\
    cr_relation r = rel_spec (length a + 1) (length b + 1) (common_labels a b) /\
    (ascii_labels a -> ascii_labels b -> (cr_order r ?= 0)%Z = canonical_cmp a b).
Proof.
  intros md a b Wa Wb S. unfold get_relation.
  destruct (slice_of_name_rep a Wa) as (sa & Ea & Ra & _). destruct (slice_of_name_rep b Wb) as (sb & Eb & Rb & _).
  rewrite Ea, Eb. cbn [rbind].
  destruct (sl_compare_spec md false sa sb _ _ Ra Rb) as (r & R & C1 & C2 & C3).
  - apply wf_label_ok. apply Wa.
  - apply wf_label_ok. apply Wb.
  - destruct S as [|[]]; [left|right]; auto. split; apply (proj1 (ascii_full _)); auto.
  - rewrite full_len. pose proof (wf_count127 _ Wa). lia.
  - rewrite full_len. pose proof (wf_count127 _ Wb). lia.
  - exists r. split; auto. rewrite !nrmls_false, !rev_full in *. cbn [common_prefix] in *.
    destruct (list_eq_dec N.eq_dec [] []); [|congruence]. rewrite !full_len in *.
    split; [exact C1|]. split; [exact C2|].
    intros A B. rewrite C3 by (apply (proj1 (ascii_full _)); auto). reflexivity.
Qed.

(** Debug builds: a panic or the same answer as the release build. *)
Lemma cmp_label_debug : forall cs d1 d2 n p1 p2,
  cmp_label Debug cs d1 d2 p1 p2 n = Panic \/ cmp_label Debug cs d1 d2 p1 p2 n = cmp_label Release cs d1 d2 p1 p2 n.
Proof.
  induction n; intros; cbn [cmp_label]; auto.
  destruct (idx d1 p1); cbn [rbind]; auto. destruct (idx d2 p2); cbn [rbind]; auto.
  match goal with |- context [i8_diff Debug ?x ?y] => assert (i8_diff Debug x y = Panic \/ i8_diff Debug x y = i8_diff Release x y) by (unfold i8_diff; destruct (_ && _); auto) end.
  destruct H as [-> | ->]; auto. destruct (i8_diff Release _ _); cbn [rbind]; auto. destruct (negb _); auto.
Qed.

(** ** the canonical order is a total order *)
Lemma lex_bytes_refl : forall a, lex_bytes a a = Eq.
Proof. induction a; simpl; auto. rewrite N.compare_refl. auto. Qed.
Lemma lex_bytes_eq : forall a b, lex_bytes a b = Eq -> a = b.
Proof.
  induction a; destruct b; simpl; intros; try discriminate; auto.
  destruct (N.compare_spec a n); try discriminate. subst. f_equal. auto.
Qed.
Lemma lex_bytes_opp : forall a b, lex_bytes b a = CompOpp (lex_bytes a b).
Proof.
  induction a; destruct b; simpl; auto. rewrite (N.compare_antisym a n). destruct (a ?= n)%N; simpl; auto.
Qed.
Lemma lex_bytes_trans : forall a b c, lex_bytes a b = Lt -> lex_bytes b c = Lt -> lex_bytes a c = Lt.
Proof.
  induction a; destruct b, c; simpl; intros; try discriminate; auto.
  destruct (N.compare_spec a n), (N.compare_spec n n0); try discriminate; subst.
  all: rewrite ?N.compare_refl; eauto.
  all: match goal with |- context [(?x ?= ?y)%N] => assert (X : (x ?= y)%N = Lt) by (apply N.compare_lt_iff; lia); rewrite X; auto end.
Qed.
Lemma lex_labels_refl : forall a, lex_labels a a = Eq.
Proof. induction a; simpl; auto. rewrite lex_bytes_refl. auto. Qed.
Lemma lex_labels_eq : forall a b, lex_labels a b = Eq -> a = b.
Proof.
  induction a; destruct b; simpl; intros; try discriminate; auto.
  destruct (lex_bytes a l) eqn:E; try discriminate. apply lex_bytes_eq in E. subst. f_equal. auto.
Qed.
Lemma lex_labels_opp : forall a b, lex_labels b a = CompOpp (lex_labels a b).
Proof.
  induction a; destruct b; simpl; auto. rewrite (lex_bytes_opp a l). destruct (lex_bytes a l); simpl; auto.
Qed.
Lemma lex_labels_trans : forall a b c, lex_labels a b = Lt -> lex_labels b c = Lt -> lex_labels a c = Lt.
Proof.
  induction a; destruct b, c; simpl; intros; try discriminate; auto.
  destruct (lex_bytes a l) eqn:E1; try discriminate; destruct (lex_bytes l l0) eqn:E2; try discriminate.
  - apply lex_bytes_eq in E1, E2. subst. rewrite lex_bytes_refl. eauto.
  - apply lex_bytes_eq in E1. subst. rewrite E2. auto.
  - apply lex_bytes_eq in E2. subst. rewrite E1. auto.
  - rewrite (lex_bytes_trans _ _ _ E1 E2). auto.
Qed.
Lemma canonical_eq : forall a b, canonical_cmp a b = Eq <-> same_name a b.
Proof.
  intros. unfold canonical_cmp, same_name. split; intros.
  - apply lex_labels_eq in H. apply (f_equal (@rev _)) in H. rewrite !rev_involutive in H. auto.
  - rewrite H. apply lex_labels_refl.
Qed.
Lemma canonical_opp : forall a b, canonical_cmp b a = CompOpp (canonical_cmp a b).
Proof. intros. apply lex_labels_opp. Qed.
Lemma canonical_trans : forall a b c, canonical_cmp a b = Lt -> canonical_cmp b c = Lt -> canonical_cmp a c = Lt.
Proof. intros a b c. apply lex_labels_trans. Qed.

Lemma name_cmp_spec : forall md a b, wf_labels a -> wf_labels b -> ascii_labels a -> ascii_labels b ->
  name_cmp md (name_of a) (name_of b) = Ok (canonical_cmp a b).
Proof.
  intros. unfold name_cmp. destruct (get_relation_spec md a b) as (r & R & _ & _ & C); auto.
  rewrite R. cbn [rbind]. rewrite C; auto.
Qed.

(** ** is_subdomain *)
Lemma subdomain_loop_true : forall j self par i, j < length par -> j <= i < length self ->
  (subdomain_loop self par i j = Ok true <->
   forall k, 1 <= k <= j -> option_map lc (nth_error par k) = option_map lc (nth_error self (i - j + k))) /\
  (subdomain_loop self par i j = Ok true \/ subdomain_loop self par i j = Ok false).
Proof.
  induction j; intros self par i Hj Hi.
  - simpl. split; auto. split; auto. intros. lia.
  - cbn [subdomain_loop].
    destruct (idx_ok_lt _ par (S j) Hj) as (a & A1 & A2). destruct (idx_ok_lt _ self i ltac:(lia)) as (b & B1 & B2).
    rewrite A1, B1. cbn [rbind]. change lower_case with lc.
    destruct (lc a =? lc b)%N eqn:E; bl; cbn [negb].
    + rewrite csub_ok by lia. cbn [rbind].
      destruct (IHj self par (i - 1)) as [I1 I2]; [lia|lia|]. split; auto.
      rewrite I1. split; intros.
      * destruct (Nat.eq_dec k (S j)).
        -- subst k. replace (i - S j + S j) with i by lia. rewrite A2, B2. simpl. congruence.
        -- replace (i - S j + k) with (i - 1 - j + k) by lia. apply H. lia.
      * replace (i - 1 - j + k) with (i - S j + k) by lia. apply H. lia.
    + split; auto. split; [discriminate|]. intros H. specialize (H (S j) ltac:(lia)).
      replace (i - S j + S j) with i in H by lia. rewrite A2, B2 in H. simpl in H. congruence.
Qed.
(** exact meaning of the test: parent's bytes after the first one match the end of self *)
Lemma is_subdomain_exact : forall a b,
  (is_subdomain (name_of a) (name_of b) = Ok true \/ is_subdomain (name_of a) (name_of b) = Ok false) /\
  (is_subdomain (name_of a) (name_of b) = Ok true <->
   wire_len b <= wire_len a /\ length b <= length a /\
   forall k, 1 <= k < wire_len b ->
     option_map lc (nth_error (enc b) k) = option_map lc (nth_error (enc a) (wire_len a - wire_len b + k))).
Proof.
  intros. unfold is_subdomain. rewrite !name_len_of, !label_count_of, !wire_elen.
  destruct (_ || _) eqn:E.
  - bl. split; auto. split; [discriminate|]. intros (A & B & _). destruct E; bl; lia.
  - bl. rewrite !csub_ok by lia. cbn [rbind]. unfold name_of; simplb.
    replace (elen a + 1 - 1) with (elen a) by lia. replace (elen b + 1 - 1) with (elen b) by lia.
    destruct (subdomain_loop_true (elen b) (enc a) (enc b) (elen a)) as [I1 I2]; rewrite ?enc_len; try lia.
    split; [exact I2|]. rewrite I1. split.
    + intros. split; [lia|]. split; [lia|]. intros. replace (elen a + 1 - (elen b + 1) + k) with (elen a - elen b + k) by lia. apply H1. lia.
    + intros (A & B & C) k K. replace (elen a - elen b + k) with (elen a + 1 - (elen b + 1) + k) by lia. apply C. lia.
Qed.
Lemma map_lc_body : forall ls, Forall wf_label ls -> map lc (body ls) = body (lc_labels ls).
Proof.
  induction 1; auto. simpl lc_labels. unfold body in *. simpl. rewrite map_app, IHForall. f_equal.
  unfold lc_label, blen. rewrite map_length. apply lc_small. destruct H. lia.
Qed.
Lemma is_subdomain_complete : forall a b, wf_labels a -> wf_labels b ->
  subdomain a b -> is_subdomain (name_of a) (name_of b) = Ok true.
Proof.
  intros a b Wa Wb (p & P). apply is_subdomain_exact.
  assert (E := f_equal elen P). rewrite elen_app, !lc_labels_elen in E.
  assert (L := f_equal (@length _) P). rewrite app_length, !lc_labels_len in L.
  rewrite !wire_elen. split; [lia|]. split; [lia|]. intros k K.
  pose proof (hash_bytes_enc a (proj1 Wa)) as Ha. pose proof (hash_bytes_enc b (proj1 Wb)) as Hb.
  change lower_case with lc in *. rewrite P in Ha. rewrite enc_app in Ha.
  rewrite <- !nth_error_map. rewrite Ha, Hb.
  rewrite nth_error_app2 by (rewrite body_len; lia). f_equal. rewrite body_len. lia.
Qed.

(** ** label sequences *)
Lemma seq_of_seqf : forall ls ab, seq_of ls ab = seqf (if ab then full ls else ls).
Proof. intros. unfold seq_of, seqf. destruct ab; auto. rewrite body_full, obody_full. reflexivity. Qed.

Lemma body_cons : forall l ls, body (l :: ls) = blen l :: l ++ body ls. Proof. reflexivity. Qed.

Lemma into_seq_mid : forall a b l c, elen (a ++ b ++ l :: c) <= 255 ->
  into_label_sequence (mkName (body (a ++ b ++ l :: c)) (obody 0 (a ++ b ++ l :: c))) (length a) (length a + length b)
  = Ok (seqf (b ++ [l])).
Proof.
  intros a b l c H. unfold into_label_sequence. simplb.
  rewrite !elen_app, elen_cons in H.
  assert (O : obody 0 (a ++ b ++ l :: c) = obody 0 a ++ obody (elen a) (b ++ [l]) ++ obody (elen a + elen (b ++ [l])) c).
  { replace (a ++ b ++ l :: c) with (a ++ (b ++ [l]) ++ c) by (rewrite <- app_assoc; reflexivity).
    rewrite !obody_app. reflexivity. }
  assert (B : body (a ++ b ++ l :: c) = body a ++ body (b ++ [l]) ++ body c).
  { rewrite !body_app. rewrite <- !app_assoc. simpl. rewrite <- app_assoc. reflexivity. }
  assert (E1 : elen (b ++ [l]) = elen b + 1 + length l) by (rewrite elen_app, elen_cons, elen_nil; lia).
  assert (I1 : idx (obody 0 (a ++ b ++ l :: c)) (length a + length b) = Ok (N.of_nat (elen a + elen b))).
  { rewrite !obody_app. simpl (obody _ (l :: c)). rewrite app_assoc. apply idx_app_mid. rewrite app_length, !obody_len. auto. }
  rewrite I1. cbn [rbind].
  assert (I2 : idx (body (a ++ b ++ l :: c)) (N.to_nat (N.of_nat (elen a + elen b))) = Ok (blen l)).
  { rewrite !body_app, body_cons, app_assoc. apply idx_app_mid. rewrite app_length, !body_len. lia. }
  rewrite I2. cbn [rbind]. unfold blen. rewrite !u8_add_ok by lia. cbn [rbind]. rewrite u8_add_ok by lia. cbn [rbind].
  rewrite B, O.
  assert (S1 : slice (body a ++ body (b ++ [l]) ++ body c) 0 (N.to_nat (N.of_nat (elen a + elen b) + (N.of_nat (length l) + 1))) = Ok (body a ++ body (b ++ [l]))).
  { rewrite app_assoc. apply slice_pre. rewrite app_length, !body_len. lia. }
  assert (S2 : slice (obody 0 a ++ obody (elen a) (b ++ [l]) ++ obody (elen a + elen (b ++ [l])) c) 0 (length a + length b + 1) = Ok (obody 0 a ++ obody (elen a) (b ++ [l]))).
  { rewrite app_assoc. apply slice_pre. rewrite app_length, !obody_len, app_length. simpl. lia. }
  rewrite S1. cbn [rbind]. rewrite S2. cbn [rbind].
  destruct (length a =? 0) eqn:Z; bl.
  - destruct a; [|discriminate]. reflexivity.
  - destruct (b ++ [l]) as [|x r] eqn:BL; [destruct b; discriminate|].
    rewrite <- BL in *.
    assert (HD : exists t, obody (elen a) (b ++ [l]) = N.of_nat (elen a) :: t) by (rewrite BL; simpl; eauto).
    destruct HD as (t & HD).
    rewrite HD at 1. rewrite idx_app_mid by (rewrite obody_len; auto). cbn [rbind].
    rewrite slice_suf by (rewrite ?body_len; auto; lia). cbn [rbind].
    rewrite slice_suf by (rewrite ?obody_len; auto; lia). cbn [rbind].
    rewrite HD at 1. change (idx (N.of_nat (elen a) :: t) 0) with (Ok (N.of_nat (elen a))). cbn [rbind].
    rewrite obody_sub0. reflexivity.
Qed.

(** All arguments *)
Lemma into_label_sequence_spec : forall ls first last, wf_labels ls ->
  into_label_sequence (name_of ls) first last =
  if (first <=? last) && (last <=? length ls)
  then Ok (seqf (firstn (last - first + 1) (skipn first (full ls)))) else Panic.
Proof.
  intros ls f k W. rewrite name_of_full.
  destruct ((f <=? k) && (k <=? length ls)) eqn:E; bl.
  - pose proof (full_len ls) as FL.
    assert (EF : elen (full ls) <= 255) by (rewrite elen_full; apply wf_elen in W; lia).
    set (F := full ls) in *. clearbody F.
    assert (D : exists a b l c, F = a ++ b ++ l :: c /\ length a = f /\ length b = k - f).
    { exists (firstn f F), (firstn (k - f) (skipn f F)).
      destruct (skipn (k - f) (skipn f F)) as [|l c] eqn:X.
      - pose proof (skipn_length (k - f) (skipn f F)). rewrite X, skipn_length in H1. simpl in H1. lia.
      - exists l, c. rewrite <- X, !firstn_skipn. repeat split; auto.
        + apply firstn_length_le; lia.
        + apply firstn_length_le. rewrite skipn_length. lia. }
    destruct D as (a & b & l & c & -> & <- & Lb).
    replace k with (length a + length b) at 1 by lia.
    rewrite into_seq_mid by auto. f_equal. f_equal.
    rewrite skipn_app, skipn_all, Nat.sub_diag. simpl.
    rewrite firstn_app. rewrite firstn_all2 by lia. replace (k - length a + 1 - length b) with 1 by lia. reflexivity.
  - unfold into_label_sequence. simplb. unfold idx at 1.
    destruct (nth_error (obody 0 (full ls)) k) eqn:X; [|reflexivity].
    assert (KL : k < length (obody 0 (full ls))) by (apply nth_error_Some; congruence).
    rewrite obody_len, full_len in KL.
    assert (FK : k < f) by (destruct E; bl; lia).
    cbn [rbind].
    assert (G : forall r : res labelseq, r = Panic -> r = Panic) by auto.
    unfold u8_add, idx, slice.
    repeat match goal with
    | |- rbind ?m _ = Panic => destruct m eqn:?; cbn [rbind]; try reflexivity
    | H : (match ?x with _ => _ end) = Err |- _ => destruct x; discriminate
    | H : (if ?x then _ else _) = Err |- _ => destruct x; discriminate
    | H : (match ?x with _ => _ end) = Hang |- _ => destruct x; discriminate
    | H : (if ?x then _ else _) = Hang |- _ => destruct x; discriminate
    end.
    iff_.
    destruct ((0 <=? k + 1) && (k + 1 <=? length (obody 0 (full ls)))) eqn:Y; [|discriminate].
    injection Heqr3 as <-.
    match goal with |- context [nth_error ?l f] => assert (Z : nth_error l f = None) end.
    { apply nth_error_None. rewrite firstn_length. lia. }
    rewrite Z. reflexivity.
Qed.

Lemma seqf_split_mid : forall a b l c, elen (a ++ b ++ l :: c) <= 255 ->
  seq_split (seqf (a ++ b ++ l :: c)) (length a) (length b + 1) = Ok (seqf (b ++ [l]), seqf (a ++ c)).
Proof.
  intros a b l c H. unfold seq_split.
  change (ls_data (seqf (a ++ b ++ l :: c))) with (body (a ++ b ++ l :: c)).
  change (ls_offsets (seqf (a ++ b ++ l :: c))) with (obody 0 (a ++ b ++ l :: c)).
  rewrite !elen_app, elen_cons in H.
  assert (O : obody 0 (a ++ b ++ l :: c) = obody 0 a ++ obody (elen a) (b ++ [l]) ++ obody (elen a + elen (b ++ [l])) c).
  { replace (a ++ b ++ l :: c) with (a ++ (b ++ [l]) ++ c) by (rewrite <- app_assoc; reflexivity).
    rewrite !obody_app. reflexivity. }
  assert (B : body (a ++ b ++ l :: c) = body a ++ body (b ++ [l]) ++ body c).
  { rewrite !body_app. rewrite <- !app_assoc. simpl. rewrite <- app_assoc. reflexivity. }
  assert (E1 : elen (b ++ [l]) = elen b + 1 + length l) by (rewrite elen_app, elen_cons, elen_nil; lia).
  rewrite obody_len, !app_length. simpl length. unfold ensure_r. ift. cbn [rbind].
  iff_.
  rewrite csub_ok by lia. cbn [rbind].
  replace (length a + (length b + 1) - 1) with (length a + length b) by lia.
  assert (I1 : idx (obody 0 (a ++ b ++ l :: c)) (length a + length b) = Ok (N.of_nat (elen a + elen b))).
  { rewrite !obody_app. simpl (obody _ (l :: c)). rewrite app_assoc. apply idx_app_mid. rewrite app_length, !obody_len. auto. }
  rewrite I1. cbn [rbind].
  assert (I2 : idx (body (a ++ b ++ l :: c)) (N.to_nat (N.of_nat (elen a + elen b))) = Ok (blen l)).
  { rewrite !body_app, body_cons, app_assoc. apply idx_app_mid. rewrite app_length, !body_len. lia. }
  rewrite I2. cbn [rbind]. unfold blen. rewrite !u8_add_ok by lia. cbn [rbind]. rewrite u8_add_ok by lia. cbn [rbind].
  destruct (b ++ [l]) as [|x r] eqn:BL; [destruct b; discriminate|]. rewrite <- BL in *.
  assert (HD : exists t, obody (elen a) (b ++ [l]) = N.of_nat (elen a) :: t) by (rewrite BL; simpl; eauto).
  destruct HD as (t & HD).
  assert (I3 : idx (obody 0 (a ++ b ++ l :: c)) (length a) = Ok (N.of_nat (elen a))).
  { rewrite O, HD. simpl app. apply idx_app_mid. rewrite obody_len. auto. }
  rewrite I3. cbn [rbind]. rewrite u8_sub_ok by lia. cbn [rbind].
  set (dl := N.to_nat (N.of_nat (elen a + elen b) + (N.of_nat (length l) + 1))).
  assert (DL : dl = elen a + elen (b ++ [l])) by (unfold dl; lia).
  set (dof := (N.of_nat (elen a + elen b) + (N.of_nat (length l) + 1) - N.of_nat (elen a))%N).
  assert (DO : dof = N.of_nat (elen (b ++ [l]))) by (unfold dof; lia).
  rewrite DO. clear DO. clearbody dof. rewrite DL. clear DL. clearbody dl. rewrite Nat2N.id.
  rewrite B, O.
  rewrite slice_mid by (rewrite ?body_len; lia). cbn [rbind].
  rewrite slice_mid by (rewrite ?obody_len, ?app_length; simpl; lia). cbn [rbind].
  assert (F1 : firstn (elen a) (body a ++ body (b ++ [l]) ++ body c) ++ skipn (elen a + elen (b ++ [l])) (body a ++ body (b ++ [l]) ++ body c) = body (a ++ c)).
  { rewrite firstn_app, body_len, Nat.sub_diag. simpl firstn at 2. rewrite app_nil_r.
    rewrite firstn_all2 by (rewrite body_len; lia). rewrite (body_app a c). f_equal.
    rewrite app_assoc. rewrite skipn_app. rewrite skipn_all2 by (rewrite app_length, !body_len; lia).
    rewrite app_length, !body_len, Nat.sub_diag. reflexivity. }
  rewrite F1. clear F1.
  assert (F2 : firstn (length a) (obody 0 a ++ obody (elen a) (b ++ [l]) ++ obody (elen a + elen (b ++ [l])) c) = obody 0 a).
  { rewrite firstn_app, obody_len, Nat.sub_diag. simpl. rewrite app_nil_r. apply firstn_all2. rewrite obody_len. lia. }
  assert (F3 : skipn (length a + length b + 1) (obody 0 a ++ obody (elen a) (b ++ [l]) ++ obody (elen a + elen (b ++ [l])) c) = obody (elen a + elen (b ++ [l])) c).
  { rewrite app_assoc. rewrite skipn_app. rewrite skipn_all2 by (rewrite app_length, !obody_len, app_length; simpl; lia).
    rewrite app_length, !obody_len, app_length. simpl length. replace (length a + length b + 1 - (length a + (length b + 1))) with 0 by lia. reflexivity. }
  rewrite F2, F3.
  assert (SUB : rmap (fun v => u8_sub v (N.of_nat (elen (b ++ [l])))) (obody (elen a + elen (b ++ [l])) c) = Ok (obody (elen a) c)).
  { rewrite Nat.add_comm. apply obody_sub. }
  destruct (length a =? 0) eqn:Z; bl.
  - assert (a = []) by (destruct a; auto; discriminate). subst a. rewrite (rmap_app _ _ _ (obody 0 []) _ [] _ eq_refl SUB). reflexivity.
  - rewrite skipn_app, obody_len. rewrite skipn_all2 by (rewrite obody_len; lia). rewrite Nat.sub_diag. simpl (skipn 0 _). simpl app at 1.
    change (@nil N ++ obody (elen a + elen (b ++ [l])) c) with (obody (elen a + elen (b ++ [l])) c). rewrite SUB. cbn [rbind]. rewrite HD at 1. change (idx (N.of_nat (elen a) :: t) 0) with (Ok (N.of_nat (elen a))). cbn [rbind].
    rewrite obody_sub0. cbn [rbind]. unfold seqf.
    rewrite firstn_app, obody_len, Nat.sub_diag. simpl (firstn 0 _). rewrite app_nil_r. rewrite firstn_all2 by (rewrite obody_len; lia).
    rewrite (obody_app a c). reflexivity.
Qed.
Lemma seq_split_spec : forall fls i k, elen fls <= 255 ->
  seq_split (seqf fls) i k =
  if (i <? length fls) && (0 <? k)
  then Ok (seqf (firstn k (skipn i fls)), seqf (firstn i fls ++ skipn (i + k) fls)) else Err.
Proof.
  intros F i k H. destruct ((i <? length F) && (0 <? k)) eqn:E; bl.
  - set (k' := Nat.min k (length F - i)).
    assert (K' : 1 <= k' /\ i + k' <= length F) by (unfold k'; lia).
    assert (D : exists a b l c, F = a ++ b ++ l :: c /\ length a = i /\ length b + 1 = k').
    { exists (firstn i F), (firstn (k' - 1) (skipn i F)).
      destruct (skipn (k' - 1) (skipn i F)) as [|l c] eqn:X.
      - pose proof (skipn_length (k' - 1) (skipn i F)). rewrite X, skipn_length in H2. simpl in H2. lia.
      - exists l, c. rewrite <- X, !firstn_skipn. repeat split; auto.
        + apply firstn_length_le; lia.
        + rewrite firstn_length_le; [lia|]. rewrite skipn_length. lia. }
    assert (SK : seq_split (seqf F) i k = seq_split (seqf F) i k').
    { unfold seq_split, seqf. simplb. rewrite obody_len. unfold ensure_r. ift. cbn [rbind].
      replace ((i <? length F) && (0 <? k')) with true by (symmetry; rewrite andb_true_iff, !Nat.ltb_lt; lia). cbn [rbind].
      assert (X1 : (if length F <? i + k then length F - i else k) = k') by (destruct (length F <? i + k) eqn:Q; bl; unfold k'; lia).
      assert (X2 : (if length F <? i + k' then length F - i else k') = k') by (destruct (length F <? i + k') eqn:Q; bl; lia).
      rewrite X1, X2. reflexivity. }
    rewrite SK. destruct D as (a & b & l & c & -> & La & Lb). subst i. rewrite <- Lb.
    rewrite seqf_split_mid by auto. rewrite !app_length in *. simpl length in *.
    f_equal. f_equal.
    + f_equal. rewrite skipn_app, skipn_all, Nat.sub_diag. simpl app. simpl skipn.
      unfold k' in Lb; rewrite !app_length in Lb; cbn [length] in Lb.
      rewrite firstn_app. rewrite firstn_all2 by lia.
      destruct (le_lt_dec k (length b + 1)).
      * replace (k - length b) with 1 by lia. reflexivity.
      * assert (LC0 : length c = 0) by lia. assert (c = []) by (destruct c; [auto|discriminate]). subst c. rewrite firstn_all2 by (simpl; lia). reflexivity.
    + f_equal. rewrite firstn_app, Nat.sub_diag. simpl (firstn 0 _). rewrite app_nil_r, firstn_all2 by lia. f_equal.
      unfold k' in Lb; rewrite !app_length in Lb; cbn [length] in Lb. replace (a ++ b ++ l :: c) with ((a ++ b ++ [l]) ++ c) by (rewrite <- !app_assoc; reflexivity).
      destruct (le_lt_dec k (length b + 1)).
      * rewrite skipn_app. rewrite skipn_all2 by (rewrite !app_length; simpl; lia).
        rewrite !app_length. simpl length. replace (length a + k - (length a + (length b + 1))) with 0 by lia. reflexivity.
      * assert (LC0 : length c = 0) by lia. assert (c = []) by (destruct c; [auto|discriminate]). subst c. rewrite skipn_all2; auto. rewrite !app_length. simpl. lia.
  - unfold seq_split, seqf. simplb. rewrite obody_len. unfold ensure_r.
    replace ((i <? length F) && (0 <? k)) with false; [reflexivity|].
    symmetry. apply andb_false_iff. destruct E; bl; [left|right]; apply Nat.ltb_ge; lia.
Qed.

(** absolute test *)
Lemma is_absolute_full : forall ls, is_absolute (seqf (full ls)) = Ok true.
Proof.
  intros. unfold is_absolute, seqf; simplb. rewrite body_full. rewrite enc_len, csub_ok by lia. cbn [rbind].
  unfold enc. rewrite idx_app_mid by (rewrite body_len; lia). reflexivity.
Qed.
Lemma is_absolute_rel : forall ls, Forall wf_label ls -> ls <> [] -> no_trailing_nul ls ->
  is_absolute (seqf ls) = Ok false.
Proof.
  intros ls W NE NN. destruct (@exists_last _ ls NE) as (i & l & ->).
  apply Forall_app in W. destruct W as [_ W]. apply Forall_inv in W. destruct W as [W _].
  assert (LN : l <> []) by (destruct l; simpl in W; [lia|discriminate]).
  destruct (@exists_last _ l LN) as (l' & x & ->).
  unfold is_absolute, seqf; simplb. rewrite body_app. simpl (body [_]). rewrite app_nil_r.
  replace (body i ++ blen (l' ++ [x]) :: l' ++ [x]) with ((body i ++ blen (l' ++ [x]) :: l') ++ [x]) by (rewrite <- app_assoc; reflexivity).
  rewrite app_length, csub_ok by (simpl; lia). cbn [rbind]. simpl (length [x]).
  rewrite idx_app_mid by lia. cbn [rbind]. f_equal. apply N.eqb_neq. eapply NN. reflexivity.
Qed.
Lemma rebuild_offsets_spec : forall fls pre, length pre + elen fls <= 256 ->
  rebuild_offsets (pre ++ body fls) (length pre) (length fls) = Ok (obody (length pre) fls).
Proof.
  induction fls as [|l fls IH]; intros pre H; [reflexivity|]. rewrite elen_cons in H.
  cbn [length rebuild_offsets]. rewrite body_cons. rewrite idx_app_mid by auto. cbn [rbind].
  replace (pre ++ blen l :: l ++ body fls) with ((pre ++ blen l :: l) ++ body fls) by (rewrite <- app_assoc; reflexivity).
  replace (length pre + N.to_nat (blen l) + 1) with (length (pre ++ blen l :: l)) by (rewrite app_length; unfold blen; simpl; lia).
  rewrite IH by (rewrite app_length; simpl; lia). cbn [rbind]. rewrite as_u8_small by lia.
  f_equal. simpl obody. f_equal. f_equal. rewrite app_length. simpl. lia.
Qed.


Lemma seq_fold_rel : forall ms ls len cnt, Forall rel_piece ms ->
  seq_fold (map seqf ms ++ [seqf (full ls)]) false true len cnt =
  Ok (false, true, len + elen (List.concat ms ++ full ls), cnt + length (List.concat ms ++ full ls)).
Proof.
  induction ms as [|m ms IH]; intros ls len cnt H; simpl map; simpl app; cbn [seq_fold].
  - rewrite is_absolute_full. cbn [rbind seq_fold]. unfold seqf; simplb. rewrite obody_len. reflexivity.
  - inversion H as [|? ? (P1 & P2 & P3) H']; subst. rewrite is_absolute_rel by auto. cbn [rbind].
    destruct (map seqf ms ++ [seqf (full ls)]) eqn:X; [destruct ms; discriminate|]. rewrite <- X. clear X.
    rewrite IH by auto. simpl List.concat. unfold seqf; simplb. rewrite obody_len.
    rewrite <- app_assoc. rewrite (elen_app m). rewrite (app_length m). rewrite body_len. f_equal. f_equal; [f_equal|]; lia.
Qed.
Lemma flat_map_seqf : forall ms, flat_map ls_data (map seqf ms) = body (List.concat ms).
Proof. induction ms; simpl; auto. rewrite IHms, body_app. reflexivity. Qed.
Lemma seq_concat_all_spec : forall m ms ls, rel_piece m -> Forall rel_piece ms -> Forall wf_label ls ->
  seq_concat_all (seqf m) (map seqf ms ++ [seqf (full ls)]) =
  if wire_len (m ++ List.concat ms ++ ls) <=? 255 then Ok (name_of (m ++ List.concat ms ++ ls)) else Err.
Proof.
  intros m ms ls (P1 & P2 & P3) Hms Hls. unfold seq_concat_all. rewrite is_absolute_rel by auto. cbn [rbind].
  rewrite seq_fold_rel by auto. cbn [rbind negb andb ensure_r].
  unfold seqf at 1 2; simplb. rewrite body_len, obody_len.
  set (t := List.concat ms ++ full ls).
  assert (T : m ++ t = full (m ++ List.concat ms ++ ls)) by (unfold t, full; rewrite !app_assoc; reflexivity).
  assert (E := elen_full (m ++ List.concat ms ++ ls)). rewrite <- T, elen_app in E.
  assert (L := full_len (m ++ List.concat ms ++ ls)). rewrite <- T, app_length in L.
  rewrite wire_elen. unfold MAX_WIRE_LEN, MAX_LABEL_COUNT. rewrite E, L.
  destruct (elen (m ++ List.concat ms ++ ls) + 1 <=? 255) eqn:Q; bl; [|reflexivity]. cbn [ensure_r rbind].
  assert (W : Forall wf_label (m ++ List.concat ms ++ ls)).
  { apply Forall_app. split; auto. apply Forall_app. split; auto. apply Forall_concat.
    eapply Forall_impl; [|exact Hms]. intros x (X & _); auto. }
  apply wf_count in W. unfold ensure_r. ift. cbn [rbind].
  rewrite flat_map_app, flat_map_seqf. simpl flat_map. rewrite app_nil_r. unfold seqf; simplb.
  rewrite <- body_app. fold t. rewrite <- body_app, T.
  pose proof (rebuild_offsets_spec (full (m ++ List.concat ms ++ ls)) []) as RB. rewrite full_len in RB. simpl in RB.
  rewrite obody_len, L.  rewrite RB by (rewrite elen_full; lia). cbn [rbind]. rewrite <- name_of_full. reflexivity.
Qed.
Lemma seq_concat_all_self : forall ls, seq_concat_all (seqf (full ls)) [] = Ok (name_of ls).
Proof.
  intros. unfold seq_concat_all. rewrite is_absolute_full. cbn [rbind]. unfold seqf; simplb. rewrite name_of_full. reflexivity.
Qed.

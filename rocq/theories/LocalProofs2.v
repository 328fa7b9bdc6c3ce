(** Decoding looks at no octet far after the message; decoded messages are not much larger than their octets; rendering never exceeds the uncompressed size. *)
From Verif Require Import Base BaseLemmas NameModel RenderModel CodesModel RDataModel MsgModel SpecName SpecBuf SpecCodes SpecMsg SpecLocal
  NameWireProofs RenderProofs RenderProofs2 BufProofs LiveProofs CodesProofs WireProofs RDataProofs DecodeProofs PropNameAux
  MsgProofs MsgProofs2 MsgProofs3 MsgProofs4 MsgProofs5 MsgProofs6 MsgProofs7 IndepProofs FirstProofs FitProofs MsgProofs8 LocalProofs.
Open Scope list_scope.
Open Scope nat_scope.

(** * Trailing octets *)
Lemma sp_app : forall k w junk, same_prefix k w (w ++ junk).
Proof. intros k w junk i c _ H. rewrite nth_error_app1; auto. apply nth_error_Some. congruence. Qed.
Lemma response_window : forall w r, bytes w -> response_from_wire w = Ok r -> exists n, n <= length w /\ response_from_buf (ib_new w) = (Ok r, mkIn w n) /\
  forall w', bytes w' -> same_prefix (n + 256) w w' -> response_from_buf (ib_new w') = (Ok r, mkIn w' n).
Proof.
  intros w r B H. unfold response_from_wire in H. destruct (response_from_buf (ib_new w)) as [a b] eqn:E. cbn [fst] in H. subst a.
  destruct (local_response w 0 r b B ltac:(lia) E) as (D & L & X). exists (ib_pos b). split; [lia|]. split; [|exact X]. f_equal. destruct b; cbn in *. congruence.
Qed.
Lemma request_window : forall w r, bytes w -> request_from_wire w = Ok r -> exists n, n <= length w /\ request_from_buf (ib_new w) = (Ok r, mkIn w n) /\
  forall w', bytes w' -> same_prefix (n + 256) w w' -> request_from_buf (ib_new w') = (Ok r, mkIn w' n).
Proof.
  intros w r B H. unfold request_from_wire in H. destruct (request_from_buf (ib_new w)) as [a b] eqn:E. cbn [fst] in H. subst a.
  destruct (local_request w 0 r b B ltac:(lia) E) as (D & L & X). exists (ib_pos b). split; [lia|]. split; [|exact X]. f_equal. destruct b; cbn in *. congruence.
Qed.
Lemma bytes_app : forall a b, bytes a -> bytes b -> bytes (a ++ b).
Proof. intros a b A B. apply Forall_app. split; assumption. Qed.
Lemma response_trailing : forall w junk r, bytes w -> bytes junk -> response_from_wire w = Ok r -> response_from_wire (w ++ junk) = Ok r.
Proof. intros w junk r B B' H. destruct (response_window w r B H) as (n & _ & _ & X). unfold response_from_wire. rewrite (X (w ++ junk)); auto using bytes_app, sp_app. Qed.
Lemma request_trailing : forall w junk r, bytes w -> bytes junk -> request_from_wire w = Ok r -> request_from_wire (w ++ junk) = Ok r.
Proof. intros w junk r B B' H. destruct (request_window w r B H) as (n & _ & _ & X). unfold request_from_wire. rewrite (X (w ++ junk)); auto using bytes_app, sp_app. Qed.

(** * Amplification *)
Lemma wname_ratio : forall rd lim pos ls e, wname rd lim pos ls e -> wf_labels ls -> pos < e /\ wire_len ls <= 128 * (e - pos).
Proof.
  intros rd lim pos ls e W [_ F]. destruct W as [lim pos _|lim pos l ls e Ll _ _ W|lim pos hi lo t ls e _ _ _ _ _ W].
  - rewrite wl_nil. lia.
  - apply wname_end in W. lia.
  - lia.
Qed.
Lemma sum_strings : forall d, length (flat_map string_octets d) = list_sum (map (fun t => 1 + length t) d).
Proof. induction d as [|t d IH]; auto. cbn [flat_map map]. rewrite app_length, IH. cbn [string_octets length]. reflexivity. Qed.
Lemma field_ratio : forall w s e v, field_at w s e v -> s <= e /\ field_size v <= 128 * (e - s).
Proof.
  intros w s e v H. destruct v; cbn [field_at field_size] in *; unfold octets in H; cbn [length u16_bytes u32_bytes string_octets] in H; try (destruct H as [H _]; lia).
  - destruct H as (ls & W & -> & X). destruct (wname_ratio _ _ _ _ _ X W) as [A B]. change (length (n_raw (name_of ls))) with (wire_len ls). lia.
  - destruct H as [H _]. rewrite sum_strings in H. lia.
Qed.
Lemma fields_ratio : forall vs w s e, fields_at w s e vs -> s <= e /\ list_sum (map field_size vs) <= 128 * (e - s).
Proof.
  induction vs as [|v vs IH]; intros w s e H; cbn [fields_at] in H; [subst; cbn; lia|]. destruct H as (m & H1 & H2). apply field_ratio in H1. apply IH in H2.
  change (list_sum (map field_size (v :: vs))) with (field_size v + list_sum (map field_size vs)). lia.
Qed.
Lemma rr_ratio : forall w s e x, rr_at w s e x -> s + 11 <= e <= length w /\ rr_size x <= 128 * (e - s).
Proof.
  intros w s e x (ls & m & L & W & En & Wn & _ & _ & _ & _ & _ & _ & _ & (_ & _ & Lw) & -> & D). destruct (wname_ratio _ _ _ _ _ Wn W) as [A B].
  unfold rr_size. rewrite En. change (length (n_raw (name_of ls))) with (wire_len ls). destruct (rr_data x) as [rd|].
  - destruct D as (_ & _ & F). pose proof (fields_ratio _ _ _ _ F) as [G1 G2].
    assert (m + 10 + N.to_nat L <= length w).
    { clear - F Lw. revert Lw F. generalize (m + 10 + N.to_nat L) as e. generalize (m + 10) as s. induction (rd_fields rd) as [|v vs IH]; intros s e Lw F; cbn [fields_at] in F; [lia|].
      destruct F as (k & F1 & F2). eapply IH; [|exact F2]. clear - F1. destruct v; cbn [field_at] in F1; try apply F1.
      destruct F1 as (ls & _ & _ & X). eapply wname_end_bound; exact X. }
    lia.
  - subst L. lia.
Qed.
Lemma rrs_ratio : forall xs w s e, s <= length w -> rrs_at w s e xs -> s + 11 * length xs <= e <= length w /\ list_sum (map rr_size xs) <= 128 * (e - s).
Proof.
  induction xs as [|x xs IH]; intros w s e Lw H; cbn [rrs_at] in H; [subst; cbn; lia|]. destruct H as (m & H1 & H2). apply rr_ratio in H1. apply IH in H2; [|lia].
  change (list_sum (map rr_size (x :: xs))) with (rr_size x + list_sum (map rr_size xs)). cbn [length]. lia.
Qed.
Lemma same_len : forall a b, same_name a b -> wire_len a = wire_len b.
Proof.
  unfold same_name. induction a as [|x a IH]; intros [|y b] H; try discriminate; auto. cbn in H. injection H as H1 H2. rewrite !wl_cons. rewrite (IH b H2).
  apply (f_equal (@length N)) in H1. unfold lc_label in H1. rewrite !map_length in H1. lia.
Qed.
Lemma like_size : forall x y, rr_like x y -> rr_size x = rr_size y.
Proof.
  intros x y (_ & D & (a & b & _ & _ & Ea & Eb & Sn)). unfold rr_size. rewrite D, Ea, Eb. change (length (n_raw (name_of a))) with (wire_len a). change (length (n_raw (name_of b))) with (wire_len b).
  rewrite (same_len _ _ Sn). reflexivity.
Qed.
Lemma like_sizes : forall xs ys, Forall2 rr_like xs ys -> length xs = length ys /\ list_sum (map rr_size xs) = list_sum (map rr_size ys).
Proof. induction 1 as [|x y xs ys H _ [L IH]]; auto. apply like_size in H. cbn [map list_sum fold_right length]. unfold list_sum in IH. lia. Qed.
Lemma response_ratio : forall w r, bytes w -> response_from_wire w = Ok r -> 17 + 11 * length (all_records r) <= length w /\ plain_size r <= 128 * length w.
Proof.
  intros w r B H. destruct (response_sections w r B H) as (an & ns & ar & (L12 & _ & _ & _ & _ & p0 & p1 & p2 & p3 & Q & A & N & R) & _ & _ & _ & (F1 & F2 & F3) & _).
  destruct Q as (ls & m & W & En & Wn & _ & _ & _ & (_ & _ & Lw) & ->). destruct (wname_ratio _ _ _ _ _ Wn W) as [Q1 Q2].
  apply rrs_ratio in A; [|lia]. apply rrs_ratio in N; [|lia]. apply rrs_ratio in R; [|lia].
  apply like_sizes in F1, F2, F3. unfold plain_size, head_size, all_records. rewrite En. change (length (n_raw (name_of ls))) with (wire_len ls). rewrite !app_length, !map_app, !sum_app. lia.
Qed.

(** * Compression never lengthens *)
Section Known.
Context {KN : names}.
Definition sized (w : M render unit) (n : nat) : Prop := forall m r r', inv m r -> w r = (Ok tt, r') -> mr_len r <= mr_len r' <= mr_len r + n /\ inv m r'.
Lemma sized_seq : forall w1 w2 n1 n2, sized w1 n1 -> sized w2 n2 -> sized (w1 ;; w2) (n1 + n2).
Proof.
  intros w1 w2 n1 n2 H1 H2 m r r' I E. unfold bind in E. destruct (w1 r) as [[[]| | |] r1] eqn:E1; try discriminate.
  destruct (H1 m r r1 I E1) as [L1 I1]. destruct (H2 m r1 r' I1 E) as [L2 I2]. split; [lia|auto].
Qed.
Lemma sized_ret : sized (ret tt) 0.
Proof. intros m r r' I E. injection E as <-. split; [lia|auto]. Qed.
Lemma sized_append : forall g vs P, guards g (length vs) -> emits (on_buf (append_if g vs)) P -> sized (on_buf (append_if g vs)) (length vs).
Proof. intros g vs P G E m r r' I H. pose proof (append_len g vs r r' G H). specialize (E m r I). rewrite H in E. destruct E as (_ & I' & _). split; [lia|auto]. Qed.
Lemma sized_u8 : forall d, (d < 256)%N -> sized (mr_write_u8 d) 1. Proof. intros d H. exact (sized_append _ [d] _ guard_u8 (emits_u8 d H)). Qed.
Lemma sized_u16 : forall d, sized (mr_write_u16 d) 2. Proof. intros d. exact (sized_append _ (be16 d) _ (guard_le 2) (emits_u16 d)). Qed.
Lemma sized_u32 : forall d, sized (mr_write_u32 d) 4. Proof. intros d. exact (sized_append _ (be32 d) _ (guard_le 4) (emits_u32 d)). Qed.
Lemma sized_bytes : forall d, bytes d -> sized (mr_write_bytes d) (length d). Proof. intros d H. exact (sized_append _ d _ (guard_le _) (emits_bytes d H)). Qed.
Lemma sized_name : forall n c, wf_name n -> all_known n -> sized (write_name n c) (length (n_raw n)).
Proof.
  intros n c (ls & W & ->) Kn m r r' I E. change (length (n_raw (name_of ls))) with (wire_len ls) in *.
  pose proof (write_name_size m r ls c r' I W E). pose proof (write_name_full ls c m r W (fun s => Kn ls s eq_refl) I) as A. rewrite E in A.
  destruct A as ((X & _) & I' & _). split; [lia|auto].
Qed.
Lemma sized_map : forall A (f : A -> M render unit) (g : A -> nat) l, Forall (fun a => sized (f a) (g a)) l -> sized (mapM_ f l) (list_sum (map g l)).
Proof. intros A f g l H. induction H; cbn [mapM_ map list_sum fold_right]; [apply sized_ret|]. apply sized_seq; auto. Qed.
Lemma sized_bin : forall d, wf_string d -> sized (byte_binary_to_wire d) (1 + length d).
Proof. intros d [L B]. unfold byte_binary_to_wire. apply sized_seq; [apply sized_u8; apply N.mod_lt; discriminate|apply sized_bytes; auto]. Qed.
Lemma sized_octets : forall o, bytes o -> sized (mapM_ mr_write_u8 o) (length o).
Proof. intros o B. rewrite <- (sum_ones o). apply (sized_map _ _ (fun _ => 1)). eapply Forall_impl; [|exact B]. intros a Ha. apply sized_u8. auto. Qed.
Lemma sized_field : forall k v, wf_field k v -> field_known v -> sized (field_to_wire v) (field_size v).
Proof.
  intros k v W Kn. destruct k, v; cbn [wf_field] in W; try (destruct W; fail); cbn [field_to_wire field_size].
  - apply sized_octets. apply W.
  - apply sized_octets. apply W.
  - apply sized_name; auto.
  - apply sized_u8. auto.
  - apply sized_u16.
  - apply sized_u32.
  - apply sized_u16.
  - apply (sized_map _ _ (fun t => 1 + length t)). eapply Forall_impl; [|exact W]. intros a. apply sized_bin.
  - apply sized_bin. auto.
  - apply sized_bytes. auto.
Qed.
Lemma sized_rdata : forall t rd, wf_rdata t rd -> rdata_known rd -> sized (rdata_to_wire rd) (list_sum (map field_size (rd_fields rd))).
Proof.
  intros t rd W Kn. apply wf_rdata_fields in W. destruct W as [F _]. unfold rdata_to_wire. apply sized_map. unfold rdata_known in Kn. revert Kn.
  induction F as [|k v ks vs Wk F IH]; intros Kn; constructor; apply Forall_cons_iff in Kn; destruct Kn; eauto using sized_field.
Qed.
Lemma sized_rdlen : forall body P n, mono P -> emits body P -> sized body n -> sized (with_rdlen body) (2 + n).
Proof.
  intros bd P n MP E Fb m r r' I H. pose proof (emits_rdlen bd P MP E m r I) as A. rewrite H in A. destruct A as ((X & _) & I' & _). split; [|auto]. split; [exact X|].
  unfold with_rdlen in H. unfold bind at 1, mr_length at 1 in H. unfold bind at 1 in H. destruct (Nat.lt_ge_cases (mr_len r + 2) (ob_capacity (mr_buf r))) as [L|L].
  2:{ unfold mr_skip, on_buf, ob_skip in H. unfold mr_len in L. replace (ob_len (mr_buf r) + 2 <? ob_capacity (mr_buf r)) with false in H by (symmetry; apply Nat.ltb_ge; auto). discriminate. }
  destruct (skip_spec 2 m r I L) as (r1 & E1 & X1 & N1 & I1 & R1). rewrite E1 in H. set (m1 := fun i => m i || ((mr_len r <=? i) && (i <? mr_len r + 2))) in *.
  unfold bind at 1 in H. destruct (bd r1) as [[[]| | |] r2] eqn:E2; try discriminate. destruct (Fb m1 r1 r2 I1 E2) as [L2 I2].
  unfold bind at 1, mr_length at 1 in H. unfold bind, lift in H. rewrite csub_ok in H by lia. rewrite csub_ok in H by lia.
  destruct (patch_spec (be16 (as_u16 (N.of_nat (mr_len r2 - mr_len r - 2)))) (mr_len r) m1 r2) as (r3 & E3 & I3 & Len3 & _); auto.
  { apply be16_bytes. } { cbn [length be16]. lia. }
  { cbn [length be16]. intros i Hi. unfold m1. apply orb_true_iff. right. apply andb_true_iff. rewrite Nat.leb_le, Nat.ltb_lt. lia. }
  assert (Ew : mr_write_u16_at (mr_len r) (as_u16 (N.of_nat (mr_len r2 - mr_len r - 2))) r2 = (Ok tt, r3)).
  { rewrite <- E3. unfold mr_write_u16_at, on_buf, ob_write_u16_at. unfold mr_len in *. replace (ob_len (mr_buf r) + 2 <=? ob_len (mr_buf r2)) with true by (symmetry; apply Nat.leb_le; lia). reflexivity. }
  assert (r' = r3) by congruence. subst r3. lia.
Qed.
Lemma sized_prefix : forall rs, wf_name (rs_name rs) -> all_known (rs_name rs) -> sized (rr_prefix_to_wire rs) (length (n_raw (rs_name rs)) + 8).
Proof.
  intros rs W Kn. unfold rr_prefix_to_wire. apply sized_seq; [apply sized_name; auto|]. change 8 with (2 + (2 + 4)).
  apply sized_seq; [apply sized_u16|]. apply sized_seq; [apply sized_u16|apply sized_u32].
Qed.
Lemma sized_conv : forall w n n', n = n' -> sized w n -> sized w n'.
Proof. intros. subst. auto. Qed.
Lemma sized_rrset : forall rs, rrset_ok rs -> rrset_known rs -> sized (rrset_to_wire rs) (list_sum (map rr_size (rrs_of rs))).
Proof.
  intros rs (W & _ & _ & _ & D & _) [Kn Kd]. unfold rrset_to_wire, rrs_of. destruct (rs_rdatas rs) as [|d ds].
  - eapply sized_conv; [|apply sized_seq; [apply sized_prefix; auto|apply sized_u16]]. cbn [map list_sum fold_right]. unfold rr_size. cbn [rr_owner rr_data]. lia.
  - rewrite map_map. apply sized_map. apply Forall_forall. intros x Hx. rewrite Forall_forall in D, Kd. destruct (D x Hx) as [Wd Ho]. specialize (Kd x Hx).
    eapply sized_conv; [|apply sized_seq; [apply sized_prefix; auto|apply (sized_rdlen (rdata_to_wire x) (Prdata x) (list_sum (map field_size (rd_fields x))))]].
    + unfold rr_size. cbn [rr_owner rr_data]. lia.
    + apply mono_rdata.
    + eapply emits_rdata_k; eauto.
    + eapply sized_rdata; eauto.
Qed.
Lemma sized_section : forall b c s, section_ok b c s -> (forall rs l, s = Some l -> In rs l -> rrset_known rs) -> sized (section_to_wire s) (list_sum (map rr_size (records s))).
Proof.
  intros b c [l|] [_ H] Kn; cbn [section_to_wire records]; [|apply sized_ret]. destruct H as (_ & F & _). rewrite <- sum_flat. apply sized_map.
  rewrite Forall_forall in *. intros x Hx. apply sized_rrset; auto. eapply Kn; eauto.
Qed.
End Known.
Lemma response_size : forall dat r n r', bytes dat -> consistent r -> response_to_wire r (mr_new dat) = (Ok n, r') -> n <= plain_size r.
Proof.
  intros dat r n r' B Co H. pose proof (response_render all_names dat r B Co (response_known_all r)) as R. rewrite H in R.
  destruct (head_size r <=? length dat); [|discriminate]. destruct R as [(E & Eb & _)|(_ & [(E & _)|E])]; [| |discriminate].
  2:{ injection E as ->. unfold plain_size. lia. }
  injection E as ->. pose proof Co as (Hk & Hq1 & Qk & S1 & S2 & S3). destruct (response_known_all r) as [Kq Ks].
  assert (Fb : @sized all_names (body_to_wire r) (plain_size r)).
  { unfold body_to_wire. eapply sized_conv with (n := 12 + ((length (n_raw (q_name (r_question r))) + 4) + list_sum (map rr_size (all_records r)))).
    - unfold plain_size, head_size. lia.
    - apply sized_seq; [unfold header_to_wire; change 12 with (2 + (2 + (2 + (2 + (2 + 2))))); repeat (apply sized_seq; [apply sized_u16|]); apply sized_u16|].
      apply sized_seq.
      + unfold question_to_wire. apply sized_seq; [apply sized_name; auto; apply Qk|]. change 4 with (2 + 2). apply sized_seq; apply sized_u16.
      + unfold all_records. rewrite !map_app, !sum_app. cbn [mapM_].
        apply sized_seq; [eapply sized_section; eauto|]. apply sized_seq; [eapply sized_section; eauto|].
        eapply sized_conv; [|apply sized_seq; [eapply sized_section; eauto|apply sized_ret]]. lia. }
  destruct (Fb _ (mr_new dat) r' (@inv_new all_names dat B) Eb) as [L _]. exact (proj2 L).
Qed.
Lemma history_sizes : forall dat h r, bytes dat -> history (mr_new dat) h r ->
  forall e ls c, In e h -> ev_op e = MName ls c -> ev_ok e = true -> ev_start e < ev_end e <= ev_start e + wire_len ls.
Proof.
  intros dat h r B H. induction H as [|h r o r' H IH V C|h r o r' H IH V C]; intros e ls c He0 Eo Ek; [destruct He0| |]; destruct He0 as [<-|He]; try (eapply IH; eauto; fail); try discriminate; [].
  cbn [ev_op ev_start ev_end] in *. subst o. cbn [mop_call mop_ok] in *. destruct (@history_inv_k all_names dat h r B H) as [I _]; [intros e ls0 c0 s _ _ _; exact Logic.I|].
  split.
  - pose proof (@write_name_full all_names ls c _ r V (fun s _ => Logic.I) I) as A. rewrite C in A. destruct A as (_ & _ & A). apply wname_end in A. lia.
  - exact (@write_name_size all_names _ r ls c r' I V C).
Qed.
Lemma response_count_bound : forall w r, bytes w -> response_from_wire w = Ok r -> (17 + 11 * (h_an (r_header r) + h_ns (r_header r) + h_ar (r_header r)) <= blen w)%N.
Proof.
  intros w r B H. destruct (response_ratio w r B H) as [L _]. destruct (response_sections w r B H) as (an & ns & ar & _ & _ & C & _). destruct C as (_ & _ & _ & (-> & _) & (-> & _) & (-> & _)).
  unfold all_records in L. rewrite !app_length in L. unfold blen. lia.
Qed.

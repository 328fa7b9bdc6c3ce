(** Name compression is effective: every name is written in the least possible number of octets, unless a bucket of
    the compression table has overflowed. *)
From Verif Require Import Base NameModel RenderModel SpecName SpecBuf SpecCompress BaseLemmas BitLemmas NameWireProofs NameOpsProofs
  RenderProofs RenderProofs2 BufProofs LiveProofs MsgProofs5 IndepProofs FitProofs.

(** An item of the table for [s]. *)
Definition is_item (it : N) (s : list label) : Prop := item_hash it = name_hash s /\ item_len it = N.of_nat (wire_len s).
Definition slot (r : render) (k : nat) (it : N) : Prop := exists row c i,
  nth_error (mr_table r) k = Some row /\ nth_error (mr_counts r) k = Some c /\ i < c /\ nth_error row i = Some it.
Definition bucket_of (s : list label) : nat := N.to_nat (name_hash s mod 64).
Definition has (r : render) (s : list label) : Prop := exists it, slot r (bucket_of s) it /\ is_item it s.
Lemma bucket_lt : forall s, bucket_of s < 64.
Proof. intros. unfold bucket_of. pose proof (N.mod_lt (name_hash s) 64). lia. Qed.

Section Known.
Context {KN : names}.

Lemma fo_loop_match : forall m r ls, inv m r -> wf_labels ls -> known ls -> no_collision -> forall items,
  Forall (item_ok (rdm m r)) items -> forall off,
  fst (fo_loop (mr_buf r) (name_hash ls) items (ib_new (enc ls))) = Ok off ->
  (off <> NO_OFFSET /\ exists it, In it items /\ is_item it ls) \/ (off = NO_OFFSET /\ forall it, In it items -> ~ is_item it ls).
Proof.
  intros m r ls I F Kn NC. induction items as [|it items IH]; intros Hi off Ho.
  - right. cbn in Ho. split; [congruence|intros ? []].
  - cbn [fo_loop] in Ho. unfold bind at 1 in Ho. unfold nc_compare in Ho. unfold bind at 1, get in Ho. unfold ib_len in Ho. unfold ib_new at 1 in Ho. cbn [ib_data] in Ho.
    inversion Hi as [|x xs A Hx]; subst.
    destruct (negb (item_hash it =? name_hash ls)%N || negb (item_len it =? as_u8 (N.of_nat (length (enc ls))))%N) eqn:E.
    + unfold ret at 1 in Ho. destruct (IH Hx off Ho) as [(Q1 & it' & Q2 & Q3)|(Q1 & Q2)].
      * left. split; auto. exists it'. split; [right; auto|auto].
      * right. split; auto. intros it' [<-|Hin]; [|auto]. intros [M1 M2]. rewrite M1, M2, N.eqb_refl in E.
        destruct F as [_ F]. unfold wire_len in *. rewrite as_u8_small, N.eqb_refl in E by lia. discriminate.
    + bl. left. split.
      * destruct A as (ils & e & Ki & F' & W & A1 & A2 & A3).
        assert (ils = ls).
        { apply NC; auto; [|congruence]. rewrite A1 in H0. destruct F as [_ F]. unfold wire_len in *. rewrite as_u8_small in H0 by lia. lia. }
        subst ils. destruct (nc_loop_complete m r I ls (S (length (enc ls))) _ _ e (enc ls) 0 W F) as (k' & B); auto.
        -- unfold pb. destruct F. lia.
        -- assert (N.to_nat (item_pos it) < mr_len r); [|lia].
           destruct W; match goal with H : rdm m r _ = Some _ |- _ => apply (ob_at_rdm _ _ _ _ I) in H; lia end.
        -- rewrite enc_len. pose proof (wf_count ls (proj1 F)). lia.
        -- rewrite N2Nat.id in B. unfold ib_new in Ho. unfold ib_len in Ho. cbn [ib_data] in Ho. rewrite B in Ho. cbn in Ho.
           assert (off = item_pos it) by congruence. subst off. unfold NO_OFFSET. intro Q. rewrite Q in A2. lia.
      * exists it. split; [left; auto|]. split; auto. rewrite H0. destruct F as [_ F]. unfold wire_len in *. rewrite as_u8_small by lia. auto.
Qed.
Lemma find_offset_match : forall m r ls off, inv m r -> wf_labels ls -> known ls -> no_collision ->
  find_offset r (enc ls) (name_hash ls) = Ok off ->
  (off <> NO_OFFSET /\ has r ls) \/ (off = NO_OFFSET /\ ~ has r ls).
Proof.
  intros m r ls off I F Kn NC Ho. unfold find_offset in Ho. fold (bucket_of ls) in Ho.
  destruct (idx_r _ (mr_table r) (bucket_of ls)) as [[row E]|E]; rewrite E in Ho; [|discriminate]. cbn [rbind] in Ho.
  destruct (idx_r _ (mr_counts r) (bucket_of ls)) as [[c Ec]|Ec]; rewrite Ec in Ho; [|discriminate]. cbn [rbind] in Ho.
  unfold slice in Ho. destruct ((0 <=? c) && (c <=? length row)) eqn:El; [|discriminate]. cbn [rbind] in Ho.
  rewrite Nat.sub_0_r in Ho. change (skipn 0 row) with row in Ho.
  apply idx_ok_inv in E, Ec. destruct E as [E _]. destruct Ec as [Ec _].
  assert (G : forall it, In it (firstn c row) <-> slot r (bucket_of ls) it).
  { intros it. split.
    - intros Hit. apply In_nth_error in Hit. destruct Hit as [k Hk].
      assert (k < c) by (assert (k < length (firstn c row)) by (apply nth_error_Some; congruence); rewrite firstn_length in *; lia).
      rewrite nth_firstn in Hk by auto. exists row, c, k. auto.
    - intros (row' & c' & i & A1 & A2 & A3 & A4). assert (row' = row) by congruence. assert (c' = c) by congruence. subst.
      apply (nth_error_In _ i). rewrite nth_firstn; auto. }
  apply (fo_loop_match m r) in Ho; auto.
  - destruct Ho as [(Q1 & it & Q2 & Q3)|(Q1 & Q2)].
    + left. split; auto. exists it. split; auto. apply G. auto.
    + right. split; auto. intros (it & Q3 & Q4). apply G in Q3. apply (Q2 it); auto.
  - apply Forall_forall. intros it Hit. apply G in Hit. destruct Hit as (row' & c' & i & A1 & A2 & A3 & A4). eapply inv_items; eauto.
Qed.

Lemma has_same : forall r r' s, mr_table r' = mr_table r -> mr_counts r' = mr_counts r -> has r s -> has r' s.
Proof. intros r r' s A B (it & (row & c & i & H) & M). exists it. split; auto. exists row, c, i. rewrite A, B. auto. Qed.

(** What the search loop returns, in terms of the table. *)
Definition search_result (r : render) (compress : bool) (suf : list label) (n lu : nat) (off : N) : Prop :=
  (off = NO_OFFSET /\ lu = n + length suf + 1 /\ (compress = true -> forall p s, suf = p ++ s -> s <> [] -> ~ has r s)) \/
  (compress = true /\ off <> NO_OFFSET /\ exists p s, suf = p ++ s /\ s <> [] /\ has r s /\ lu = n + length p /\
     forall p' s', suf = p' ++ s' -> length p' < length p -> ~ has r s').
Lemma wn_search_has : forall m compress ls, wf_labels ls -> (forall s, suffix_of s ls -> known s) -> no_collision -> forall suf pre r lu level,
  inv m r -> ls = pre ++ suf -> lu = length pre -> (if 0 <? lu then level + 1 else level) = lu ->
  forall lu' off r', wn_search (length suf + 1) compress (name_of ls) lu level r = (Ok (lu', off), r') ->
  search_result r compress suf (length pre) lu' off.
Proof.
  intros m compress ls F Kn NC. induction suf as [|l suf IH]; intros pre r lu level I E Elu Elev lu' off r'; cbn [length Nat.add wn_search];
    rewrite Elev; unfold bind at 1, lift at 1; rewrite Elu, E, nr_root_spec by (rewrite <- E; auto).
  - unfold ret. intro Q. apply pair_inj in Q. destruct Q as [Q _]. apply Ok_inj in Q. apply pair_inj in Q. destruct Q as [<- <-].
    left. split; auto. split; [cbn [length]; lia|]. intros _ p s Q N. destruct p; [|discriminate]. cbn in Q. congruence.
  - unfold bind at 1, lift at 1. rewrite nr_hash_spec by (rewrite <- E; auto).
    pose proof (wf_count127 _ F) as C127. rewrite E, app_length in C127. simpl in C127.
    unfold bind at 1, modify_r at 1. rewrite upd_r_ok by (rewrite (inv_hs _ _ I); lia). cbn [rbind].
    set (r1 := mkRender _ _ _ _).
    assert (I1 : inv m r1).
    { eapply inv_same; eauto. repeat split. simpl. rewrite upd_length. apply I. }
    assert (Sm : forall s, has r1 s <-> has r s) by (intros s; split; apply has_same; auto).
    assert (REC : forall lu' off r', wn_search (length suf + 1) compress (name_of ls) (length pre + 1) (length pre) r1 = (Ok (lu', off), r') ->
       search_result r1 compress suf (length pre + 1) lu' off).
    { intros lu0 off0 r0 H0. replace (length pre + 1) with (length (pre ++ [l])) by (rewrite app_length; auto).
      eapply (IH (pre ++ [l])); [exact I1| | | |exact H0].
      - rewrite E, <- app_assoc. auto.
      - rewrite app_length. auto.
      - replace (0 <? length pre + 1) with true by (symmetry; apply Nat.ltb_lt; lia). auto. }
    assert (STEP : (compress = true -> ~ has r (l :: suf)) -> search_result r1 compress suf (length pre + 1) lu' off -> search_result r compress (l :: suf) (length pre) lu' off).
    { intros Nh [(Q1 & Q2 & Q3)|(Q0 & Q1 & p & s & Q2 & Q3 & Q4 & Q5 & Q6)].
      - left. split; auto. split; [cbn [length]; lia|]. intros Q0 p s Es Ns. destruct p as [|x p]; cbn [app] in Es.
        + subst s. auto.
        + inversion Es. intro X. apply (Q3 Q0 p s); auto.
      - right. split; auto. split; auto. exists (l :: p), s. split; [cbn; congruence|]. split; auto. split; [apply Sm; auto|]. split; [cbn [length]; lia|].
        intros p' s' Es Ls. destruct p' as [|x p']; cbn [app] in Es.
        + subst s'. auto.
        + inversion Es. intro X. apply (Q6 p' s'); auto. cbn [length] in Ls. lia. }
    destruct compress.
    + unfold bind at 1, get at 1. unfold bind at 1, lift at 1. rewrite nr_raw_spec by (rewrite <- E; auto).
      unfold bind at 1, lift at 1.
      assert (Fs : wf_labels (l :: suf)) by (rewrite E in F; apply wf_app in F; apply F).
      destruct (find_offset r1 (enc (l :: suf)) (name_hash (l :: suf))) as [o| | |] eqn:Ef; try discriminate.
      apply (find_offset_match m) in Ef; auto; [|apply Kn; exists pre; auto].
      destruct Ef as [[Q1 Q2]|[Q1 Q2]].
      * replace (o =? NO_OFFSET)%N with false by (symmetry; apply N.eqb_neq; auto). cbn [negb]. unfold ret. intro Q.
        apply pair_inj in Q. destruct Q as [Q _]. apply Ok_inj in Q. apply pair_inj in Q. destruct Q as [<- <-].
        right. split; auto. split; auto. exists [], (l :: suf). split; auto. split; [discriminate|]. split; [apply Sm; auto|]. split; [cbn; lia|].
        intros p' s' _ Hl. cbn in Hl. lia.
      * subst o. rewrite N.eqb_refl. cbn [negb]. rewrite <- E. intro Q. apply STEP; [|eauto]. intros _ X. apply Q2. apply Sm. auto.
    + rewrite <- E. intro Q. apply STEP; [discriminate|eauto].
Qed.

(** Registration. *)
Fixpoint fronts (d suf : list label) : list (list label) := match d with [] => [] | l :: d' => (l :: d' ++ suf) :: fronts d' suf end.
Definition room (r : render) (ns : list (list label)) : Prop := forall k c, nth_error (mr_counts r) k = Some c -> c + in_bucket k ns <= 15.
Definition grown (r r' : render) (ns : list (list label)) : Prop :=
  (forall k c', nth_error (mr_counts r') k = Some c' -> exists c, nth_error (mr_counts r) k = Some c /\ c' <= c + in_bucket k ns) /\
  (forall k it, slot r k it -> slot r' k it).
Lemma in_bucket_cons : forall k s ns, in_bucket k (s :: ns) = (if bucket_of s =? k then 1 else 0) + in_bucket k ns.
Proof. intros. unfold in_bucket. cbn [filter]. change (N.to_nat (hash_of s mod 64)) with (bucket_of s). destruct (bucket_of s =? k); reflexivity. Qed.
Lemma in_bucket_app : forall k a b, in_bucket k (a ++ b) = in_bucket k a + in_bucket k b.
Proof. intros. unfold in_bucket. rewrite filter_app, app_length. auto. Qed.

Lemma add_offset_grow : forall m r s pos, inv m r -> wf_labels s -> (pos < 65536)%N ->
  exists r', add_offset (name_hash s) pos (N.of_nat (wire_len s)) r = Ok r' /\ mr_buf r' = mr_buf r /\ mr_hashes r' = mr_hashes r /\
    grown r r' [s] /\ (room r [s] -> has r' s) /\
    (forall k it, slot r' k it -> slot r k it \/ is_item it s).
Proof.
  intros m r s pos I W Hp. unfold add_offset. fold (bucket_of s). pose proof (bucket_lt s) as Hb.
  set (b := bucket_of s) in *.
  destruct (inv_tab _ _ I) as [T1 T2]. destruct (inv_cnt _ _ I) as [C1 C2].
  destruct (idx_ok_lt _ (mr_table r) b) as (row & R1 & R2); [lia|].
  destruct (idx_ok_lt _ (mr_counts r) b) as (c & R3 & R4); [lia|].
  rewrite R3. cbn [rbind].
  assert (Lr : length row = 16) by (rewrite Forall_forall in T2; apply T2; eapply nth_error_In; eauto).
  assert (Lc : c <= 15) by (rewrite Forall_forall in C2; apply C2; eapply nth_error_In; eauto).
  unfold RESERVED_ITEMS. destruct (c + 1 =? 16) eqn:Ec; bl.
  { exists r. split; [reflexivity|]. split; auto. split; auto. split.
    - split; auto. intros k c' H. exists c'. split; auto. lia.
    - split; auto. intro R. specialize (R b c R4). rewrite in_bucket_cons in R. fold b in R. rewrite Nat.eqb_refl in R. lia. }
  rewrite R1. cbn [rbind]. rewrite !upd_r_ok by lia. cbn [rbind]. rewrite upd_r_ok by lia. cbn [rbind].
  assert (Fi : is_item (item_new (N.of_nat (wire_len s)) pos (name_hash s)) s).
  { destruct (item_new_fields (N.of_nat (wire_len s)) pos (name_hash s)) as (G1 & _ & G3); auto using name_hash_bound.
    destruct W. lia. split; auto. }
  set (it0 := item_new _ _ _) in *.
  eexists. split; [reflexivity|]. cbn [mr_buf mr_hashes]. split; auto. split; auto. split; [split|split].
  - intros k c' H. cbn [mr_counts] in H. rewrite in_bucket_cons. fold b. destruct (Nat.eqb_spec b k) as [<-|Nk].
    + rewrite nth_upd_same in H by lia. inversion H. exists c. split; [auto|lia].
    + rewrite nth_upd_other in H by auto. exists c'. split; [auto|lia].
  - intros k it (row' & c' & i & A1 & A2 & A3 & A4). destruct (Nat.eq_dec k b) as [->|Nk].
    + assert (row' = row) by congruence. assert (c' = c) by congruence. subst. exists (upd row c it0), (c + 1), i.
      cbn [mr_table mr_counts]. rewrite !nth_upd_same by lia. split; auto. split; auto. split; [lia|]. rewrite nth_upd_other by lia. auto.
    + exists row', c', i. cbn [mr_table mr_counts]. rewrite !nth_upd_other by auto. auto.
  - intros _. exists it0. split; auto. fold b. exists (upd row c it0), (c + 1), c. cbn [mr_table mr_counts]. rewrite !nth_upd_same by lia. split; auto. split; auto. split; auto. lia.
  - intros k it (row' & c' & i & A1 & A2 & A3 & A4). cbn [mr_table mr_counts] in *. destruct (Nat.eq_dec k b) as [->|Nk].
    + rewrite nth_upd_same in A1, A2 by lia. inversion A1; inversion A2; subst row' c'. destruct (Nat.eq_dec i c) as [->|Ni].
      * right. rewrite nth_upd_same in A4 by lia. inversion A4. subst it. auto.
      * left. rewrite nth_upd_other in A4 by auto. exists row, c, i. split; auto. split; auto. split; auto. lia.
    + left. rewrite nth_upd_other in A1, A2 by auto. exists row', c', i. auto.
Qed.
Lemma grown_refl : forall r ns, grown r r ns.
Proof. intros. split; auto. intros k c' H. exists c'. split; auto. lia. Qed.
Lemma grown_trans : forall a b c x y, grown a b x -> grown b c y -> grown a c (x ++ y).
Proof.
  intros a b c x y [A1 A2] [B1 B2]. split; auto. intros k c' H. apply B1 in H. destruct H as (c1 & H & L). apply A1 in H. destruct H as (c2 & H & L2).
  exists c2. split; auto. rewrite in_bucket_app. lia.
Qed.
Lemma has_grown : forall r r' ns s, grown r r' ns -> has r s -> has r' s.
Proof. intros r r' ns s [_ G] (it & S1 & M). exists it. auto. Qed.

Lemma wn_register_has : forall m ls, wf_labels ls -> (forall s, suffix_of s ls -> known s) -> forall d pre suf2 r p s e n,
  inv m r -> ls = pre ++ d ++ suf2 -> s <= p -> hashes_ok r ls (length pre + length d) ->
  Pbytes (body d) (rdm m r) p (p + elen d) -> wname (rdm m r) s (p + elen d) suf2 e ->
  (n = length d \/ (n = length d + 1 /\ rdm m r (p + elen d) = Some 0%N)) ->
  exists r', wn_register n (length pre) p (wire_len (d ++ suf2)) r = (Ok tt, r') /\
    grown r r' (fronts d suf2) /\
    (room r (fronts d suf2) -> forall d1 d2, d = d1 ++ d2 -> d2 <> [] -> (N.of_nat (p + elen d1) <= 16383)%N -> has r' (d2 ++ suf2)) /\
    (forall k it, slot r' k it -> slot r k it \/ exists d1 d2, d = d1 ++ d2 /\ d2 <> [] /\ (N.of_nat (p + elen d1) <= 16383)%N /\ is_item it (d2 ++ suf2)).
Proof.
  intros m ls F Kn. induction d as [|l d IH]; intros pre suf2 r p s e n I E Sp Hh B W Hn.
  - assert (X : wn_register n (length pre) p (wire_len ([] ++ suf2)) r = (Ok tt, r)).
    { destruct Hn as [->|[-> Hz]]; cbn [length Nat.add wn_register]; auto.
      unfold bind, get, lift. rewrite elen_nil, Nat.add_0_r in Hz. destruct (ob_at_rdm _ _ _ _ I Hz) as (-> & _). auto. }
    rewrite X. exists r. split; auto. split; [apply grown_refl|]. split; auto. intros _ d1 d2 Q N. symmetry in Q. apply app_eq_nil in Q. destruct Q. congruence.
  - assert (exists n', n = S n' /\ (n' = length d \/ (n' = length d + 1 /\ rdm m r (p + elen (l :: d)) = Some 0%N))) as (n' & -> & Hn').
    { destruct Hn as [->|[-> Hz]]; simpl length; eexists; split; try reflexivity; auto. }
    assert (Fd : Forall wf_label (l :: d)).
    { destruct F as [F _]. rewrite E in F. apply Forall_app in F. destruct F as [_ F]. apply Forall_app in F. apply F. }
    pose proof (Forall_inv Fd) as Fl.
    cbn [wn_register]. unfold bind at 1, get at 1. unfold bind at 1, lift at 1.
    assert (Z : rdm m r p = Some (blen l)).
    { rewrite <- (Nat.add_0_r p). apply B. reflexivity. }
    destruct (ob_at_rdm _ _ _ _ I Z) as (-> & Zb & Zl).
    destruct Fl as [Fl1 Fl2].
    replace (blen l =? 0)%N with false by (symmetry; apply N.eqb_neq; unfold blen; lia).
    assert (Wall : wname (rdm m r) p p (l :: d ++ suf2) e).
    { apply (wname_lim _ s); auto. change (l :: d ++ suf2) with ((l :: d) ++ suf2).
      apply wname_body; auto. }
    destruct (MAX_COMPRESS_POINTER <? p) eqn:Ep.
    { apply Nat.ltb_lt in Ep. unfold MAX_COMPRESS_POINTER in Ep. exists r. split; auto. split; [apply grown_refl|]. split; auto.
      intros _ d1 d2 _ _ Hp. lia. }
    apply Nat.ltb_ge in Ep. unfold MAX_COMPRESS_POINTER in Ep.
    assert (Pn : (N.of_nat p <= 16383)%N) by lia.
    unfold bind at 1, lift at 1.
    assert (Hi : nth_error (mr_hashes r) (length pre) = Some (name_hash (l :: d ++ suf2))).
    { rewrite (Hh (length pre)).
      - f_equal. f_equal. rewrite E, skipn_app, skipn_all, Nat.sub_diag. reflexivity.
      - simpl. lia.
      - rewrite E, app_length. simpl. lia. }
    rewrite (idx_nth _ _ _ _ Hi).
    assert (Fs : wf_labels (l :: d ++ suf2)).
    { rewrite E in F. apply wf_app in F. apply F. }
    pose proof (proj2 Fs) as Fs2.
    unfold bind at 1, modify_r.
    rewrite as_u16_small, as_u8_small by (cbn [app]; lia). cbn [app].
    destruct (add_offset_spec m r (name_hash (l :: d ++ suf2)) (N.of_nat p) (N.of_nat (wire_len (l :: d ++ suf2)))) as (r1 & R1 & R2 & R3 & R4); auto.
    { apply name_hash_bound. } { lia. } { lia. }
    { destruct (item_new_fields (N.of_nat (wire_len (l :: d ++ suf2))) (N.of_nat p) (name_hash (l :: d ++ suf2))) as (G1 & G2 & G3).
      { lia. } { lia. } { apply name_hash_bound. }
      exists (l :: d ++ suf2), e. rewrite G1, G2, G3, Nat2N.id. split; [apply Kn; exists pre; exact E|auto]. }
    destruct (add_offset_grow m r (l :: d ++ suf2) (N.of_nat p) I Fs ltac:(lia)) as (r1' & R1' & _ & _ & Gr & Hs & Sl).
    assert (r1' = r1) by (rewrite R1 in R1'; apply Ok_inj in R1'; auto). subst r1'. clear R1'.
    rewrite R1. unfold bind at 1, lift at 1. rewrite u8_add_ok by (unfold blen; lia).
    assert (St : N.to_nat (blen l + 1) = 1 + length l) by (unfold blen; lia). rewrite St.
    unfold bind at 1, lift at 1. rewrite wire_len_cons, csub_ok by lia.
    replace (1 + length l + wire_len (d ++ suf2) - (1 + length l)) with (wire_len (d ++ suf2)) by lia.
    assert (RD : forall i, rdm m r1 i = rdm m r i) by (apply rdm_buf; auto).
    destruct (IH (pre ++ [l]) suf2 r1 (p + (1 + length l)) s e n') as (r' & Q1 & Q2 & Q3 & Q4); auto.
    + rewrite E, <- app_assoc. auto.
    + lia.
    + intros i Hi1 Hi2. rewrite R3. apply Hh; auto. rewrite app_length in Hi1. simpl in *. lia.
    + split; [rewrite body_len; lia|]. intros i c Hic. rewrite RD. destruct B as [_ B].
      rewrite <- (B (1 + length l + i) c); [f_equal; lia|].
      simpl. rewrite nth_error_app2 by lia. replace (length l + i - length l) with i by lia. auto.
    + rewrite elen_cons in W. replace (p + (1 + length l) + elen d) with (p + (1 + length l + elen d)) by lia.
      eapply wname_mono; eauto. intros. rewrite RD. auto.
    + destruct Hn' as [->|[-> Hz]]; auto. right. split; auto. rewrite RD. rewrite elen_cons in Hz.
      rewrite <- Hz. f_equal. lia.
    + rewrite app_length in Q1. simpl length in Q1. exists r'. split; [exact Q1|].
      split; [apply (grown_trans r r1 r' [l :: d ++ suf2] (fronts d suf2)); auto|]. split.
      * intros Rm d1 d2 Ed Nd Hp. cbn [fronts] in Rm.
        assert (Rm1 : room r [l :: d ++ suf2]).
        { intros k c Hc. specialize (Rm k c Hc). rewrite in_bucket_cons in *. change (in_bucket k []) with 0. lia. }
        destruct d1 as [|x d1].
        -- cbn [app] in Ed. subst d2. apply (has_grown r1 r' (fronts d suf2)); auto.
        -- cbn [app] in Ed. inversion Ed. subst x d. rewrite elen_cons in Hp. apply (Q3) with (d1 := d1); auto; [|lia].
           intros k c Hc. destruct Gr as [Gr _]. apply Gr in Hc. destruct Hc as (c0 & Hc & Lc). specialize (Rm k c0 Hc).
           rewrite !in_bucket_cons in *. change (in_bucket k []) with 0 in Lc. lia.
      * intros k it Si. apply Q4 in Si. destruct Si as [Si|(d1 & d2 & T1 & T2 & T3 & T4)].
        -- apply Sl in Si. destruct Si as [Si|Si]; auto. right. exists [], (l :: d). split; auto. split; [discriminate|]. rewrite elen_nil, Nat.add_0_r. auto.
        -- right. exists (l :: d1), d2. split; [cbn; congruence|]. split; auto. rewrite elen_cons. split; auto. lia.
Qed.

Definition registered (m : nat -> bool) (r r' : render) (d suf2 : list label) : Prop :=
  grown r r' (fronts d suf2) /\
  (room r (fronts d suf2) -> forall d1 d2, d = d1 ++ d2 -> d2 <> [] -> (N.of_nat (mr_len r + elen d1) <= 16383)%N -> has r' (d2 ++ suf2)) /\
  (forall k it, slot r' k it -> slot r k it \/ exists d1 d2, d = d1 ++ d2 /\ d2 <> [] /\ (N.of_nat (mr_len r + elen d1) <= 16383)%N /\ is_item it (d2 ++ suf2)).
Lemma slot_same : forall r r' k it, mr_table r' = mr_table r -> mr_counts r' = mr_counts r -> slot r k it -> slot r' k it.
Proof. intros r r' k it A B (row & c & i & H). exists row, c, i. rewrite A, B. auto. Qed.
Lemma registered_from : forall m r r2 r' d suf2, mr_table r2 = mr_table r -> mr_counts r2 = mr_counts r ->
  grown r2 r' (fronts d suf2) ->
  (room r2 (fronts d suf2) -> forall d1 d2, d = d1 ++ d2 -> d2 <> [] -> (N.of_nat (mr_len r + elen d1) <= 16383)%N -> has r' (d2 ++ suf2)) ->
  (forall k it, slot r' k it -> slot r2 k it \/ exists d1 d2, d = d1 ++ d2 /\ d2 <> [] /\ (N.of_nat (mr_len r + elen d1) <= 16383)%N /\ is_item it (d2 ++ suf2)) ->
  registered m r r' d suf2.
Proof.
  intros m r r2 r' d suf2 T C [G1 G2] R S0. split; [split|split].
  - rewrite <- C. auto.
  - intros k it H. apply G2. eapply slot_same; [| |exact H]; auto.
  - intros Rm. apply R. intros k c. rewrite C. auto.
  - intros k it H. apply S0 in H. destruct H as [H|H]; auto. left. eapply slot_same; [| |exact H]; auto.
Qed.
Lemma on_buf_tables : forall A (w : M outbuf A) r a r', on_buf w r = (a, r') -> mr_table r' = mr_table r /\ mr_counts r' = mr_counts r /\ mr_hashes r' = mr_hashes r.
Proof. intros A w r a r' H. unfold on_buf in H. destruct (w (mr_buf r)). apply pair_inj in H. destruct H as [_ <-]. auto. Qed.

Lemma write_name_has : forall m r ls c r', inv m r -> wf_labels ls -> (forall s, suffix_of s ls -> known s) -> no_collision ->
  forall a, write_name (name_of ls) c r = (a, r') ->
  a = Err /\ mr_table r' = mr_table r /\ mr_counts r' = mr_counts r \/
  a = Ok tt /\ exists d suf2, ls = d ++ suf2 /\ registered m r r' d suf2 /\
    ((suf2 = [] /\ mr_len r' = mr_len r + wire_len ls /\ (c = true -> forall p s, ls = p ++ s -> s <> [] -> ~ has r s)) \/
     (c = true /\ suf2 <> [] /\ has r suf2 /\ mr_len r' = mr_len r + elen d + 2 /\ forall p' s', ls = p' ++ s' -> length p' < length d -> ~ has r s')).
Proof.
  intros m r ls c r' I F Kn NC a0 H. destruct (wn_search_top m r ls c I F) as (a & r1 & S1 & (B1 & B2 & B3) & I1 & S4).
  pose proof (wn_search_has m c ls F Kn NC ls [] r 0 0 I eq_refl eq_refl eq_refl) as SR.
  unfold write_name in H. rewrite label_count_of in H. unfold bind at 1 in H. rewrite S1 in H. destruct a as [[lu off]| | |]; try (destruct S4; fail); [|left; apply pair_inj in H; destruct H as [<- <-]; auto]. destruct S4 as [Fo Hh].
  specialize (SR lu off r1 S1). cbn [length] in SR.
  assert (L1 : mr_len r1 = mr_len r) by (unfold mr_len; rewrite B1; auto).
  unfold bind at 1, get at 1 in H. change (ob_len (mr_buf r1)) with (mr_len r1) in H. rewrite name_len_of, <- wire_elen in H.
  unfold bind at 1 in H. destruct Fo as [[-> ->]|(-> & pre & suf & e & E & Sn & _ & -> & Ho & W)].
  - replace (negb c || (length ls + 1 =? length ls + 1)) with true in H by (rewrite Nat.eqb_refl, orb_true_r; auto). rewrite N.eqb_refl in H. cbn [negb] in H. rewrite andb_false_r in H.
    change (n_raw (name_of ls)) with (enc ls) in H.
    pose proof (emits_bytes (enc ls) (enc_bytes _ (proj1 F)) m r1 I1) as A. unfold mr_write_bytes in A.
    destruct (on_buf (ob_write_bytes (enc ls)) r1) as [[[]| | |] r2] eqn:E2; try (destruct A as (_ & _ & []); fail).
    2:{ left. apply pair_inj in H. destruct H as [<- <-]. destruct (on_buf_tables _ _ _ _ _ E2) as (T2 & C2 & _). split; auto. split; congruence. }
    destruct A as (X2 & I2 & P1 & P2). rewrite enc_len in P1.
    destruct (on_buf_tables _ _ _ _ _ E2) as (T2 & C2 & H2).
    change (wn_register (length ls + 1) 0 (mr_len r1) (wire_len ls) r2 = (a0, r')) in H.
    assert (Pb : Pbytes (body ls) (rdm m r2) (mr_len r1) (mr_len r1 + elen ls)).
    { split; [rewrite body_len; auto|]. intros i x Hi. apply P2. unfold enc.
      rewrite nth_error_app1; auto. apply nth_error_Some. congruence. }
    assert (Pz : rdm m r2 (mr_len r1 + elen ls) = Some 0%N).
    { apply P2. unfold enc. rewrite nth_error_app2 by (rewrite body_len; lia). rewrite body_len, Nat.sub_diag. auto. }
    assert (W : wname (rdm m r2) (mr_len r1) (mr_len r1 + elen ls) [] (mr_len r1 + elen ls + 1)) by (apply wn_root; auto).
    destruct (wn_register_has m ls F Kn ls [] [] r2 (mr_len r1) (mr_len r1) (mr_len r1 + elen ls + 1) (length ls + 1)) as (r3 & R1 & R2 & R3 & R4); auto.
    { rewrite app_nil_r. auto. }
    { intros i Hi Hl. rewrite H2. apply Hh; auto. cbn [length] in Hi. lia. }
    rewrite app_nil_r in R1. simpl length in R1. rewrite R1 in H. apply pair_inj in H. destruct H as [<- ->]. right. split; auto.
    exists ls, []. split; [rewrite app_nil_r; auto|]. split.
    + rewrite L1 in R3, R4. apply (registered_from m r r2); auto; congruence.
    + left. split; auto. split.
      * apply wn_register_buf in R1. replace (mr_len r') with (mr_len r2) by (unfold mr_len; rewrite R1; auto). rewrite wire_elen. lia.
      * destruct SR as [(_ & _ & Q)|(_ & Q & _)]; [exact Q|congruence].
  - subst ls. replace (negb true || (length pre =? length (pre ++ suf) + 1)) with false in H by (symmetry; apply Nat.eqb_neq; rewrite app_length; lia).
    replace (off =? NO_OFFSET)%N with false in H by (symmetry; apply N.eqb_neq; unfold NO_OFFSET; lia). cbn [negb andb] in H.
    match type of H with (match ?w r1 with _ => _ end) = _ => set (w0 := w) in * end.
    assert (Fp : Forall wf_label pre) by (apply wf_app in F; apply F).
    assert (Eo : idx (n_offsets (name_of (pre ++ suf))) (length pre) = Ok (N.of_nat (elen pre))) by apply idx_offs.
    assert (Es : slice (n_raw (name_of (pre ++ suf))) 0 (N.to_nat (N.of_nat (elen pre))) = Ok (body pre)).
    { rewrite Nat2N.id. unfold name_of. cbn [n_raw]. rewrite enc_app. apply slice_pre. rewrite body_len. auto. }
    assert (Ew : emits w0 (Pbytes (body pre))).
    { subst w0. destruct (0 <? length pre) eqn:E0.
      - rewrite Eo. apply emits_lift. rewrite Es. apply emits_lift. apply emits_bytes. apply body_bytes. auto.
      - bl. destruct pre; [|simpl in E0; lia]. eapply emits_conseq; [|apply emits_ret].
        intros rd s e' ->. split; [simpl; lia|]. intros i x Hi. destruct i; discriminate. }
    assert (Hw : forall a r0 r0', w0 r0 = (a, r0') -> mr_table r0' = mr_table r0 /\ mr_counts r0' = mr_counts r0 /\ mr_hashes r0' = mr_hashes r0).
    { intros a r0 r0'. subst w0. destruct (0 <? length pre).
      - rewrite Eo. unfold bind at 1, lift at 1. rewrite Es. unfold bind at 1, lift at 1. apply on_buf_tables.
      - unfold ret. intros Q. inversion Q. auto. }
    specialize (Ew m r1 I1). destruct (w0 r1) as [[[]| | |] r2] eqn:E2; try (destruct Ew as (_ & _ & []); fail).
    2:{ left. apply pair_inj in H. destruct H as [<- <-]. destruct (Hw _ _ _ E2) as (T2 & C2 & _). split; auto. split; congruence. }
    destruct Ew as (X2 & I2 & A1).
    destruct (Hw _ _ _ E2) as (T2 & C2 & H2).
    unfold bind at 1 in H.
    pose proof (emits_u16 (N.lor off COMPRESS_POINTER_MARK16) m r2 I2) as A. unfold mr_write_u16 in A.
    destruct (on_buf (ob_write_u16 _) r2) as [[[]| | |] r3] eqn:E3; try (destruct A as (_ & _ & []); fail).
    2:{ left. apply pair_inj in H. destruct H as [<- <-]. destruct (on_buf_tables _ _ _ _ _ E3) as (T3 & C3 & _). split; auto. split; congruence. }
    destruct A as (X3 & I3 & A2).
    destruct (on_buf_tables _ _ _ _ _ E3) as (T3 & C3 & H3).
    rewrite ptr_bytes in A2 by auto. destruct A2 as [P1 P2]. cbn [length] in P1.
    pose proof (P2 0 _ eq_refl) as P20. pose proof (P2 1 _ eq_refl) as P21. rewrite Nat.add_0_r in P20.
    assert (Pb : Pbytes (body pre) (rdm m r3) (mr_len r1) (mr_len r1 + elen pre)).
    { destruct A1 as [Q1 Q2]. split; [rewrite body_len; auto|]. intros i x Hi. eapply extends_rdm; eauto. }
    assert (L2 : mr_len r2 = mr_len r1 + elen pre) by (destruct A1 as [Q1 _]; rewrite body_len in Q1; auto).
    assert (Lt : N.to_nat off < mr_len r1).
    { destruct W; match goal with H : rdm m r1 _ = Some _ |- _ => apply (ob_at_rdm _ _ _ _ I1) in H; lia end. }
    assert (W3 : wname (rdm m r3) (mr_len r1) (mr_len r1 + elen pre) suf (mr_len r2 + 2)).
    { rewrite <- L2. eapply wn_ptr with (t := N.to_nat off) (e := e); eauto.
      - apply N.div_lt_upper_bound; lia.
      - f_equal. apply N.div_mod. discriminate.
      - eapply wname_mono; [apply W|]. intros i x Hi. eapply extends_rdm; [apply X3|]. eapply extends_rdm; eauto. }
    destruct (wn_register_has m (pre ++ suf) F Kn pre [] suf r3 (mr_len r1) (mr_len r1) (mr_len r2 + 2) (length pre)) as (r4 & R1 & R2 & R3 & R4); auto.
    { intros i Hi Hl. rewrite H3, H2. apply Hh; auto. }
    simpl length in R1. rewrite R1 in H. apply pair_inj in H. destruct H as [<- ->]. right. split; auto.
    exists pre, suf. split; auto. split.
    + rewrite L1 in R3, R4. apply (registered_from m r r3); auto; congruence.
    + right. split; auto. split; auto.
      destruct SR as [(Q & _)|(_ & _ & p & s & Q2 & Q3 & Q4 & Q5 & Q6)].
      { subst off. unfold NO_OFFSET in Ho. lia. }
      assert (length pre = length p) by lia. assert (Ep : p = pre /\ s = suf).
      { destruct (app_eq_len _ pre suf p s H Q2). auto. }
      destruct Ep as [-> ->]. split; auto. split; auto.
      apply wn_register_buf in R1. replace (mr_len r') with (mr_len r3) by (unfold mr_len; rewrite R1; auto). lia.
Qed.
End Known.

(** * Histories *)
Lemma fronts_ancestors : forall k d suf, in_bucket k (fronts d suf) <= in_bucket k (ancestors (d ++ suf)).
Proof.
  intros k d suf. induction d as [|l d IH]; [cbn; lia|]. cbn [fronts ancestors app]. rewrite !in_bucket_cons. lia.
Qed.
Record comp (h : list event) (r : render) : Prop := mkComp
  { comp_cnt : forall k c, nth_error (mr_counts r) k = Some c -> c <= in_bucket k (flat_map ancestors (names_in h));
    comp_all : light h -> forall s, written_low h s -> has r s;
    comp_only : forall k it, slot r k it -> exists s, written h s /\ is_item it s }.
Lemma written_cons : forall e h s, written h s -> written (e :: h) s.
Proof. intros e h s (N & e0 & c & pre & A & B). split; auto. exists e0, c, pre. split; [right; auto|auto]. Qed.
Lemma light_cons : forall e h, light (e :: h) -> light h.
Proof.
  intros e h H k. specialize (H k). unfold names_in in H. cbn [flat_map] in H. rewrite flat_map_app, in_bucket_app in H. unfold names_in. lia.
Qed.
Lemma comp_same : forall e h r r', comp h r -> mr_table r' = mr_table r -> mr_counts r' = mr_counts r ->
  (forall ls c, ev_op e = MName ls c -> ev_ok e = false) -> comp (e :: h) r'.
Proof.
  intros e h r r' [A B C] T Cn Hw. constructor.
  - intros k c H. rewrite Cn in H. apply A in H. unfold names_in. cbn [flat_map]. rewrite flat_map_app, in_bucket_app. unfold names_in in H. lia.
  - intros L s (Ns & e0 & c & pre & Hin & Q1 & Q2 & Q3). eapply has_same; [exact T|exact Cn|]. apply B; [eapply light_cons; eauto|].
    destruct Hin as [<-|Hin]; [rewrite (Hw _ _ Q2) in Q1; discriminate|]. split; auto. exists e0, c, pre. auto.
  - intros k it H. destruct (C k it) as (s & W & M); [eapply slot_same; [| |exact H]; auto|]. exists s. split; auto. apply written_cons. auto.
Qed.
Lemma written_among : forall h s, written h s -> among (names_in h) s.
Proof.
  intros h s (_ & e & c & pre & Hin & _ & Q). exists (pre ++ s). split; [|exists pre; auto]. unfold names_in. apply in_flat_map. exists e. rewrite Q. cbn; auto.
Qed.
Lemma item_unique : forall ns it a b, collision_free ns -> among ns a -> among ns b -> is_item it a -> is_item it b -> a = b.
Proof.
  intros ns it a b C Aa Ab [Ha La] [Hb Lb]. apply C; auto; [rewrite La in Lb; lia|]. rewrite Ha in Hb. exact Hb.
Qed.
Lemma has_written : forall ns h r s, collision_free ns -> incl (names_in h) ns -> comp h r -> among ns s -> has r s -> written h s.
Proof.
  intros ns h r s C Inc Co As (it & Sl & M). destruct (comp_only _ _ Co _ _ Sl) as (s' & W & M'). replace s with s'; auto.
  eapply item_unique; eauto. apply written_among in W. destruct W as (ls & Hin & Sf). exists ls. auto.
Qed.
Lemma history_ev : forall dat h r, bytes dat -> history (mr_new dat) h r -> forall e, In e h -> ev_end e <= mr_len r.
Proof. intros dat h r B H e He. destruct (history_inv dat h r B H) as [_ K]. apply K in He. lia. Qed.
Lemma names_cons : forall ls c a b k h, names_in (mkEv (MName ls c) a b k :: h) = ls :: names_in h.
Proof. reflexivity. Qed.

Lemma other_tables : forall o r a r', (forall ls c, o <> MName ls c) -> mop_call o r = (a, r') -> mr_table r' = mr_table r /\ mr_counts r' = mr_counts r.
Proof.
  intros o r a r' No H. destruct o; cbn [mop_call] in H; try (apply on_buf_tables in H; destruct H as (? & ? & _); auto; fail). destruct (No ls compress); auto.
Qed.
Lemma split_cases : forall (d suf pre s : list label), d ++ suf = pre ++ s ->
  (exists d2, d = pre ++ d2 /\ d2 <> [] /\ s = d2 ++ suf) \/ (exists x, pre = d ++ x /\ suf = x ++ s).
Proof.
  induction d as [|l d IH]; intros suf pre s E.
  - right. exists pre. auto.
  - destruct pre as [|y pre].
    + left. exists (l :: d). split; auto. split; [discriminate|auto].
    + cbn in E. inversion E. destruct (IH suf pre s) as [(d2 & -> & Nd & ->)|(x & -> & ->)]; auto.
      * left. exists d2. auto.
      * right. exists x. auto.
Qed.
Lemma history_comp : forall dat h r, bytes dat -> history (mr_new dat) h r -> forall ns, collision_free ns -> incl (names_in h) ns -> comp h r.
Proof.
  intros dat h r B. induction 1 as [|h r o r' H IH V C|h r o r' H IH V C]; intros ns Cf Inc.
  - constructor.
    + intros k c Hc. apply nth_error_In in Hc. apply repeat_spec in Hc. subst. lia.
    + intros _ s (_ & e & c & pre & [] & _).
    + intros k it (row & c & i & _ & Hc & Hi & _). apply nth_error_In in Hc. apply repeat_spec in Hc. subst. lia.
  - assert (Inc' : incl (names_in h) ns).
    { intros x Hx. apply Inc. unfold names_in. cbn [flat_map]. apply in_app_iff. right. exact Hx. }
    specialize (IH ns Cf Inc').
    assert (Dec : (exists ls c, o = MName ls c) \/ (forall ls c, o <> MName ls c)) by (destruct o; eauto; right; discriminate).
    destruct Dec as [(ls & c & ->)|No].
    2:{ destruct (other_tables o r _ r' No C). apply (comp_same _ h r); auto. cbn [ev_op]. intros ls c Q. destruct (No ls c Q). }
    cbn [mop_ok] in V. cbn [mop_call] in C. rewrite names_cons in Inc.
    assert (As : forall s, suffix_of s ls -> among ns s) by (intros s Hs; exists ls; split; auto; apply Inc; left; auto).
    destruct (@history_inv_k (among ns) dat h r B H) as [I K].
    { intros e ls0 c0 s He Ho Hs. exists ls0. split; auto. apply Inc'. unfold names_in. apply in_flat_map. exists e. rewrite Ho. simpl. auto. }
    destruct (@write_name_has (among ns) (hmask h) r ls c r' I V As (no_collision_of ns Cf) _ C) as [[Q _]|(_ & d & suf2 & El & (Gr & Rg & Sl) & Cs)]; [discriminate|].
    assert (Ld : mr_len r + elen d < mr_len r').
    { destruct Cs as [(-> & L & _)|(_ & _ & _ & L & _)]; [|lia]. rewrite app_nil_r in El. subst d. rewrite wire_elen in L. lia. }
    destruct IH as [Cc Ca Co]. constructor.
    + intros k c' Hc. destruct Gr as [Gr _]. apply Gr in Hc. destruct Hc as (c0 & Hc & Lc). apply Cc in Hc.
      rewrite names_cons. cbn [flat_map]. rewrite in_bucket_app. pose proof (fronts_ancestors k d suf2). rewrite <- El in *. lia.
    + intros Lt s (Ns & e & c0 & pre & Hin & Q1 & Q2 & Q3). pose proof (light_cons _ _ Lt) as Lh. specialize (Ca Lh).
      destruct Hin as [<-|Hin].
      2:{ apply (has_grown r r' (fronts d suf2)); auto. apply Ca. split; auto. exists e, c0, pre. auto. }
      cbn [ev_op ev_end] in Q2, Q3. inversion Q2. subst c0. rename H1 into El2. rewrite El in El2.
      destruct (split_cases d suf2 pre s El2) as [(d2 & Ed & Nd & Es)|(x & Ep & Es)].
      * rewrite Es. apply Rg with (d1 := pre); auto.
        -- intros k c1 Hc. apply Cc in Hc. specialize (Lt k). rewrite names_cons in Lt. cbn [flat_map] in Lt. rewrite in_bucket_app in Lt.
           pose proof (fronts_ancestors k d suf2). rewrite <- El in *. lia.
        -- subst d. rewrite elen_app in Ld. lia.
      * assert (Hs : has r suf2).
        { destruct Cs as [(-> & _)|(_ & _ & Hs & _)]; auto. symmetry in Es. apply app_eq_nil in Es. destruct Es. congruence. }
        apply (has_grown r r' (fronts d suf2)); auto. apply Ca.
        assert (W : written h suf2).
        { apply (has_written ns h r); auto. constructor; auto. apply As. exists d. auto. }
        destruct W as (_ & e & c1 & pre1 & Hin & W1 & W2). split; auto. exists e, c1, (pre1 ++ x). split; auto. split; auto. split.
        -- rewrite W2, Es, <- app_assoc. auto.
        -- pose proof (history_ev dat h r B H e Hin). lia.
    + intros k it Si. apply Sl in Si. destruct Si as [Si|(d1 & d2 & T1 & T2 & _ & T4)].
      * apply Co in Si. destruct Si as (s & W & M). exists s. split; auto. apply written_cons. auto.
      * exists (d2 ++ suf2). split; auto. split; [destruct d2; [congruence|discriminate]|].
        eexists _, c, d1. split; [left; reflexivity|]. cbn [ev_ok ev_op]. split; auto. rewrite El, T1, <- app_assoc. auto.
  - assert (Inc' : incl (names_in h) ns).
    { intros x Hx. apply Inc. unfold names_in. cbn [flat_map]. apply in_app_iff. right. exact Hx. }
    specialize (IH ns Cf Inc').
    assert (Dec : (exists ls c, o = MName ls c) \/ (forall ls c, o <> MName ls c)) by (destruct o; eauto; right; discriminate).
    destruct Dec as [(ls & c & ->)|No].
    2:{ destruct (other_tables o r _ r' No C). apply (comp_same _ h r); auto. }
    cbn [mop_ok] in V. cbn [mop_call] in C. rewrite names_cons in Inc.
    assert (As : forall s, suffix_of s ls -> among ns s) by (intros s Hs; exists ls; split; auto; apply Inc; left; auto).
    destruct (@history_inv_k (among ns) dat h r B H) as [I K].
    { intros e ls0 c0 s He Ho Hs. exists ls0. split; auto. apply Inc'. unfold names_in. apply in_flat_map. exists e. rewrite Ho. simpl. auto. }
    destruct (@write_name_has (among ns) (hmask h) r ls c r' I V As (no_collision_of ns Cf) _ C) as [(_ & T & Cn)|[Q _]]; [|discriminate].
    apply (comp_same _ h r); auto.
Qed.

Lemma name_step : forall dat h r ls c r', bytes dat -> history (mr_new dat) h r -> wf_labels ls -> collision_free (ls :: names_in h) ->
  write_name (name_of ls) c r = (Ok tt, r') ->
  exists d suf2, ls = d ++ suf2 /\
    ((suf2 = [] /\ mr_len r' = mr_len r + wire_len ls /\ (c = true -> light h -> forall p s, ls = p ++ s -> ~ written_low h s)) \/
     (c = true /\ written h suf2 /\ mr_len r' = mr_len r + elen d + 2 /\ (light h -> forall p s, ls = p ++ s -> written_low h s -> length d <= length p))).
Proof.
  intros dat h r ls c r' B H W Cf E.
  assert (Inc : incl (names_in h) (ls :: names_in h)) by (intros x Hx; right; auto).
  pose proof (history_comp dat h r B H _ Cf Inc) as Co.
  assert (As : forall s, suffix_of s ls -> among (ls :: names_in h) s) by (intros s Hs; exists ls; split; auto; left; auto).
  destruct (@history_inv_k (among (ls :: names_in h)) dat h r B H) as [I K].
  { intros e ls0 c0 s He Ho Hs. exists ls0. split; auto. right. unfold names_in. apply in_flat_map. exists e. rewrite Ho. simpl. auto. }
  destruct (@write_name_has (among (ls :: names_in h)) (hmask h) r ls c r' I W As (no_collision_of _ Cf) _ E) as [[Q _]|(_ & d & suf2 & El & _ & Cs)]; [discriminate|].
  exists d, suf2. split; auto. destruct Cs as [(-> & L & Nh)|(-> & Ns & Hs & L & Nh)].
  - left. split; auto. split; auto. intros Ec Lt p s Es Wl. apply (Nh Ec p s Es); [apply Wl|]. apply (comp_all _ _ Co Lt). auto.
  - right. split; auto. split.
    + eapply has_written; eauto. apply As. exists d. auto.
    + split; auto. intros Lt p s Es Wl. destruct (Nat.le_gt_cases (length d) (length p)) as [|Lp]; auto. destruct (Nh p s Es Lp). apply (comp_all _ _ Co Lt). auto.
Qed.
Lemma split_elen : forall (a b c d : list label), a ++ b = c ++ d -> length a <= length c -> elen a <= elen c.
Proof.
  intros a b c d E L. destruct (split_cases a b c d E) as [(d2 & -> & N & _)|(x & -> & _)]; rewrite elen_app in *; try lia.
  rewrite app_length in L. destruct d2; [congruence|cbn in L; lia].
Qed.
Lemma last_label_len : forall pre s, wf_labels (pre ++ s) -> s <> [] -> elen pre + 2 <= wire_len (pre ++ s).
Proof.
  intros pre s W N. rewrite wire_elen, elen_app. destruct s as [|l s]; [congruence|]. rewrite elen_cons.
  destruct W as [W _]. apply Forall_app in W. destruct W as [_ W]. apply Forall_inv in W. destruct W as [W _]. lia.
Qed.
(** Never worse than any pointer into the low part. *)
Lemma name_upper : forall dat h r ls r' pre s, bytes dat -> history (mr_new dat) h r -> wf_labels ls -> collision_free (ls :: names_in h) -> light h ->
  write_name (name_of ls) true r = (Ok tt, r') -> ls = pre ++ s -> written_low h s -> mr_len r' <= mr_len r + length (body pre) + 2.
Proof.
  intros dat h r ls r' pre s B H W Cf Lt E Es Wl. rewrite body_len.
  destruct (name_step dat h r ls true r' B H W Cf E) as (d & suf2 & El & [(_ & _ & Q)|(_ & _ & L & Q)]).
  - destruct (Q eq_refl Lt pre s Es Wl).
  - specialize (Q Lt pre s Es Wl). assert (elen d <= elen pre); [|lia]. apply (split_elen d suf2 pre s); auto. congruence.
Qed.
Lemma name_lower : forall dat h r ls c r', bytes dat -> history (mr_new dat) h r -> wf_labels ls -> collision_free (ls :: names_in h) ->
  write_name (name_of ls) c r = (Ok tt, r') ->
  mr_len r' = mr_len r + wire_len ls \/ (c = true /\ exists pre s, ls = pre ++ s /\ written h s /\ mr_len r' = mr_len r + length (body pre) + 2).
Proof.
  intros dat h r ls c r' B H W Cf E.
  destruct (name_step dat h r ls c r' B H W Cf E) as (d & suf2 & El & [(_ & L & _)|(Ec & Wr & L & _)]); [auto|].
  right. split; auto. exists d, suf2. rewrite body_len. auto.
Qed.
Lemma name_cheapest : forall dat h r ls r', bytes dat -> history (mr_new dat) h r -> wf_labels ls -> collision_free (ls :: names_in h) -> light h ->
  (N.of_nat (mr_len r) <= 16384)%N -> write_name (name_of ls) true r = (Ok tt, r') -> exists n, cheapest h ls n /\ mr_len r' = mr_len r + n.
Proof.
  intros dat h r ls r' B H W Cf Lt Sz E.
  assert (Low : forall s, written h s -> written_low h s).
  { intros s (Ns & e & c & pre & A1 & A2 & A3). split; auto. exists e, c, pre. split; auto. split; auto. split; auto. pose proof (history_ev dat h r B H e A1). lia. }
  assert (Up : forall pre s, ls = pre ++ s -> written h s -> mr_len r' <= mr_len r + length (body pre) + 2).
  { intros pre s Es Ws. eapply name_upper; eauto. }
  destruct (name_lower dat h r ls true r' B H W Cf E) as [L|(_ & pre & s & Es & Ws & L)].
  - exists (wire_len ls). split; auto. split; auto. split; auto. intros pre s Es Ws. specialize (Up pre s Es Ws). lia.
  - exists (length (body pre) + 2). split; [|lia]. split; [right; exists pre, s; auto|]. split.
    + rewrite body_len, Es. apply last_label_len; [congruence|apply Ws].
    + intros pre' s' Es' Ws'. specialize (Up pre' s' Es' Ws'). lia.
Qed.
Lemma name_plain : forall dat h r ls r', bytes dat -> history (mr_new dat) h r -> wf_labels ls ->
  write_name (name_of ls) false r = (Ok tt, r') -> mr_len r' = mr_len r + wire_len ls.
Proof.
  intros dat h r ls r' B Hi F H. destruct (history_inv dat h r B Hi) as [I _].
  destruct (wn_search_top _ r ls false I F) as (a & r1 & S1 & (B1 & B2 & B3) & I1 & S4).
  unfold write_name in H. rewrite label_count_of in H. unfold bind at 1 in H. rewrite S1 in H. destruct a as [[lu off]| | |]; try discriminate. destruct S4 as [Fo _].
  unfold bind at 1, get at 1 in H. replace (mr_len r) with (mr_len r1) by (unfold mr_len; rewrite B1; auto).
  unfold bind at 1 in H. destruct Fo as [[-> ->]|(Q & _)]; [|discriminate].
  cbn [negb orb andb] in H.
  destruct (on_buf (ob_write_bytes (n_raw (name_of ls))) r1) as [[[]| | |] r2] eqn:E2; try discriminate.
  apply (append_len (fun b => ob_len b + length (n_raw (name_of ls)) <=? ob_capacity b) (n_raw (name_of ls)) r1 r2 (guard_le _)) in E2.
  unfold bind, ret in H. apply wn_register_buf in H. unfold mr_len in *. rewrite H, E2. reflexivity.
Qed.
(** Running a list of compressed name writes, for examples. *)
Fixpoint run_names (ns : list (list label)) (h : list event) (r : render) : option (list event * render) :=
  match ns with
  | [] => Some (h, r)
  | ls :: ns => match write_name (name_of ls) true r with
                | (Ok tt, r') => run_names ns (mkEv (MName ls true) (mr_len r) (mr_len r') true :: h) r'
                | _ => None end
  end.
Lemma run_names_history : forall ns r0 h r h' r', Forall wf_labels ns -> history r0 h r -> run_names ns h r = Some (h', r') -> history r0 h' r'.
Proof.
  induction ns as [|ls ns IH]; intros r0 h r h' r' F H E; cbn [run_names] in E.
  - inversion E; subst. auto.
  - apply Forall_cons_iff in F. destruct F as [F1 F2]. destruct (write_name (name_of ls) true r) as [[[]| | |] r1] eqn:Ew; try discriminate.
    eapply IH; [exact F2| |exact E]. apply hist_ok; auto.
Qed.
(** A history with few names is light. *)
Lemma light_few : forall h, length (flat_map ancestors (names_in h)) <= 15 -> light h.
Proof.
  intros h H k. unfold in_bucket. etransitivity; [|exact H]. generalize (flat_map ancestors (names_in h)). intro l.
  induction l as [|a l IH]; cbn [filter length]; [lia|]. destruct (_ =? k); cbn [length]; lia.
Qed.

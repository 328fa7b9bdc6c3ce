(** What holds of a renderer after any calls, truncations of names included (C60). *)
From Verif Require Import Base NameModel RenderModel SpecName SpecBuf SpecAnyCalls BaseLemmas NameWireProofs RenderProofs RenderProofs2 RenderWorkProofs NameOpsProofs.

Definition low (it : N) : Prop := (item_pos it <= 16383)%N.
Record weak (n : nat) (r : render) : Prop := mkWeak
  { wk_len : mr_len r <= n; wk_cap : length (ob_data (mr_buf r)) = n;
    wk_bytes : bytes (ob_data (mr_buf r));
    wk_tab : length (mr_table r) = 64 /\ Forall (fun row => length row = 16 /\ Forall low row) (mr_table r);
    wk_cnt : length (mr_counts r) = 64 /\ Forall (fun c => c <= 15) (mr_counts r);
    wk_hs : length (mr_hashes r) = 128; wk_hb : Forall (fun h => (h < 4294967296)%N) (mr_hashes r) }.
Lemma weak_new : forall d, bytes d -> weak (length d) (mr_new d).
Proof.
  intros d B. constructor; cbn; auto; try lia.
  - split; [reflexivity|]. apply Forall_forall. intros row Hr. apply (repeat_spec 64) in Hr. subst row. split; [reflexivity|].
    apply Forall_forall. intros it Hi. apply (repeat_spec 16) in Hi. subst it. unfold low. vm_compute. discriminate.
  - split; [reflexivity|]. apply Forall_forall. intros c Hc. apply (repeat_spec 64) in Hc. lia.
  - apply Forall_forall. intros c Hc. apply (repeat_spec 128) in Hc. subst c. reflexivity.
Qed.
Lemma weak_buf : forall n r b, weak n r -> ob_len b <= n -> length (ob_data b) = n -> bytes (ob_data b) -> weak n (mkRender b (mr_table r) (mr_counts r) (mr_hashes r)).
Proof. intros n r b [A B C D E F G] L1 L2 L3. constructor; auto. Qed.

(** ** Buffer operations *)
Lemma bytes_store : forall vs d p, bytes d -> bytes vs -> bytes (firstn p d ++ vs ++ skipn (p + length vs) d).
Proof.
  intros vs d p Bd Bv. apply bytes_app. split; [|apply bytes_app; split; auto]; unfold bytes in *; rewrite Forall_forall in *; intros x Hx; apply Bd; [eapply firstn_In|eapply skipn_In]; eauto.
Qed.
Lemma append_weak : forall n r vs, weak n r -> bytes vs -> mr_len r + length vs <= n ->
  exists r', on_buf (ob_append vs) r = (Ok tt, r') /\ weak n r' /\ mr_bytes r' = mr_bytes r ++ vs /\ mr_len r' = mr_len r + length vs /\ mr_hashes r' = mr_hashes r.
Proof.
  intros n r vs W B L. pose proof W as [A C D _ _ _ _]. unfold mr_len in *. unfold on_buf, ob_append. rewrite store_ok by lia. eexists. split; [reflexivity|].
  split; [|split; [|split; [reflexivity|reflexivity]]].
  - apply weak_buf; auto; cbn [ob_len ob_data]; [rewrite length_store by lia; auto|apply bytes_store; auto].
  - unfold mr_bytes, ob_bytes. cbn [mr_buf ob_len ob_data]. rewrite !firstn_app, firstn_firstn, firstn_length.
    replace (Nat.min (ob_len (mr_buf r) + length vs) (ob_len (mr_buf r))) with (ob_len (mr_buf r)) by lia.
    replace (Nat.min (ob_len (mr_buf r)) (length (ob_data (mr_buf r)))) with (ob_len (mr_buf r)) by lia.
    replace (ob_len (mr_buf r) + length vs - ob_len (mr_buf r)) with (length vs) by lia. rewrite firstn_all, Nat.sub_diag. cbn [firstn]. rewrite app_nil_r. reflexivity.
Qed.
Lemma at_weak : forall n r p vs, weak n r -> bytes vs -> p + length vs <= mr_len r -> exists r', on_buf (ob_store p vs) r = (Ok tt, r') /\ weak n r'.
Proof.
  intros n r p vs W B L. pose proof W as [A C D _ _ _ _]. unfold mr_len in *. unfold on_buf, ob_store. rewrite store_ok by lia. eexists. split; [reflexivity|].
  apply weak_buf; auto; cbn [ob_len ob_data]; [rewrite length_store by lia; auto|apply bytes_store; auto].
Qed.
Lemma ob_at_cases : forall n r p, weak n r -> (exists c, ob_at (mr_buf r) p = Ok c /\ (c < 256)%N) \/ ob_at (mr_buf r) p = Err.
Proof.
  intros n r p [A C D _ _ _ _]. unfold mr_len in A. unfold ob_at. destruct (p <? ob_len (mr_buf r)) eqn:E; [|auto]. apply Nat.ltb_lt in E. left.
  destruct (idx_ok_lt _ (ob_data (mr_buf r)) p) as (c & Q & Qn); [lia|]. exists c. split; auto. unfold bytes in D. rewrite Forall_forall in D. apply D. eapply nth_error_In; eauto.
Qed.

(** ** The comparison of a name with what a table item points at *)
Lemma next_label_weak : forall n r, weak n r -> forall f p, (N.of_nat p < 65000)%N ->
  next_label_loop f (mr_buf r) p <> Panic /\ forall c q, next_label_loop f (mr_buf r) p = Ok (c, q) -> (c < 256)%N /\ (q <= N.max (N.of_nat p) 16383 + 1)%N.
Proof.
  intros n r W. induction f as [|f IH]; intros p Lp; cbn [next_label_loop]; [split; [discriminate|intros; discriminate]|].
  destruct (ob_at_cases n r p W) as [(c & -> & Lc)| ->]; cbn [rbind]; [|split; [discriminate|intros; discriminate]].
  destruct (N.land c COMPRESS_POINTER_MARK8 =? COMPRESS_POINTER_MARK8)%N.
  - destruct (ob_at_cases n r (p + 1) W) as [(d & -> & Ld)| ->]; cbn [rbind]; [|split; [discriminate|intros; discriminate]].
    assert (L63 : (N.land c 63 < 64)%N) by (change 63%N with (N.ones 6); rewrite N.land_ones; apply N.mod_lt; discriminate).
    destruct (IH (N.to_nat (N.land c 63 * 256 + d))) as [H1 H2]; [lia|]. split; auto. intros c' q Q. apply H2 in Q. split; [tauto|]. lia.
  - split; [discriminate|]. intros c' q Q. inversion Q. subst c'. rewrite as_u16_small by lia. split; [auto|lia].
Qed.
Lemma nc_bytes_weak : forall n r, weak n r -> forall k p s, (p + N.of_nat k < 65536)%N ->
  exists a s', nc_bytes (mr_buf r) k p s = (a, s') /\ ib_data s' = ib_data s /\ ib_pos s <= ib_pos s' /\ (ib_pos s <= ib_len s -> ib_pos s' <= ib_len s) /\ a <> Panic /\
    forall q, a = Ok (Some q) -> (q = p + N.of_nat k)%N /\ ib_pos s' = ib_pos s + k.
Proof.
  intros n r W. induction k as [|k IH]; intros p s L; cbn [nc_bytes].
  { exists (Ok (Some p)), s. split; [reflexivity|]. split; [auto|]. split; [auto|]. split; [auto|]. split; [discriminate|]. intros q Q. inversion Q. split; lia. }
  unfold bind at 1, lift at 1. destruct (ob_at_cases n r (N.to_nat p) W) as [(c & -> & _)| ->].
  2: { exists Err, s. split; [reflexivity|]. split; [auto|]. split; [auto|]. split; [auto|]. split; [discriminate|]. intros; discriminate. }
  unfold bind at 1. unfold read_u8. destruct (ib_pos s <? ib_len s) eqn:E.
  2: { eexists _, _. split; [reflexivity|]. split; [auto|]. split; [auto|]. split; [auto|]. split; [discriminate|]. intros; discriminate. }
  apply Nat.ltb_lt in E. destruct (idx_ok_lt _ (ib_data s) (ib_pos s) E) as (c2 & -> & _). destruct (c =? c2)%N.
  2: { eexists _, _. split; [reflexivity|]. cbn [ib_data ib_pos]. split; [auto|]. split; [lia|]. split; [unfold ib_len in *; lia|]. split; [discriminate|]. intros; discriminate. }
  unfold bind at 1, lift at 1. replace (p + 1 <? 65536)%N with true by (symmetry; apply N.ltb_lt; lia).
  destruct (IH (p + 1)%N (mkIn (ib_data s) (ib_pos s + 1))) as (a & s' & Q & D & P1 & P2 & NP & R); [lia|].
  exists a, s'. split; [exact Q|]. cbn [ib_data ib_pos] in *. unfold ib_len in *. cbn [ib_data] in *. split; [auto|]. split; [lia|]. split; [lia|]. split; [auto|].
  intros q Hq. apply R in Hq. destruct Hq. split; lia.
Qed.
Lemma nc_loop_weak : forall n r, weak n r -> forall f p s, ib_pos s <= ib_len s -> (N.max p 16383 + N.of_nat (ib_len s - ib_pos s) < 60000)%N ->
  exists a s', nc_loop f (mr_buf r) p s = (a, s') /\ ib_data s' = ib_data s /\ ib_pos s' <= ib_len s /\ a <> Panic.
Proof.
  intros n r W. induction f as [|f IH]; intros p s P L; cbn [nc_loop].
  { exists Hang, s. split; [reflexivity|]. split; [auto|]. split; [auto|discriminate]. }
  unfold bind at 1, lift at 1. unfold next_label.
  destruct (next_label_weak n r W (S (S (ob_len (mr_buf r)))) (N.to_nat p)) as [H1 H2]; [lia|].
  destruct (next_label_loop (S (S (ob_len (mr_buf r)))) (mr_buf r) (N.to_nat p)) as [[ll lp]| | |].
  2, 4: (eexists _, s; split; [reflexivity|]; split; [auto|]; split; [auto|discriminate]).
  2: congruence.
  destruct (H2 _ _ eq_refl) as [Lc Lq]. rewrite N2Nat.id in Lq. unfold bind at 1. unfold read_u8. destruct (ib_pos s <? ib_len s) eqn:E.
  2: { eexists _, s. split; [reflexivity|]. split; [auto|]. split; [auto|discriminate]. }
  apply Nat.ltb_lt in E. destruct (idx_ok_lt _ (ib_data s) (ib_pos s) E) as (c2 & -> & _). destruct (c2 =? ll)%N eqn:El; cbn [negb].
  2: { eexists _, _. split; [reflexivity|]. cbn [ib_data ib_pos]. split; [auto|]. split; [lia|discriminate]. }
  apply N.eqb_eq in El. subst c2. destruct (ll =? 0)%N.
  { eexists _, _. split; [reflexivity|]. cbn [ib_data ib_pos]. split; [auto|]. split; [lia|discriminate]. }
  unfold bind at 1. destruct (nc_bytes_weak n r W (N.to_nat ll) lp (mkIn (ib_data s) (ib_pos s + 1))) as (a & s1 & Q & D & P1 & P2 & NP & R); [lia|].
  rewrite Q. cbn [ib_data ib_pos] in *. unfold ib_len in *. cbn [ib_data] in *. destruct a as [[q|]| | |].
  - destruct (R q eq_refl) as [-> Rp]. destruct (IH (lp + N.of_nat (N.to_nat ll))%N s1) as (a & s2 & Q2 & D2 & P3 & NP2); [rewrite D; lia|rewrite D; lia|].
    exists a, s2. split; [exact Q2|]. split; [congruence|]. split; [rewrite D in P3; lia|auto].
  - eexists _, s1. split; [reflexivity|]. split; [auto|]. split; [lia|discriminate].
  - eexists _, s1. split; [reflexivity|]. split; [auto|]. split; [lia|discriminate].
  - congruence.
  - eexists _, s1. split; [reflexivity|]. split; [auto|]. split; [lia|discriminate].
Qed.
Lemma compare_weak : forall n r hash it s, weak n r -> low it -> ib_pos s <= ib_len s -> (N.of_nat (ib_len s) < 30000)%N ->
  exists a s', nc_compare (mr_buf r) hash it s = (a, s') /\ ib_data s' = ib_data s /\ ib_pos s' <= ib_len s /\ a <> Panic.
Proof.
  intros n r hash it s W Lo P L. unfold nc_compare, bind at 1, get. destruct (negb (item_hash it =? hash)%N || negb (item_len it =? as_u8 (N.of_nat (ib_len s)))%N).
  - exists (Ok false), s. split; [reflexivity|]. split; [auto|]. split; [auto|discriminate].
  - apply (nc_loop_weak n r W); [auto|]. unfold low in Lo. lia.
Qed.
Lemma fo_loop_weak : forall n r hash, weak n r -> forall items s, Forall low items -> ib_pos s <= ib_len s -> (N.of_nat (ib_len s) < 30000)%N ->
  fst (fo_loop (mr_buf r) hash items s) <> Panic /\ forall off, fst (fo_loop (mr_buf r) hash items s) = Ok off -> off = NO_OFFSET \/ (off <= 16383)%N.
Proof.
  intros n r hash W. induction items as [|it items IH]; intros s F P L; cbn [fo_loop].
  { split; [discriminate|]. intros off Q. cbv beta iota delta [ret fst] in Q. apply Ok_inj in Q. left. symmetry. exact Q. }
  apply Forall_cons_iff in F. destruct F as [Lo F]. unfold bind. destruct (compare_weak n r hash it s W Lo P L) as (a & s' & -> & D & P' & NP).
  assert (Ls : ib_len s' = ib_len s) by (unfold ib_len; rewrite D; auto). destruct a as [[]| | |].
  - split; [discriminate|]. intros off Q. cbv beta iota delta [ret fst] in Q. apply Ok_inj in Q. right. rewrite <- Q. exact Lo.
  - apply IH; auto; rewrite Ls; auto.
  - split; [discriminate|intros; discriminate].
  - congruence.
  - split; [discriminate|intros; discriminate].
Qed.
Lemma find_weak : forall n r raw hash, weak n r -> (N.of_nat (length raw) < 30000)%N ->
  find_offset r raw hash <> Panic /\ forall off, find_offset r raw hash = Ok off -> off = NO_OFFSET \/ (off <= 16383)%N.
Proof.
  intros n r raw hash W L. unfold find_offset. destruct (wk_tab _ _ W) as [T1 T2]. destruct (wk_cnt _ _ W) as [C1 C2].
  assert (Hb : N.to_nat (hash mod 64) < 64) by (pose proof (N.mod_lt hash 64); lia).
  set (b := N.to_nat (hash mod 64)) in *.
  destruct (idx_ok_lt _ (mr_table r) b) as (row & R1 & R2); [lia|]. destruct (idx_ok_lt _ (mr_counts r) b) as (c & R3 & R4); [lia|].
  rewrite R1, R3. cbn [rbind].
  assert (Lr : length row = 16 /\ Forall low row) by (rewrite Forall_forall in T2; apply T2; eapply nth_error_In; eauto).
  assert (Lc : c <= 15) by (rewrite Forall_forall in C2; apply C2; eapply nth_error_In; eauto).
  unfold slice. replace ((0 <=? c) && (c <=? length row)) with true by (symmetry; apply andb_true_iff; split; [reflexivity|apply Nat.leb_le; lia]). cbn [rbind].
  apply (fo_loop_weak n r hash W); [|cbn; lia|exact L]. cbn [skipn]. apply Forall_forall. intros x Hx. destruct Lr as [_ Lr]. rewrite Forall_forall in Lr. apply Lr. eapply firstn_In; eauto.
Qed.

(** ** Writing a name *)
Definition outcome (compress : bool) (ls : list label) (lu : nat) (off : N) : Prop :=
  (off = NO_OFFSET /\ lu = length ls + 1) \/ (compress = true /\ lu < length ls /\ (off <= 16383)%N).
Lemma search_weak : forall n compress ls, wf_labels ls -> forall suf pre r lu level, weak n r -> ls = pre ++ suf -> lu = length pre -> (if 0 <? lu then level + 1 else level) = lu ->
  exists a r', wn_search (length suf + 1) compress (name_of ls) lu level r = (a, r') /\ mr_buf r' = mr_buf r /\ weak n r' /\ a <> Panic /\
    (compress = false -> a = Ok (length ls + 1, NO_OFFSET)) /\ forall lu' off, a = Ok (lu', off) -> outcome compress ls lu' off.
Proof.
  intros n compress ls F. induction suf as [|l suf IH]; intros pre r lu level I E Elu Elev; cbn [length Nat.add wn_search];
    rewrite Elev; unfold bind at 1, lift at 1; rewrite Elu, E, nr_root_spec by (rewrite <- E; auto).
  - exists (Ok (length pre + 1, NO_OFFSET)), r. rewrite app_nil_r. split; [reflexivity|]. split; [auto|]. split; [auto|]. split; [discriminate|]. split; [auto|].
    intros lu' off Q. inversion Q. left. auto.
  - unfold bind at 1, lift at 1. rewrite nr_hash_spec by (rewrite <- E; auto).
    pose proof (wf_count127 _ F) as C127. rewrite E, app_length in C127. simpl in C127.
    unfold bind at 1, modify_r at 1. rewrite upd_r_ok by (rewrite (wk_hs _ _ I); lia). cbn [rbind].
    set (r1 := mkRender _ _ _ _).
    assert (I1 : weak n r1) by (destruct I as [J1 J2 J3 J4 J5 J6 J7]; constructor; auto; subst r1; cbn [mr_hashes]; [rewrite upd_length; auto|];
      apply Forall_forall; intros x Hx; apply In_nth_error in Hx; destruct Hx as [i Hi]; destruct (Nat.eq_dec i (length pre)) as [->|Ni];
      [rewrite nth_upd_same in Hi by lia; inversion Hi; apply name_hash_bound|rewrite nth_upd_other in Hi by auto; rewrite Forall_forall in J7; apply J7; eapply nth_error_In; eauto]).
    assert (REC : exists a r', wn_search (length suf + 1) compress (name_of ls) (length pre + 1) (length pre) r1 = (a, r') /\ mr_buf r' = mr_buf r /\ weak n r' /\ a <> Panic /\
      (compress = false -> a = Ok (length ls + 1, NO_OFFSET)) /\ forall lu' off, a = Ok (lu', off) -> outcome compress ls lu' off).
    { destruct (IH (pre ++ [l]) r1 (length pre + 1) (length pre)) as (a & r' & Q1 & Q2 & Q3); auto.
      - rewrite E, <- app_assoc. auto.
      - rewrite app_length. auto.
      - replace (0 <? length pre + 1) with true by (symmetry; apply Nat.ltb_lt; lia). auto.
      - exists a, r'. auto. }
    destruct compress; [|rewrite <- E; apply REC].
    unfold bind at 1, get at 1. unfold bind at 1, lift at 1. rewrite nr_raw_spec by (rewrite <- E; auto). unfold bind at 1, lift at 1.
    assert (Fs : wf_labels (l :: suf)) by (rewrite E in F; apply wf_app in F; apply F).
    destruct (find_weak n r1 (enc (l :: suf)) (name_hash (l :: suf)) I1) as [H1 H2].
    { pose proof (proj2 Fs) as W255. unfold wire_len in W255. lia. }
    destruct (find_offset r1 (enc (l :: suf)) (name_hash (l :: suf))) as [off| | |].
    + destruct (off =? NO_OFFSET)%N eqn:Eo; cbn [negb]; [rewrite <- E; exact REC|]. exists (Ok (length pre, off)), r1. split; [reflexivity|]. split; [auto|]. split; [auto|].
      split; [discriminate|]. split; [discriminate|]. intros lu' off' Q. inversion Q. subst lu' off'. right. split; [auto|]. split; [rewrite app_length; simpl; lia|].
      apply N.eqb_neq in Eo. destruct (H2 off eq_refl); [congruence|auto].
    + exists Err, r1. split; [reflexivity|]. split; [auto|]. split; [auto|]. split; [discriminate|]. split; [discriminate|intros; discriminate].
    + congruence.
    + exists Hang, r1. split; [reflexivity|]. split; [auto|]. split; [auto|]. split; [discriminate|]. split; [discriminate|intros; discriminate].
Qed.
Lemma add_weak : forall n r hash pos len, weak n r -> (hash < 4294967296)%N -> (pos <= 16383)%N -> (len < 256)%N ->
  exists r', add_offset hash pos len r = Ok r' /\ mr_buf r' = mr_buf r /\ weak n r'.
Proof.
  intros n r hash pos len I Hh Hp Hl. unfold add_offset.
  assert (Hb : N.to_nat (hash mod 64) < 64) by (pose proof (N.mod_lt hash 64); lia).
  set (b := N.to_nat (hash mod 64)) in *.
  destruct (wk_tab _ _ I) as [T1 T2]. destruct (wk_cnt _ _ I) as [C1 C2].
  destruct (idx_ok_lt _ (mr_table r) b) as (row & R1 & R2); [lia|].
  destruct (idx_ok_lt _ (mr_counts r) b) as (c & R3 & R4); [lia|].
  rewrite R3. cbn [rbind].
  assert (Lr : length row = 16 /\ Forall low row) by (rewrite Forall_forall in T2; apply T2; eapply nth_error_In; eauto).
  assert (Lc : c <= 15) by (rewrite Forall_forall in C2; apply C2; eapply nth_error_In; eauto).
  unfold RESERVED_ITEMS. destruct (c + 1 =? 16) eqn:Ec; [eexists; split; [reflexivity|auto]|]. apply Nat.eqb_neq in Ec.
  rewrite R1. cbn [rbind]. rewrite !upd_r_ok by lia. cbn [rbind]. rewrite upd_r_ok by lia. cbn [rbind].
  eexists. split; [reflexivity|]. split; [auto|]. destruct I. constructor; cbn [mr_buf mr_table mr_counts mr_hashes]; auto.
  - rewrite upd_length. split; auto. apply Forall_forall. intros x Hx. apply In_nth_error in Hx. destruct Hx as [i Hi].
    destruct (Nat.eq_dec i b).
    + subst i. rewrite nth_upd_same in Hi by lia. inversion Hi. rewrite upd_length. split; [tauto|]. apply Forall_forall. intros it Hit.
      apply In_nth_error in Hit. destruct Hit as [k Hk]. destruct (Nat.eq_dec k c).
      * subst k. rewrite nth_upd_same in Hk by lia. inversion Hk. unfold low.
        destruct (item_new_fields len pos hash) as (G1 & G2 & G3); [lia|lia|lia|]. rewrite ?G1, ?G2, ?G3. auto.
      * rewrite nth_upd_other in Hk by auto. destruct Lr as [_ Lr]. rewrite Forall_forall in Lr. apply Lr. eapply nth_error_In; eauto.
    + rewrite nth_upd_other in Hi by auto. rewrite Forall_forall in T2. apply T2. eapply nth_error_In; eauto.
  - rewrite upd_length. split; auto. apply Forall_forall. intros x Hx. apply In_nth_error in Hx. destruct Hx as [i Hi].
    destruct (Nat.eq_dec i b).
    + subst i. rewrite nth_upd_same in Hi by lia. inversion Hi. lia.
    + rewrite nth_upd_other in Hi by auto. rewrite Forall_forall in C2. apply C2. eapply nth_error_In; eauto.
Qed.

Lemma register_weak : forall N0 d p r n i len, weak N0 r -> Forall wf_label d -> (forall j c, nth_error (body d) j = Some c -> ob_at (mr_buf r) (p + j) = Ok c) ->
  (n = length d \/ n = length d + 1 /\ ob_at (mr_buf r) (p + elen d) = Ok 0%N) -> i + length d <= 128 -> elen d <= len ->
  exists r', wn_register n i p len r = (Ok tt, r') /\ mr_buf r' = mr_buf r /\ weak N0 r'.
Proof.
  intros N0. induction d as [|l d IH]; intros p r n i len W F B Hn Hi Hl.
  - destruct Hn as [->|[-> Z]]; cbn [length Nat.add wn_register].
    + exists r. auto.
    + unfold bind, get, lift. rewrite elen_nil, Nat.add_0_r in Z. rewrite Z. exists r. auto.
  - assert (exists n', n = S n' /\ (n' = length d \/ n' = length d + 1 /\ ob_at (mr_buf r) (p + elen (l :: d)) = Ok 0%N)) as (n' & -> & Hn').
    { destruct Hn as [->|[-> Z]]; simpl length; eexists; split; try reflexivity; auto. }
    pose proof (Forall_inv F) as [Fl1 Fl2]. pose proof (Forall_inv_tail F) as Fd. cbn [wn_register]. unfold bind at 1, get at 1. unfold bind at 1, lift at 1.
    assert (Z : ob_at (mr_buf r) p = Ok (blen l)) by (rewrite <- (Nat.add_0_r p); apply B; reflexivity).
    rewrite Z. replace (blen l =? 0)%N with false by (symmetry; apply N.eqb_neq; unfold blen; lia).
    destruct (MAX_COMPRESS_POINTER <? p) eqn:Ep; [exists r; auto|]. apply Nat.ltb_ge in Ep. unfold MAX_COMPRESS_POINTER in Ep.
    assert (Pn : (N.of_nat p <= 16383)%N) by lia.
    unfold bind at 1, lift at 1. cbn [length] in Hi. destruct (idx_ok_lt _ (mr_hashes r) i) as (h & -> & Hh); [rewrite (wk_hs _ _ W); lia|].
    assert (Lh : (h < 4294967296)%N) by (pose proof (wk_hb _ _ W) as G; rewrite Forall_forall in G; apply G; eapply nth_error_In; eauto).
    unfold bind at 1, modify_r. rewrite as_u16_small by lia.
    destruct (add_weak N0 r h (N.of_nat p) (as_u8 (N.of_nat len)) W Lh Pn) as (r1 & -> & B1 & W1); [apply N.mod_lt; discriminate|].
    rewrite elen_cons in Hl. unfold bind at 1, lift at 1. rewrite u8_add_ok by (unfold blen; lia).
    assert (St : N.to_nat (blen l + 1) = 1 + length l) by (unfold blen; lia). rewrite St.
    unfold bind at 1, lift at 1. rewrite csub_ok by lia.
    destruct (IH (p + (1 + length l)) r1 n' (i + 1) (len - (1 + length l))) as (r' & Q1 & Q2 & Q3); auto; [| |lia|lia|].
    + intros j c Hj. rewrite B1. rewrite <- (B (1 + length l + j) c); [f_equal; lia|]. simpl. rewrite nth_error_app2 by lia. replace (length l + j - length l) with j by lia. auto.
    + destruct Hn' as [->|[-> Z']]; auto. right. split; auto. rewrite B1, <- Z'. f_equal. rewrite elen_cons. lia.
    + exists r'. split; [exact Q1|]. split; [congruence|auto].
Qed.
Lemma at_bytes : forall r p i c, nth_error (mr_bytes r) i = Some c -> p = i -> ob_at (mr_buf r) p = Ok c.
Proof.
  intros r p i c H ->. unfold mr_bytes, ob_bytes in H. assert (L : i < ob_len (mr_buf r)).
  { pose proof (proj1 (nth_error_Some (firstn (ob_len (mr_buf r)) (ob_data (mr_buf r))) i)) as Q. rewrite firstn_length in Q. apply Nat.lt_le_trans with (2 := Nat.le_min_l _ (length (ob_data (mr_buf r)))). apply Q. congruence. }
  unfold ob_at. replace (i <? ob_len (mr_buf r)) with true by (symmetry; apply Nat.ltb_lt; auto). apply idx_nth. rewrite nth_firstn in H by auto. auto.
Qed.
Lemma bytes_len : forall n r, weak n r -> length (mr_bytes r) = mr_len r.
Proof. intros n r [A C _ _ _ _ _]. unfold mr_bytes, ob_bytes, mr_len in *. rewrite firstn_length. lia. Qed.
Lemma write_bytes_weak : forall n r vs, weak n r -> bytes vs -> exists a r', on_buf (ob_write_bytes vs) r = (a, r') /\ weak n r' /\
  ((a = Ok tt /\ mr_len r + length vs <= n /\ mr_bytes r' = mr_bytes r ++ vs /\ mr_len r' = mr_len r + length vs) \/ (a = Err /\ n < mr_len r + length vs /\ mr_bytes r' = mr_bytes r)).
Proof.
  intros n r vs W B. pose proof (wk_cap _ _ W) as C. unfold ob_write_bytes, on_buf. unfold ob_capacity. rewrite C. change (ob_len (mr_buf r)) with (mr_len r).
  destruct (mr_len r + length vs <=? n) eqn:E; [apply Nat.leb_le in E|apply Nat.leb_gt in E].
  - destruct (append_weak n r vs W B E) as (r' & Q & W' & Eb & El & _). unfold on_buf in Q. rewrite Q. exists (Ok tt), r'. auto 10.
  - exists Err, r. split; [destruct r; reflexivity|]. split; [auto|]. right. auto.
Qed.
Lemma write_u16_weak : forall n r d, weak n r -> exists a r', on_buf (ob_write_u16 d) r = (a, r') /\ weak n r' /\
  ((a = Ok tt /\ mr_bytes r' = mr_bytes r ++ be16 d) \/ (a = Err /\ mr_bytes r' = mr_bytes r)).
Proof.
  intros n r d W. pose proof (wk_cap _ _ W) as C. unfold ob_write_u16, on_buf. unfold ob_capacity. rewrite C. change (ob_len (mr_buf r)) with (mr_len r).
  destruct (mr_len r + 2 <=? n) eqn:E; [apply Nat.leb_le in E|apply Nat.leb_gt in E].
  - destruct (append_weak n r (be16 d) W (be16_bytes d) E) as (r' & Q & W' & Eb & El & _). unfold on_buf in Q. rewrite Q. exists (Ok tt), r'. auto 10.
  - exists Err, r. split; [destruct r; reflexivity|]. split; [auto|]. right. auto.
Qed.
Lemma name_weak : forall n r ls compress, weak n r -> wf_labels ls -> exists a r', write_name (name_of ls) compress r = (a, r') /\ weak n r' /\ a <> Panic.
Proof.
  intros n r ls compress W F. unfold write_name. rewrite label_count_of. unfold bind at 1.
  destruct (search_weak n compress ls F ls [] r 0 0 W eq_refl eq_refl eq_refl) as (a & r1 & -> & B1 & W1 & NP & _ & Out).
  destruct a as [[lu off]| | |]; [|exists Err, r1; split; [reflexivity|split; [auto|discriminate]]|congruence|exists Hang, r1; split; [reflexivity|split; [auto|discriminate]]].
  specialize (Out _ _ eq_refl). unfold bind at 1, get at 1. change (ob_len (mr_buf r1)) with (mr_len r1). rewrite name_len_of, <- wire_elen.
  pose proof (wf_count127 _ F) as C127. pose proof (bytes_len _ _ W1) as BL.
  destruct Out as [[-> ->]|(-> & Llu & Lo)].
  - replace (negb compress || (length ls + 1 =? length ls + 1)) with true by (rewrite Nat.eqb_refl, orb_true_r; auto).
    rewrite N.eqb_refl. cbn [negb]. rewrite andb_false_r. change (n_raw (name_of ls)) with (enc ls).
    unfold bind at 1. destruct (write_bytes_weak n r1 (enc ls) W1 (enc_bytes _ (proj1 F))) as (a & r2 & -> & W2 & [(-> & L2 & E2 & E3)|(-> & _ & _)]).
    2: { exists Err, r2. split; [reflexivity|]. split; [auto|discriminate]. }
    unfold bind at 1, ret at 1. cbv beta iota.
    destruct (register_weak n ls (mr_len r1) r2 (length ls + 1) 0 (wire_len ls) W2 (proj1 F)) as (r3 & R & B3 & W3).
    + intros j c Hj. apply (at_bytes r2 _ (mr_len r1 + j)); [|auto]. rewrite E2, nth_error_app2 by lia. replace (mr_len r1 + j - length (mr_bytes r1)) with j by lia.
      unfold enc. rewrite nth_error_app1; [auto|]. apply nth_error_Some. congruence.
    + right. split; [auto|]. apply (at_bytes r2 _ (mr_len r1 + elen ls)); [|auto]. rewrite E2, nth_error_app2 by lia. replace (mr_len r1 + elen ls - length (mr_bytes r1)) with (elen ls) by lia.
      unfold enc. rewrite nth_error_app2 by (rewrite body_len; lia). rewrite body_len, Nat.sub_diag. reflexivity.
    + lia.
    + rewrite wire_elen. lia.
    + rewrite R. exists (Ok tt), r3. split; [reflexivity|]. split; [auto|discriminate].
  - replace (negb true || (lu =? length ls + 1)) with false by (symmetry; simpl; apply Nat.eqb_neq; lia).
    replace (off =? NO_OFFSET)%N with false by (symmetry; apply N.eqb_neq; unfold NO_OFFSET; lia). cbn [negb andb].
    set (pre := firstn lu ls). set (suf := skipn lu ls). assert (E : ls = pre ++ suf) by (symmetry; apply firstn_skipn).
    assert (Lp : length pre = lu) by (unfold pre; rewrite firstn_length; lia).
    assert (Fp : Forall wf_label pre) by (rewrite E in F; apply wf_app in F; apply F).
    assert (Wr : exists a r2, (if 0 <? lu then let! pos := lift (idx (n_offsets (name_of ls)) lu) in let! pr := lift (slice (n_raw (name_of ls)) 0 (N.to_nat pos)) in on_buf (ob_write_bytes pr) else ret tt) r1 = (a, r2) /\
      weak n r2 /\ ((a = Ok tt /\ mr_bytes r2 = mr_bytes r1 ++ body pre) \/ a = Err)).
    { destruct (0 <? lu) eqn:E0.
      - assert (Eo : idx (n_offsets (name_of ls)) lu = Ok (N.of_nat (elen pre))) by (rewrite E, <- Lp; apply idx_offs).
        assert (Es : slice (n_raw (name_of ls)) 0 (N.to_nat (N.of_nat (elen pre))) = Ok (body pre)).
        { rewrite Nat2N.id, E. unfold name_of. cbn [n_raw]. rewrite enc_app. apply slice_pre. rewrite body_len. auto. }
        rewrite Eo. unfold bind at 1, lift at 1. rewrite Es. unfold bind at 1, lift at 1.
        destruct (write_bytes_weak n r1 (body pre) W1 (body_bytes _ Fp)) as (a & r2 & Q & W2 & [(-> & _ & E2 & _)|(-> & _ & _)]); exists (fst (on_buf (ob_write_bytes (body pre)) r1)), r2; rewrite Q; auto.
      - apply Nat.ltb_ge in E0. exists (Ok tt), r1. split; [reflexivity|]. split; [auto|]. left. split; [auto|].
        destruct pre as [|x pre']; [|cbn in Lp; lia]. cbn. rewrite app_nil_r. auto. }
    destruct Wr as (a & r2 & Q & W2 & Ca). unfold bind at 1. rewrite Q. destruct Ca as [[-> E2]| ->].
    2: { exists Err, r2. split; [reflexivity|]. split; [auto|discriminate]. }
    unfold bind at 1. destruct (write_u16_weak n r2 (N.lor off COMPRESS_POINTER_MARK16) W2) as (a & r3 & -> & W3 & [[-> E3]|[-> _]]).
    2: { exists Err, r3. split; [reflexivity|]. split; [auto|discriminate]. }
    destruct (register_weak n pre (mr_len r1) r3 lu 0 (wire_len ls) W3 Fp) as (r4 & R & B4 & W4).
    + intros j c Hj. apply (at_bytes r3 _ (mr_len r1 + j)); [|auto]. rewrite E3, E2, <- app_assoc, nth_error_app2 by lia. replace (mr_len r1 + j - length (mr_bytes r1)) with j by lia.
      rewrite nth_error_app1; [auto|]. apply nth_error_Some. congruence.
    + left. auto.
    + lia.
    + rewrite E, wire_elen, elen_app. lia.
    + rewrite R. exists (Ok tt), r4. split; [reflexivity|]. split; [auto|discriminate].
Qed.
(** Without compression the table is not consulted. *)
Lemma plain_weak : forall n r ls, weak n r -> wf_labels ls -> exists a r', write_name (name_of ls) false r = (a, r') /\
  ((a = Ok tt /\ mr_len r + wire_len ls <= n /\ mr_bytes r' = mr_bytes r ++ enc ls) \/ (a = Err /\ n < mr_len r + wire_len ls /\ mr_bytes r' = mr_bytes r)).
Proof.
  intros n r ls W F. unfold write_name. rewrite label_count_of. unfold bind at 1.
  destruct (search_weak n false ls F ls [] r 0 0 W eq_refl eq_refl eq_refl) as (a & r1 & -> & B1 & W1 & NP & Pl & _).
  rewrite (Pl eq_refl). unfold bind at 1, get at 1. change (ob_len (mr_buf r1)) with (mr_len r1). rewrite name_len_of, <- wire_elen.
  pose proof (wf_count127 _ F) as C127. pose proof (bytes_len _ _ W1) as BL. assert (BR : mr_bytes r1 = mr_bytes r) by (unfold mr_bytes; rewrite B1; auto).
  assert (LR : mr_len r1 = mr_len r) by (unfold mr_len; rewrite B1; auto). cbn [negb orb andb]. change (n_raw (name_of ls)) with (enc ls).
  unfold bind at 1. destruct (write_bytes_weak n r1 (enc ls) W1 (enc_bytes _ (proj1 F))) as (a' & r2 & -> & W2 & [(-> & L2 & E2 & E3)|(-> & L2 & E2)]).
  - unfold bind at 1, ret at 1. cbv beta iota.
    destruct (register_weak n ls (mr_len r1) r2 (length ls + 1) 0 (wire_len ls) W2 (proj1 F)) as (r3 & R & B3 & W3).
    + intros j c Hj. apply (at_bytes r2 _ (mr_len r1 + j)); [|auto]. rewrite E2, nth_error_app2 by lia. replace (mr_len r1 + j - length (mr_bytes r1)) with j by lia.
      unfold enc. rewrite nth_error_app1; [auto|]. apply nth_error_Some. congruence.
    + right. split; [auto|]. apply (at_bytes r2 _ (mr_len r1 + elen ls)); [|auto]. rewrite E2, nth_error_app2 by lia. replace (mr_len r1 + elen ls - length (mr_bytes r1)) with (elen ls) by lia.
      unfold enc. rewrite nth_error_app2 by (rewrite body_len; lia). rewrite body_len, Nat.sub_diag. reflexivity.
    + lia.
    + rewrite wire_elen. lia.
    + rewrite R. exists (Ok tt), r3. split; [reflexivity|]. left. split; [auto|]. split; [unfold wire_len; lia|]. rewrite <- BR, <- E2. unfold mr_bytes. rewrite B3. auto.
  - exists Err, r2. split; [reflexivity|]. right. split; [auto|]. split; [unfold wire_len; lia|congruence].
Qed.

(** ** All calls *)
Definition step_ok (n : nat) (m : M render unit) : Prop := forall r, weak n r -> exists a r', m r = (a, r') /\ weak n r' /\ a <> Panic.
Lemma write_if_ok : forall n vs (g : outbuf -> bool), bytes vs -> (forall b, length (ob_data b) = n -> g b = true -> ob_len b + length vs <= n) ->
  step_ok n (on_buf (fun b => if g b then ob_append vs b else (Err, b))).
Proof.
  intros n vs g B G r W. destruct (g (mr_buf r)) eqn:E.
  - destruct (append_weak n r vs W B) as (r' & Q & W' & _); [apply (G _ (wk_cap _ _ W) E)|]. exists (Ok tt), r'. split; [|split; [auto|discriminate]].
    unfold on_buf in *. rewrite E. exact Q.
  - exists Err, r. split; [unfold on_buf; rewrite E; destruct r; reflexivity|]. split; [auto|discriminate].
Qed.
Lemma patch_if_ok : forall n p vs (g : outbuf -> bool), bytes vs -> (forall b, g b = true -> p + length vs <= ob_len b) ->
  step_ok n (on_buf (fun b => if g b then ob_store p vs b else (Err, b))).
Proof.
  intros n p vs g B G r W. destruct (g (mr_buf r)) eqn:E.
  - destruct (at_weak n r p vs W B) as (r' & Q & W'); [apply (G _ E)|]. exists (Ok tt), r'. split; [|split; [auto|discriminate]].
    unfold on_buf in *. rewrite E. exact Q.
  - exists Err, r. split; [unfold on_buf; rewrite E; destruct r; reflexivity|]. split; [auto|discriminate].
Qed.
Lemma move_if_ok : forall n (f : nat -> nat) (g : outbuf -> bool), (forall b, length (ob_data b) = n -> ob_len b <= n -> g b = true -> f (ob_len b) <= n) ->
  step_ok n (on_buf (fun b => if g b then (Ok tt, mkOut (ob_data b) (f (ob_len b))) else (Err, b))).
Proof.
  intros n f g G r W. pose proof W as [A C D _ _ _ _]. destruct (g (mr_buf r)) eqn:E.
  - unfold on_buf. rewrite E. eexists (Ok tt), _. split; [reflexivity|]. split; [|discriminate]. apply weak_buf; auto. cbn [ob_len]. apply G; auto.
  - exists Err, r. split; [unfold on_buf; rewrite E; destruct r; reflexivity|]. split; [auto|discriminate].
Qed.
Lemma map_const : forall A B (f : A -> B) c l, (forall x, f x = c) -> map f l = repeat c (length l).
Proof. intros A B f c l H. induction l as [|x l IH]; [reflexivity|]. cbn. rewrite H, IH. reflexivity. Qed.
Lemma reset_weak : forall n r, weak n r -> mr_reset r = (Ok tt, mr_new (ob_data (mr_buf r))).
Proof.
  intros n r [A C D [T1 T2] [C1 C2] H1 H2]. unfold mr_reset, mr_new. f_equal. unfold ob_new. f_equal.
  - assert (Q : forall l, Forall (fun row : list N => length row = 16 /\ Forall low row) l -> map (fun v : list N => map (fun _ => 0%N) v) l = repeat (repeat 0%N RESERVED_ITEMS) (length l)).
    { induction l as [|x l IH]; intro F; [reflexivity|]. apply Forall_cons_iff in F. destruct F as [[Lx _] F]. cbn [map length repeat]. rewrite IH by auto. f_equal.
      rewrite (map_const _ _ _ 0%N) by auto. rewrite Lx. reflexivity. }
    rewrite Q by auto. rewrite T1. reflexivity.
  - rewrite (map_const _ _ _ 0) by auto. rewrite C1. reflexivity.
  - rewrite (map_const _ _ _ 0%N) by auto. rewrite H1. reflexivity.
Qed.
Lemma any_step_ok : forall n o, any_typed o -> step_ok n (any_call o).
Proof.
  intros n o T. destruct o as [[ls c|d|d|d|l|k|p d|p d]|p|]; cbn [any_call mop_call any_typed] in *.
  - intros r W. exact (name_weak n r ls c W T).
  - apply (write_if_ok n [d] (fun b => ob_len b <? ob_capacity b)); [constructor; [exact T|constructor]|]. intros b L G. apply Nat.ltb_lt in G. unfold ob_capacity in G. cbn. lia.
  - apply (write_if_ok n (be16 d) (fun b => ob_len b + 2 <=? ob_capacity b)); [apply be16_bytes|]. intros b L G. apply Nat.leb_le in G. unfold ob_capacity in G. cbn. lia.
  - apply (write_if_ok n (be32 d) (fun b => ob_len b + 4 <=? ob_capacity b)); [apply be32_bytes|]. intros b L G. apply Nat.leb_le in G. unfold ob_capacity in G. cbn. lia.
  - apply (write_if_ok n l (fun b => ob_len b + length l <=? ob_capacity b)); [exact T|]. intros b L G. apply Nat.leb_le in G. unfold ob_capacity in G. lia.
  - apply (move_if_ok n (fun x => x + k) (fun b => ob_len b + k <? ob_capacity b)). intros b L L' G. apply Nat.ltb_lt in G. unfold ob_capacity in G. lia.
  - apply (patch_if_ok n p [d] (fun b => p <? ob_len b)); [constructor; [exact T|constructor]|]. intros b G. apply Nat.ltb_lt in G. cbn. lia.
  - apply (patch_if_ok n p (be16 d) (fun b => p + 2 <=? ob_len b)); [apply be16_bytes|]. intros b G. apply Nat.leb_le in G. cbn. lia.
  - apply (move_if_ok n (fun _ => p) (fun b => p <? ob_len b)). intros b L L' G. apply Nat.ltb_lt in G. lia.
  - intros r W. rewrite (reset_weak n r W). eexists (Ok tt), _. split; [reflexivity|]. split; [|discriminate].
    pose proof W as [_ C D _ _ _ _]. rewrite <- C. apply weak_new. auto.
Qed.
Lemma reaches_weak : forall dat r, bytes dat -> reaches (mr_new dat) r -> weak (length dat) r.
Proof.
  intros dat r B H. induction H as [|r o a r' _ IH T Q _]; [apply weak_new; auto|].
  destruct (any_step_ok (length dat) o T r IH) as (a2 & r2 & Q2 & W & _). rewrite Q in Q2. inversion Q2. subst. exact W.
Qed.
Theorem reaches_no_panic : forall dat r o, bytes dat -> reaches (mr_new dat) r -> any_typed o -> fst (any_call o r) <> Panic.
Proof. intros dat r o B H T. destruct (any_step_ok (length dat) o T r (reaches_weak dat r B H)) as (a & r2 & Q & _ & NP). rewrite Q. exact NP. Qed.
Theorem reaches_reset : forall dat r, bytes dat -> reaches (mr_new dat) r -> exists dat', bytes dat' /\ length dat' = length dat /\ mr_reset r = (Ok tt, mr_new dat').
Proof.
  intros dat r B H. pose proof (reaches_weak dat r B H) as W. exists (ob_data (mr_buf r)). split; [apply W|]. split; [apply W|]. exact (reset_weak _ _ W).
Qed.
Theorem reaches_plain : forall dat r ls, bytes dat -> reaches (mr_new dat) r -> wf_labels ls ->
  exists a r', write_name (name_of ls) false r = (a, r') /\
  ((a = Ok tt /\ mr_len r + wire_len ls <= length dat /\ mr_bytes r' = mr_bytes r ++ enc ls) \/ (a = Err /\ length dat < mr_len r + wire_len ls /\ mr_bytes r' = mr_bytes r)).
Proof. intros dat r ls B H F. exact (plain_weak (length dat) r ls (reaches_weak dat r B H) F). Qed.

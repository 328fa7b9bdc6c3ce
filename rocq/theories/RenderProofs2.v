(** write_name: every name written is readable, and the compression table stays sound. *)
From Verif Require Import Base NameModel RenderModel SpecName BaseLemmas BitLemmas NameWireProofs NameOpsProofs RenderProofs.

Lemma be16_eq : forall d, (d < 65536)%N -> be16 d = [(d / 256)%N; (d mod 256)%N].
Proof.
  intros. unfold be16, as_u8. rewrite shr_mask8, land255, !N.mod_mod by discriminate.
  rewrite (N.mod_small (d / 256)) by (apply N.div_lt_upper_bound; lia). reflexivity.
Qed.
Lemma item_new_eq : forall l p h, (l < 256)%N -> (p < 65536)%N ->
  item_new l p h = (h * 4294967296 + p * 65536 + l)%N.
Proof.
  intros. unfold item_new. rewrite <- N.lor_assoc.
  rewrite (lor_shiftl_add p l 16) by (change (2 ^ 16)%N with 65536%N; lia).
  rewrite lor_shiftl_add; change (2 ^ 16)%N with 65536%N; change (2 ^ 32)%N with 4294967296%N; lia.
Qed.
Lemma item_new_fields : forall l p h, (l < 256)%N -> (p < 65536)%N -> (h < 4294967296)%N ->
  item_len (item_new l p h) = l /\ item_pos (item_new l p h) = p /\ item_hash (item_new l p h) = h.
Proof.
  intros l p h Hl Hp Hh. rewrite item_new_eq by auto. unfold item_len, item_pos, item_hash, as_u8, as_u16, as_u32.
  rewrite land255, shr_mask_hi, N.shiftr_div_pow2. change (2 ^ 32)%N with 4294967296%N.
  rewrite !N.mod_mod by discriminate.
  replace (h * 4294967296 + p * 65536 + l)%N with (l + (h * 16777216 + p * 256) * 256)%N by lia.
  rewrite N.mod_add by discriminate. rewrite N.mod_small by auto. split; auto.
  replace (l + (h * 16777216 + p * 256) * 256)%N with (l + (h * 65536 + p) * 65536)%N by lia.
  rewrite N.div_add by discriminate. rewrite N.div_small by lia. split.
  - rewrite N.add_0_l. rewrite N.add_comm. rewrite N.mod_add by discriminate. apply N.mod_small. auto.
  - replace (l + (h * 65536 + p) * 65536)%N with ((p * 65536 + l) + h * 4294967296)%N by lia.
    rewrite N.div_add by discriminate. rewrite N.div_small by lia. rewrite N.add_0_l. apply N.mod_small. auto.
Qed.

Lemma hash_step_bound : forall h c, (h < 4294967296)%N -> (hash_step h c < 4294967296)%N.
Proof.
  intros. unfold hash_step. change 4294967296%N with (2 ^ 32)%N. apply lxor_bound; auto.
  apply N.mod_lt. discriminate.
Qed.
Lemma name_hash_bound : forall ls, (name_hash ls < 4294967296)%N.
Proof.
  intros. unfold name_hash. generalize (enc ls). intro l.
  assert (G : forall l h, (h < 4294967296)%N -> (fold_left hash_step l h < 4294967296)%N).
  { clear. induction l; simpl; intros; auto. apply IHl. apply hash_step_bound. auto. }
  apply G. lia.
Qed.

Lemma nr_raw_spec : forall pre suf, wf_labels (pre ++ suf) ->
  nr_raw (mkRef (length pre) (name_of (pre ++ suf))) = Ok (enc suf).
Proof.
  intros pre suf F. unfold nr_raw, name_of. cbn [nr_name nr_level n_offsets n_raw].
  destruct (offs_hd suf (0 + elen pre)) as (tl & H & _).
  rewrite offs_app, H. rewrite idx_app_mid by (rewrite obody_len; auto). cbn [rbind].
  rewrite enc_app. apply slice_suf; rewrite ?app_length, ?body_len; lia.
Qed.
Lemma nr_hash_spec : forall pre suf, wf_labels (pre ++ suf) ->
  nr_hash (mkRef (length pre) (name_of (pre ++ suf))) = Ok (name_hash suf).
Proof. intros. unfold nr_hash. rewrite nr_raw_spec by auto. reflexivity. Qed.
Lemma nr_root_spec : forall pre suf, wf_labels (pre ++ suf) ->
  nr_is_root (mkRef (length pre) (name_of (pre ++ suf))) = Ok (match suf with [] => true | _ => false end).
Proof.
  intros pre suf F. pose proof (wf_count127 _ F). unfold nr_is_root. cbn [nr_name nr_level].
  rewrite label_count_of. rewrite app_length in *.
  replace (length pre + 1 <? 256) with true by (symmetry; apply Nat.ltb_lt; lia).
  rewrite as_u8_small by lia. f_equal. destruct suf; simpl length.
  - apply N.eqb_eq. lia.
  - apply N.eqb_neq. lia.
Qed.

Section Known.
Context {KN : names}.
Definition same_but_hashes (r r' : render) : Prop :=
  mr_buf r' = mr_buf r /\ mr_table r' = mr_table r /\ mr_counts r' = mr_counts r.
Lemma rdm_buf : forall m r r', mr_buf r' = mr_buf r -> forall i, rdm m r' i = rdm m r i.
Proof. intros. unfold rdm, mr_len. rewrite H. auto. Qed.
Lemma inv_same : forall m r r', same_but_hashes r r' -> length (mr_hashes r') = 128 -> inv m r -> inv m r'.
Proof.
  intros m r r' (A & B & C) L I. destruct I. constructor; unfold mr_len in *; rewrite ?A, ?B, ?C; auto.
  intros. eapply item_ok_mono; [|eapply inv_items; eauto].
  intros. rewrite (rdm_buf _ _ _ A). auto.
Qed.

(** Result of the search loop. *)
Definition found (m : nat -> bool) (r : render) (compress : bool) (ls : list label) (lu : nat) (off : N) : Prop :=
  (off = NO_OFFSET /\ lu = length ls + 1) \/
  (compress = true /\ exists pre suf e, ls = pre ++ suf /\ suf <> [] /\ known suf /\ lu = length pre /\ (off <= 16383)%N /\
     wname (rdm m r) (N.to_nat off) (N.to_nat off) suf e).
Definition hashes_ok (r : render) (ls : list label) (n : nat) : Prop :=
  forall i, i < n -> i < length ls -> nth_error (mr_hashes r) i = Some (name_hash (skipn i ls)).

Lemma wn_search_spec : forall m compress ls, wf_labels ls -> forall suf pre r lu level,
  inv m r -> ls = pre ++ suf -> lu = length pre -> (if 0 <? lu then level + 1 else level) = lu ->
  hashes_ok r ls lu ->
  exists a r', wn_search (length suf + 1) compress (name_of ls) lu level r = (a, r') /\
    same_but_hashes r r' /\ inv m r' /\
    match a with
    | Ok (lu', off) => found m r' compress ls lu' off /\ hashes_ok r' ls lu'
    | Err => compress = true
    | _ => False
    end.
Proof.
  intros m compress ls F. induction suf as [|l suf IH]; intros pre r lu level I E Elu Elev Hh; cbn [length Nat.add wn_search];
    rewrite Elev; unfold bind at 1, lift at 1; rewrite Elu, E, nr_root_spec by (rewrite <- E; auto).
  - exists (Ok (length pre + 1, NO_OFFSET)), r. split; auto. split; [repeat split|]. split; auto. split.
    + left. split; auto. rewrite app_nil_r. auto.
    + intros i Hi Hl. rewrite <- E. apply Hh; [|rewrite E; auto]. rewrite app_length in Hl. simpl in Hl. lia.
  - unfold bind at 1, lift at 1. rewrite nr_hash_spec by (rewrite <- E; auto).
    pose proof (wf_count127 _ F) as C127. rewrite E, app_length in C127. simpl in C127.
    unfold bind at 1, modify_r at 1. rewrite upd_r_ok by (rewrite (inv_hs _ _ I); lia). cbn [rbind].
    set (r1 := mkRender _ _ _ _).
    assert (S1 : same_but_hashes r r1) by (repeat split).
    assert (I1 : inv m r1).
    { eapply inv_same; eauto. simpl. rewrite upd_length. apply I. }
    assert (H1 : hashes_ok r1 ls (lu + 1)).
    { intros i Hi Hl. subst r1. simpl. destruct (Nat.eq_dec i lu).
      - subst i. rewrite Elu. rewrite nth_upd_same by (rewrite (inv_hs _ _ I); lia). f_equal. f_equal.
        rewrite E. rewrite skipn_app, skipn_all, Nat.sub_diag. reflexivity.
      - rewrite nth_upd_other by lia. apply Hh; auto. lia. }
    assert (REC : exists a r', wn_search (length suf + 1) compress (name_of ls) (length pre + 1) (length pre) r1 = (a, r') /\
      same_but_hashes r r' /\ inv m r' /\
      match a with Ok (lu', off) => found m r' compress ls lu' off /\ hashes_ok r' ls lu' | Err => compress = true | _ => False end).
    { destruct (IH (pre ++ [l]) r1 (length pre + 1) (length pre)) as (a & r' & Q1 & Q2 & Q3 & Q4); auto.
      - rewrite E, <- app_assoc. auto.
      - rewrite app_length. auto.
      - replace (0 <? length pre + 1) with true by (symmetry; apply Nat.ltb_lt; lia). auto.
      - rewrite <- Elu. auto.
      - exists a, r'. auto. }
    destruct compress.
    + unfold bind at 1, get at 1. unfold bind at 1, lift at 1. rewrite nr_raw_spec by (rewrite <- E; auto).
      unfold bind at 1, lift at 1.
      assert (Fs : wf_labels (l :: suf)) by (rewrite E in F; apply wf_app in F; apply F).
      destruct (find_offset_spec m r1 (l :: suf) I1 Fs (name_hash (l :: suf))) as [Q|[Q|(off & e & Q1 & Qk & Q2 & Q3)]].
      * rewrite Q. exists Err, r1. auto.
      * rewrite Q. rewrite N.eqb_refl. cbn [negb]. rewrite <- E. apply REC.
      * rewrite Q1. replace (off =? NO_OFFSET)%N with false by (symmetry; apply N.eqb_neq; unfold NO_OFFSET; lia).
        cbn [negb]. exists (Ok (length pre, off)), r1. split; auto. split; auto. split; auto. split.
        -- right. split; auto. exists pre, (l :: suf), e. repeat split; auto. discriminate.
        -- intros i Hi Hl. rewrite <- E. apply H1; [lia|rewrite E; auto].
    + rewrite <- E. apply REC.
Qed.

Lemma wname_body : forall rd lim d suf p e,
  Forall wf_label d -> Pbytes (body d) rd p (p + elen d) -> wname rd lim (p + elen d) suf e -> wname rd lim p (d ++ suf) e.
Proof.
  intros rd lim d suf. induction d as [|l d IH]; intros p e F [_ B] W.
  - rewrite elen_nil, Nat.add_0_r in W. auto.
  - simpl. pose proof (Forall_inv F) as [Fl _]. apply wn_label; auto.
    + rewrite <- (Nat.add_0_r p). apply B. reflexivity.
    + intros i c Hi. rewrite <- (B (1 + i) c); [f_equal; lia|]. simpl.
      rewrite nth_error_app1 by (apply nth_error_Some; congruence). auto.
    + apply IH.
      * apply Forall_inv_tail in F. auto.
      * split; [rewrite body_len; lia|]. intros i c Hi. rewrite <- (B (1 + length l + i) c); [f_equal; lia|].
        simpl. rewrite nth_error_app2 by lia. replace (length l + i - length l) with i by lia. auto.
      * rewrite elen_cons in W. replace (p + 1 + length l + elen d) with (p + (1 + length l + elen d)) by lia. auto.
Qed.

Lemma add_offset_spec : forall m r hash pos len,
  inv m r -> (hash < 4294967296)%N -> (pos < 65536)%N -> (len < 256)%N ->
  item_ok (rdm m r) (item_new len pos hash) ->
  exists r', add_offset hash pos len r = Ok r' /\ mr_buf r' = mr_buf r /\ mr_hashes r' = mr_hashes r /\ inv m r'.
Proof.
  intros m r hash pos len I Hh Hp Hl Ok. unfold add_offset.
  assert (Hb : N.to_nat (hash mod 64) < 64) by (pose proof (N.mod_lt hash 64); lia).
  set (b := N.to_nat (hash mod 64)) in *.
  destruct (inv_tab _ _ I) as [T1 T2]. destruct (inv_cnt _ _ I) as [C1 C2].
  destruct (idx_ok_lt _ (mr_table r) b) as (row & R1 & R2); [lia|].
  destruct (idx_ok_lt _ (mr_counts r) b) as (c & R3 & R4); [lia|].
  rewrite R3. cbn [rbind].
  assert (Lr : length row = 16) by (rewrite Forall_forall in T2; apply T2; eapply nth_error_In; eauto).
  assert (Lc : c <= 15) by (rewrite Forall_forall in C2; apply C2; eapply nth_error_In; eauto).
  unfold RESERVED_ITEMS. destruct (c + 1 =? 16) eqn:Ec; [eexists; split; [reflexivity|auto]|]. bl.
  rewrite R1. cbn [rbind]. rewrite !upd_r_ok by lia. cbn [rbind]. rewrite upd_r_ok by lia. cbn [rbind].
  eexists. split; [reflexivity|]. split; auto. split; auto.
  constructor; cbn [mr_buf mr_table mr_counts mr_hashes]; try apply I.
  - rewrite upd_length. split; auto. apply Forall_forall. intros x Hx. apply In_nth_error in Hx. destruct Hx as [i Hi].
    destruct (Nat.eq_dec i b).
    + subst i. rewrite nth_upd_same in Hi by lia. inversion Hi. rewrite upd_length. auto.
    + rewrite nth_upd_other in Hi by auto. rewrite Forall_forall in T2. apply T2. eapply nth_error_In; eauto.
  - rewrite upd_length. split; auto. apply Forall_forall. intros x Hx. apply In_nth_error in Hx. destruct Hx as [i Hi].
    destruct (Nat.eq_dec i b).
    + subst i. rewrite nth_upd_same in Hi by lia. inversion Hi. lia.
    + rewrite nth_upd_other in Hi by auto. rewrite Forall_forall in C2. apply C2. eapply nth_error_In; eauto.
  - intros b' row' c' k it N1 N2 Hk N3. destruct (Nat.eq_dec b' b) as [->|Nb].
    + rewrite nth_upd_same in N1, N2 by lia. inversion N1; inversion N2; subst row' c'.
      destruct (Nat.eq_dec k c) as [->|Nk].
      * rewrite nth_upd_same in N3 by lia. inversion N3; subst it. apply Ok.
      * rewrite nth_upd_other in N3 by auto. eapply (inv_items _ _ I); eauto. lia.
    + rewrite nth_upd_other in N1, N2 by auto. eapply (inv_items _ _ I); eauto.
Qed.

Lemma wn_register_spec : forall m ls, wf_labels ls -> (forall s, suffix_of s ls -> known s) -> forall d pre suf2 r p s e n,
  inv m r -> ls = pre ++ d ++ suf2 -> s <= p -> hashes_ok r ls (length pre + length d) ->
  Pbytes (body d) (rdm m r) p (p + elen d) -> wname (rdm m r) s (p + elen d) suf2 e ->
  (n = length d \/ (n = length d + 1 /\ rdm m r (p + elen d) = Some 0%N)) ->
  exists r', wn_register n (length pre) p (wire_len (d ++ suf2)) r = (Ok tt, r') /\ mr_buf r' = mr_buf r /\ inv m r'.
Proof.
  intros m ls F Kn. induction d as [|l d IH]; intros pre suf2 r p s e n I E Sp Hh B W Hn.
  - destruct Hn as [->|[-> Hz]]; cbn [length Nat.add wn_register].
    + exists r. auto.
    + unfold bind, get, lift. rewrite elen_nil, Nat.add_0_r in Hz. destruct (ob_at_rdm _ _ _ _ I Hz) as (-> & _).
      exists r. auto.
  - assert (exists n', n = S n' /\ (n' = length d \/ (n' = length d + 1 /\ rdm m r (p + elen (l :: d)) = Some 0%N))) as (n' & -> & Hn').
    { destruct Hn as [->|[-> Hz]]; simpl length; eexists; split; try reflexivity; auto. }
    assert (Fd : Forall wf_label (l :: d)).
    { destruct F as [F _]. rewrite E in F. apply Forall_app in F. destruct F as [_ F]. apply Forall_app in F. apply F. }
    pose proof (Forall_inv Fd) as Fl.
    cbn [wn_register]. unfold bind at 1, get at 1. unfold bind at 1, lift at 1.
    assert (Z : rdm m r p = Some (blen l)).
    { rewrite <- (Nat.add_0_r p). apply B. reflexivity. }
    destruct (ob_at_rdm _ _ _ _ I Z) as (-> & Zb & Zl).
    destruct Fl as [Fl1 Fl2].
    replace (blen l =? 0)%N with false by (symmetry; apply N.eqb_neq; unfold blen; lia).
    assert (Wall : wname (rdm m r) p p (l :: d ++ suf2) e).
    { apply (wname_lim _ s); auto. change (l :: d ++ suf2) with ((l :: d) ++ suf2).
      apply wname_body; auto. }
    destruct (MAX_COMPRESS_POINTER <? p) eqn:Ep.
    { exists r. auto. }
    apply Nat.ltb_ge in Ep. unfold MAX_COMPRESS_POINTER in Ep.
    assert (Pn : (N.of_nat p <= 16383)%N) by lia.
    unfold bind at 1, lift at 1.
    assert (Hi : nth_error (mr_hashes r) (length pre) = Some (name_hash (l :: d ++ suf2))).
    { rewrite (Hh (length pre)).
      - f_equal. f_equal. rewrite E, skipn_app, skipn_all, Nat.sub_diag. reflexivity.
      - simpl. lia.
      - rewrite E, app_length. simpl. lia. }
    rewrite (idx_nth _ _ _ _ Hi).
    assert (Fs : wf_labels (l :: d ++ suf2)).
    { rewrite E in F. apply wf_app in F. apply F. }
    pose proof (proj2 Fs) as Fs2.
    unfold bind at 1, modify_r.
    rewrite as_u16_small, as_u8_small by (cbn [app]; lia).
    destruct (add_offset_spec m r (name_hash (l :: d ++ suf2)) (N.of_nat p) (N.of_nat (wire_len ((l :: d) ++ suf2)))) as (r1 & R1 & R2 & R3 & R4); auto.
    { apply name_hash_bound. } { lia. } { cbn [app]. lia. }
    { destruct (item_new_fields (N.of_nat (wire_len ((l :: d) ++ suf2))) (N.of_nat p) (name_hash (l :: d ++ suf2))) as (G1 & G2 & G3).
      { cbn [app]. lia. } { lia. } { apply name_hash_bound. }
      exists (l :: d ++ suf2), e. rewrite G1, G2, G3, Nat2N.id. split; [apply Kn; exists pre; exact E|auto]. }
    rewrite R1. unfold bind at 1, lift at 1. rewrite u8_add_ok by (unfold blen; lia).
    assert (St : N.to_nat (blen l + 1) = 1 + length l) by (unfold blen; lia). rewrite St.
    unfold bind at 1, lift at 1. cbn [app]. rewrite wire_len_cons, csub_ok by lia.
    replace (1 + length l + wire_len (d ++ suf2) - (1 + length l)) with (wire_len (d ++ suf2)) by lia.
    assert (RD : forall i, rdm m r1 i = rdm m r i) by (apply rdm_buf; auto).
    destruct (IH (pre ++ [l]) suf2 r1 (p + (1 + length l)) s e n') as (r' & Q1 & Q2 & Q3); auto.
    + rewrite E, <- app_assoc. auto.
    + lia.
    + intros i Hi1 Hi2. rewrite R3. apply Hh; auto. rewrite app_length in Hi1. simpl in *. lia.
    + split; [rewrite body_len; lia|]. intros i c Hic. rewrite RD. destruct B as [_ B].
      rewrite <- (B (1 + length l + i) c); [f_equal; lia|].
      simpl. rewrite nth_error_app2 by lia. replace (length l + i - length l) with i by lia. auto.
    + rewrite elen_cons in W. replace (p + (1 + length l) + elen d) with (p + (1 + length l + elen d)) by lia.
      eapply wname_mono; eauto. intros. rewrite RD. auto.
    + destruct Hn' as [->|[-> Hz]]; auto. right. split; auto. rewrite RD. rewrite elen_cons in Hz.
      rewrite <- Hz. f_equal. lia.
    + rewrite app_length in Q1. simpl length in Q1. exists r'. split; [exact Q1|]. split; auto. congruence.
Qed.

Lemma extends_buf : forall r r', mr_buf r' = mr_buf r -> extends r r'.
Proof. intros r r' H. unfold extends, mr_len. rewrite H. auto. Qed.
Lemma emits_lift : forall A (a : A) (k : A -> M render unit) P, emits (k a) P -> emits (let! x := lift (Ok a) in k x) P.
Proof. intros. exact H. Qed.

Lemma ptr_bytes : forall off, (off <= 16383)%N ->
  be16 (N.lor off COMPRESS_POINTER_MARK16) = [(192 + off / 256)%N; (off mod 256)%N].
Proof.
  intros off H. unfold COMPRESS_POINTER_MARK16.
  change 49152%N with (N.shiftl 3 14). rewrite N.lor_comm.
  rewrite lor_shiftl_add by (change (2 ^ 14)%N with 16384%N; lia). change (3 * 2 ^ 14)%N with 49152%N.
  assert (G : (off / 256 < 64)%N) by (apply N.div_lt_upper_bound; lia).
  rewrite be16_eq by lia.
  replace (49152 + off)%N with (off + 192 * 256)%N by lia.
  rewrite N.div_add, N.mod_add by discriminate. f_equal. lia.
Qed.

Lemma on_buf_hashes : forall A (m : M outbuf A) r a r', on_buf m r = (a, r') -> mr_hashes r' = mr_hashes r.
Proof. unfold on_buf. intros. destruct (m (mr_buf r)). inversion H. reflexivity. Qed.
Lemma enc_bytes : forall ls, Forall wf_label ls -> bytes (enc ls).
Proof.
  intros ls F. unfold enc. apply bytes_app. split; [|apply Forall_cons; [reflexivity|apply Forall_nil]].
  unfold bytes, body. induction F as [|l ls [A B] H IH]; simpl; auto.
  apply Forall_cons; [unfold byte, blen; lia|]. apply Forall_app. auto.
Qed.
Lemma body_bytes : forall ls, Forall wf_label ls -> bytes (body ls).
Proof. intros ls F. apply enc_bytes in F. unfold enc in F. apply bytes_app in F. apply F. Qed.
Lemma idx_offs : forall pre suf, idx (offs_from 0 (pre ++ suf)) (length pre) = Ok (N.of_nat (elen pre)).
Proof.
  intros. rewrite offs_app. destruct (offs_hd suf (0 + elen pre)) as (tl & H & _). rewrite H.
  rewrite idx_app_mid by (rewrite obody_len; auto). auto.
Qed.

Lemma wn_search_top : forall m r ls compress, inv m r -> wf_labels ls ->
  exists a r', wn_search (length ls + 1) compress (name_of ls) 0 0 r = (a, r') /\
    same_but_hashes r r' /\ inv m r' /\
    match a with
    | Ok (lu', off) => found m r' compress ls lu' off /\ hashes_ok r' ls lu'
    | Err => compress = true
    | _ => False
    end.
Proof.
  intros m r ls compress I F. apply (wn_search_spec m compress ls F ls [] r 0 0 I); auto. intros i Hi. lia.
Qed.

Lemma write_bytes_ok : forall l r, mr_len r + length l <= ob_capacity (mr_buf r) -> fst (on_buf (ob_write_bytes l) r) = Ok tt.
Proof.
  intros l r L. unfold on_buf, ob_write_bytes. unfold mr_len in *. ift.
  unfold ob_append. unfold mr_len, ob_capacity in L. rewrite store_ok by auto. reflexivity.
Qed.
Lemma write_u16_ok : forall d r, mr_len r + 2 <= ob_capacity (mr_buf r) -> fst (on_buf (ob_write_u16 d) r) = Ok tt.
Proof.
  intros l r L. unfold on_buf, ob_write_u16. unfold mr_len in *. ift.
  unfold ob_append. unfold mr_len, ob_capacity in L. rewrite store_ok by auto. reflexivity.
Qed.

(** Writing part and registration, when the whole name is written out. *)
Lemma write_all_emits : forall ls m r, wf_labels ls -> (forall s, suffix_of s ls -> known s) -> inv m r -> hashes_ok r ls (length ls) ->
  let (a, r') := (on_buf (ob_write_bytes (enc ls)) ;; wn_register (length ls + 1) 0 (mr_len r) (wire_len ls)) r in
  extends r r' /\ inv m r' /\
  match a with Ok _ => Pname ls (rdm m r') (mr_len r) (mr_len r') | Err => ob_capacity (mr_buf r) < mr_len r + wire_len ls | _ => False end.
Proof.
  intros ls m r F Kn I Hh. unfold bind at 1.
  pose proof (emits_bytes (enc ls) (enc_bytes _ (proj1 F)) m r I) as A. unfold mr_write_bytes in A.
  pose proof (on_buf_hashes _ (ob_write_bytes (enc ls)) r) as H2.
  pose proof (write_bytes_ok (enc ls) r) as Fits.
  destruct (on_buf (ob_write_bytes (enc ls)) r) as [a2 r2]. destruct A as (X2 & I2 & A2). cbn [fst] in Fits.
  specialize (H2 _ _ eq_refl).
  destruct a2; auto.
  2:{ split; auto. split; auto. unfold wire_len. destruct (Nat.lt_ge_cases (ob_capacity (mr_buf r)) (mr_len r + length (enc ls))) as [Q|Q]; auto. apply Fits in Q. discriminate. }
  destruct A2 as [P1 P2]. rewrite enc_len in P1.
  assert (Pb : Pbytes (body ls) (rdm m r2) (mr_len r) (mr_len r + elen ls)).
  { split; [rewrite body_len; auto|]. intros i c Hi. apply P2. unfold enc.
    rewrite nth_error_app1; auto. apply nth_error_Some. congruence. }
  assert (Pz : rdm m r2 (mr_len r + elen ls) = Some 0%N).
  { apply P2. unfold enc. rewrite nth_error_app2 by (rewrite body_len; lia). rewrite body_len, Nat.sub_diag. auto. }
  assert (W : wname (rdm m r2) (mr_len r) (mr_len r + elen ls) [] (mr_len r + elen ls + 1)) by (apply wn_root; auto).
  destruct (wn_register_spec m ls F Kn ls [] [] r2 (mr_len r) (mr_len r) (mr_len r + elen ls + 1) (length ls + 1)) as (r3 & R1 & R2 & R3); auto.
  { rewrite app_nil_r. auto. }
  { intros i Hi Hl. rewrite H2. apply Hh; auto. }
  rewrite app_nil_r in R1. simpl length in R1. rewrite R1.
  assert (X3 : extends r2 r3) by (apply extends_buf; auto).
  split; [eapply extends_trans; eauto|]. split; auto.
  unfold Pname. replace (mr_len r3) with (mr_len r + elen ls + 1) by (unfold mr_len in *; rewrite R2; lia).
  eapply (wname_mono (rdm m r2)); [|apply extends_rdm; exact X3].
  rewrite <- (app_nil_r ls) at 1. apply wname_body; auto. apply F.
Qed.

Lemma write_ptr_emits : forall pre suf off e0 m r, wf_labels (pre ++ suf) -> (forall s, suffix_of s (pre ++ suf) -> known s) -> inv m r -> hashes_ok r (pre ++ suf) (length pre) ->
  (off <= 16383)%N -> wname (rdm m r) (N.to_nat off) (N.to_nat off) suf e0 ->
  forall w, emits w (Pbytes (body pre)) -> (forall r a r', w r = (a, r') -> mr_hashes r' = mr_hashes r) ->
  (forall r, mr_len r + elen pre <= ob_capacity (mr_buf r) -> fst (w r) = Ok tt) ->
  let (a, r') := (w ;; on_buf (ob_write_u16 (N.lor off COMPRESS_POINTER_MARK16)) ;;
                  wn_register (length pre) 0 (mr_len r) (wire_len (pre ++ suf))) r in
  extends r r' /\ inv m r' /\
  match a with Ok _ => Pname (pre ++ suf) (rdm m r') (mr_len r) (mr_len r') | Err => ob_capacity (mr_buf r) < mr_len r + elen pre + 2 | _ => False end.
Proof.
  intros pre suf off e0 m r F Kn I Hh Ho W0 w Ew Hw Hf. unfold bind at 1.
  specialize (Ew m r I). specialize (Hw r). specialize (Hf r). destruct (w r) as [a1 r1]. specialize (Hw _ _ eq_refl).
  destruct Ew as (X1 & I1 & A1). destruct a1; auto.
  2:{ split; auto. split; auto. destruct (Nat.lt_ge_cases (ob_capacity (mr_buf r)) (mr_len r + elen pre)) as [Q|Q]; [lia|]. apply Hf in Q. discriminate. }
  unfold bind at 1.
  pose proof (emits_u16 (N.lor off COMPRESS_POINTER_MARK16) m r1 I1) as A. unfold mr_write_u16 in A.
  pose proof (on_buf_hashes _ (ob_write_u16 (N.lor off COMPRESS_POINTER_MARK16)) r1) as H2.
  pose proof (write_u16_ok (N.lor off COMPRESS_POINTER_MARK16) r1) as Fits.
  destruct (on_buf (ob_write_u16 (N.lor off COMPRESS_POINTER_MARK16)) r1) as [a2 r2]. destruct A as (X2 & I2 & A2).
  specialize (H2 _ _ eq_refl).
  destruct a2; auto; try (destruct A2; fail).
  2:{ split; [eapply extends_trans; eauto|]. split; auto. cbn [fst] in Fits. destruct A1 as [A1 _]. rewrite body_len in A1.
      destruct X1 as (_ & Cp & _). destruct (Nat.lt_ge_cases (ob_capacity (mr_buf r)) (mr_len r + elen pre + 2)) as [Q|Q]; auto.
      assert (X : Err = Ok tt) by (apply Fits; lia). discriminate. }
  rewrite ptr_bytes in A2 by auto. destruct A2 as [P1 P2]. simpl length in P1.
  pose proof (P2 0 _ eq_refl) as P20. pose proof (P2 1 _ eq_refl) as P21. rewrite Nat.add_0_r in P20.
  assert (Pb : Pbytes (body pre) (rdm m r2) (mr_len r) (mr_len r + elen pre)).
  { destruct A1 as [Q1 Q2]. split; [rewrite body_len; auto|]. intros i c Hi. eapply extends_rdm; eauto. }
  assert (L1 : mr_len r1 = mr_len r + elen pre) by (destruct A1 as [Q1 _]; rewrite body_len in Q1; auto).
  assert (Lt : N.to_nat off < mr_len r).
  { destruct W0; match goal with H : rdm m r _ = Some _ |- _ => apply (ob_at_rdm _ _ _ _ I) in H; lia end. }
  assert (W : wname (rdm m r2) (mr_len r) (mr_len r + elen pre) suf (mr_len r1 + 2)).
  { rewrite <- L1. eapply wn_ptr with (t := N.to_nat off) (e := e0); eauto.
    - apply N.div_lt_upper_bound; lia.
    - f_equal. apply N.div_mod. discriminate.
    - eapply wname_mono; [apply W0|]. intros i c Hi. eapply extends_rdm; [apply X2|]. eapply extends_rdm; eauto. }
  destruct (wn_register_spec m (pre ++ suf) F Kn pre [] suf r2 (mr_len r) (mr_len r) (mr_len r1 + 2) (length pre)) as (r3 & R1 & R2 & R3); auto.
  { intros i Hi Hl. rewrite H2, Hw. apply Hh; auto. }
  simpl length in R1. rewrite R1.
  assert (X3 : extends r2 r3) by (apply extends_buf; auto).
  split; [eapply extends_trans; [eauto|]; eapply extends_trans; eauto|]. split; auto.
  unfold Pname. replace (mr_len r3) with (mr_len r1 + 2) by (unfold mr_len in *; rewrite R2; lia).
  eapply (wname_mono (rdm m r2)); [|apply extends_rdm; exact X3].
  apply wname_body; auto. apply wf_app in F. apply F.
Qed.

Lemma write_name_full : forall ls compress m r, wf_labels ls -> (forall s, suffix_of s ls -> known s) -> inv m r ->
  let (a, r') := write_name (name_of ls) compress r in
  extends r r' /\ inv m r' /\
  match a with
  | Ok _ => Pname ls (rdm m r') (mr_len r) (mr_len r')
  | Err => fst (wn_search (length ls + 1) compress (name_of ls) 0 0 r) = Err \/ ob_capacity (mr_buf r) < mr_len r + wire_len ls
  | Panic => False
  | Hang => False
  end.
Proof.
  intros ls compress m r F Kn I.
  unfold write_name. rewrite label_count_of. unfold bind at 1.
  destruct (wn_search_top m r ls compress I F) as (a & r1 & S1 & S2 & S3 & S4).
  rewrite S1. destruct S2 as (B1 & _ & _).
  assert (X1 : extends r r1) by (apply extends_buf; auto).
  assert (L1 : mr_len r1 = mr_len r) by (unfold mr_len; rewrite B1; auto).
  destruct a as [[lu off]| | |]; auto; try (destruct S4; fail).
  destruct S4 as [Fo Hh]. unfold bind at 1, get at 1.
  change (ob_len (mr_buf r1)) with (mr_len r1). rewrite name_len_of, <- wire_elen.
  destruct Fo as [[-> ->]|(-> & pre & suf & e & E & Sn & _ & -> & Ho & W)].
  - replace (negb compress || (length ls + 1 =? length ls + 1)) with true
      by (rewrite Nat.eqb_refl, orb_true_r; auto).
    rewrite N.eqb_refl. cbn [negb]. rewrite andb_false_r.
    change (n_raw (name_of ls)) with (enc ls).
    pose proof (write_all_emits ls m r1 F Kn S3) as A.
    assert (Hh' : hashes_ok r1 ls (length ls)) by (intros i Hi Hl; apply Hh; lia).
    specialize (A Hh'). rewrite <- L1.
    change (ret tt ;; wn_register (length ls + 1) 0 (mr_len r1) (wire_len ls))
      with (wn_register (length ls + 1) 0 (mr_len r1) (wire_len ls)).
    destruct ((on_buf (ob_write_bytes (enc ls)) ;; wn_register (length ls + 1) 0 (mr_len r1) (wire_len ls)) r1) as [a3 r3].
    destruct A as (A1 & A2 & A3). split; [eapply extends_trans; eauto|]. split; auto. destruct a3; auto. right. rewrite <- B1, wire_elen in *. lia.
  - subst ls. replace (negb true || (length pre =? length (pre ++ suf) + 1)) with false
      by (symmetry; simpl; apply Nat.eqb_neq; rewrite app_length; lia).
    replace (off =? NO_OFFSET)%N with false by (symmetry; apply N.eqb_neq; unfold NO_OFFSET; lia). cbn [negb andb].
    assert (Eo : idx (n_offsets (name_of (pre ++ suf))) (length pre) = Ok (N.of_nat (elen pre))) by apply idx_offs.
    assert (Es : slice (n_raw (name_of (pre ++ suf))) 0 (N.to_nat (N.of_nat (elen pre))) = Ok (body pre)).
    { rewrite Nat2N.id. unfold name_of. cbn [n_raw]. rewrite enc_app. apply slice_pre. rewrite body_len. auto. }
    assert (Fp : Forall wf_label pre) by (apply wf_app in F; apply F).
    set (w := if 0 <? length pre then _ else _).
    assert (Ew : emits w (Pbytes (body pre))).
    { subst w. destruct (0 <? length pre) eqn:E0.
      - rewrite Eo. apply emits_lift. rewrite Es. apply emits_lift. apply emits_bytes. apply body_bytes. auto.
      - bl. destruct pre; [|simpl in E0; lia]. eapply emits_conseq; [|apply emits_ret].
        intros rd s e' ->. split; [simpl; lia|]. intros i c Hi. destruct i; discriminate. }
    assert (Hw : forall r a r', w r = (a, r') -> mr_hashes r' = mr_hashes r).
    { intros r0 a0 r0'. subst w. destruct (0 <? length pre).
      - rewrite Eo. unfold bind at 1, lift at 1. rewrite Es. unfold bind at 1, lift at 1. apply on_buf_hashes.
      - unfold ret. intros Q. inversion Q. auto. }
    rewrite <- L1.
    assert (Hf : forall r, mr_len r + elen pre <= ob_capacity (mr_buf r) -> fst (w r) = Ok tt).
    { intros r0 L0. subst w. destruct (0 <? length pre).
      - rewrite Eo. unfold bind at 1, lift at 1. rewrite Es. unfold bind at 1, lift at 1. apply write_bytes_ok. rewrite body_len. auto.
      - reflexivity. }
    pose proof (write_ptr_emits pre suf off e m r1 F Kn S3 Hh Ho W w Ew Hw Hf) as A.
    match type of A with let (_, _) := ?x in _ => destruct x as [a3 r3] end.
    destruct A as (A1 & A2 & A3). split; [eapply extends_trans; eauto|]. split; auto. destruct a3; auto. right.
    rewrite <- B1. rewrite wire_elen, elen_app. destruct suf as [|l suf]; [congruence|]. rewrite elen_cons.
    destruct F as [F _]. apply Forall_app in F. destruct F as [_ F]. apply Forall_inv in F. destruct F as [F _]. lia.
Qed.
Lemma write_name_emits_k : forall ls compress, wf_labels ls -> (forall s, suffix_of s ls -> known s) ->
  emits (write_name (name_of ls) compress) (Pname ls).
Proof.
  intros ls compress F Kn m r I. pose proof (write_name_full ls compress m r F Kn I) as A.
  destruct (write_name (name_of ls) compress r) as [a r']. destruct A as (A1 & A2 & A3). split; auto. split; auto. destruct a; auto.
Qed.
End Known.

(** In the rest of the development every name is admitted, unless stated otherwise. *)
Global Instance all_names : names := fun _ => True.
Lemma write_name_emits : forall ls compress, wf_labels ls -> emits (write_name (name_of ls) compress) (Pname ls).
Proof. intros. apply write_name_emits_k; auto. intros. exact I. Qed.

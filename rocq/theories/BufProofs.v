(** Proofs for the input and output buffers (C45, C46) and for renderer histories (C05). *)
From Verif Require Import Base NameModel RenderModel SpecName SpecBuf BaseLemmas BitLemmas NameWireProofs NameOpsProofs
  RenderProofs RenderProofs2.

(** * Input buffer *)
Lemma bytes_at_1 : forall w p a, nth_error w p = Some a -> bytes_at w p 1 = [a].
Proof.
  intros w p a H. unfold bytes_at. assert (nth_error (skipn p w) 0 = Some a) by (rewrite nth_skipn, Nat.add_0_r; auto).
  destruct (skipn p w); simpl in *; [discriminate|]. congruence.
Qed.
Lemma bytes_at_S : forall w p n a, nth_error w p = Some a -> bytes_at w p (S n) = a :: bytes_at w (p + 1) n.
Proof.
  intros w p n a H. unfold bytes_at. assert (nth_error (skipn p w) 0 = Some a) by (rewrite nth_skipn, Nat.add_0_r; auto).
  rewrite <- (skipn_add _ w 1 p). destruct (skipn p w); simpl in *; [discriminate|]. congruence.
Qed.
Lemma nth_lt : forall A (l : list A) i, i < length l -> exists a, nth_error l i = Some a.
Proof. intros. destruct (nth_error l i) eqn:E; eauto. apply nth_error_None in E. lia. Qed.
Lemma nth_byte : forall w i a, bytes w -> nth_error w i = Some a -> (a < 256)%N.
Proof. unfold bytes. intros w i a B H. rewrite Forall_forall in B. apply B. eapply nth_error_In; eauto. Qed.

Lemma be16_val : forall a b, (b < 256)%N -> N.lor (N.shiftl a 8) b = be_val [a; b].
Proof. intros. rewrite shl8_lor by auto. unfold be_val. cbn [fold_left]. lia. Qed.
Lemma be32_val : forall a b c d, (b < 256)%N -> (c < 256)%N -> (d < 256)%N ->
  N.lor (N.lor (N.lor (N.shiftl a 24) (N.shiftl b 16)) (N.shiftl c 8)) d = be_val [a; b; c; d].
Proof.
  intros a b c d Hb Hc Hd.
  assert (E1 : N.lor (N.shiftl a 24) (N.shiftl b 16) = N.shiftl (a * 256 + b) 16).
  { rewrite lor_shiftl_add by (rewrite N.shiftl_mul_pow2; change (2 ^ 24)%N with (256 * 2 ^ 16)%N;
      apply N.mul_lt_mono_pos_r; [reflexivity|auto]).
    rewrite !N.shiftl_mul_pow2. change (2 ^ 24)%N with (256 * 2 ^ 16)%N. ring. }
  rewrite E1.
  assert (E2 : N.lor (N.shiftl (a * 256 + b) 16) (N.shiftl c 8) = N.shiftl ((a * 256 + b) * 256 + c) 8).
  { rewrite lor_shiftl_add by (rewrite N.shiftl_mul_pow2; change (2 ^ 16)%N with (256 * 2 ^ 8)%N;
      apply N.mul_lt_mono_pos_r; [reflexivity|auto]).
    rewrite !N.shiftl_mul_pow2. change (2 ^ 16)%N with (256 * 2 ^ 8)%N. ring. }
  rewrite E2, shl8_lor by auto. unfold be_val. cbn [fold_left]. ring.
Qed.

Lemma read_call_spec : forall o w p, bytes w -> p <= length w ->
  read_call o (mkIn w p) = match read_spec w p o with
                           | Some (v, p') => (Ok v, mkIn w p')
                           | None => (Err, mkIn w p)
                           end.
Proof.
  intros o w p B L. destruct o; unfold read_call, read_spec, bind.
  - unfold read_u8, ib_len. cbn [ib_data ib_pos]. replace (p + 1 <=? length w) with (p <? length w).
    2: { destruct (Nat.ltb_spec p (length w)), (Nat.leb_spec (p + 1) (length w)); auto; lia. }
    destruct (Nat.ltb_spec p (length w)); auto.
    destruct (nth_lt _ w p H) as [a E]. rewrite (idx_nth _ _ _ _ E), (bytes_at_1 _ _ _ E). reflexivity.
  - unfold read_u16, ib_len. cbn [ib_data ib_pos]. replace (p + 2 <=? length w) with (p + 1 <? length w).
    2: { destruct (Nat.ltb_spec (p + 1) (length w)), (Nat.leb_spec (p + 2) (length w)); auto; lia. }
    destruct (Nat.ltb_spec (p + 1) (length w)); auto.
    destruct (nth_lt _ w p ltac:(lia)) as [a E]. destruct (nth_lt _ w (p + 1) H) as [b E'].
    rewrite (idx_nth _ _ _ _ E), (idx_nth _ _ _ _ E'). cbn [rbind].
    rewrite be16_val by (eapply nth_byte; eauto).
    rewrite (bytes_at_S _ _ _ _ E), (bytes_at_1 _ _ _ E'). reflexivity.
  - unfold read_u32, ib_len. cbn [ib_data ib_pos]. replace (p + 4 <=? length w) with (p + 3 <? length w).
    2: { destruct (Nat.ltb_spec (p + 3) (length w)), (Nat.leb_spec (p + 4) (length w)); auto; lia. }
    destruct (Nat.ltb_spec (p + 3) (length w)); auto.
    destruct (nth_lt _ w p ltac:(lia)) as [a E]. destruct (nth_lt _ w (p + 1) ltac:(lia)) as [b E1].
    destruct (nth_lt _ w (p + 2) ltac:(lia)) as [c E2]. destruct (nth_lt _ w (p + 3) ltac:(lia)) as [d E3].
    rewrite (idx_nth _ _ _ _ E), (idx_nth _ _ _ _ E1), (idx_nth _ _ _ _ E2), (idx_nth _ _ _ _ E3). cbn [rbind].
    rewrite be32_val by (eapply nth_byte; eauto).
    rewrite (bytes_at_S _ _ _ _ E), (bytes_at_S _ _ _ _ E1).
    replace (p + 1 + 1) with (p + 2) by lia. rewrite (bytes_at_S _ _ _ _ E2).
    replace (p + 2 + 1) with (p + 3) by lia. rewrite (bytes_at_1 _ _ _ E3). reflexivity.
  - unfold read_bytes, ib_len. cbn [ib_data ib_pos]. destruct (Nat.leb_spec (p + n) (length w)); auto.
    unfold slice. ift. replace (p + n - p) with n by lia. reflexivity.
  - unfold set_position, ib_len. cbn [ib_data ib_pos]. destruct (Nat.leb_spec p0 (length w)); auto.
Qed.
Lemma read_spec_in : forall o w p v p', read_spec w p o = Some (v, p') -> p' <= length w.
Proof.
  intros o w p v p' H. destruct o; unfold read_spec in H;
  match type of H with (if ?b then _ else _) = _ => destruct b eqn:E end; inversion H; subst; bl; lia.
Qed.

(** * Output buffer *)
Lemma firstn_overwrite : forall (d vs : list N) p n, p + length vs <= n -> n <= length d ->
  firstn n (firstn p d ++ vs ++ skipn (p + length vs) d) = firstn p (firstn n d) ++ vs ++ skipn (p + length vs) (firstn n d).
Proof.
  intros d vs p n H L. apply nth_error_ext. intro i.
  assert (F : length (firstn n d) = n) by (apply firstn_length_le; auto).
  destruct (Nat.lt_ge_cases i n).
  - rewrite nth_firstn by auto. destruct (Nat.lt_ge_cases i p); [|destruct (Nat.lt_ge_cases i (p + length vs))].
    + rewrite !nth_store_out by (rewrite ?F; lia). rewrite nth_firstn; auto.
    + replace i with (p + (i - p)) by lia. rewrite !nth_store_in by (rewrite ?F; lia). auto.
    + rewrite !nth_store_out by (rewrite ?F; lia). rewrite nth_firstn; auto.
  - assert (A : forall x : list N, length x <= i -> nth_error x i = None) by (intros; apply nth_error_None; auto).
    rewrite !A; auto.
    + rewrite length_store by (rewrite F; lia). lia.
    + rewrite firstn_length. lia.
Qed.
Lemma ob_append_spec : forall vs b, ob_len b + length vs <= ob_capacity b ->
  exists b', ob_append vs b = (Ok tt, b') /\ ob_capacity b' = ob_capacity b /\ ob_len b' = ob_len b + length vs /\
    ob_bytes b' = ob_bytes b ++ vs /\ (bytes (ob_data b) -> bytes vs -> bytes (ob_data b')).
Proof.
  intros vs b L. unfold ob_append, ob_capacity in *. rewrite store_ok by auto. eexists. split; [reflexivity|].
  unfold ob_bytes. cbn [ob_data ob_len]. split; [apply length_store; auto|]. split; [reflexivity|]. split.
  - assert (F : length (firstn (ob_len b) (ob_data b)) = ob_len b) by (apply firstn_length_le; lia).
    rewrite app_assoc. rewrite firstn_app, app_length, F.
    rewrite firstn_all2 by (rewrite app_length; lia).
    replace (ob_len b + length vs - (ob_len b + length vs)) with 0 by lia. rewrite firstn_O, app_nil_r. auto.
  - intros B V. apply bytes_app. unfold bytes in *. split; [|apply Forall_app; split; auto].
    + rewrite Forall_forall in *. intros x Hx. apply B. eapply firstn_In; eauto.
    + rewrite Forall_forall in *. intros x Hx. apply B. eapply skipn_In; eauto.
Qed.
Lemma ob_store_spec : forall vs p b, p + length vs <= ob_len b -> ob_len b <= ob_capacity b ->
  exists b', ob_store p vs b = (Ok tt, b') /\ ob_capacity b' = ob_capacity b /\ ob_len b' = ob_len b /\
    ob_bytes b' = overwrite (ob_bytes b) p vs /\ (bytes (ob_data b) -> bytes vs -> bytes (ob_data b')).
Proof.
  intros vs p b L C. unfold ob_store, ob_capacity in *. rewrite store_ok by lia. eexists. split; [reflexivity|].
  unfold ob_bytes, overwrite. cbn [ob_data ob_len]. split; [apply length_store; lia|]. split; [reflexivity|]. split.
  - apply firstn_overwrite; auto.
  - intros B V. apply bytes_app. unfold bytes in *. split; [|apply Forall_app; split; auto].
    + rewrite Forall_forall in *. intros x Hx. apply B. eapply firstn_In; eauto.
    + rewrite Forall_forall in *. intros x Hx. apply B. eapply skipn_In; eauto.
Qed.
Lemma ob_bytes_len : forall b, ob_len b <= ob_capacity b -> length (ob_bytes b) = ob_len b.
Proof. intros. unfold ob_bytes. apply firstn_length_le. auto. Qed.
Lemma be16_u16 : forall d, (d < 65536)%N -> be16 d = u16_bytes d.
Proof.
  intros. unfold be16, u16_bytes. rewrite shr_mask8, land255. unfold as_u8. rewrite !N.mod_mod by discriminate.
  rewrite (N.mod_small (d / 256)); auto. apply N.div_lt_upper_bound; [discriminate|]. auto.
Qed.
Lemma be32_u32 : forall d, (d < 4294967296)%N -> be32 d = u32_bytes d.
Proof.
  intros. unfold be32, u32_bytes. rewrite shr_mask24, shr_mask16, shr_mask8, land255. unfold as_u8. rewrite !N.mod_mod by discriminate.
  rewrite (N.mod_small (d / 16777216)); auto. apply N.div_lt_upper_bound; [discriminate|]. auto.
Qed.

Lemma write_call_spec : forall o b, wop_ok o -> ob_len b <= ob_capacity b ->
  exists (ok : bool) b', write_call o b = ((if ok then Ok tt else Err), b') /\
    write_spec (ob_capacity b) (ob_bytes b) o ok (ob_bytes b') /\
    ob_capacity b' = ob_capacity b /\ ob_len b' <= ob_capacity b'.
Proof.
  intros o b V C. pose proof (ob_bytes_len b C) as L.
  assert (App : forall vs (g : bool) o, ((exists d, (o = W8 d /\ vs = [d]) \/ (o = W16 d /\ vs = u16_bytes d) \/ (o = W32 d /\ vs = u32_bytes d)) \/ o = WBytes vs) ->
    (g = true <-> ob_len b + length vs <= ob_capacity b) ->
    exists (ok : bool) b', (if g then ob_append vs b else (Err, b)) = ((if ok then Ok tt else Err), b') /\
    write_spec (ob_capacity b) (ob_bytes b) o ok (ob_bytes b') /\ ob_capacity b' = ob_capacity b /\ ob_len b' <= ob_capacity b').
  { intros vs g o' K G. destruct g.
    - assert (G' : ob_len b + length vs <= ob_capacity b) by (apply G; auto).
      destruct (ob_append_spec vs b G') as (b' & -> & A1 & A2 & A3 & _). exists true, b'.
      split; auto. rewrite A3. split; [|split; [auto|lia]]. eapply ws_append; eauto. lia.
    - exists false, b. split; auto. split; [|auto]. eapply ws_append_full; eauto. rewrite L.
      destruct (Nat.lt_ge_cases (ob_capacity b) (ob_len b + length vs)); auto. apply G in H. discriminate. }
  assert (At : forall vs p (g : bool) o, (exists d, (o = WAt8 p d /\ vs = [d]) \/ (o = WAt16 p d /\ vs = u16_bytes d)) ->
    (g = true <-> p + length vs <= ob_len b) ->
    exists (ok : bool) b', (if g then ob_store p vs b else (Err, b)) = ((if ok then Ok tt else Err), b') /\
    write_spec (ob_capacity b) (ob_bytes b) o ok (ob_bytes b') /\ ob_capacity b' = ob_capacity b /\ ob_len b' <= ob_capacity b').
  { intros vs p g o' K G. destruct g.
    - assert (G' : p + length vs <= ob_len b) by (apply G; auto).
      destruct (ob_store_spec vs p b G' C) as (b' & -> & A1 & A2 & A3 & _). exists true, b'.
      split; auto. rewrite A3. split; [|split; [auto|lia]]. eapply ws_at; eauto. lia.
    - exists false, b. split; auto. split; [|auto]. eapply ws_at_out; eauto. rewrite L.
      destruct (Nat.lt_ge_cases (ob_len b) (p + length vs)); auto. apply G in H. discriminate. }
  destruct o; cbn [write_call wop_ok] in *.
  - apply (App [d]); [left; eauto|]. rewrite Nat.ltb_lt. cbn [length]. lia.
  - unfold ob_write_u16. rewrite be16_u16 by auto. apply (App (u16_bytes d)); [left; eauto|]. rewrite Nat.leb_le. cbn [length u16_bytes]. lia.
  - unfold ob_write_u32. rewrite be32_u32 by auto. apply (App (u32_bytes d)); [left; eauto 6|]. rewrite Nat.leb_le. cbn [length u32_bytes]. lia.
  - unfold ob_write_bytes. apply (App l); [auto|]. rewrite Nat.leb_le. lia.
  - unfold ob_skip. destruct (Nat.ltb_spec (ob_len b + n) (ob_capacity b)).
    + exists true. eexists. split; [reflexivity|]. unfold ob_capacity in *. cbn [ob_data ob_len]. split; [|split; [auto|lia]].
      unfold ob_bytes in *. cbn [ob_data ob_len].
      replace (firstn (ob_len b + n) (ob_data b)) with (firstn (ob_len b) (ob_data b) ++ firstn n (skipn (ob_len b) (ob_data b))).
      * apply ws_skip; [apply firstn_length_le; rewrite skipn_length; lia|lia].
      * rewrite <- (firstn_skipn (ob_len b) (ob_data b)) at 3. rewrite firstn_app, L.
        rewrite (firstn_all2 (firstn _ _)) by lia. do 2 f_equal. lia.
    + exists false, b. split; auto. split; auto. apply ws_skip_full. lia.
  - unfold ob_write_u8_at. apply (At [d]); [eauto|]. rewrite Nat.ltb_lt. cbn [length]. lia.
  - unfold ob_write_u16_at. rewrite be16_u16 by auto. apply (At (u16_bytes d)); [eauto|]. rewrite Nat.leb_le. cbn [length u16_bytes]. lia.
  - unfold ob_truncate. destruct (Nat.ltb_spec p (ob_len b)).
    + exists true. eexists. split; [reflexivity|]. unfold ob_capacity in *. cbn [ob_data ob_len]. split; [|split; [auto|lia]].
      unfold ob_bytes in *. cbn [ob_data ob_len].
      replace (firstn p (ob_data b)) with (firstn p (firstn (ob_len b) (ob_data b))) by (rewrite firstn_firstn; f_equal; lia).
      apply ws_trunc. lia.
    + exists false, b. split; auto. split; auto. apply ws_trunc_out. lia.
  - exists true. eexists. split; [reflexivity|]. unfold ob_capacity in *. cbn [ob_data ob_len]. split; [|split; [auto|lia]].
    apply ws_reset.
Qed.

(** * Renderer histories *)
Definition hmask (h : list event) (i : nat) : bool :=
  existsb (fun e => match ev_op e with MSkip _ => ev_ok e && (ev_start e <=? i) && (i <? ev_end e) | _ => false end) h.
Definition ev_rel (e : event) : rel :=
  if ev_ok e then
    match ev_op e with
    | MName ls _ => Pname ls
    | M8 d => Pbytes [d] | M16 d => Pbytes (be16 d) | M32 d => Pbytes (be32 d) | MBytes l => Pbytes l
    | _ => fun _ _ _ => True
    end
  else fun _ _ _ => True.
Lemma mono_ev : forall e, mono (ev_rel e).
Proof.
  intros e. unfold ev_rel. destruct (ev_ok e); [|intros ? ? ? ? ? ?; auto].
  destruct (ev_op e); try apply mono_bytes; try apply mono_name; intros ? ? ? ? ? ?; auto.
Qed.
Lemma hmask_reserved : forall h a b i, reserved h a b -> a <= i < b -> hmask h i = true.
Proof.
  intros h a b i (e & n & H1 & H2 & H3 & H4 & H5) Hi. unfold hmask. apply existsb_exists. exists e. split; auto.
  rewrite H2, H3. simpl. apply andb_true_iff. rewrite Nat.leb_le, Nat.ltb_lt. lia.
Qed.

Section Known.
Context {KN : names}.
Lemma patch_spec : forall vs p m r, bytes vs -> inv m r -> p + length vs <= mr_len r ->
  (forall i, p <= i < p + length vs -> m i = true) ->
  exists r', on_buf (ob_store p vs) r = (Ok tt, r') /\ inv m r' /\ mr_len r' = mr_len r /\
    (forall i, rdm m r' i = rdm m r i) /\
    (forall i, i < p \/ p + length vs <= i -> nth_error (ob_data (mr_buf r')) i = nth_error (ob_data (mr_buf r)) i) /\
    (forall i c, nth_error vs i = Some c -> nth_error (ob_data (mr_buf r')) (p + i) = Some c) /\
    ob_capacity (mr_buf r') = ob_capacity (mr_buf r).
Proof.
  intros vs p m r V I L Hm. pose proof (inv_len _ _ I) as C. unfold mr_len, ob_capacity in *.
  unfold on_buf, ob_store. rewrite store_ok by lia. eexists. split; [reflexivity|].
  set (b' := mkOut _ _). set (r' := mkRender b' _ _ _).
  assert (Rd : forall i, rdm m r' i = rdm m r i).
  { intro i. unfold rdm, mr_len. subst r' b'. cbn [mr_buf ob_len ob_data]. destruct (m i) eqn:E; auto.
    destruct (i <? ob_len (mr_buf r)) eqn:E2; auto. rewrite nth_store_out; auto; try lia.
    destruct (Nat.lt_ge_cases i p); auto. destruct (Nat.lt_ge_cases i (p + length vs)); auto.
    rewrite Hm in E by lia. discriminate. }
  split.
  { apply inv_buf with (m := m); auto.
    - unfold ob_capacity. subst b'. cbn [ob_len ob_data]. rewrite length_store; lia.
    - subst b'. cbn [ob_data]. pose proof (inv_bytes _ _ I) as Bo. apply bytes_app. split; [|apply bytes_app; split; auto].
      + unfold bytes in *. rewrite Forall_forall in *. intros x Hx. apply Bo. eapply firstn_In; eauto.
      + unfold bytes in *. rewrite Forall_forall in *. intros x Hx. apply Bo. eapply skipn_In; eauto.
    - intros i Hi. apply (inv_mask _ _ I) in Hi. exact Hi.
    - intros i c Hc. fold r'. rewrite Rd. auto. }
  split; [reflexivity|]. split; [auto|]. subst r' b'. cbn [mr_buf ob_data].
  split; [intros; apply nth_store_out; auto; lia|]. split; [|apply length_store; lia].
  intros. rewrite nth_store_in; auto; try lia. apply nth_error_Some. congruence.
Qed.
Lemma inv_mask_ext : forall m m' r, inv m r -> (forall i, m i = m' i) -> inv m' r.
Proof. intros m m' r I H. apply inv_unmask with (m' := m); auto. intros i. rewrite H. auto. Qed.
Lemma rdm_ext : forall m m' r i, (forall i, m i = m' i) -> rdm m r i = rdm m' r i.
Proof. intros. unfold rdm. rewrite H. auto. Qed.

Lemma skip_spec : forall n m r, inv m r -> mr_len r + n < ob_capacity (mr_buf r) ->
  exists r', mr_skip n r = (Ok tt, r') /\ extends r r' /\ mr_len r' = mr_len r + n /\
    inv (fun i => m i || ((mr_len r <=? i) && (i <? mr_len r + n))) r' /\
    (forall i c, rdm m r i = Some c -> rdm (fun i => m i || ((mr_len r <=? i) && (i <? mr_len r + n))) r' i = Some c).
Proof.
  intros n m r I L. unfold mr_skip, on_buf, ob_skip. unfold mr_len in *. ift.
  eexists. split; [reflexivity|]. unfold mr_len. cbn [mr_buf ob_len].
  assert (E : extends r (mkRender (mkOut (ob_data (mr_buf r)) (ob_len (mr_buf r) + n)) (mr_table r) (mr_counts r) (mr_hashes r))).
  { unfold extends, mr_len, ob_capacity. cbn [mr_buf ob_len ob_data]. split; [lia|auto]. }
  split; auto. split; auto.
  assert (R : forall i c, rdm m r i = Some c ->
    rdm (fun i => m i || ((ob_len (mr_buf r) <=? i) && (i <? ob_len (mr_buf r) + n)))
      (mkRender (mkOut (ob_data (mr_buf r)) (ob_len (mr_buf r) + n)) (mr_table r) (mr_counts r) (mr_hashes r)) i = Some c).
  { intros i c. unfold rdm, mr_len. cbn [mr_buf ob_len ob_data]. destruct (m i); [discriminate|]. cbn [orb].
    destruct (Nat.ltb_spec i (ob_len (mr_buf r))); [|discriminate].
    replace (ob_len (mr_buf r) <=? i) with false by (symmetry; apply Nat.leb_gt; auto). cbn [andb].
    ift. auto. }
  split; auto. apply inv_buf with (m := m); auto.
  - unfold ob_capacity in *. cbn [ob_len ob_data]. lia.
  - apply I.
  - cbn [ob_len]. intros i Hi. apply orb_true_iff in Hi. destruct Hi as [Hi|Hi].
    + apply (inv_mask _ _ I) in Hi. unfold mr_len in Hi. lia.
    + bl. lia.
Qed.

(** All names written in a history, and their ancestors, are among the known ones. *)
Definition names_known (h : list event) : Prop := forall e ls c s, In e h -> ev_op e = MName ls c -> suffix_of s ls -> known s.
Lemma history_inv_k : forall dat h r, bytes dat -> history (mr_new dat) h r -> names_known h ->
  inv (hmask h) r /\ (forall e, In e h -> ev_start e <= ev_end e <= mr_len r /\ ev_rel e (rdm (hmask h) r) (ev_start e) (ev_end e)).
Proof.
  intros dat h r B. induction 1 as [|h r o r' H IHh V C|h r o r' H IHh V C]; intros NK;
    try (assert (NK' : names_known h) by (intros e0 ls0 c0 s0 He0; apply (NK e0 ls0 c0 s0); right; exact He0);
         destruct (IHh NK') as [I K]; clear IHh NK').
  - split; [apply inv_new; auto|intros ? []].
  - assert (Emit : forall w P, w = mop_call o -> emits w P -> (forall s e, ev_rel (mkEv o s e true) = P) ->
       (match o with MSkip _ => False | _ => True end) ->
       inv (hmask (mkEv o (mr_len r) (mr_len r') true :: h)) r' /\
       (forall e, In e (mkEv o (mr_len r) (mr_len r') true :: h) -> ev_start e <= ev_end e <= mr_len r' /\
         ev_rel e (rdm (hmask (mkEv o (mr_len r) (mr_len r') true :: h)) r') (ev_start e) (ev_end e))).
    { intros w P -> Em Er Ns. specialize (Em _ _ I). rewrite C in Em. destruct Em as (X & I' & P').
      assert (Hm : forall i, hmask h i = hmask (mkEv o (mr_len r) (mr_len r') true :: h) i).
      { intro i. unfold hmask. cbn [existsb ev_op]. destruct o; auto. destruct Ns. }
      split; [eapply inv_mask_ext; eauto|]. intros e [<-|He].
      - cbn [ev_start ev_end]. split; [destruct X; lia|]. rewrite Er.
        assert (MP : mono P) by (rewrite <- (Er 0 0); apply mono_ev). eapply MP; [|apply P'].
        intros i c. rewrite (rdm_ext _ _ _ _ Hm). auto.
      - destruct (K e He) as [A1 A2]. split; [destruct X; lia|].
        eapply mono_ev; [|apply A2]. intros i c Hc. rewrite <- (rdm_ext _ _ _ _ Hm). eapply extends_rdm; eauto. }
    assert (Patch : forall p vs, bytes vs -> reserved h p (p + length vs) -> mop_call o r = on_buf (ob_store p vs) r ->
       (match o with MAt8 _ _ | MAt16 _ _ => True | _ => False end) ->
       inv (hmask (mkEv o (mr_len r) (mr_len r') true :: h)) r' /\
       (forall e, In e (mkEv o (mr_len r) (mr_len r') true :: h) -> ev_start e <= ev_end e <= mr_len r' /\
         ev_rel e (rdm (hmask (mkEv o (mr_len r) (mr_len r') true :: h)) r') (ev_start e) (ev_end e))).
    { intros p vs Bv Rv Q Ns.
      assert (L : p + length vs <= mr_len r).
      { destruct Rv as (e & n & R1 & R2 & R3 & R4 & R5). apply K in R1. lia. }
      destruct (patch_spec vs p _ r Bv I L) as (r2 & E & I2 & L2 & R2 & _).
      { intros i Hi. eapply hmask_reserved; eauto. }
      rewrite Q, E in C. inversion C; subst r2.
      assert (Hm : forall i, hmask h i = hmask (mkEv o (mr_len r) (mr_len r') true :: h) i).
      { intro i. unfold hmask. cbn [existsb ev_op]. destruct o; auto; destruct Ns. }
      split; [eapply inv_mask_ext; eauto|]. intros e [<-|He].
      - cbn [ev_start ev_end]. split; [lia|]. unfold ev_rel. cbn [ev_ok ev_op]. destruct o; auto; destruct Ns.
      - destruct (K e He) as [A1 A2]. split; [lia|]. eapply mono_ev; [|apply A2].
        intros i c Hc. rewrite <- (rdm_ext _ _ _ _ Hm). rewrite R2. auto. }
    destruct o; cbn [mop_ok] in V.
    + eapply Emit; [reflexivity|cbn [mop_call]; apply write_name_emits_k; [auto|intros s0 Hs0; eapply NK; [left; reflexivity|reflexivity|exact Hs0]]|reflexivity|exact Logic.I].
    + eapply Emit; [reflexivity|cbn [mop_call]; apply emits_u8; auto|reflexivity|exact Logic.I].
    + eapply Emit; [reflexivity|cbn [mop_call]; apply emits_u16; auto|reflexivity|exact Logic.I].
    + eapply Emit; [reflexivity|cbn [mop_call]; apply emits_u32; auto|reflexivity|exact Logic.I].
    + eapply Emit; [reflexivity|cbn [mop_call]; apply emits_bytes; auto|reflexivity|exact Logic.I].
    + cbn [mop_call] in C. destruct (Nat.lt_ge_cases (mr_len r + n) (ob_capacity (mr_buf r))) as [L|L].
      * destruct (skip_spec n _ r I L) as (r2 & E & X & L2 & I2 & R2). rewrite E in C. inversion C; subst r2.
        assert (Hm : forall i, hmask h i || ((mr_len r <=? i) && (i <? mr_len r + n)) = hmask (mkEv (MSkip n) (mr_len r) (mr_len r') true :: h) i).
        { intro i. unfold hmask. cbn [existsb ev_op ev_ok ev_start ev_end]. rewrite L2. cbn [andb]. apply orb_comm. }
        split; [eapply inv_mask_ext; eauto|]. intros e [<-|He].
        -- cbn [ev_start ev_end]. split; [lia|]. exact Logic.I.
        -- destruct (K e He) as [A1 A2]. split; [lia|]. eapply mono_ev; [|apply A2].
           intros i c Hc. rewrite <- (rdm_ext _ _ _ _ Hm). auto.
      * unfold mr_skip, on_buf, ob_skip in C. unfold mr_len in L. replace (ob_len (mr_buf r) + n <? ob_capacity (mr_buf r)) with false in C
          by (symmetry; apply Nat.ltb_ge; auto). discriminate.
    + destruct V as [V1 V2]. apply (Patch p [d]); auto; [repeat constructor; auto|].
      cbn [mop_call]. unfold mr_write_u8_at, on_buf, ob_write_u8_at. destruct V2 as (e & n & R1 & R2 & R3 & R4 & R5).
      apply K in R1. unfold mr_len in R1. ift. reflexivity.
    + destruct V as [V1 V2]. apply (Patch p (be16 d)); auto; [apply be16_bytes|].
      cbn [mop_call]. unfold mr_write_u16_at, on_buf, ob_write_u16_at. destruct V2 as (e & n & R1 & R2 & R3 & R4 & R5).
      apply K in R1. unfold mr_len in R1. ift. reflexivity.
  - assert (Hm : forall i, hmask h i = hmask (mkEv o (mr_len r) (mr_len r') false :: h) i).
    { intro i. unfold hmask. cbn [existsb ev_op ev_ok]. destruct o; auto. }
    assert (Fin : extends r r' -> inv (hmask h) r' -> inv (hmask (mkEv o (mr_len r) (mr_len r') false :: h)) r' /\
       (forall e, In e (mkEv o (mr_len r) (mr_len r') false :: h) -> ev_start e <= ev_end e <= mr_len r' /\
         ev_rel e (rdm (hmask (mkEv o (mr_len r) (mr_len r') false :: h)) r') (ev_start e) (ev_end e))).
    { intros X I'. split; [eapply inv_mask_ext; eauto|]. intros e [<-|He].
      - cbn [ev_start ev_end]. split; [destruct X; lia|exact Logic.I].
      - destruct (K e He) as [A1 A2]. split; [destruct X; lia|].
        eapply mono_ev; [|apply A2]. intros i c Hc. rewrite <- (rdm_ext _ _ _ _ Hm). eapply extends_rdm; eauto. }
    assert (Emit : forall w P, w = mop_call o -> emits w P -> extends r r' /\ inv (hmask h) r').
    { intros w P -> Em. specialize (Em _ _ I). rewrite C in Em. destruct Em as (X & I' & _). auto. }
    assert (Same : r' = r -> extends r r' /\ inv (hmask h) r') by (intros ->; split; [apply extends_refl|auto]).
    assert (Obf : forall b g f, on_buf (fun b => if g b : bool then f b else (Err, b)) r = (Err, r') ->
       f (mr_buf r) = (Ok tt, b) \/ g (mr_buf r) = false -> r' = r).
    { intros b g f Q O. unfold on_buf in Q. destruct (g (mr_buf r)) eqn:Eg.
      - destruct O as [O|O]; [|discriminate]. rewrite O in Q. discriminate.
      - inversion Q. destruct r; reflexivity. }
    assert (X : extends r r' /\ inv (hmask h) r').
    { destruct o; cbn [mop_ok mop_call] in *.
      - eapply Emit; [reflexivity|apply write_name_emits_k; [auto|intros s0 Hs0; eapply NK; [left; reflexivity|reflexivity|exact Hs0]]].
      - eapply Emit; [reflexivity|apply emits_u8; auto].
      - eapply Emit; [reflexivity|apply emits_u16; auto].
      - eapply Emit; [reflexivity|apply emits_u32; auto].
      - eapply Emit; [reflexivity|apply emits_bytes; auto].
      - apply Same. eapply (Obf _ (fun b => ob_len b + n <? ob_capacity b)); [exact C|]. left. reflexivity.
      - destruct V as [V1 V2]. apply Same.
        destruct (ob_store_spec [d] p (mr_buf r)) as (b' & Eb & _).
        { destruct V2 as (e & n & R1 & R2 & R3 & R4 & R5). apply K in R1. unfold mr_len in R1. cbn [length]. lia. }
        { apply I. }
        eapply (Obf b' (fun b => p <? ob_len b)); [exact C|]. left. auto.
      - destruct V as [V1 V2]. apply Same.
        destruct (ob_store_spec (be16 d) p (mr_buf r)) as (b' & Eb & _).
        { destruct V2 as (e & n & R1 & R2 & R3 & R4 & R5). apply K in R1. unfold mr_len in R1. cbn [length be16]. lia. }
        { apply I. }
        eapply (Obf b' (fun b => p + 2 <=? ob_len b)); [exact C|]. left. auto. }
    apply Fin; apply X.
Qed.

End Known.
Lemma history_inv : forall dat h r, bytes dat -> history (mr_new dat) h r ->
  inv (hmask h) r /\ (forall e, In e h -> ev_start e <= ev_end e <= mr_len r /\ ev_rel e (rdm (hmask h) r) (ev_start e) (ev_end e)).
Proof. intros. eapply history_inv_k; eauto. intros ? ? ? ? ? ? ?. exact Logic.I. Qed.

Section Known.
Context {KN : names}.
(** The masked reader is included in the rendered bytes. *)
Lemma rdm_rd_of : forall m r i c, inv m r -> rdm m r i = Some c -> rd_of (mr_bytes r) i = Some c.
Proof.
  intros m r i c I. unfold rdm, rd_of, mr_bytes, ob_bytes. destruct (m i); [discriminate|].
  destruct (Nat.ltb_spec i (mr_len r)); [|discriminate]. intros. unfold mr_len in *. rewrite nth_firstn; auto.
Qed.
Lemma mr_bytes_bytes : forall m r, inv m r -> bytes (mr_bytes r).
Proof.
  intros m r I. pose proof (inv_bytes _ _ I) as B. unfold bytes, mr_bytes, ob_bytes in *. rewrite Forall_forall in *.
  intros x Hx. apply B. eapply firstn_In; eauto.
Qed.
Lemma mr_bytes_len : forall m r, inv m r -> length (mr_bytes r) = mr_len r.
Proof. intros m r I. apply ob_bytes_len. apply I. Qed.

End Known.
Lemma hist_names : forall d h r e ls c, bytes d -> history (mr_new d) h r -> In e h -> ev_op e = MName ls c -> ev_ok e = true ->
  name_from_wire (mkIn (mr_bytes r) (ev_start e)) = (Ok (name_of ls), mkIn (mr_bytes r) (ev_end e)).
Proof.
  intros d h r e ls c B H He Eo Ek. destruct (history_inv d h r B H) as [I K].
  destruct (K e He) as [L R]. unfold ev_rel in R. rewrite Ek, Eo in R. unfold Pname in R.
  assert (Wl : wf_labels ls).
  { clear - H He Eo. induction H; [destruct He| |]; destruct He as [<-|He]; auto; cbn [ev_op] in Eo; subst o; auto. }
  apply from_wire_complete.
  - eapply mr_bytes_bytes; eauto.
  - eapply wname_mono; [exact R|]. intros i x. apply rdm_rd_of. auto.
  - apply Wl.
Qed.
Definition ev_payload (e : event) : option (list N) :=
  match ev_op e with
  | M8 d => Some [d] | M16 d => Some (be16 d) | M32 d => Some (be32 d) | MBytes l => Some l | _ => None
  end.
Lemma hist_no_panic : forall dat h r o, bytes dat -> history (mr_new dat) h r -> mop_ok h o -> safe (fst (mop_call o r)).
Proof.
  intros dat h r o B H V. destruct (history_inv dat h r B H) as [I K].
  assert (Em : forall w P, emits w P -> safe (fst (w r))).
  { intros w P E. specialize (E _ _ I). destruct (w r) as [a r']. destruct E as (_ & _ & E). destruct a; try (destruct E; fail); split; discriminate. }
  assert (Pa : forall vs p, p + length vs <= mr_len r -> exists b, ob_store p vs (mr_buf r) = (Ok tt, b)).
  { intros vs p L. destruct (ob_store_spec vs p (mr_buf r) L) as (b' & Eb & _); [apply I|eauto]. }
  destruct o; cbn [mop_ok mop_call] in *.
  - eapply Em. apply write_name_emits; auto.
  - eapply Em. apply emits_u8; auto.
  - eapply Em. apply emits_u16; auto.
  - eapply Em. apply emits_u32; auto.
  - eapply Em. apply emits_bytes; auto.
  - unfold mr_skip, on_buf, ob_skip. destruct (_ <? _); split; discriminate.
  - unfold mr_write_u8_at, on_buf, ob_write_u8_at. destruct V as [_ (e & n & R1 & R2 & R3 & R4 & R5)].
    apply K in R1. destruct (Pa [d] p) as [b E]; [cbn [length]; lia|]. rewrite E. destruct (_ <? _); split; discriminate.
  - unfold mr_write_u16_at, on_buf, ob_write_u16_at. destruct V as [_ (e & n & R1 & R2 & R3 & R4 & R5)].
    apply K in R1. destruct (Pa (be16 d) p) as [b E]; [cbn [length be16]; lia|]. rewrite E. destruct (_ <=? _); split; discriminate.
Qed.

(** A payload write keeps its bytes for ever (numbers in range). *)
Lemma be16_be : forall d, (d < 65536)%N -> be_val (be16 d) = d.
Proof.
  intros. rewrite be16_u16 by auto. unfold u16_bytes, be_val. cbn [fold_left].
  pose proof (N.div_mod d 256 ltac:(discriminate)). lia.
Qed.
Lemma be32_be : forall d, (d < 4294967296)%N -> be_val (be32 d) = d.
Proof.
  intros d H. rewrite be32_u32 by auto. unfold u32_bytes, be_val. cbn [fold_left].
  change 16777216%N with (256 * 256 * 256)%N. change 65536%N with (256 * 256)%N.
  rewrite <- !N.div_div by discriminate.
  pose proof (N.div_mod d 256 ltac:(discriminate)).
  pose proof (N.div_mod (d / 256) 256 ltac:(discriminate)).
  pose proof (N.div_mod (d / 256 / 256) 256 ltac:(discriminate)). lia.
Qed.
Lemma bytes_at_Pbytes : forall l w s e, Pbytes l (rd_of w) s e -> bytes_at w s (e - s) = l /\ e = s + length l.
Proof.
  intros l w s e [-> H]. split; auto. replace (s + length l - s) with (length l) by lia.
  unfold bytes_at, rd_of in *. apply nth_error_ext. intro i.
  destruct (nth_error l i) eqn:E.
  - assert (i < length l) by (apply nth_error_Some; congruence).
    rewrite nth_firstn by auto. rewrite nth_skipn. auto.
  - apply nth_error_None in E. apply nth_error_None. rewrite firstn_length. lia.
Qed.
Lemma ev_wf : forall r0 h r e, history r0 h r -> In e h -> exists h', mop_ok h' (ev_op e).
Proof. intros r0 h r e H. induction H; intros He; [destruct He| |]; destruct He as [<-|He]; eauto. Qed.
Lemma hist_payload : forall dat h r e l, bytes dat -> history (mr_new dat) h r -> In e h -> ev_ok e = true ->
  (ev_op e = MBytes l \/ exists d, l = [d] /\ ev_op e = M8 d \/ l = u16_bytes d /\ ev_op e = M16 d \/ l = u32_bytes d /\ ev_op e = M32 d) ->
  bytes_at (mr_bytes r) (ev_start e) (ev_end e - ev_start e) = l /\ ev_end e = ev_start e + length l.
Proof.
  intros dat h r e l B H He Ek Eo. destruct (history_inv dat h r B H) as [I K].
  destruct (K e He) as [L R]. destruct (ev_wf _ _ _ _ H He) as [h' V].
  assert (R' : ev_rel e (rd_of (mr_bytes r)) (ev_start e) (ev_end e)).
  { eapply mono_ev; [|exact R]. intros i c. apply rdm_rd_of. auto. }
  apply bytes_at_Pbytes. unfold ev_rel in R'. rewrite Ek in R'.
  destruct Eo as [Eo|(d & [[-> Eo]|[[-> Eo]|[-> Eo]]])]; rewrite Eo in *; cbn [mop_ok] in V; auto.
  - rewrite <- be16_u16 by auto. auto.
  - rewrite <- be32_u32 by auto. auto.
Qed.

Lemma map_const_repeat : forall A B (l : list A) (x : B), map (fun _ => x) l = repeat x (length l).
Proof. induction l; simpl; intros; f_equal; auto. Qed.
Lemma reset_new : forall m r, inv m r -> mr_reset r = (Ok tt, mr_new (ob_data (mr_buf r))).
Proof.
  intros m r I. unfold mr_reset, mr_new, ob_new. do 2 f_equal.
  - destruct (inv_tab _ _ I) as [L F]. rewrite <- map_ext_in with (f := fun _ => repeat 0%N RESERVED_ITEMS).
    + rewrite map_const_repeat, L. reflexivity.
    + intros row Hr. rewrite map_const_repeat. rewrite Forall_forall in F. rewrite (F _ Hr). reflexivity.
  - rewrite map_const_repeat. rewrite (proj1 (inv_cnt _ _ I)). reflexivity.
  - rewrite map_const_repeat. rewrite (inv_hs _ _ I). reflexivity.
Qed.
Lemma hist_reset : forall dat h r, bytes dat -> history (mr_new dat) h r ->
  exists dat', bytes dat' /\ length dat' = length dat /\ mr_reset r = (Ok tt, mr_new dat').
Proof.
  intros dat h r B H. destruct (history_inv dat h r B H) as [I K].
  exists (ob_data (mr_buf r)). split; [apply I|]. split; [|eapply reset_new; eauto].
  change (ob_capacity (mr_buf r) = length dat).
  clear K. assert (G : forall h r, history (mr_new dat) h r -> ob_capacity (mr_buf r) = length dat).
  { clear - B. intros h r H. induction H as [|h r o r' H IH V C|h r o r' H IH V C]; [reflexivity| |].
    - destruct (history_inv dat _ _ B (hist_ok _ _ _ _ _ H V C)) as [I' _].
      destruct (history_inv dat _ _ B H) as [I K]. rewrite <- IH.
      assert (Em : forall P, emits (mop_call o) P -> ob_capacity (mr_buf r') = ob_capacity (mr_buf r)).
      { intros P E. specialize (E _ _ I). rewrite C in E. apply E. }
      destruct o; cbn [mop_ok] in V.
      + eapply Em. cbn [mop_call]. apply write_name_emits; auto.
      + eapply Em. cbn [mop_call]. apply emits_u8; auto.
      + eapply Em. cbn [mop_call]. apply emits_u16; auto.
      + eapply Em. cbn [mop_call]. apply emits_u32; auto.
      + eapply Em. cbn [mop_call]. apply emits_bytes; auto.
      + cbn [mop_call] in C. unfold mr_skip, on_buf, ob_skip in C. destruct (_ <? _); inversion C. reflexivity.
      + cbn [mop_call] in C. unfold mr_write_u8_at, on_buf, ob_write_u8_at in C.
        destruct (p <? _) eqn:E; [|inversion C; reflexivity]. bl.
        destruct (ob_store_spec [d] p (mr_buf r)) as (b' & Eb & Q & _); [cbn [length]; lia|apply I|].
        rewrite Eb in C. inversion C. auto.
      + cbn [mop_call] in C. unfold mr_write_u16_at, on_buf, ob_write_u16_at in C.
        destruct (p + 2 <=? _) eqn:E; [|inversion C; reflexivity]. bl.
        destruct (ob_store_spec (be16 d) p (mr_buf r)) as (b' & Eb & Q & _); [cbn [length be16]; lia|apply I|].
        rewrite Eb in C. inversion C. auto.
    - destruct (history_inv dat _ _ B H) as [I K]. rewrite <- IH.
      assert (Em : forall P, emits (mop_call o) P -> ob_capacity (mr_buf r') = ob_capacity (mr_buf r)).
      { intros P E. specialize (E _ _ I). rewrite C in E. apply E. }
      destruct o; cbn [mop_ok] in V.
      + eapply Em. cbn [mop_call]. apply write_name_emits; auto.
      + eapply Em. cbn [mop_call]. apply emits_u8; auto.
      + eapply Em. cbn [mop_call]. apply emits_u16; auto.
      + eapply Em. cbn [mop_call]. apply emits_u32; auto.
      + eapply Em. cbn [mop_call]. apply emits_bytes; auto.
      + cbn [mop_call] in C. unfold mr_skip, on_buf, ob_skip in C. destruct (_ <? _); inversion C. reflexivity.
      + cbn [mop_call] in C. unfold mr_write_u8_at, on_buf, ob_write_u8_at in C.
        destruct (p <? _) eqn:E; [|inversion C; reflexivity]. bl.
        destruct (ob_store_spec [d] p (mr_buf r)) as (b' & Eb & Q & _); [cbn [length]; lia|apply I|].
        rewrite Eb in C. discriminate.
      + cbn [mop_call] in C. unfold mr_write_u16_at, on_buf, ob_write_u16_at in C.
        destruct (p + 2 <=? _) eqn:E; [|inversion C; reflexivity]. bl.
        destruct (ob_store_spec (be16 d) p (mr_buf r)) as (b' & Eb & Q & _); [cbn [length be16]; lia|apply I|].
        rewrite Eb in C. discriminate. }
  eapply G; eauto.
Qed.
Lemma hist_capacity : forall dat h r, bytes dat -> history (mr_new dat) h r -> ob_capacity (mr_buf r) = length dat.
Proof.
  intros dat h r B H. destruct (hist_reset dat h r B H) as (d' & _ & L & E). apply (f_equal (fun x => ob_data (mr_buf (snd x)))) in E. unfold ob_capacity.
  rewrite <- L. change (ob_data (mr_buf r) = d') in E. congruence.
Qed.

(** What is rendered does not depend on the capacity or the old contents of the buffer, as long as it fits. *)
From Verif Require Import Base NameModel RenderModel CodesModel RDataModel MsgModel SpecName SpecBuf SpecCodes SpecMsg
  BaseLemmas BitLemmas NameWireProofs NameOpsProofs NameOpsProofs2 RenderProofs RenderProofs2 BufProofs LiveProofs CodesProofs WireProofs
  RDataProofs DecodeProofs MsgProofs MsgProofs2 MsgProofs3 MsgProofs4 MsgProofs5 MsgProofs6 MsgProofs7.

Definition agree (m : nat -> bool) (r r2 : render) : Prop :=
  mr_len r = mr_len r2 /\ (forall i, rdm m r i = rdm m r2 i) /\ mr_table r = mr_table r2 /\ mr_counts r = mr_counts r2 /\ mr_hashes r = mr_hashes r2.
Notation cap r := (ob_capacity (mr_buf r)).
Definition grows {A} (w : M render A) : Prop := forall r a r', w r = (a, r') -> mr_len r <= mr_len r' /\ cap r' = cap r.
(** Without an invariant. *)
Definition simw (m : nat -> bool) {A} (w : M render A) : Prop := forall r r2 a r', agree m r r2 -> w r = (Ok a, r') -> mr_len r' <= cap r2 ->
  exists r2', w r2 = (Ok a, r2') /\ agree m r' r2'.
Lemma grows_ret : forall A (a : A), grows (ret a).
Proof. intros A a r b r' H. inversion H; auto. Qed.
Lemma grows_lift : forall A (a : res A), grows (lift a).
Proof. intros A a r b r' H. inversion H; auto. Qed.
Lemma grows_get : grows get.
Proof. intros r b r' H. inversion H; auto. Qed.
Lemma grows_bind : forall A B (w : M render A) (k : A -> M render B), grows w -> (forall a, grows (k a)) -> grows (bind w k).
Proof.
  intros A B w k H1 H2 r a r' H. unfold bind in H. destruct (w r) as [b r1] eqn:E. destruct (H1 _ _ _ E) as [L1 C1].
  destruct b; try (inversion H; subst; auto; fail). destruct (H2 _ _ _ _ H). split; [lia|congruence].
Qed.
Lemma simw_bind : forall m A B (w : M render A) (k : A -> M render B), simw m w -> grows w -> (forall a, simw m (k a)) -> (forall a, grows (k a)) -> simw m (bind w k).
Proof.
  intros m A B w k S1 G1 S2 G2 r r2 b r' Ag H L. unfold bind in *. destruct (w r) as [[a| | |] r1] eqn:E; try discriminate.
  destruct (G2 _ _ _ _ H) as [Lk Ck].
  destruct (S1 r r2 a r1 Ag E ltac:(lia)) as (r2' & E2 & Ag'). rewrite E2. apply (S2 a r1); auto. destruct (G1 _ _ _ E2) as [_ ->]. auto.
Qed.
Lemma simw_ret : forall m A (a : A), simw m (ret a).
Proof. intros m A a r r2 b r' Ag H L. inversion H; subst. exists r2. auto. Qed.
Lemma simw_lift : forall m A (a : res A), simw m (lift a).
Proof. intros m A a r r2 b r' Ag H L. unfold lift in *. inversion H; subst. exists r2. auto. Qed.

(** * Buffer operations *)
Lemma append_rdm : forall m vs r i, mr_len r + length vs <= cap r ->
  rdm m (snd (on_buf (ob_append vs) r)) i = (if i <? mr_len r then rdm m r i else if m i then None else nth_error vs (i - mr_len r)).
Proof.
  intros m vs r i L. unfold on_buf, ob_append, rdm, mr_len, ob_capacity in *. rewrite store_ok by auto. cbn [snd mr_buf ob_len ob_data].
  destruct (m i); [destruct (i <? _); auto|]. destruct (Nat.ltb_spec i (ob_len (mr_buf r))).
  - replace (i <? ob_len (mr_buf r) + length vs) with true by (symmetry; apply Nat.ltb_lt; lia). apply nth_store_out; auto.
  - destruct (Nat.ltb_spec i (ob_len (mr_buf r) + length vs)).
    + replace i with (ob_len (mr_buf r) + (i - ob_len (mr_buf r))) at 1 by lia. apply nth_store_in; auto. lia.
    + symmetry. apply nth_error_None. lia.
Qed.
Lemma append_ok : forall vs r, mr_len r + length vs <= cap r ->
  let r' := snd (on_buf (ob_append vs) r) in
  fst (on_buf (ob_append vs) r) = Ok tt /\ mr_len r' = mr_len r + length vs /\ cap r' = cap r /\
  mr_table r' = mr_table r /\ mr_counts r' = mr_counts r /\ mr_hashes r' = mr_hashes r.
Proof.
  intros vs r L. unfold on_buf, ob_append, mr_len, ob_capacity in *. rewrite store_ok by auto. cbn [fst snd mr_buf ob_len ob_data mr_table mr_counts mr_hashes].
  rewrite length_store by auto. auto 10.
Qed.
Definition append_if (g : outbuf -> bool) (vs : list N) : M outbuf unit := fun b => if g b then ob_append vs b else (Err, b).
Definition guards (g : outbuf -> bool) (n : nat) : Prop := forall b, g b = true <-> ob_len b + n <= ob_capacity b.
Lemma on_buf_same : forall r, mkRender (mr_buf r) (mr_table r) (mr_counts r) (mr_hashes r) = r. Proof. destruct r; auto. Qed.
Lemma on_buf_if : forall g vs r, on_buf (append_if g vs) r = if g (mr_buf r) then on_buf (ob_append vs) r else (Err, r).
Proof. intros g vs r. unfold on_buf, append_if. destruct (g (mr_buf r)); auto. rewrite on_buf_same. auto. Qed.
Lemma grows_append : forall g vs, guards g (length vs) -> grows (on_buf (append_if g vs)).
Proof.
  intros g vs G r a r' H. rewrite on_buf_if in H. destruct (g (mr_buf r)) eqn:E; [|inversion H; subst; auto].
  apply G in E. destruct (append_ok vs r E) as (A & B & C & _). rewrite H in *. cbn [snd] in *. split; [lia|auto].
Qed.
Lemma simw_append : forall m g vs, guards g (length vs) -> simw m (on_buf (append_if g vs)).
Proof.
  intros m g vs G r r2 a r' (A1 & A2 & A3 & A4 & A5) H L. rewrite on_buf_if in H. destruct (g (mr_buf r)) eqn:E; [|discriminate].
  apply G in E. destruct (append_ok vs r E) as (B1 & B2 & B3 & B4 & B5 & B6). pose proof (fun i => append_rdm m vs r i E) as R.
  rewrite H in *. cbn [fst snd] in *. inversion B1; subst a.
  assert (E2 : mr_len r2 + length vs <= cap r2) by (rewrite <- A1; lia). assert (g (mr_buf r2) = true) by (apply G; exact E2).
  destruct (append_ok vs r2 E2) as (C1 & C2 & C3 & C4 & C5 & C6). pose proof (fun i => append_rdm m vs r2 i E2) as R2.
  rewrite on_buf_if, H0. destruct (on_buf (ob_append vs) r2) as [b r2']. cbn [fst snd] in *. subst b. exists r2'. split; auto.
  split; [lia|]. split; [|repeat split; congruence]. intros i. rewrite R, R2, A1, A2. auto.
Qed.
Lemma guard_u8 : guards (fun b => ob_len b <? ob_capacity b) 1. Proof. intros b. rewrite Nat.ltb_lt. lia. Qed.
Lemma guard_le : forall n, guards (fun b => ob_len b + n <=? ob_capacity b) n. Proof. intros n b. rewrite Nat.leb_le. lia. Qed.
Lemma grows_u8 : forall d, grows (mr_write_u8 d). Proof. intros d. apply (grows_append _ [d] guard_u8). Qed.
Lemma grows_u16 : forall d, grows (mr_write_u16 d). Proof. intros d. apply (grows_append _ (be16 d) (guard_le 2)). Qed.
Lemma grows_u32 : forall d, grows (mr_write_u32 d). Proof. intros d. apply (grows_append _ (be32 d) (guard_le 4)). Qed.
Lemma grows_bytes : forall d, grows (mr_write_bytes d). Proof. intros d. apply (grows_append _ d (guard_le _)). Qed.
Lemma simw_u8 : forall m d, simw m (mr_write_u8 d). Proof. intros m d. apply (simw_append m _ [d] guard_u8). Qed.
Lemma simw_u16 : forall m d, simw m (mr_write_u16 d). Proof. intros m d. apply (simw_append m _ (be16 d) (guard_le 2)). Qed.
Lemma simw_u32 : forall m d, simw m (mr_write_u32 d). Proof. intros m d. apply (simw_append m _ (be32 d) (guard_le 4)). Qed.
Lemma simw_bytes : forall m d, simw m (mr_write_bytes d). Proof. intros m d. apply (simw_append m _ d (guard_le _)). Qed.

(** * Looking names up *)
Section Known.
Context {KN : names}.
Section Two.
Variables (b b2 : outbuf) (rd : nat -> option N).
Hypothesis Hrd : forall i c, rd i = Some c -> ob_at b i = Ok c /\ ob_at b2 i = Ok c.
Lemma next_label_agree : forall lim pos ls e, wname rd lim pos ls e -> forall fuel, next_label_loop fuel b pos = next_label_loop fuel b2 pos.
Proof.
  induction 1; intros [|fuel]; auto; cbn [next_label_loop].
  - destruct (Hrd _ _ H) as [-> ->]. cbn [rbind]. rewrite land192_small by lia. auto.
  - destruct (Hrd _ _ H0) as [-> ->]. cbn [rbind]. rewrite land192_small by (unfold blen; lia). auto.
  - destruct (Hrd _ _ H) as [-> ->]. destruct (Hrd _ _ H1) as [-> ->]. cbn [rbind]. destruct (land192_big hi H0) as [L1 L2].
    unfold COMPRESS_POINTER_MARK8. rewrite L1, L2. replace (N.to_nat (hi * 256 + lo)) with t by (subst t; f_equal; lia). auto.
Qed.
Lemma nc_bytes_agree : forall l p s, (forall i c, nth_error l i = Some c -> rd (N.to_nat p + i) = Some c) ->
  nc_bytes b (length l) p s = nc_bytes b2 (length l) p s.
Proof.
  induction l as [|c l IH]; intros p s Hl; auto. cbn [length nc_bytes]. pose proof (Hl 0 c eq_refl) as H0. rewrite Nat.add_0_r in H0.
  destruct (Hrd _ _ H0) as [-> ->]. unfold bind at 1, lift at 1. unfold bind at 3, lift at 2. unfold bind at 1 3. destruct (read_u8 s) as [[x| | |] s']; auto.
  destruct (c =? x)%N; auto. unfold bind, lift. destruct (p + 1 <? 65536)%N; auto. apply IH. intros i y Hi. rewrite <- (Hl (S i) y Hi). f_equal. lia.
Qed.
End Two.
Lemma agree_at : forall m r r2, inv m r -> inv m r2 -> agree m r r2 -> forall i c, rdm m r i = Some c -> ob_at (mr_buf r) i = Ok c /\ ob_at (mr_buf r2) i = Ok c.
Proof.
  intros m r r2 I I2 (_ & A & _) i c H. split; [apply (ob_at_rdm _ _ _ _ I H)|]. rewrite A in H. apply (ob_at_rdm _ _ _ _ I2 H).
Qed.
Lemma nc_loop_agree : forall m r r2, inv m r -> inv m r2 -> agree m r r2 -> forall fuel lim pos ls e s,
  wname (rdm m r) lim pos ls e -> wf_labels ls -> pb pos ls -> lim <= S (mr_len r) ->
  nc_loop fuel (mr_buf r) (N.of_nat pos) s = nc_loop fuel (mr_buf r2) (N.of_nat pos) s.
Proof.
  intros m r r2 I I2 Ag. pose proof (agree_at m r r2 I I2 Ag) as Hrd. induction fuel as [|fuel IH]; intros lim pos ls e s W F P Hl; auto.
  cbn [nc_loop]. unfold next_label. rewrite Nat2N.id.
  destruct (next_label_spec m r I _ _ _ _ W (proj2 F) P (S (S (ob_len (mr_buf r))))) as (q & Q1 & Q2 & Q3 & Q4).
  { unfold mr_len in Hl. lia. }
  destruct Ag as (Al & _). unfold mr_len in Al. rewrite <- Al. rewrite <- (next_label_agree _ _ _ Hrd _ _ _ _ W). rewrite Q1.
  unfold bind at 1, lift at 1. unfold bind at 3, lift at 1. unfold bind at 1 3. destruct (read_u8 s) as [[n| | |] s']; auto.
  destruct (negb (n =? _)%N) eqn:En; auto. bl. destruct (n =? 0)%N eqn:E0; auto.
  destruct ls as [|l ls]; [rewrite En in E0; discriminate|].
  destruct Q4 as (Q4 & lim' & e' & Q5 & Q6). assert (En' : n = blen l) by congruence. rewrite En'. unfold blen at 1 2. rewrite Nat2N.id.
  assert (Fl : wf_label l) by (destruct F as [F _]; apply Forall_inv in F; auto). unfold pb in Q2. rewrite wire_len_cons in Q2.
  unfold bind. rewrite (nc_bytes_agree _ _ _ Hrd l (N.of_nat (q + 1)) s') by (rewrite Nat2N.id; auto).
  destruct s' as [raw k].
  destruct (Nat.le_gt_cases k (length raw)) as [Hk|Hk].
  - destruct (nc_bytes_spec m r I l (N.of_nat (q + 1)) raw k) as (a & k' & R1 & R2 & R3); [rewrite Nat2N.id; auto|unfold blen; lia|auto|].
    rewrite <- (nc_bytes_agree _ _ _ Hrd l (N.of_nat (q + 1)) (mkIn raw k)) by (rewrite Nat2N.id; auto). rewrite R1.
    destruct R3 as [->|[->|(-> & R4 & R5)]]; auto.
    replace (N.of_nat (q + 1) + blen l)%N with (N.of_nat (q + 1 + length l)) by (unfold blen; lia).
    apply (IH lim' _ ls e'); auto.
    + destruct F as [F F2]. split; [apply Forall_inv_tail in F; auto|]. rewrite wire_len_cons in F2. lia.
    + unfold pb. lia.
    + lia.
  - destruct l as [|c l]; [destruct Fl as [Fl _]; cbn in Fl; lia|]. cbn [length nc_bytes].
    pose proof (Q4 0 c eq_refl) as H0. rewrite Nat.add_0_r in H0. destruct (Hrd _ _ H0) as [_ Hc]. unfold bind at 1 3, lift. rewrite Nat2N.id, Hc.
    unfold bind. assert (Er : read_u8 (mkIn raw k) = (Err, mkIn raw k)); [|rewrite Er; auto].
    unfold read_u8, ib_len. cbn [ib_data ib_pos]. replace (k <? length raw) with false by (symmetry; apply Nat.ltb_ge; lia). auto.
Qed.
Lemma fo_loop_agree : forall m r r2, inv m r -> inv m r2 -> agree m r r2 -> forall hash items s,
  Forall (item_ok (rdm m r)) items -> fo_loop (mr_buf r) hash items s = fo_loop (mr_buf r2) hash items s.
Proof.
  intros m r r2 I I2 Ag hash items. induction items as [|it items IH]; intros s Hi; auto. cbn [fo_loop]. apply Forall_cons_iff in Hi. destruct Hi as [H Hi].
  assert (E : nc_compare (mr_buf r) hash it s = nc_compare (mr_buf r2) hash it s).
  { unfold nc_compare, bind, get. destruct (negb _ || _); auto. destruct H as (ils & e & Kn & F' & W & A1 & A2 & A3).
    replace (item_pos it) with (N.of_nat (N.to_nat (item_pos it))) by lia. eapply (nc_loop_agree m r r2); eauto.
    - unfold pb. destruct F'. lia.
    - assert (N.to_nat (item_pos it) < mr_len r); [|lia].
      destruct W; match goal with H : rdm m r _ = Some _ |- _ => apply (ob_at_rdm _ _ _ _ I) in H; lia end. }
  unfold bind. rewrite E. destruct (nc_compare (mr_buf r2) hash it s) as [[[|]| | |] s']; auto.
Qed.
Lemma find_offset_agree : forall m r r2, inv m r -> inv m r2 -> agree m r r2 -> forall raw hash, find_offset r raw hash = find_offset r2 raw hash.
Proof.
  intros m r r2 I I2 Ag raw hash. pose proof Ag as (_ & _ & At & Ac & _). unfold find_offset. rewrite <- At, <- Ac.
  assert (Hb : N.to_nat (hash mod 64) < 64) by (pose proof (N.mod_lt hash 64); lia).
  set (b := N.to_nat (hash mod 64)) in *.
  destruct (inv_tab _ _ I) as [T1 T2]. destruct (inv_cnt _ _ I) as [C1 C2].
  destruct (idx_ok_lt _ (mr_table r) b) as (row & R1 & R2); [lia|].
  destruct (idx_ok_lt _ (mr_counts r) b) as (c & R3 & R4); [lia|].
  rewrite R1, R3. cbn [rbind]. destruct (slice row 0 c) as [used| | |] eqn:Es; auto. cbn [rbind]. f_equal. eapply fo_loop_agree; eauto.
  unfold slice in Es. destruct (_ && _); [|discriminate]. inversion Es; subst used. rewrite Nat.sub_0_r. change (skipn 0 row) with row.
  apply Forall_forall. intros it Hit. apply In_nth_error in Hit. destruct Hit as [k Hk].
  assert (k < c) by (assert (k < length (firstn c row)) by (apply nth_error_Some; congruence); rewrite firstn_length in *; lia).
  rewrite nth_firstn in Hk by auto. eapply inv_items; eauto.
Qed.
Definition rehash (r : render) (hs : list N) : render := mkRender (mr_buf r) (mr_table r) (mr_counts r) hs.
Lemma rehash_inv : forall m r hs, inv m r -> length hs = 128 -> inv m (rehash r hs).
Proof. intros m r hs I L. constructor; try apply I. auto. Qed.
Lemma rehash_agree : forall m r r2 hs, agree m r r2 -> agree m (rehash r hs) (rehash r2 hs).
Proof. intros m r r2 hs (A & B & C & D & E). repeat split; auto. Qed.
Lemma wn_search_agree : forall m compress nm k r r2 lu level a r', inv m r -> inv m r2 -> agree m r r2 ->
  wn_search k compress nm lu level r = (a, r') -> exists r2', wn_search k compress nm lu level r2 = (a, r2') /\ agree m r' r2' /\ inv m r' /\ inv m r2' /\ mr_buf r' = mr_buf r /\ mr_buf r2' = mr_buf r2.
Proof.
  intros m compress nm. induction k as [|k IH]; intros r r2 lu level a r' I I2 Ag H; cbn [wn_search] in *.
  - unfold ret in *. inversion H; subst. exists r2. auto 10.
  - set (lv := if 0 <? lu then level + 1 else level) in *.
    unfold bind at 1, lift at 1 in H. unfold bind at 1, lift at 1. destruct (nr_is_root _) as [[|]| | |]; try (inversion H; subst; exists r2; auto 10; fail).
    unfold bind at 1, lift at 1 in H. unfold bind at 1, lift at 1. destruct (nr_hash _) as [h| | |]; try (inversion H; subst; exists r2; auto 10; fail).
    unfold bind at 1, modify_r at 1 in H. unfold bind at 1, modify_r at 1. pose proof Ag as (_ & _ & _ & _ & Ah). rewrite <- Ah.
    unfold upd_r in *. destruct (lu <? length (mr_hashes r)) eqn:El; cbn [rbind] in *; [|inversion H; subst; exists r2; auto 10].
    fold (rehash r (upd (mr_hashes r) lu h)) in H. fold (rehash r2 (upd (mr_hashes r) lu h)). set (hs := upd (mr_hashes r) lu h) in *.
    assert (Lh : length hs = 128) by (unfold hs; rewrite upd_length; apply I).
    pose proof (rehash_inv m r hs I Lh) as J. pose proof (rehash_inv m r2 hs I2 Lh) as J2. pose proof (rehash_agree m r r2 hs Ag) as Ag'.
    assert (G : forall r1 r12, inv m r1 -> inv m r12 -> agree m r1 r12 -> mr_buf r1 = mr_buf r -> mr_buf r12 = mr_buf r2 -> wn_search k compress nm (lu + 1) lv r1 = (a, r') ->
      exists r2', wn_search k compress nm (lu + 1) lv r12 = (a, r2') /\ agree m r' r2' /\ inv m r' /\ inv m r2' /\ mr_buf r' = mr_buf r /\ mr_buf r2' = mr_buf r2).
    { intros r1 r12 X1 X2 X3 X4 X5 X6. destruct (IH r1 r12 _ _ _ _ X1 X2 X3 X6) as (r2' & Y1 & Y2 & Y3 & Y4 & Y5 & Y6). exists r2'. rewrite Y5, Y6. auto 10. }
    destruct compress; [|apply (G (rehash r hs)); auto].
    unfold bind at 1, get at 1 in H. unfold bind at 1, get at 1. unfold bind at 1, lift at 1 in H. unfold bind at 1, lift at 1.
    destruct (nr_raw _) as [raw| | |]; try (inversion H; subst; exists (rehash r2 hs); auto 10; fail).
    unfold bind at 1, lift at 1 in H. unfold bind at 1, lift at 1. rewrite <- (find_offset_agree m (rehash r hs) (rehash r2 hs) J J2 Ag').
    destruct (find_offset (rehash r hs) raw h) as [off| | |]; try (inversion H; subst; exists (rehash r2 hs); auto 10; fail).
    destruct (negb (off =? NO_OFFSET)%N); [inversion H; subst; exists (rehash r2 hs); auto 10|]. apply (G (rehash r hs)); auto.
Qed.
Lemma agree_read : forall m r r2 p, agree m r r2 -> m p = false -> ob_at (mr_buf r) p = ob_at (mr_buf r2) p.
Proof.
  intros m r r2 p (A & B & _) Hp. specialize (B p). unfold rdm in B. rewrite Hp in B. unfold ob_at. change (ob_len (mr_buf r)) with (mr_len r). change (ob_len (mr_buf r2)) with (mr_len r2).
  rewrite <- A in *. destruct (p <? mr_len r); auto. unfold idx. rewrite B. auto.
Qed.
Lemma grows_register : forall n i p l, grows (wn_register n i p l).
Proof. intros n i p l r a r' H. apply wn_register_buf in H. unfold mr_len. rewrite H. auto. Qed.
Lemma add_offset_agree : forall m r r2 h o l a, agree m r r2 -> add_offset h o l r = Ok a -> exists a2, add_offset h o l r2 = Ok a2 /\ agree m a a2 /\ mr_buf a = mr_buf r /\ mr_buf a2 = mr_buf r2.
Proof.
  intros m r r2 h o l a Ag H. pose proof Ag as (A & B & C & D & E). unfold add_offset in *. rewrite <- C, <- D.
  destruct (idx (mr_counts r) _) as [c| | |]; try discriminate. cbn [rbind] in *. destruct (c + 1 =? RESERVED_ITEMS); [inversion H; subst; eauto|].
  destruct (idx (mr_table r) _) as [t| | |]; try discriminate. cbn [rbind] in *.
  destruct (upd_r t c _) as [t'| | |]; try discriminate. cbn [rbind] in *.
  destruct (upd_r (mr_table r) _ _) as [t2| | |]; try discriminate. cbn [rbind] in *.
  destruct (upd_r (mr_counts r) _ _) as [t3| | |]; try discriminate. cbn [rbind] in *. inversion H; subst. eexists. split; [reflexivity|].
  split; [|auto]. split; [exact A|]. split; [exact B|]. cbn. auto.
Qed.
Lemma simw_register : forall m n i p l, (forall q, p <= q -> m q = false) -> forall r r2 a r', agree m r r2 ->
  wn_register n i p l r = (Ok a, r') -> exists r2', wn_register n i p l r2 = (Ok a, r2') /\ agree m r' r2'.
Proof.
  intros m. induction n as [|n IH]; intros i p l Hm r r2 a r' Ag H; cbn [wn_register] in *.
  - unfold ret in *. inversion H; subst. eauto.
  - unfold bind at 1, get at 1 in H. unfold bind at 1, get at 1. unfold bind at 1, lift at 1 in H. unfold bind at 1, lift at 1.
    rewrite <- (agree_read m r r2 p) by (auto using Nat.le_refl).
    destruct (ob_at (mr_buf r) p) as [ll| | |]; try discriminate. destruct (ll =? 0)%N; [unfold ret in *; inversion H; subst; eauto|].
    destruct (MAX_COMPRESS_POINTER <? p); [unfold ret in *; inversion H; subst; eauto|].
    unfold bind at 1, lift at 1 in H. unfold bind at 1, lift at 1. pose proof Ag as (_ & _ & _ & _ & Ah). rewrite <- Ah.
    destruct (idx (mr_hashes r) i) as [h| | |]; try discriminate.
    unfold bind at 1, modify_r in H. unfold bind at 1, modify_r.
    destruct (add_offset h (as_u16 (N.of_nat p)) (as_u8 (N.of_nat l)) r) as [ra| | |] eqn:Ea; try discriminate.
    destruct (add_offset_agree m r r2 _ _ _ _ Ag Ea) as (ra2 & -> & Ag' & B1 & B2).
    unfold bind at 1, lift at 1 in H. unfold bind at 1, lift at 1. destruct (u8_add ll 1) as [st| | |]; try discriminate.
    unfold bind at 1, lift at 1 in H. unfold bind at 1, lift at 1. destruct (csub l (N.to_nat st)) as [nl| | |]; try discriminate.
    apply (IH (i + 1) (p + N.to_nat st) nl (fun q Hq => Hm q ltac:(lia)) ra ra2); auto.
Qed.
(** * With the invariant *)
Definition sim (w : M render unit) : Prop := forall m r r2 r', inv m r -> inv m r2 -> agree m r r2 -> w r = (Ok tt, r') -> mr_len r' <= cap r2 ->
  exists r2', w r2 = (Ok tt, r2') /\ agree m r' r2'.
Definition simple (w : M render unit) : Prop := (exists P, emits w P) /\ sim w.
Lemma simple_simw : forall w P, emits w P -> (forall m, simw m w) -> simple w.
Proof. intros w P E S1. split; [eauto|]. intros m r r2 r' _ _ Ag. apply S1. auto. Qed.
Lemma simple_seq : forall w1 w2, simple w1 -> simple w2 -> (exists P, emits (w1 ;; w2) P) -> simple (w1 ;; w2).
Proof.
  intros w1 w2 ((P1 & E1) & S1) ((P2 & E2) & S2) X. split; auto. intros m r r2 r' I I2 Ag H L. unfold bind in *.
  pose proof (E1 m r I) as A. pose proof (E1 m r2 I2) as A2. destruct (w1 r) as [[[]| | |] r1] eqn:E; try discriminate.
  destruct A as (X1 & I1 & _). pose proof (E2 m r1 I1) as B. rewrite H in B. destruct B as ((L1 & _) & _).
  destruct (S1 m r r2 r1 I I2 Ag E ltac:(lia)) as (r2' & Er & Ag'). rewrite Er in *. destruct A2 as ((_ & C2 & _) & J2 & _).
  apply (S2 m r1); auto. rewrite C2. auto.
Qed.
Lemma sim_write_name : forall ls c, wf_labels ls -> sim (write_name (name_of ls) c).
Proof.
  intros ls c F m r r2 r' I I2 Ag H L. unfold write_name in *. unfold bind at 1 in H. unfold bind at 1.
  destruct (wn_search (label_count (name_of ls)) c (name_of ls) 0 0 r) as [a r1] eqn:E.
  destruct (wn_search_agree m c (name_of ls) _ r r2 0 0 a r1 I I2 Ag E) as (r2' & -> & Ag' & J & J2 & B1 & B2).
  destruct a as [[lu off]| | |]; try discriminate. unfold bind at 1, get at 1 in H. unfold bind at 1, get at 1.
  pose proof Ag' as (Al & _). change (ob_len (mr_buf r2')) with (mr_len r2'). change (ob_len (mr_buf r1)) with (mr_len r1) in H. rewrite <- Al. set (p := mr_len r1) in *.
  assert (Hm : forall q, p <= q -> m q = false).
  { intros q Hq. destruct (m q) eqn:Em; auto. apply (inv_mask _ _ J) in Em. unfold p in Hq. lia. }
  replace (cap r2) with (cap r2') in L by (rewrite B2; auto).
  set (w1 := if negb c || _ then _ else _) in *. set (w2 := if c && _ then _ else _) in *.
  assert (G1 : grows w1 /\ simw m w1).
  { unfold w1. destruct (negb c || _); [split; [apply grows_bytes|apply simw_bytes]|]. destruct (0 <? lu); [|split; [apply grows_ret|apply simw_ret]].
    split.
    - apply grows_bind; [apply grows_lift|]. intros x. apply grows_bind; [apply grows_lift|]. intros y. apply grows_bytes.
    - apply simw_bind; [apply simw_lift|apply grows_lift| |].
      + intros x. apply simw_bind; [apply simw_lift|apply grows_lift|intros y; apply simw_bytes|intros y; apply grows_bytes].
      + intros x. apply grows_bind; [apply grows_lift|]. intros y. apply grows_bytes. }
  assert (G2 : grows w2 /\ simw m w2).
  { unfold w2. destruct (c && _); [split; [apply grows_u16|apply simw_u16]|split; [apply grows_ret|apply simw_ret]]. }
  unfold bind at 1 in H. destruct (w1 r1) as [[[]| | |] ra] eqn:Ea; try discriminate. destruct (proj1 G1 _ _ _ Ea) as [La Ca].
  unfold bind at 1 in H. destruct (w2 ra) as [[[]| | |] rb] eqn:Eb; try discriminate. destruct (proj1 G2 _ _ _ Eb) as [Lb Cb].
  destruct (grows_register _ _ _ _ _ _ _ H) as [Lr Cr].
  destruct (proj2 G1 r1 r2' tt ra Ag' Ea ltac:(lia)) as (ra2 & Ea2 & Aga). destruct (proj1 G1 _ _ _ Ea2) as [La2 Ca2].
  unfold bind at 1. rewrite Ea2.
  destruct (proj2 G2 ra ra2 tt rb Aga Eb ltac:(rewrite Ca2; lia)) as (rb2 & Eb2 & Agb). destruct (proj1 G2 _ _ _ Eb2) as [Lb2 Cb2].
  unfold bind at 1. rewrite Eb2.
  apply (simw_register m lu 0 p _ Hm rb rb2 tt r'); auto.
Qed.
Lemma simple_name : forall n c, wf_name n -> all_known n -> simple (write_name n c).
Proof. intros n c (ls & W & ->) Kn. split; [eexists; apply write_name_emits_k; eauto|apply sim_write_name; auto]. Qed.
Lemma simple_u8 : forall d, (d < 256)%N -> simple (mr_write_u8 d). Proof. intros d H. eapply simple_simw; [apply emits_u8; auto|intros m; apply simw_u8]. Qed.
Lemma simple_u16 : forall d, simple (mr_write_u16 d). Proof. intros d. eapply simple_simw; [apply emits_u16|intros m; apply simw_u16]. Qed.
Lemma simple_u32 : forall d, simple (mr_write_u32 d). Proof. intros d. eapply simple_simw; [apply emits_u32|intros m; apply simw_u32]. Qed.
Lemma simple_bytes : forall d, bytes d -> simple (mr_write_bytes d). Proof. intros d B. eapply simple_simw; [apply emits_bytes; auto|intros m; apply simw_bytes]. Qed.
Lemma simple_ret : simple (ret tt). Proof. eapply simple_simw; [apply emits_ret|intros m; apply simw_ret]. Qed.
Definition Ptrue : rel := fun _ _ _ => True.
Lemma mono_true : mono Ptrue. Proof. intros rd rd' s e _ _. exact Logic.I. Qed.
Lemma emits_true : forall w P, emits w P -> emits w Ptrue.
Proof. intros w P. apply emits_conseq. intros. exact Logic.I. Qed.
Lemma simple_then : forall w1 w2, simple w1 -> simple w2 -> simple (w1 ;; w2).
Proof.
  intros w1 w2 S1 S2. apply simple_seq; auto. destruct S1 as ((P1 & E1) & _), S2 as ((P2 & E2) & _).
  eexists. eapply emits_seq; [apply mono_true|eapply emits_true; eauto|exact E2].
Qed.
Lemma simple_map : forall A (f : A -> M render unit) l, Forall (fun x => simple (f x)) l -> simple (mapM_ f l).
Proof. intros A f l. induction 1; cbn [mapM_]; [apply simple_ret|apply simple_then; auto]. Qed.
Lemma simple_field : forall k v, wf_field k v -> field_known v -> simple (field_to_wire v).
Proof.
  assert (G : forall d, bytes d -> simple (mapM_ mr_write_u8 d)).
  { intros d B. apply simple_map. eapply Forall_impl; [|exact B]. intros x Hx. apply simple_u8. exact Hx. }
  assert (Gb : forall d, wf_string d -> simple (byte_binary_to_wire d)).
  { intros d [L B]. unfold byte_binary_to_wire. apply simple_then; [|apply simple_bytes; auto]. apply simple_u8. unfold as_u8. apply N.mod_lt. discriminate. }
  intros k v W Kn. destruct k, v; cbn [wf_field] in W; try (destruct W; fail); cbn [field_to_wire].
  - apply G, W. - apply G, W. - apply simple_name; auto. - apply simple_u8; auto. - apply simple_u16. - apply simple_u32. - apply simple_u16.
  - apply simple_map. eapply Forall_impl; [|exact W]. auto.
  - auto.
  - apply simple_bytes. auto.
Qed.
Lemma simple_rdata : forall t rd, wf_rdata t rd -> rdata_known rd -> simple (rdata_to_wire rd).
Proof.
  intros t rd W Kn. apply wf_rdata_fields in W. destruct W as [F _]. unfold rdata_to_wire. apply simple_map.
  unfold rdata_known in Kn. revert Kn. induction F as [|k v ks vs Wk F IH]; intros Kn; constructor; apply Forall_cons_iff in Kn; destruct Kn; eauto using simple_field.
Qed.
(** RDLENGTH. *)
Lemma sim_rdlen : forall body P, mono P -> emits body P -> (forall rd s e, P rd s e -> s < e) -> sim body -> sim (with_rdlen body).
Proof.
  intros bd P MP E Pos S1 m r r2 r' I I2 Ag H L.
  pose proof (emits_rdlen bd P MP E m r I) as A. rewrite H in A. destruct A as (X & I' & (Le & PL & Pb)). apply Pos in Pb.
  pose proof Ag as (Al & Ar & At & Ac & Ah).
  unfold with_rdlen in *. unfold bind at 1, mr_length at 1 in H. unfold bind at 1, mr_length at 1. unfold bind at 1 in H. unfold bind at 1.
  destruct (Nat.lt_ge_cases (mr_len r + 2) (cap r)) as [L1|L1].
  2:{ exfalso. pose proof (inv_len _ _ I') as Q. destruct X as (_ & Cx & _). rewrite Cx in Q. lia. }
  assert (L2 : mr_len r2 + 2 < cap r2) by lia.
  destruct (skip_spec 2 m r I L1) as (r1 & E1 & X1 & N1 & I1 & R1). destruct (skip_spec 2 m r2 I2 L2) as (s1 & F1 & Y1 & M1 & J1 & T1).
  rewrite E1 in H. rewrite F1. rewrite <- Al in *.
  set (m1 := fun i => m i || ((mr_len r <=? i) && (i <? mr_len r + 2))) in *.
  assert (Ag1 : agree m1 r1 s1).
  { unfold mr_skip, on_buf, ob_skip in E1, F1. unfold mr_len in L1, L2, Al.
    replace (ob_len (mr_buf r) + 2 <? ob_capacity (mr_buf r)) with true in E1 by (symmetry; apply Nat.ltb_lt; auto).
    replace (ob_len (mr_buf r2) + 2 <? ob_capacity (mr_buf r2)) with true in F1 by (symmetry; apply Nat.ltb_lt; lia).
    inversion E1; inversion F1; subst r1 s1. split; [cbn; lia|]. split; [|cbn; auto].
    assert (G : forall x, mr_len x = mr_len r -> forall i, rdm m1 (mkRender (mkOut (ob_data (mr_buf x)) (ob_len (mr_buf x) + 2)) (mr_table x) (mr_counts x) (mr_hashes x)) i = rdm m x i).
    { intros x Lx i. unfold rdm, mr_len. cbn [mr_buf ob_len ob_data]. unfold m1. unfold mr_len in Lx. unfold mr_len. rewrite <- Lx. destruct (m i); auto. cbn [orb].
      destruct (Nat.ltb_spec i (ob_len (mr_buf x))).
      - replace (ob_len (mr_buf x) <=? i) with false by (symmetry; apply Nat.leb_gt; lia). cbn [andb].
        replace (i <? ob_len (mr_buf x) + 2) with true by (symmetry; apply Nat.ltb_lt; lia). auto.
      - replace (ob_len (mr_buf x) <=? i) with true by (symmetry; apply Nat.leb_le; lia). cbn [andb]. destruct (i <? _); auto. }
    intros i. rewrite !G; auto. }
  unfold bind at 1 in H. unfold bind at 1.
  pose proof (E m1 r1 I1) as A. pose proof (E m1 s1 J1) as B. destruct (bd r1) as [[[]| | |] ra] eqn:Ea; try discriminate. destruct A as (Xa & Ia & Pa).
  unfold bind at 1, mr_length at 1 in H. pose proof Xa as (Xa1 & Xa2 & _).
  assert (Lr : mr_len ra = mr_len r').
  { unfold bind, lift in H. rewrite csub_ok in H by lia. rewrite csub_ok in H by lia. unfold mr_write_u16_at, on_buf, ob_write_u16_at in H.
    unfold mr_len in *. replace (ob_len (mr_buf r) + 2 <=? ob_len (mr_buf ra)) with true in H by (symmetry; apply Nat.leb_le; lia).
    unfold ob_store in H. destruct (store _ _ _); inversion H; subst r'; reflexivity. }
  destruct (S1 m1 r1 s1 ra I1 J1 Ag1 Ea) as (sa & Eb & Ag2).
  { destruct Y1 as (_ & -> & _). lia. }
  rewrite Eb in *. destruct B as (Xb & Ib & _). unfold bind at 1, mr_length at 1. pose proof Ag2 as (Al2 & Ar2 & At2 & Ac2 & Ah2). rewrite <- Al2.
  unfold bind, lift in *. rewrite csub_ok in * by lia. rewrite csub_ok in * by lia. set (L' := as_u16 _) in *.
  assert (G : forall x x', inv m1 x -> mr_len x = mr_len ra -> mr_write_u16_at (mr_len r) L' x = (Ok tt, x') ->
     mr_len x' = mr_len ra /\ (forall i, rdm m x' i = if (mr_len r <=? i) && (i <? mr_len r + 2) then nth_error (be16 L') (i - mr_len r) else rdm m1 x i) /\
     mr_table x' = mr_table x /\ mr_counts x' = mr_counts x /\ mr_hashes x' = mr_hashes x).
  { intros x x' Ix Lx Ex. destruct (patch_spec (be16 L') (mr_len r) m1 x) as (x3 & E3 & I3 & L3 & R3 & O3 & V3 & C3); auto.
    { apply be16_bytes. } { cbn [length be16]. lia. }
    { cbn [length be16]. intros i Hi. unfold m1. apply orb_true_iff. right. apply andb_true_iff. rewrite Nat.leb_le, Nat.ltb_lt. lia. }
    assert (Ew : mr_write_u16_at (mr_len r) L' x = (Ok tt, x3)).
    { rewrite <- E3. unfold mr_write_u16_at, on_buf, ob_write_u16_at. unfold mr_len in *. replace (ob_len (mr_buf r) + 2 <=? ob_len (mr_buf x)) with true by (symmetry; apply Nat.leb_le; lia). reflexivity. }
    assert (x' = x3) by congruence. subst x3. split; [lia|]. split.
    - intros i. destruct ((mr_len r <=? i) && (i <? mr_len r + 2)) eqn:C.
      + apply andb_true_iff in C. destruct C as [Ci1 Ci2]. apply Nat.leb_le in Ci1. apply Nat.ltb_lt in Ci2. unfold rdm. destruct (m i) eqn:Em; [apply (inv_mask _ _ I) in Em; lia|].
        rewrite L3. replace (i <? mr_len x) with true by (symmetry; apply Nat.ltb_lt; lia).
        destruct (nth_lt _ (be16 L') (i - mr_len r)) as [y Ey]; [cbn [length be16]; lia|]. rewrite Ey. replace i with (mr_len r + (i - mr_len r)) by lia. auto.
      + rewrite <- R3. unfold rdm. unfold m1. rewrite C, orb_false_r. auto.
    - unfold on_buf, ob_store in E3. destruct (store _ _ _); inversion E3; subst x'; auto. }
  destruct (patch_spec (be16 L') (mr_len r) m1 sa) as (s3 & E3 & I3 & L3 & _); auto.
  { apply be16_bytes. } { cbn [length be16]. lia. }
  { cbn [length be16]. intros i Hi. unfold m1. apply orb_true_iff. right. apply andb_true_iff. rewrite Nat.leb_le, Nat.ltb_lt. lia. }
  assert (Ew : mr_write_u16_at (mr_len r) L' sa = (Ok tt, s3)).
  { rewrite <- E3. unfold mr_write_u16_at, on_buf, ob_write_u16_at. unfold mr_len in *. replace (ob_len (mr_buf r) + 2 <=? ob_len (mr_buf sa)) with true by (symmetry; apply Nat.leb_le; lia). reflexivity. }
  exists s3. split; auto. destruct (G ra r' Ia eq_refl H) as (U1 & U2 & U3 & U4 & U5). destruct (G sa s3 Ib (eq_sym Al2) Ew) as (V1 & V2 & V3 & V4 & V5).
  split; [lia|]. split; [|repeat split; congruence]. intros i. rewrite U2, V2, Ar2. auto.
Qed.
Lemma simple_rr : forall rs rd, wf_name (rs_name rs) -> all_known (rs_name rs) -> wf_rdata (rs_type rs) rd -> has_octets rd -> rdata_known rd -> simple (rr_to_wire rs rd).
Proof.
  intros rs rd W Kn Wd Ho Kd. unfold rr_to_wire. apply simple_then.
  - unfold rr_prefix_to_wire. apply simple_then; [apply simple_name; auto|]. apply simple_then; [apply simple_u16|]. apply simple_then; [apply simple_u16|apply simple_u32].
  - change (simple (with_rdlen (rdata_to_wire rd))). pose proof (emits_rdata_k _ _ Wd Kd) as E. split.
    + eexists. apply emits_rdlen; [apply mono_rdata|exact E].
    + apply sim_rdlen with (P := Prdata rd); auto using mono_rdata; [|eapply simple_rdata; eauto]. intros p s e H. apply (has_octets_pos _ _ _ _ _ Wd H). auto.
Qed.
Lemma simple_rrset : forall rs, rrset_ok rs -> rrset_known rs -> simple (rrset_to_wire rs).
Proof.
  intros rs (W & _ & _ & _ & D & _) [Kn Kd]. unfold rrset_to_wire. destruct (rs_rdatas rs) as [|d ds].
  - apply simple_then; [|apply simple_u16]. unfold rr_prefix_to_wire. apply simple_then; [apply simple_name; auto|]. apply simple_then; [apply simple_u16|]. apply simple_then; [apply simple_u16|apply simple_u32].
  - apply simple_map. apply Forall_forall. intros x Hx. rewrite Forall_forall in D, Kd. destruct (D x Hx). apply simple_rr; auto.
Qed.
Lemma simple_section : forall b c s, section_ok b c s -> (forall rs l, s = Some l -> In rs l -> rrset_known rs) -> simple (section_to_wire s).
Proof.
  intros b c [l|] [_ H] Kn; cbn [section_to_wire]; [|apply simple_ret]. destruct H as (_ & F & _). apply simple_map. rewrite Forall_forall in *. intros x Hx.
  apply simple_rrset; auto. eapply Kn; eauto.
Qed.
Lemma simple_header : forall h, simple (header_to_wire h).
Proof. intros h. unfold header_to_wire. repeat (apply simple_then; [apply simple_u16|]). apply simple_u16. Qed.
Lemma simple_question : forall q, question_ok q -> all_known (q_name q) -> simple (question_to_wire q).
Proof.
  intros q (W & _ & _) Kn. unfold question_to_wire. apply simple_then; [apply simple_name; auto|]. apply simple_then; apply simple_u16.
Qed.
End Known.

(** * Whole responses *)
Lemma response_known_all : forall r, response_known r.
Proof. intros r. split; [apply name_all_known|]. intros. split; [apply name_all_known|]. apply Forall_forall. intros. apply rdata_all_known. Qed.
Lemma tc_only_differs : forall r, all_records r <> [] -> tc_only r <> r.
Proof.
  intros r H E. apply H. unfold all_records. rewrite <- E. reflexivity.
Qed.
Lemma response_whole : forall dat r n r', bytes dat -> consistent r -> (N.of_nat (length dat) <= 65535)%N ->
  response_to_wire r (mr_new dat) = (Ok n, r') -> response_from_wire (mr_bytes r') = Ok r -> body_to_wire r (mr_new dat) = (Ok tt, r') /\ n = mr_len r'.
Proof.
  intros dat r n r' B Co Ld H D. pose proof (response_render all_names dat r B Co (response_known_all r)) as R. rewrite H in R.
  destruct (head_size r <=? length dat); [|discriminate].
  assert (Nc : ~ (all_records r <> [] /\ cut_off r (Ok n) r')).
  { intros [Nr C]. destruct (cut_off_decodes r _ _ Co C) as [_ X]. rewrite D in X. inversion X. eapply tc_only_differs; eauto. }
  destruct R as [C|(Nr & [C|C])]; [|tauto|discriminate]. destruct C as (C & C2 & _). inversion C. auto.
Qed.
Lemma body_render : forall r s s', body_to_wire r s = (Ok tt, s') -> response_to_wire r s = (Ok (mr_len s'), s').
Proof.
  intros r s s' H. unfold body_to_wire in H. unfold response_to_wire. unfold bind at 1 in H. unfold bind at 1.
  destruct (header_to_wire (r_header r) s) as [[[]| | |] r1]; try discriminate.
  unfold bind at 1 in H. unfold bind at 1. destruct (question_to_wire (r_question r) r1) as [[[]| | |] r2]; try discriminate.
  unfold bind at 1, mr_length at 1. unfold bind at 1. rewrite (proj2 (sections_whole r (mr_len r2) _ r2 s') H). reflexivity.
Qed.
Lemma simple_body : forall r, consistent r -> simple (body_to_wire r).
Proof.
  intros r (Hk & Hq1 & Qk & S1 & S2 & S3). unfold body_to_wire. apply simple_then; [apply simple_header|]. apply simple_then; [apply simple_question; auto; apply name_all_known|].
  cbn [mapM_]. pose proof (response_known_all r) as [_ Kr].
  repeat (apply simple_then; [eapply simple_section; eauto; intros rs l E Hin; eapply Kr; eauto|]). apply simple_ret.
Qed.
Lemma response_indep : forall dat dat2 r n r1 a2 r2, bytes dat -> bytes dat2 -> consistent r -> (N.of_nat (length dat) <= 65535)%N ->
  response_to_wire r (mr_new dat) = (Ok n, r1) -> response_from_wire (mr_bytes r1) = Ok r ->
  response_to_wire r (mr_new dat2) = (a2, r2) -> n <= length dat2 -> a2 = Ok n /\ mr_bytes r2 = mr_bytes r1.
Proof.
  intros dat dat2 r n r1 a2 r2 B B2 Co Ld H D H2 Ln. destruct (response_whole dat r n r1 B Co Ld H D) as [E ->].
  destruct (simple_body r Co) as [(P & Em) S1].
  pose proof (inv_new dat B) as I. pose proof (inv_new dat2 B2) as I2.
  destruct (S1 (fun _ => false) (mr_new dat) (mr_new dat2) r1 I I2) as (r2' & E2 & Ag); auto.
  { split; [reflexivity|]. split; [|auto]. intros i. reflexivity. }
  apply body_render in E2 as E3. rewrite H2 in E3. inversion E3; subst a2 r2'. pose proof Ag as (Al & Ar & _). rewrite Al. split; auto.
  pose proof (Em _ _ I) as X. rewrite E in X. destruct X as (_ & J & _). pose proof (Em _ _ I2) as X. rewrite E2 in X. destruct X as (_ & J2 & _).
  apply nth_error_ext. intros i. destruct (Nat.lt_ge_cases i (mr_len r1)).
  - specialize (Ar i). unfold rdm in Ar. rewrite <- Al in Ar. replace (i <? mr_len r1) with true in Ar by (symmetry; apply Nat.ltb_lt; auto).
    unfold mr_bytes, ob_bytes. rewrite !nth_firstn; auto. change (i < mr_len r2). lia.
  - transitivity (@None N); [|symmetry]; apply nth_error_None; [rewrite (mr_bytes_len _ _ J2)|rewrite (mr_bytes_len _ _ J)]; lia.
Qed.

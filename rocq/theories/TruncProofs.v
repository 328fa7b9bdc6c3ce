(** [truncate] that cuts off no name (C60). *)
From Verif Require Import Base NameModel RenderModel CodesModel RDataModel MsgModel SpecName SpecBuf
  BaseLemmas BitLemmas RenderProofs RenderProofs2 BufProofs LiveProofs IndepProofs.

(** * What lies behind the written octets is never read. *)
Definition like (b b2 : outbuf) : Prop := ob_len b = ob_len b2 /\ forall p, ob_at b p = ob_at b2 p.
Lemma next_label_like : forall b b2, like b b2 -> forall fuel p, next_label_loop fuel b p = next_label_loop fuel b2 p.
Proof. intros b b2 [_ A]. induction fuel as [|f IH]; intros p; cbn [next_label_loop]; [reflexivity|]. rewrite (A p). destruct (ob_at b2 p); cbn [rbind]; auto. destruct (_ =? _)%N; auto. rewrite (A (p + 1)). destruct (ob_at b2 (p + 1)); cbn [rbind]; auto. Qed.
Lemma nc_bytes_like : forall b b2, like b b2 -> forall n p s, nc_bytes b n p s = nc_bytes b2 n p s.
Proof.
  intros b b2 [_ A]. induction n as [|n IH]; intros p s; cbn [nc_bytes]; [reflexivity|]. unfold bind, lift. rewrite (A (N.to_nat p)). destruct (ob_at b2 (N.to_nat p)) as [c| | |]; auto.
  destruct (read_u8 s) as [[c2| | |] s2]; auto. destruct (c =? c2)%N; auto. destruct (p + 1 <? 65536)%N; auto.
Qed.
Lemma nc_loop_like : forall b b2, like b b2 -> forall f p s, nc_loop f b p s = nc_loop f b2 p s.
Proof.
  intros b b2 A. induction f as [|f IH]; intros p s; cbn [nc_loop]; [reflexivity|]. unfold bind, lift, next_label. rewrite (next_label_like b b2 A). replace (ob_len b2) with (ob_len b) by apply A.
  destruct (next_label_loop (S (S (ob_len b))) b2 (N.to_nat p)) as [[x y]| | |]; auto. destruct (read_u8 s) as [[n| | |] s2]; auto.
  destruct (negb (n =? x)%N); auto. destruct (n =? 0)%N; auto. rewrite (nc_bytes_like b b2 A). destruct (nc_bytes b2 (N.to_nat n) y s2) as [[[q|]| | |] s3]; auto.
Qed.
Lemma fo_loop_like : forall b b2, like b b2 -> forall h items s, fo_loop b h items s = fo_loop b2 h items s.
Proof.
  intros b b2 A h. induction items as [|it items IH]; intros s; cbn [fo_loop]; [reflexivity|]. unfold bind.
  replace (nc_compare b h it s) with (nc_compare b2 h it s). { destruct (nc_compare b2 h it s) as [[[|]| | |] s2]; auto. }
  unfold nc_compare, bind, get. destruct (_ || _); auto. symmetry. apply nc_loop_like. exact A.
Qed.
(** * Replacing the octets from [L] on. *)
Definition rt (L : nat) (t : list N) (r : render) : render :=
  mkRender (mkOut (firstn L (ob_data (mr_buf r)) ++ t) (mr_len r)) (mr_table r) (mr_counts r) (mr_hashes r).
Definition tailfree {A} (w : M render A) : Prop := forall L t r a r', L + length t = cap r -> w r = (a, r') -> mr_len r' <= L -> w (rt L t r) = (a, rt L t r').
Lemma rt_len : forall L t r, mr_len (rt L t r) = mr_len r. Proof. reflexivity. Qed.
Lemma rt_cap : forall L t r, L + length t = cap r -> cap (rt L t r) = cap r.
Proof. intros L t r E. unfold rt, ob_capacity in *. cbn [mr_buf ob_data]. rewrite app_length, firstn_length. lia. Qed.
Lemma rt_like : forall L t r, L + length t = cap r -> mr_len r <= L -> like (mr_buf r) (mr_buf (rt L t r)).
Proof.
  intros L t r E Le. split; [reflexivity|]. intros p. unfold ob_at, rt, ob_capacity, mr_len in *. cbn [mr_buf ob_len ob_data]. destruct (Nat.ltb_spec p (ob_len (mr_buf r))); auto.
  unfold idx. rewrite nth_error_app1 by (rewrite firstn_length; lia). rewrite nth_firstn by lia. reflexivity.
Qed.
Lemma tf_ret : forall A (a : A), tailfree (ret a).
Proof. intros A a L t r b r' E H Le. inversion H; subst. reflexivity. Qed.
Lemma tf_lift : forall A (a : res A), tailfree (lift a).
Proof. intros A a L t r b r' E H Le. inversion H; subst. reflexivity. Qed.
Lemma tf_bind : forall A B (w : M render A) (k : A -> M render B), tailfree w -> grows w -> (forall a, tailfree (k a)) -> (forall a, grows (k a)) -> tailfree (bind w k).
Proof.
  intros A B w k T1 G1 T2 G2 L t r b r' E H Le. unfold bind in *. destruct (w r) as [a r1] eqn:Ew. destruct (G1 _ _ _ Ew) as [_ C1].
  assert (L1 : mr_len r1 <= L). { destruct a as [a| | |]; [destruct (G2 _ _ _ _ H); lia| | |]; inversion H; subst; exact Le. }
  rewrite (T1 L t r a r1 E Ew L1). destruct a as [a| | |]; [apply T2; auto; congruence| | |]; inversion H; subst; reflexivity.
Qed.
Lemma tf_append : forall g vs, guards g (length vs) -> tailfree (on_buf (append_if g vs)).
Proof.
  intros g vs G L t r a r' E H Le. rewrite on_buf_if in H |- *. unfold guards in G.
  destruct (g (mr_buf r)) eqn:Eg.
  - apply G in Eg. assert (Eg2 : g (mr_buf (rt L t r)) = true). { apply G. fold (cap (rt L t r)). rewrite (rt_cap L t r E). exact Eg. }
    rewrite Eg2. unfold on_buf, ob_append, ob_capacity in *. rewrite store_ok in H by exact Eg. cbn [mr_buf] in *.
    inversion H; subst; clear H. unfold rt, mr_len in *. cbn [mr_buf ob_len ob_data mr_table mr_counts mr_hashes] in *.
    rewrite store_ok by (rewrite app_length, firstn_length; lia). f_equal. f_equal. f_equal.
    set (d := ob_data (mr_buf r)) in *. set (n := ob_len (mr_buf r)) in *.
    rewrite firstn_app, firstn_firstn, firstn_length. replace (n - Nat.min L (length d)) with 0 by lia. rewrite Nat.min_l by lia. cbn [firstn]. rewrite app_nil_r.
    rewrite !firstn_app, firstn_firstn, firstn_length. rewrite Nat.min_r by lia. rewrite <- !app_assoc. f_equal. rewrite (Nat.min_l n) by lia. rewrite firstn_all2 with (l := vs) by lia. f_equal.
    rewrite skipn_app, firstn_length. replace (n + length vs - Nat.min L (length d)) with 0 by lia. cbn [skipn]. f_equal.
    rewrite skipn_firstn_comm. f_equal. lia.
  - assert (Eg2 : g (mr_buf (rt L t r)) = false). { apply not_true_is_false. intros Q. apply G in Q. fold (cap (rt L t r)) in Q. rewrite (rt_cap L t r E) in Q. change (ob_len (mr_buf (rt L t r))) with (ob_len (mr_buf r)) in Q. apply G in Q. congruence. }
    rewrite Eg2. inversion H; subst. reflexivity.
Qed.
Lemma tf_u8 : forall d, tailfree (mr_write_u8 d). Proof. intros d. apply (tf_append _ [d] guard_u8). Qed.
Lemma tf_u16 : forall d, tailfree (mr_write_u16 d). Proof. intros d. apply (tf_append _ (be16 d) (guard_le 2)). Qed.
Lemma tf_u32 : forall d, tailfree (mr_write_u32 d). Proof. intros d. apply (tf_append _ (be32 d) (guard_le 4)). Qed.
Lemma tf_bytes : forall d, tailfree (mr_write_bytes d). Proof. intros d. apply (tf_append _ d (guard_le _)). Qed.
Lemma tf_skip : forall n, tailfree (mr_skip n).
Proof.
  intros n L t r a r' E H Le. unfold mr_skip, on_buf, ob_skip in *. fold (cap (rt L t r)). rewrite (rt_cap L t r E). change (ob_len (mr_buf (rt L t r))) with (ob_len (mr_buf r)).
  destruct (_ <? _); inversion H; subst; [reflexivity|]. destruct r as [[d l] tb cs hs]. reflexivity.
Qed.
Lemma store_rt : forall L t (d : list N) q vs, q + length vs <= L -> L + length t = length d ->
  store (firstn L d ++ t) q vs = match store d q vs with Ok d' => Ok (firstn L d' ++ t) | r => r end.
Proof.
  intros L t d q vs Q E. rewrite !store_ok by (rewrite ?app_length, ?firstn_length; lia). f_equal.
  rewrite firstn_app, firstn_firstn, firstn_length. replace (q - Nat.min L (length d)) with 0 by lia. rewrite Nat.min_l by lia. cbn [firstn]. rewrite app_nil_r.
  rewrite !firstn_app, firstn_firstn, firstn_length. rewrite Nat.min_r by lia. rewrite <- !app_assoc. f_equal. rewrite (Nat.min_l q) by lia. rewrite firstn_all2 with (l := vs) by lia. f_equal.
  rewrite skipn_app, firstn_length. replace (q + length vs - Nat.min L (length d)) with 0 by lia. cbn [skipn]. f_equal.
  rewrite skipn_firstn_comm. f_equal. lia.
Qed.
Lemma tf_store : forall q vs g, (forall b, g b = true -> q + length vs <= ob_len b) -> (forall b b2, ob_len b = ob_len b2 -> g b = g b2) ->
  tailfree (on_buf (fun b => if g b then ob_store q vs b else (Err, b))).
Proof.
  intros q vs g G1 G2 L t r a r' E H Le. unfold on_buf in *. rewrite (G2 (mr_buf (rt L t r)) (mr_buf r) eq_refl). destruct (g (mr_buf r)) eqn:Eg.
  - apply G1 in Eg. assert (Le2 : mr_len r <= L). { unfold ob_store in H. destruct (store _ _ _) in H; inversion H; subst; exact Le. }
    unfold ob_store in *. unfold rt, mr_len, ob_capacity in *. cbn [mr_buf ob_data ob_len mr_table mr_counts mr_hashes].
    rewrite store_rt by lia. destruct (store (ob_data (mr_buf r)) q vs); inversion H; subst; reflexivity.
  - inversion H; subst. destruct r as [[d l] tb cs hs]. reflexivity.
Qed.
Lemma tf_at8 : forall q d, tailfree (mr_write_u8_at q d).
Proof. intros q d. apply (tf_store q [d] (fun b => q <? ob_len b)); [intros b H; apply Nat.ltb_lt in H; cbn [length]; lia|intros b b2 ->; reflexivity]. Qed.
Lemma tf_at16 : forall q d, tailfree (mr_write_u16_at q d).
Proof. intros q d. apply (tf_store q (be16 d) (fun b => q + 2 <=? ob_len b)); [intros b H; apply Nat.leb_le in H; cbn [length be16]; lia|intros b b2 ->; reflexivity]. Qed.
(** Names. *)
Lemma search_len : forall c nm k r lu level a r', wn_search k c nm lu level r = (a, r') -> mr_buf r' = mr_buf r.
Proof.
  intros c nm. induction k as [|k IH]; intros r lu level a r' H; cbn [wn_search] in H; [inversion H; reflexivity|].
  unfold bind, lift in H. destruct (nr_is_root _) as [[|]| | |]; try (inversion H; subst; reflexivity). destruct (nr_hash _) as [h| | |]; try (inversion H; subst; reflexivity).
  unfold modify_r in H. destruct (upd_r (mr_hashes r) lu h) as [hs| | |]; cbn [rbind] in H; try (inversion H; subst; reflexivity).
  destruct c.
  - unfold get in H. destruct (nr_raw _) as [raw| | |]; try (inversion H; subst; reflexivity).
    destruct (find_offset _ raw h) as [off| | |]; try (inversion H; subst; reflexivity). destruct (negb (off =? NO_OFFSET)%N); [inversion H; subst; reflexivity|]. apply IH in H. exact H.
  - apply IH in H. exact H.
Qed.
Lemma tf_search : forall c nm k lu level, tailfree (wn_search k c nm lu level).
Proof.
  intros c nm. induction k as [|k IH]; intros lu level L t r a r' E H Le; pose proof (search_len _ _ _ _ _ _ _ _ H) as Eb; cbn [wn_search] in *; [inversion H; subst; reflexivity|].
  assert (Le2 : mr_len r <= L) by (unfold mr_len in *; rewrite Eb in Le; exact Le).
  unfold bind, lift in *. destruct (nr_is_root _) as [[|]| | |]; try (inversion H; subst; reflexivity). destruct (nr_hash _) as [h| | |]; try (inversion H; subst; reflexivity).
  unfold modify_r in *. change (mr_hashes (rt L t r)) with (mr_hashes r). destruct (upd_r (mr_hashes r) lu h) as [hs| | |]; cbn [rbind] in *; try (inversion H; subst; reflexivity).
  change (mkRender (mr_buf (rt L t r)) (mr_table (rt L t r)) (mr_counts (rt L t r)) hs) with (rt L t (mkRender (mr_buf r) (mr_table r) (mr_counts r) hs)).
  set (r1 := mkRender (mr_buf r) (mr_table r) (mr_counts r) hs) in *. assert (E1 : L + length t = cap r1) by exact E. assert (L1 : mr_len r1 <= L) by exact Le2.
  destruct c.
  - unfold get in *. destruct (nr_raw _) as [raw| | |]; try (inversion H; subst; reflexivity).
    replace (find_offset (rt L t r1) raw h) with (find_offset r1 raw h).
    2:{ unfold find_offset. change (mr_table (rt L t r1)) with (mr_table r1). change (mr_counts (rt L t r1)) with (mr_counts r1). destruct (idx (mr_table r1) _); cbn [rbind]; auto. destruct (idx (mr_counts r1) _); cbn [rbind]; auto.
        destruct (slice _ _ _); cbn [rbind]; auto. f_equal. apply fo_loop_like. apply rt_like; auto. }
    destruct (find_offset r1 raw h) as [off| | |]; try (inversion H; subst; reflexivity). destruct (negb (off =? NO_OFFSET)%N); [inversion H; subst; reflexivity|]. eapply IH; eauto.
  - eapply IH; eauto.
Qed.
Lemma register_len : forall n i p l r a r', wn_register n i p l r = (a, r') -> mr_buf r' = mr_buf r.
Proof.
  induction n as [|n IH]; intros i p l r a r' H; cbn [wn_register] in H; [inversion H; reflexivity|].
  unfold bind, lift, get in H. destruct (ob_at (mr_buf r) p) as [ll| | |]; try (inversion H; subst; reflexivity). destruct (ll =? 0)%N; try (inversion H; subst; reflexivity).
  destruct (MAX_COMPRESS_POINTER <? p); try (inversion H; subst; reflexivity). destruct (idx (mr_hashes r) i) as [h| | |]; try (inversion H; subst; reflexivity).
  unfold modify_r in H. destruct (add_offset h (as_u16 (N.of_nat p)) (as_u8 (N.of_nat l)) r) as [r1| | |] eqn:Ea; try (inversion H; subst; reflexivity).
  assert (Eb : mr_buf r1 = mr_buf r).
  { unfold add_offset in Ea. apply rbind_ok in Ea. destruct Ea as (c & _ & Ea). destruct (c + 1 =? RESERVED_ITEMS); [inversion Ea; reflexivity|].
    apply rbind_ok in Ea. destruct Ea as (i1 & _ & Ea). apply rbind_ok in Ea. destruct Ea as (i2 & _ & Ea). apply rbind_ok in Ea. destruct Ea as (i3 & _ & Ea). apply rbind_ok in Ea. destruct Ea as (i4 & _ & Ea). inversion Ea. reflexivity. }
  destruct (u8_add ll 1) as [st| | |]; try (inversion H; subst; exact Eb). destruct (csub l (N.to_nat st)); try (inversion H; subst; exact Eb). apply IH in H. congruence.
Qed.
Lemma tf_register : forall n i p l, tailfree (wn_register n i p l).
Proof.
  induction n as [|n IH]; intros i p l L t r a r' E H Le; pose proof (register_len _ _ _ _ _ _ _ H) as Eb; cbn [wn_register] in *; [inversion H; subst; reflexivity|].
  assert (Le2 : mr_len r <= L) by (unfold mr_len in *; rewrite Eb in Le; exact Le).
  unfold bind, lift, get in *. destruct (rt_like L t r E Le2) as [_ A]. rewrite <- (A p). destruct (ob_at (mr_buf r) p) as [ll| | |]; try (inversion H; subst; reflexivity). destruct (ll =? 0)%N; try (inversion H; subst; reflexivity).
  destruct (MAX_COMPRESS_POINTER <? p); try (inversion H; subst; reflexivity). change (mr_hashes (rt L t r)) with (mr_hashes r). destruct (idx (mr_hashes r) i) as [h| | |]; try (inversion H; subst; reflexivity).
  unfold modify_r in *. replace (add_offset h (as_u16 (N.of_nat p)) (as_u8 (N.of_nat l)) (rt L t r)) with (match add_offset h (as_u16 (N.of_nat p)) (as_u8 (N.of_nat l)) r with Ok r1 => Ok (rt L t r1) | Err => Err | Panic => Panic | Hang => Hang end).
  2:{ unfold add_offset. change (mr_table (rt L t r)) with (mr_table r). change (mr_counts (rt L t r)) with (mr_counts r). destruct (idx (mr_counts r) _); cbn [rbind]; auto. destruct (_ =? RESERVED_ITEMS); auto.
      destruct (idx (mr_table r) _); cbn [rbind]; auto. destruct (upd_r a1 a0 _); cbn [rbind]; auto. destruct (upd_r (mr_table r) _ _); cbn [rbind]; auto. destruct (upd_r (mr_counts r) _ _); cbn [rbind]; auto. }
  destruct (add_offset h (as_u16 (N.of_nat p)) (as_u8 (N.of_nat l)) r) as [r1| | |] eqn:Ea; try (inversion H; subst; reflexivity).
  assert (Eb1 : mr_buf r1 = mr_buf r).
  { unfold add_offset in Ea. apply rbind_ok in Ea. destruct Ea as (c & _ & Ea). destruct (c + 1 =? RESERVED_ITEMS); [inversion Ea; reflexivity|].
    apply rbind_ok in Ea. destruct Ea as (i1 & _ & Ea). apply rbind_ok in Ea. destruct Ea as (i2 & _ & Ea). apply rbind_ok in Ea. destruct Ea as (i3 & _ & Ea). apply rbind_ok in Ea. destruct Ea as (i4 & _ & Ea). inversion Ea. reflexivity. }
  destruct (u8_add ll 1) as [st| | |]; try (inversion H; subst; reflexivity). destruct (csub l (N.to_nat st)); try (inversion H; subst; reflexivity).
  apply IH; auto. rewrite Eb1. exact E.
Qed.
Lemma grows_same : forall A (w : M render A), (forall r a r', w r = (a, r') -> mr_buf r' = mr_buf r) -> grows w.
Proof. intros A w H r a r' E. apply H in E. unfold mr_len. rewrite E. auto. Qed.
Lemma tf_name : forall nm c, tailfree (write_name nm c).
Proof.
  intros nm c. unfold write_name. apply tf_bind; [apply tf_search|apply grows_same; intros ? ? ? Q; eapply search_len; exact Q| |].
  - intros [lu off] L t r a r' E H Le. unfold bind at 1 in H. unfold get in H. unfold bind at 1. unfold get. change (ob_len (mr_buf (rt L t r))) with (ob_len (mr_buf r)). revert L t r a r' E H Le.
    intros L t r. generalize (ob_len (mr_buf r)). intros pos. revert L t r.
    apply tf_bind; [| | |intros u; apply grows_bind; [|intros u2; apply grows_same; intros ? ? ? Q; eapply register_len; exact Q]].
    + destruct (negb c || _); [apply tf_bytes|]. destruct (0 <? lu); [|apply tf_ret]. apply tf_bind; [apply tf_lift|apply grows_lift| |]; intros x.
      * apply tf_bind; [apply tf_lift|apply grows_lift|intros y; apply tf_bytes|intros y; apply grows_bytes].
      * apply grows_bind; [apply grows_lift|intros y; apply grows_bytes].
    + destruct (negb c || _); [apply grows_bytes|]. destruct (0 <? lu); [|apply grows_ret]. apply grows_bind; [apply grows_lift|]. intros x. apply grows_bind; [apply grows_lift|intros y; apply grows_bytes].
    + intros u. apply tf_bind; [| |intros u2; apply tf_register|intros u2; apply grows_same; intros ? ? ? Q; eapply register_len; exact Q].
      * destruct (c && _); [apply tf_u16|apply tf_ret].
      * destruct (c && _); [apply grows_u16|apply grows_ret].
    + destruct (c && _); [apply grows_u16|apply grows_ret].
  - intros [lu off]. intros r a r' H. unfold bind at 1 in H. unfold get in H. revert H. generalize (ob_len (mr_buf r)). intros pos. revert r a r'. fold (@grows unit).
    apply grows_bind; [|intros u; apply grows_bind; [|intros u2; apply grows_same; intros ? ? ? Q; eapply register_len; exact Q]].
    + destruct (negb c || _); [apply grows_bytes|]. destruct (0 <? lu); [|apply grows_ret]. apply grows_bind; [apply grows_lift|]. intros x. apply grows_bind; [apply grows_lift|intros y; apply grows_bytes].
    + destruct (c && _); [apply grows_u16|apply grows_ret].
Qed.
Lemma tf_mop : forall o, tailfree (mop_call o).
Proof. intros []; cbn [mop_call]; [apply tf_name|apply tf_u8|apply tf_u16|apply tf_u32|apply tf_bytes|apply tf_skip|apply tf_at8|apply tf_at16]. Qed.
Lemma len_store : forall vs d p d', store d p vs = Ok d' -> length d' = length d.
Proof.
  induction vs as [|v vs IH]; intros d p d' H; cbn [store] in H; [inversion H; reflexivity|]. apply rbind_ok in H. destruct H as (d1 & H1 & H). rewrite (IH _ _ _ H).
  unfold upd_r in H1. destruct (p <? length d); [|discriminate]. apply Ok_inj in H1. subst d1. apply upd_length.
Qed.
Lemma grows_at : forall q vs g, grows (on_buf (fun b => if (g b : bool) then ob_store q vs b else (Err, b))).
Proof.
  intros q vs g r a r' H. unfold on_buf, ob_store in H. destruct (g (mr_buf r)); [|inversion H; auto]. destruct (store (ob_data (mr_buf r)) q vs) as [d| | |] eqn:Es; inversion H; subst; auto.
  unfold mr_len, ob_capacity. cbn [mr_buf ob_len ob_data]. split; [lia|]. apply len_store in Es. exact Es.
Qed.
Lemma grows_name : forall nm c, grows (write_name nm c).
Proof.
  intros nm c. unfold write_name. apply grows_bind; [apply grows_same; intros ? ? ? Q; eapply search_len; exact Q|]. intros [lu off]. intros r a r' H. unfold bind at 1 in H. unfold get in H. revert H. generalize (ob_len (mr_buf r)). intros pos. revert r a r'. fold (@grows unit).
  apply grows_bind; [|intros u; apply grows_bind; [|intros u2; apply grows_same; intros ? ? ? Q; eapply register_len; exact Q]].
  + destruct (negb c || _); [apply grows_bytes|]. destruct (0 <? lu); [|apply grows_ret]. apply grows_bind; [apply grows_lift|]. intros x. apply grows_bind; [apply grows_lift|intros y; apply grows_bytes].
  + destruct (c && _); [apply grows_u16|apply grows_ret].
Qed.
Lemma grows_mop : forall o, grows (mop_call o).
Proof.
  intros []; cbn [mop_call]; [apply grows_name|apply grows_u8|apply grows_u16|apply grows_u32|apply grows_bytes| |apply grows_at|apply grows_at].
  intros r a r' H. unfold mr_skip, on_buf, ob_skip in H. destruct (_ <? _); inversion H; subst; auto. unfold mr_len, ob_capacity. cbn [mr_buf ob_len ob_data]. split; [lia|reflexivity].
Qed.
Lemma hist_cap : forall dat h r, history (mr_new dat) h r -> cap r = length dat.
Proof. intros dat h r H. induction H as [|h r o r' H IH V E|h r o r' H IH V E]; [reflexivity| |]; apply grows_mop in E; destruct E; congruence. Qed.
Lemma hist_rt : forall dat h r L t, history (mr_new dat) h r -> mr_len r <= L -> L + length t = length dat -> history (mr_new (firstn L dat ++ t)) h (rt L t r).
Proof.
  intros dat h r L t H. induction H as [|h r o r' H IH V E|h r o r' H IH V E]; intros Le Ec.
  - apply hist_nil.
  - destruct (grows_mop _ _ _ _ E) as [Lg _]. apply (hist_ok _ h (rt L t r) o (rt L t r')); [apply IH; auto; lia|exact V|]. apply tf_mop; auto. rewrite (hist_cap _ _ _ H). exact Ec.
  - destruct (grows_mop _ _ _ _ E) as [Lg _]. apply (hist_err _ h (rt L t r) o (rt L t r')); [apply IH; auto; lia|exact V|]. apply tf_mop; auto. rewrite (hist_cap _ _ _ H). exact Ec.
Qed.
Definition cutr (p : nat) (r : render) : render := mkRender (mkOut (ob_data (mr_buf r)) p) (mr_table r) (mr_counts r) (mr_hashes r).
Definition names_end (p : nat) (h : list event) : Prop := forall e ls c, In e h -> ev_op e = MName ls c -> ev_end e <= p.
Definition reach (n : nat) (h : list event) (p : nat) (q : render) : Prop := exists dat' h', bytes dat' /\ length dat' = n /\ history (mr_new dat') h' q /\ names_in h' = names_in h /\
  forall a b, a <= b -> b <= p -> reserved h a b -> reserved h' a b.
(** It suffices to reach a state that agrees in the first [p] octets. *)
Lemma reach_like : forall n h p q r, reach n h p q -> mr_len q = p -> cap r = n -> p <= n -> bytes (ob_data (mr_buf r)) -> firstn p (ob_data (mr_buf q)) = firstn p (ob_data (mr_buf r)) ->
  mr_table q = mr_table r -> mr_counts q = mr_counts r -> mr_hashes q = mr_hashes r -> reach n h p (cutr p r).
Proof.
  intros n h p q r (dat' & h' & Bd & Ln & H & Nm & Rs) Lq Cr Le Br F T C Hs. unfold ob_capacity in Cr.
  exists (firstn p dat' ++ skipn p (ob_data (mr_buf r))), h'. split; [|split; [|split; [|split]]]; auto.
  - apply Forall_app. split; [rewrite <- (firstn_skipn p dat') in Bd; apply Forall_app in Bd; apply Bd|rewrite <- (firstn_skipn p (ob_data (mr_buf r))) in Br; apply Forall_app in Br; apply Br].
  - rewrite app_length, firstn_length, skipn_length. lia.
  - replace (cutr p r) with (rt p (skipn p (ob_data (mr_buf r))) q).
    + apply hist_rt; auto; [lia|]. rewrite skipn_length. lia.
    + unfold rt, cutr. rewrite Lq, F, firstn_skipn, T, C, Hs. reflexivity.
Qed.
Lemma firstn_store : forall vs d q d' p, store d q vs = Ok d' -> p <= q -> firstn p d' = firstn p d.
Proof.
  induction vs as [|v vs IH]; intros d q d' p H Le; cbn [store] in H; [inversion H; reflexivity|]. apply rbind_ok in H. destruct H as (d1 & H1 & H). rewrite (IH _ _ _ p H) by lia.
  unfold upd_r in H1. destruct (q <? length d) eqn:Eq; [|discriminate]. apply Ok_inj in H1. subst d1. clear H IH. revert d q Le Eq. induction p as [|p IHp]; intros d q Le Eq; [reflexivity|]. destruct d as [|a d]; [reflexivity|]. destruct q as [|q]; [lia|].
  cbn [upd firstn]. f_equal. apply IHp; [lia|]. cbn [length] in Eq. apply Nat.ltb_lt in Eq. apply Nat.ltb_lt. lia.
Qed.

Lemma cutr_same : forall r, cutr (mr_len r) r = r. Proof. intros [[d l] t c h]. reflexivity. Qed.
(** What a successful call that is no name does to the state. *)
Lemma mop_effect : forall o r r', mop_call o r = (Ok tt, r') -> (forall ls c, o <> MName ls c) ->
  mr_table r' = mr_table r /\ mr_counts r' = mr_counts r /\ mr_hashes r' = mr_hashes r /\
  match o with
  | MName _ _ => False
  | MSkip n => ob_data (mr_buf r') = ob_data (mr_buf r) /\ mr_len r' = mr_len r + n /\ mr_len r' < cap r
  | MAt8 q d => store (ob_data (mr_buf r)) q [d] = Ok (ob_data (mr_buf r')) /\ mr_len r' = mr_len r /\ q + 1 <= mr_len r
  | MAt16 q d => store (ob_data (mr_buf r)) q (be16 d) = Ok (ob_data (mr_buf r')) /\ mr_len r' = mr_len r /\ q + 2 <= mr_len r
  | M8 d => store (ob_data (mr_buf r)) (mr_len r) [d] = Ok (ob_data (mr_buf r')) /\ mr_len r' = mr_len r + 1 /\ mr_len r' <= cap r
  | M16 d => store (ob_data (mr_buf r)) (mr_len r) (be16 d) = Ok (ob_data (mr_buf r')) /\ mr_len r' = mr_len r + 2 /\ mr_len r' <= cap r
  | M32 d => store (ob_data (mr_buf r)) (mr_len r) (be32 d) = Ok (ob_data (mr_buf r')) /\ mr_len r' = mr_len r + 4 /\ mr_len r' <= cap r
  | MBytes l => store (ob_data (mr_buf r)) (mr_len r) l = Ok (ob_data (mr_buf r')) /\ mr_len r' = mr_len r + length l /\ mr_len r' <= cap r
  end.
Proof.
  intros o r r' H Nn. destruct o; cbn [mop_call] in H; [destruct (Nn ls compress eq_refl)| | | | | | |].
  - unfold mr_write_u8, on_buf, ob_write_u8 in H. destruct (Nat.ltb_spec (ob_len (mr_buf r)) (ob_capacity (mr_buf r))); [|discriminate]. unfold ob_append in H. destruct (store _ _ _) eqn:Es; inversion H; subst. cbn [mr_buf ob_data ob_len mr_table mr_counts mr_hashes mr_len length] in *. unfold mr_len. cbn [mr_buf ob_len]. auto 10 with arith.
    repeat split; auto; lia.
  - unfold mr_write_u16, on_buf, ob_write_u16 in H. destruct (Nat.leb_spec (ob_len (mr_buf r) + 2) (ob_capacity (mr_buf r))); [|discriminate]. unfold ob_append in H. destruct (store _ _ _) eqn:Es; inversion H; subst. unfold mr_len. cbn [mr_buf ob_data ob_len mr_table mr_counts mr_hashes length be16]. auto 10.
  - unfold mr_write_u32, on_buf, ob_write_u32 in H. destruct (Nat.leb_spec (ob_len (mr_buf r) + 4) (ob_capacity (mr_buf r))); [|discriminate]. unfold ob_append in H. destruct (store _ _ _) eqn:Es; inversion H; subst. unfold mr_len. cbn [mr_buf ob_data ob_len mr_table mr_counts mr_hashes length be32]. auto 10.
  - unfold mr_write_bytes, on_buf, ob_write_bytes in H. destruct (Nat.leb_spec (ob_len (mr_buf r) + length l) (ob_capacity (mr_buf r))); [|discriminate]. unfold ob_append in H. destruct (store _ _ _) eqn:Es; inversion H; subst. unfold mr_len. cbn [mr_buf ob_data ob_len mr_table mr_counts mr_hashes]. auto 10.
  - unfold mr_skip, on_buf, ob_skip in H. destruct (Nat.ltb_spec (ob_len (mr_buf r) + n) (ob_capacity (mr_buf r))); [|discriminate]. inversion H; subst. unfold mr_len. cbn [mr_buf ob_data ob_len mr_table mr_counts mr_hashes]. auto 10.
  - unfold mr_write_u8_at, on_buf, ob_write_u8_at in H. destruct (Nat.ltb_spec p (ob_len (mr_buf r))); [|discriminate]. unfold ob_store in H. destruct (store _ _ _) eqn:Es; inversion H; subst. unfold mr_len. cbn [mr_buf ob_data ob_len mr_table mr_counts mr_hashes]. repeat split; auto; lia.
  - unfold mr_write_u16_at, on_buf, ob_write_u16_at in H. destruct (Nat.leb_spec (p + 2) (ob_len (mr_buf r))); [|discriminate]. unfold ob_store in H. destruct (store _ _ _) eqn:Es; inversion H; subst. unfold mr_len. cbn [mr_buf ob_data ob_len mr_table mr_counts mr_hashes]. repeat split; auto; lia.
Qed.
Lemma at8_cut : forall p r r' q d, store (ob_data (mr_buf r)) q [d] = Ok (ob_data (mr_buf r')) -> mr_table r' = mr_table r -> mr_counts r' = mr_counts r -> mr_hashes r' = mr_hashes r -> q < p ->
  mop_call (MAt8 q d) (cutr p r) = (Ok tt, cutr p r').
Proof.
  intros p r r' q d E T C H L. cbn [mop_call]. unfold mr_write_u8_at, on_buf, ob_write_u8_at, cutr. cbn [mr_buf ob_len ob_data mr_table mr_counts mr_hashes]. replace (q <? p) with true by (symmetry; apply Nat.ltb_lt; exact L).
  unfold ob_store. cbn [ob_data ob_len]. rewrite E, T, C, H. reflexivity.
Qed.
Lemma at16_cut : forall p r r' q d, store (ob_data (mr_buf r)) q (be16 d) = Ok (ob_data (mr_buf r')) -> mr_table r' = mr_table r -> mr_counts r' = mr_counts r -> mr_hashes r' = mr_hashes r -> q + 2 <= p ->
  mop_call (MAt16 q d) (cutr p r) = (Ok tt, cutr p r').
Proof.
  intros p r r' q d E T C H L. cbn [mop_call]. unfold mr_write_u16_at, on_buf, ob_write_u16_at, cutr. cbn [mr_buf ob_len ob_data mr_table mr_counts mr_hashes]. replace (q + 2 <=? p) with true by (symmetry; apply Nat.leb_le; exact L).
  unfold ob_store. cbn [ob_data ob_len]. rewrite E, T, C, H. reflexivity.
Qed.
Lemma mop_failed : forall o r r', mop_call o r = (Err, r') -> (forall ls c, o <> MName ls c) -> r' = r.
Proof.
  intros o r r' H Nn. destruct o; cbn [mop_call] in H; [destruct (Nn ls compress eq_refl)| | | | | | |];
    unfold mr_write_u8, mr_write_u16, mr_write_u32, mr_write_bytes, mr_skip, mr_write_u8_at, mr_write_u16_at, on_buf, ob_write_u8, ob_write_u16, ob_write_u32, ob_write_bytes, ob_skip, ob_write_u8_at, ob_write_u16_at, ob_append, ob_store in H;
    repeat match type of H with context [if ?b then _ else _] => destruct b end; repeat match type of H with context [match store ?a ?b ?c with _ => _ end] => destruct (store a b c) end;
    inversion H; destruct r as [[? ?] ? ? ?]; reflexivity.
Qed.
Lemma as_u8_lt : forall x, (as_u8 x < 256)%N.
Proof. intros x. unfold as_u8. apply N.mod_lt. lia. Qed.
Lemma names_end_tl : forall p e h, names_end p (e :: h) -> names_end p h.
Proof. intros p e h H e' ls c I. apply H. right. exact I. Qed.
Lemma reach_more : forall n h p q e, reach n h p q -> (forall ls c, ev_op e <> MName ls c) -> (forall k, ev_op e = MSkip k -> ev_ok e = false) -> reach n (e :: h) p q.
Proof.
  intros n h p q e (dat' & h' & B & L & H & Nm & R) N1 N2. exists dat', h'. split; [exact B|]. split; [exact L|]. split; [exact H|]. split.
  - rewrite Nm. cbn [names_in flat_map]. destruct (ev_op e) eqn:Eo; auto. destruct (N1 ls compress eq_refl).
  - intros a b Lab Le (e' & k & [<-|I] & Q); [destruct Q as (Q1 & Q2 & _); apply N2 in Q1; congruence|]. apply R; auto. exists e', k. auto.
Qed.
Lemma cut_append : forall dat h r r' o vs p, bytes dat -> history (mr_new dat) h r -> bytes (ob_data (mr_buf r')) ->
  (forall p, p <= mr_len r -> names_end p h -> reach (length dat) h p (cutr p r)) -> names_end p h -> p < mr_len r' ->
  store (ob_data (mr_buf r)) (mr_len r) vs = Ok (ob_data (mr_buf r')) -> mr_len r' = mr_len r + length vs -> mr_len r' <= cap r ->
  mr_table r' = mr_table r -> mr_counts r' = mr_counts r -> mr_hashes r' = mr_hashes r -> (forall ls c, o <> MName ls c) -> (forall k, o <> MSkip k) ->
  reach (length dat) (mkEv o (mr_len r) (mr_len r') true :: h) p (cutr p r').
Proof.
  intros dat h r r' o vs p B H Br IH Ne Lp Es El Ec T C Hs N1 N2. pose proof (hist_cap _ _ _ H) as Cr. pose proof (len_store _ _ _ _ Es) as Ld. unfold ob_capacity in *.
  apply reach_more; [|exact N1|intros k Ek; cbn [ev_op] in Ek; destruct (N2 k Ek)].
  destruct (le_lt_dec (mr_len r) p) as [Le|Lt].
  - set (v1 := firstn (p - mr_len r) vs). assert (L1 : length v1 = p - mr_len r) by (unfold v1; rewrite firstn_length; lia).
    rewrite store_ok in Es by lia. apply Ok_inj in Es.
    set (q := mkRender (mkOut (firstn (mr_len r) (ob_data (mr_buf r)) ++ v1 ++ skipn (mr_len r + length v1) (ob_data (mr_buf r))) (mr_len r + length v1)) (mr_table r) (mr_counts r) (mr_hashes r)).
    assert (Hq : mop_call (MBytes v1) r = (Ok tt, q)).
    { cbn [mop_call]. unfold mr_write_bytes, on_buf, ob_write_bytes, ob_capacity. fold (mr_len r). replace (mr_len r + length v1 <=? length (ob_data (mr_buf r))) with true by (symmetry; apply Nat.leb_le; lia).
      unfold ob_append. fold (mr_len r). rewrite store_ok by lia. reflexivity. }
    assert (Bv : bytes vs). { rewrite <- Es in Br. apply Forall_app in Br. destruct Br as [_ Br]. apply Forall_app in Br. apply Br. }
    assert (Bv1 : bytes v1). { unfold v1. rewrite <- (firstn_skipn (p - mr_len r) vs) in Bv. apply Forall_app in Bv. apply Bv. }
    apply reach_like with (q := q); auto; [|unfold q, mr_len at 1; cbn [mr_buf ob_len]; lia|unfold ob_capacity; lia|lia|].
    + exists dat, (mkEv (MBytes v1) (mr_len r) (mr_len q) true :: h). split; [exact B|]. split; [reflexivity|]. split; [apply hist_ok; auto|]. split; [reflexivity|].
      intros a b Lab Lb (e & k & I & Q). exists e, k. split; [right; exact I|exact Q].
    + rewrite <- Es. unfold q. cbn [mr_buf ob_data]. rewrite !firstn_app, !firstn_length, L1. rewrite !(Nat.min_l (mr_len r)) by lia. f_equal.
      replace (p - mr_len r - (p - mr_len r)) with 0 by lia. cbn [firstn]. rewrite app_nil_r. replace (p - mr_len r - length vs) with 0 by lia. cbn [firstn]. rewrite app_nil_r. unfold v1. rewrite firstn_firstn. f_equal. lia.
  - apply reach_like with (q := cutr p r); auto; [apply IH; auto; lia|unfold ob_capacity; lia|lia|]. unfold cutr. cbn [mr_buf ob_data]. symmetry. eapply firstn_store; eauto. lia.
Qed.
Lemma hist_cut : forall dat h r, bytes dat -> history (mr_new dat) h r -> forall p, p <= mr_len r -> names_end p h -> reach (length dat) h p (cutr p r).
Proof.
  intros dat h r B H. induction H as [|h r o r' H IH V E|h r o r' H IH V E]; intros p Le Ne.
  - assert (p = 0) by (cbn in Le; lia). subst p. exists dat, []. split; [exact B|]. split; [reflexivity|]. split; [apply hist_nil|]. split; [reflexivity|]. auto.
  - pose proof (hist_ok _ h r o r' H V E) as Hf. destruct (Nat.eq_dec p (mr_len r')) as [->|Np].
    { rewrite cutr_same. exists dat, (mkEv o (mr_len r) (mr_len r') true :: h). auto 10. }
    assert (Nn : forall ls c, o <> MName ls c). { intros ls c ->. specialize (Ne _ ls c (or_introl eq_refl) eq_refl). cbn [ev_end] in Ne. lia. }
    destruct (mop_effect o r r' E Nn) as (T & C & Hs & Ef). destruct (history_inv dat _ _ B Hf) as [I _]. pose proof (inv_bytes _ _ I) as Br. pose proof (inv_len _ _ I) as Lr. clear I.
    pose proof (names_end_tl _ _ _ Ne) as Ne'. pose proof (hist_cap _ _ _ H) as Cr. pose proof (hist_cap _ _ _ Hf) as Cr'.
    destruct o as [ls c|d|d|d|l|k|q d|q d]; [destruct (Nn ls c eq_refl)| | | | | | |].
    + destruct Ef as (E1 & E2 & E3). eapply (cut_append dat h r r' (M8 d) [d]); eauto; [lia|discriminate].
    + destruct Ef as (E1 & E2 & E3). eapply (cut_append dat h r r' (M16 d) (be16 d)); eauto; [lia|discriminate].
    + destruct Ef as (E1 & E2 & E3). eapply (cut_append dat h r r' (M32 d) (be32 d)); eauto; [lia|discriminate].
    + destruct Ef as (E1 & E2 & E3). eapply (cut_append dat h r r' (MBytes l) l); eauto; [lia|discriminate].
    + destruct Ef as (E1 & E2 & E3). destruct (le_lt_dec (mr_len r) p) as [Lp|Lp].
      * assert (Hq : mop_call (MSkip (p - mr_len r)) r = (Ok tt, cutr p r')).
        { cbn [mop_call]. unfold mr_skip, on_buf, ob_skip. fold (mr_len r). replace (mr_len r + (p - mr_len r) <? cap r) with true by (symmetry; apply Nat.ltb_lt; lia).
          unfold cutr. rewrite E1, T, C, Hs. replace (mr_len r + (p - mr_len r)) with p by lia. reflexivity. }
        exists dat, (mkEv (MSkip (p - mr_len r)) (mr_len r) (mr_len (cutr p r')) true :: h). split; [exact B|]. split; [reflexivity|]. split; [apply hist_ok; auto; exact Logic.I|]. split; [reflexivity|].
        intros a b Lab Lb (e & k' & [<-|I] & Q).
        -- eexists. exists (p - mr_len r). split; [left; reflexivity|]. cbn [ev_op ev_ok ev_start ev_end] in *. repeat split; try apply Q. exact Lb.
        -- exists e, k'. split; [right; exact I|exact Q].
      * destruct (IH p ltac:(lia) Ne') as (dat' & h' & B' & L' & H' & Nm & Rs). exists dat', h'. split; [exact B'|]. split; [exact L'|]. split; [|split; [exact Nm|]].
        -- replace (cutr p r') with (cutr p r); [exact H'|]. unfold cutr. rewrite E1, T, C, Hs. reflexivity.
        -- intros a b Lab Lb (e & k' & [<-|I] & Q); [|apply Rs; auto; exists e, k'; auto]. cbn [ev_op ev_ok ev_start ev_end] in Q. destruct Q as (_ & _ & Q1 & Q2). exfalso. lia.
    + destruct Ef as (E1 & E2 & E3). cbn [mop_ok] in V. destruct V as [Vd Vr]. pose proof (IH p ltac:(lia) Ne') as R0.
      apply reach_more; [|exact Nn|discriminate]. unfold ob_capacity in *. pose proof (len_store _ _ _ _ E1) as Ld. destruct (le_lt_dec p q) as [Lq|Lq].
      * apply reach_like with (q := cutr p r); auto; [lia|]. unfold cutr. cbn [mr_buf ob_data]. symmetry. eapply firstn_store; eauto.
      * destruct R0 as (dat' & h' & B' & L' & H' & Nm & Rs). exists dat', (mkEv (MAt8 q d) p p true :: h'). split; [exact B'|]. split; [exact L'|]. split; [|split; [exact Nm|]].
        -- apply (hist_ok _ h' (cutr p r) (MAt8 q d) (cutr p r')); [exact H'|split; [exact Vd|apply Rs; auto; lia]|]. apply at8_cut; auto.
        -- intros a b Lab Lb Q. destruct (Rs a b Lab Lb Q) as (e & k & I & Q'). exists e, k. split; [right; exact I|exact Q'].
    + destruct Ef as (E1 & E2 & E3). cbn [mop_ok] in V. destruct V as [Vd Vr]. pose proof (IH p ltac:(lia) Ne') as R0.
      apply reach_more; [|exact Nn|discriminate]. unfold ob_capacity in *. pose proof (len_store _ _ _ _ E1) as Ld. destruct (le_lt_dec p q) as [Lq|Lq].
      * apply reach_like with (q := cutr p r); auto; [lia|]. unfold cutr. cbn [mr_buf ob_data]. symmetry. eapply firstn_store; eauto.
      * destruct R0 as (dat' & h' & B' & L' & H' & Nm & Rs). destruct (le_lt_dec (q + 2) p) as [Lq2|Lq2].
        -- exists dat', (mkEv (MAt16 q d) p p true :: h'). split; [exact B'|]. split; [exact L'|]. split; [|split; [exact Nm|]].
           ++ apply (hist_ok _ h' (cutr p r) (MAt16 q d) (cutr p r')); [exact H'|split; [exact Vd|apply Rs; auto; lia]|]. apply at16_cut; auto.
           ++ intros a b Lab Lb Q. destruct (Rs a b Lab Lb Q) as (e & k & I & Q'). exists e, k. split; [right; exact I|exact Q'].
        -- (* only the first of the two octets is left *)
           unfold be16 in E1. cbn [store] in E1. apply rbind_ok in E1. destruct E1 as (d1 & E1 & E4). set (hi := as_u8 (N.shiftr (N.land d 65280) 8)) in *.
           set (r1 := mkRender (mkOut d1 (mr_len r)) (mr_table r) (mr_counts r) (mr_hashes r)).
           assert (R1 : reach (length dat) h p (cutr p r1)).
           { exists dat', (mkEv (MAt8 q hi) p p true :: h'). split; [exact B'|]. split; [exact L'|]. split; [|split; [exact Nm|]].
             - apply (hist_ok _ h' (cutr p r) (MAt8 q hi) (cutr p r1)); [exact H'|split; [apply as_u8_lt|apply Rs; try lia]|].
               + destruct Vr as (e & k & I & Q1 & Q2 & Q3 & Q4). exists e, k. repeat split; auto. lia.
               + apply at8_cut; auto. cbn [store]. rewrite E1. reflexivity.
             - intros a b Lab Lb Q. destruct (Rs a b Lab Lb Q) as (e & k & I & Q'). exists e, k. split; [right; exact I|exact Q']. }
           apply reach_like with (q := cutr p r1); auto; [lia|]. unfold cutr, r1. cbn [mr_buf ob_data]. symmetry. apply (firstn_store [as_u8 (N.land d 255)] d1 (q + 1)); [exact E4|lia].
  - pose proof (hist_err _ h r o r' H V E) as Hf. destruct (Nat.eq_dec p (mr_len r')) as [->|Np].
    { rewrite cutr_same. exists dat, (mkEv o (mr_len r) (mr_len r') false :: h). auto 10. }
    assert (Nn : forall ls c, o <> MName ls c). { intros ls c ->. specialize (Ne _ ls c (or_introl eq_refl) eq_refl). cbn [ev_end] in Ne. lia. }
    assert (Er : r' = r) by (eapply mop_failed; eauto). subst r'. apply reach_more; [|exact Nn|reflexivity]. apply IH; auto. eapply names_end_tl; eauto.
Qed.

Lemma truncate_history : forall dat h r p r', bytes dat -> history (mr_new dat) h r -> (forall e ls c, In e h -> ev_op e = MName ls c -> ev_end e <= p) -> mr_truncate p r = (Ok tt, r') ->
  mr_len r' = p /\ mr_bytes r' = firstn p (mr_bytes r) /\ exists dat' h', bytes dat' /\ length dat' = length dat /\ history (mr_new dat') h' r' /\ names_in h' = names_in h.
Proof.
  intros dat h r p r' B H Ne E. unfold mr_truncate, on_buf, ob_truncate in E. destruct (Nat.ltb_spec p (ob_len (mr_buf r))) as [L|L]; [|discriminate]. apply pair_inj in E. destruct E as [_ <-].
  split; [reflexivity|]. split.
  - unfold mr_bytes, ob_bytes. cbn [mr_buf ob_len ob_data]. rewrite firstn_firstn. f_equal. lia.
  - destruct (hist_cut dat h r B H p) as (dat' & h' & B' & L' & H' & Nm & _); [unfold mr_len; lia|exact Ne|]. exists dat', h'. auto.
Qed.
(** After such a truncation names are written again as long as they fit. *)
Lemma truncate_name_fits : forall dat h r p r' ls c, bytes dat -> history (mr_new dat) h r -> (forall e ls c, In e h -> ev_op e = MName ls c -> ev_end e <= p) -> mr_truncate p r = (Ok tt, r') ->
  wf_labels ls -> collision_free (ls :: names_in h) -> p + wire_len ls <= length dat -> exists r2, write_name (name_of ls) c r' = (Ok tt, r2).
Proof.
  intros dat h r p r' ls c B H Ne E W C L. destruct (truncate_history dat h r p r' B H Ne E) as (E1 & _ & dat' & h' & B' & L' & H' & Nm).
  eapply hist_name_fits; eauto; [rewrite Nm; exact C|rewrite E1, L'; exact L].
Qed.

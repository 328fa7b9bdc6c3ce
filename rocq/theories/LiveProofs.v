(** The renderer does not fail without reason: a name that fits is written, unless two different names in the
    compression table collide in hash and length. *)
From Verif Require Import Base NameModel RenderModel SpecName SpecBuf BaseLemmas BitLemmas NameWireProofs NameOpsProofs
  RenderProofs RenderProofs2 BufProofs.

Section Live.
Context {KN : names}.

Lemma nc_bytes_complete : forall m r, inv m r -> forall l p raw k,
  (forall i c, nth_error l i = Some c -> rdm m r (N.to_nat p + i) = Some c) ->
  (forall i c, nth_error l i = Some c -> nth_error raw (k + i) = Some c) ->
  (p + blen l < 65536)%N ->
  nc_bytes (mr_buf r) (length l) p (mkIn raw k) = (Ok (Some (p + blen l)%N), mkIn raw (k + length l)).
Proof.
  intros m r I l. induction l as [|c l IH]; intros p raw k Hl Hr Hp.
  - cbn [nc_bytes length]. unfold ret, blen. cbn [length]. rewrite N.add_0_r, Nat.add_0_r. auto.
  - cbn [nc_bytes length]. pose proof (Hl 0 c eq_refl) as H0. rewrite Nat.add_0_r in H0.
    destruct (ob_at_rdm _ _ _ _ I H0) as (A & B & C). unfold bind at 1, lift at 1. rewrite A.
    pose proof (Hr 0 c eq_refl) as R0. rewrite Nat.add_0_r in R0.
    unfold bind at 1. rewrite (read_u8_ok _ _ _ R0), N.eqb_refl. unfold bind at 1, lift at 1.
    replace (p + 1 <? 65536)%N with true by (symmetry; apply N.ltb_lt; unfold blen in *; simpl length in *; lia).
    rewrite IH.
    + replace (p + 1 + blen l)%N with (p + blen (c :: l))%N by (unfold blen; cbn [length]; lia).
      replace (k + 1 + length l) with (k + S (length l)) by lia. auto.
    + intros i x Hi. specialize (Hl (S i) x Hi). rewrite <- Hl. f_equal. lia.
    + intros i x Hi. specialize (Hr (S i) x Hi). rewrite <- Hr. f_equal. lia.
    + unfold blen in *. simpl length in *. lia.
Qed.
Lemma nc_loop_complete : forall m r, inv m r -> forall ls fuel lim pos e raw k,
  wname (rdm m r) lim pos ls e -> wf_labels ls -> pb pos ls -> lim <= S (mr_len r) ->
  skipn k raw = enc ls -> length ls < fuel ->
  exists k', nc_loop fuel (mr_buf r) (N.of_nat pos) (mkIn raw k) = (Ok true, mkIn raw k').
Proof.
  intros m r I. induction ls as [|l ls IH]; intros fuel lim pos e raw k W F P Hl Hs Hf; (destruct fuel as [|fuel]; [lia|]);
    cbn [nc_loop]; unfold next_label; rewrite Nat2N.id;
    destruct (next_label_spec m r I _ _ _ _ W (proj2 F) P (S (S (ob_len (mr_buf r))))) as (q & Q1 & Q2 & Q3 & Q4);
    try (unfold mr_len in Hl; lia); unfold bind at 1, lift at 1; rewrite Q1; unfold bind at 1.
  - assert (E : nth_error raw k = Some 0%N) by (rewrite <- (Nat.add_0_r k), <- nth_skipn, Hs; reflexivity).
    rewrite (read_u8_ok _ _ _ E). cbn [N.eqb negb]. unfold ret. eauto.
  - assert (E : nth_error raw k = Some (blen l)) by (rewrite <- (Nat.add_0_r k), <- nth_skipn, Hs; reflexivity).
    rewrite (read_u8_ok _ _ _ E), N.eqb_refl. cbn [negb].
    destruct F as [F1 F2]. pose proof (Forall_inv F1) as [Fl _]. apply Forall_inv_tail in F1. rewrite wire_len_cons in F2.
    replace (blen l =? 0)%N with false by (symmetry; apply N.eqb_neq; unfold blen; lia).
    destruct Q4 as (Q4 & lim' & e' & Q5 & Q6). unfold pb in Q2. rewrite wire_len_cons in Q2.
    assert (Hk : skipn (k + 1) raw = l ++ enc ls).
    { rewrite <- skipn_add, Hs. unfold enc, body. cbn [flat_map enc_label app skipn]. rewrite <- app_assoc. auto. }
    unfold blen at 1. rewrite Nat2N.id. unfold bind at 1. rewrite (nc_bytes_complete m r I l (N.of_nat (q + 1)) raw (k + 1)).
    2:{ rewrite Nat2N.id. auto. }
    2:{ intros i c Hi. rewrite <- nth_skipn, Hk. rewrite nth_error_app1; auto. apply nth_error_Some. congruence. }
    2:{ unfold blen. lia. }
    replace (N.of_nat (q + 1) + blen l)%N with (N.of_nat (q + 1 + length l)) by (unfold blen; lia).
    apply (IH fuel lim' (q + 1 + length l) e' raw (k + 1 + length l)); auto.
    + split; auto. lia.
    + unfold pb. lia.
    + lia.
    + rewrite <- skipn_add, Hk, skipn_app, skipn_all, Nat.sub_diag. reflexivity.
    + cbn [length] in Hf. lia.
Qed.

(** No two different known names agree in hash and length. *)
Definition no_collision : Prop := forall a b, known a -> known b -> wf_labels a -> wf_labels b ->
  wire_len a = wire_len b -> name_hash a = name_hash b -> a = b.

Lemma fo_loop_live : forall m r ls, inv m r -> wf_labels ls -> known ls -> no_collision -> forall items,
  Forall (item_ok (rdm m r)) items ->
  fst (fo_loop (mr_buf r) (name_hash ls) items (ib_new (enc ls))) <> Err.
Proof.
  intros m r ls I F Kn NC. induction items as [|it items IH]; intros Hi.
  - discriminate.
  - cbn [fo_loop]. unfold bind at 1. unfold nc_compare. unfold bind at 1, get. unfold ib_len. unfold ib_new at 1. cbn [ib_data].
    inversion Hi as [|x xs A Hx]; subst.
    destruct (negb (item_hash it =? name_hash ls)%N || negb (item_len it =? as_u8 (N.of_nat (length (enc ls))))%N) eqn:E.
    + unfold ret at 1. apply IH. auto.
    + bl. destruct A as (ils & e & Ki & F' & W & A1 & A2 & A3).
      assert (ils = ls).
      { apply NC; auto; [|congruence]. rewrite A1 in H0. destruct F as [_ F]. unfold wire_len in *. rewrite as_u8_small in H0 by lia. lia. }
      subst ils. destruct (nc_loop_complete m r I ls (S (length (enc ls))) _ _ e (enc ls) 0 W F) as (k' & B); auto.
      * unfold pb. destruct F. lia.
      * assert (N.to_nat (item_pos it) < mr_len r); [|lia].
        destruct W; match goal with H : rdm m r _ = Some _ |- _ => apply (ob_at_rdm _ _ _ _ I) in H; lia end.
      * rewrite enc_len. pose proof (wf_count ls (proj1 F)). lia.
      * rewrite N2Nat.id in B. unfold ib_new. unfold ib_len. cbn [ib_data]. rewrite B. discriminate.
Qed.

Lemma idx_r : forall A (l : list A) i, (exists a, idx l i = Ok a) \/ idx l i = Panic.
Proof. intros. unfold idx. destruct (nth_error l i); eauto. Qed.
Lemma find_offset_live : forall m r ls, inv m r -> wf_labels ls -> known ls -> no_collision ->
  find_offset r (enc ls) (name_hash ls) <> Err.
Proof.
  intros m r ls I F Kn NC. unfold find_offset.
  set (b := N.to_nat (name_hash ls mod 64)) in *.
  destruct (idx_r _ (mr_table r) b) as [[row E]|E]; rewrite E; [|discriminate]. cbn [rbind].
  destruct (idx_r _ (mr_counts r) b) as [[c Ec]|Ec]; rewrite Ec; [|discriminate]. cbn [rbind].
  unfold slice. destruct ((0 <=? c) && (c <=? length row)); [|discriminate]. cbn [rbind].
  rewrite Nat.sub_0_r. change (skipn 0 row) with row. apply (fo_loop_live m r); auto.
  apply Forall_forall. intros it Hit. apply In_nth_error in Hit. destruct Hit as [k Hk].
  assert (k < c).
  { assert (k < length (firstn c row)) by (apply nth_error_Some; congruence). rewrite firstn_length in *. lia. }
  rewrite nth_firstn in Hk by auto. apply idx_ok_inv in E, Ec. eapply inv_items; eauto; [apply E|apply Ec].
Qed.
Lemma wn_search_live : forall (Q : list (list N) -> list nat -> Prop) m compress ls, wf_labels ls -> (forall s r, suffix_of s ls -> wf_labels s -> inv m r -> Q (mr_table r) (mr_counts r) -> find_offset r (enc s) (name_hash s) <> Err) -> forall suf pre r lu level,
  inv m r -> Q (mr_table r) (mr_counts r) -> ls = pre ++ suf -> lu = length pre -> (if 0 <? lu then level + 1 else level) = lu ->
  fst (wn_search (length suf + 1) compress (name_of ls) lu level r) <> Err.
Proof.
  intros Q m compress ls F FO. induction suf as [|l suf IH]; intros pre r lu level I Iq E Elu Elev; cbn [length Nat.add wn_search];
    rewrite Elev; unfold bind at 1, lift at 1; rewrite Elu, E, nr_root_spec by (rewrite <- E; auto).
  - discriminate.
  - unfold bind at 1, lift at 1. rewrite nr_hash_spec by (rewrite <- E; auto).
    pose proof (wf_count127 _ F) as C127. rewrite E, app_length in C127. simpl in C127.
    unfold bind at 1, modify_r at 1. rewrite upd_r_ok by (rewrite (inv_hs _ _ I); lia). cbn [rbind].
    set (r1 := mkRender _ _ _ _).
    assert (I1 : inv m r1).
    { eapply inv_same; eauto. repeat split. simpl. rewrite upd_length. apply I. }
    assert (REC : fst (wn_search (length suf + 1) compress (name_of ls) (length pre + 1) (length pre) r1) <> Err).
    { apply (IH (pre ++ [l])); auto.
      - rewrite E, <- app_assoc. auto.
      - rewrite app_length. auto.
      - replace (0 <? length pre + 1) with true by (symmetry; apply Nat.ltb_lt; lia). auto. }
    destruct compress; [|rewrite <- E; exact REC].
    unfold bind at 1, get at 1. unfold bind at 1, lift at 1. rewrite nr_raw_spec by (rewrite <- E; auto).
    unfold bind at 1, lift at 1.
    assert (Fs : wf_labels (l :: suf)) by (rewrite E in F; apply wf_app in F; apply F).
    pose proof (FO (l :: suf) r1 (ex_intro _ pre E) Fs I1 Iq) as NE.
    destruct (find_offset r1 (enc (l :: suf)) (name_hash (l :: suf))) as [off| | |]; try discriminate; try congruence.
    destruct (negb (off =? NO_OFFSET)%N); [discriminate|]. rewrite <- E. exact REC.
Qed.

(** A name that fits is written. *)
Lemma write_name_fits : forall m r ls compress, inv m r -> wf_labels ls -> (forall s, suffix_of s ls -> known s) -> no_collision ->
  mr_len r + wire_len ls <= ob_capacity (mr_buf r) -> exists r', write_name (name_of ls) compress r = (Ok tt, r').
Proof.
  intros m r ls compress I F Kn NC Fit. pose proof (write_name_full ls compress m r F Kn I) as A.
  destruct (write_name (name_of ls) compress r) as [a r']. destruct A as (_ & _ & A3). destruct a as [[]| | |]; try (destruct A3; fail).
  - eauto.
  - exfalso. destruct A3 as [A3|A3]; [|lia]. revert A3. apply (wn_search_live (fun _ _ => True) m compress ls F) with (pre := []) (suf := ls); auto.
    intros s r0 Hs Ws I0 _. apply find_offset_live with (m := m); auto.
Qed.
End Live.

(** C61: after any history. *)
Lemma no_collision_of : forall ns, collision_free ns -> @no_collision (among ns).
Proof. intros ns C a b Ka Kb _ _ L H. apply C; auto. Qed.
Lemma hist_name_fits : forall dat h r ls c, bytes dat -> history (mr_new dat) h r -> wf_labels ls ->
  collision_free (ls :: names_in h) -> mr_len r + wire_len ls <= length dat ->
  exists r', write_name (name_of ls) c r = (Ok tt, r').
Proof.
  intros dat h r ls c B H W C Fit.
  destruct (@history_inv_k (among (ls :: names_in h)) dat h r B H) as [I _].
  { intros e ls0 c0 s He Ho Hs. exists ls0. split; auto. right. unfold names_in. apply in_flat_map. exists e. rewrite Ho. simpl. auto. }
  eapply (@write_name_fits (among (ls :: names_in h))); eauto.
  - intros s Hs. exists ls. split; [left; auto|auto].
  - apply no_collision_of. auto.
  - erewrite hist_capacity; eauto.
Qed.
(** Deciding [collision_free], for examples. *)
Fixpoint tails (ls : list label) : list (list label) := match ls with [] => [[]] | l :: r => ls :: tails r end.
Lemma tails_in : forall ls s, suffix_of s ls -> In s (tails ls).
Proof.
  induction ls as [|l ls IH]; intros s [p E]; cbn [tails].
  - destruct p; [|discriminate]. simpl in E. subst. simpl. auto.
  - destruct p as [|a p]; [left; auto|]. right. apply IH. exists p. inversion E. auto.
Qed.
Definition collision_freeb (ns : list (list label)) : bool :=
  let l := flat_map tails ns in
  forallb (fun a => forallb (fun b => if list_eq_dec (list_eq_dec N.eq_dec) a b then true
                                      else negb ((wire_len a =? wire_len b) && (hash_of a =? hash_of b)%N)) l) l.
Lemma collision_freeb_ok : forall ns, collision_freeb ns = true -> collision_free ns.
Proof.
  intros ns H a b (la & Ia & Sa) (lb & Ib & Sb) L E. unfold collision_freeb in H. rewrite forallb_forall in H.
  assert (Ta : In a (flat_map tails ns)) by (apply in_flat_map; eauto using tails_in).
  assert (Tb : In b (flat_map tails ns)) by (apply in_flat_map; eauto using tails_in).
  apply H in Ta. rewrite forallb_forall in Ta. apply Ta in Tb. destruct (list_eq_dec _ a b); auto.
  apply negb_true_iff, andb_false_iff in Tb. rewrite L, E, Nat.eqb_refl, N.eqb_refl in Tb. destruct Tb; discriminate.
Qed.

(** The first record after the question: when Response::to_wire panics. *)
From Verif Require Import Base NameModel RenderModel CodesModel RDataModel MsgModel SpecName SpecBuf SpecCodes SpecMsg
  BaseLemmas BitLemmas NameWireProofs NameOpsProofs NameOpsProofs2 RenderProofs RenderProofs2 BufProofs LiveProofs CodesProofs WireProofs
  RDataProofs DecodeProofs MsgProofs MsgProofs2 MsgProofs3 MsgProofs4 MsgProofs5 MsgProofs6 MsgProofs7 IndepProofs.

(** * A table whose entries have different lengths never makes the lookup fail *)
Definition used (t : list (list N)) (c : list nat) (b : nat) : list N :=
  match nth_error t b, nth_error c b with Some row, Some n => firstn n row | _, _ => [] end.
Definition spread (t : list (list N)) (c : list nat) : Prop := forall b, NoDup (map item_len (used t c b)).
Section Known.
Context {KN : names}.
Lemma nc_bytes_noerr : forall m r, inv m r -> forall l p raw k,
  (forall i c, nth_error l i = Some c -> rdm m r (N.to_nat p + i) = Some c) ->
  (p + blen l < 65536)%N -> k + length l <= length raw -> fst (nc_bytes (mr_buf r) (length l) p (mkIn raw k)) <> Err.
Proof.
  intros m r I l. induction l as [|c l IH]; intros p raw k Hl Hp Hk; [discriminate|]. cbn [nc_bytes length] in *.
  pose proof (Hl 0 c eq_refl) as H0. rewrite Nat.add_0_r in H0. destruct (ob_at_rdm _ _ _ _ I H0) as (A & B & C). unfold bind at 1, lift at 1. rewrite A.
  unfold bind at 1. destruct (nth_lt _ raw k ltac:(lia)) as [n E]. rewrite (read_u8_ok _ _ _ E). destruct (c =? n)%N; [|discriminate].
  unfold bind at 1, lift at 1. replace (p + 1 <? 65536)%N with true by (symmetry; apply N.ltb_lt; unfold blen in *; simpl length in *; lia).
  apply IH.
  - intros i x Hi. rewrite <- (Hl (S i) x Hi). f_equal. lia.
  - unfold blen in *. simpl length in *. lia.
  - lia.
Qed.
Lemma nc_loop_noerr : forall m r, inv m r -> forall fuel lim pos ls e raw k,
  wname (rdm m r) lim pos ls e -> wf_labels ls -> pb pos ls -> lim <= S (mr_len r) ->
  k + wire_len ls <= length raw -> fst (nc_loop fuel (mr_buf r) (N.of_nat pos) (mkIn raw k)) <> Err.
Proof.
  intros m r I. induction fuel as [|fuel IH]; intros lim pos ls e raw k W F P Hl Hk; [discriminate|].
  cbn [nc_loop]. unfold next_label. rewrite Nat2N.id.
  destruct (next_label_spec m r I _ _ _ _ W (proj2 F) P (S (S (ob_len (mr_buf r))))) as (q & Q1 & Q2 & Q3 & Q4).
  { unfold mr_len in Hl. lia. }
  unfold bind at 1, lift at 1. rewrite Q1. unfold bind at 1. pose proof (wire_len_pos ls).
  destruct (nth_lt _ raw k ltac:(lia)) as [n E]. rewrite (read_u8_ok _ _ _ E).
  destruct (negb (n =? _)%N) eqn:En; [discriminate|]. bl. destruct (n =? 0)%N eqn:E0; [discriminate|].
  destruct ls as [|l ls]; [rewrite En in E0; discriminate|].
  destruct Q4 as (Q4 & lim' & e' & Q5 & Q6). assert (En' : n = blen l) by congruence. rewrite En'. unfold blen at 1. rewrite Nat2N.id.
  unfold pb in Q2. rewrite wire_len_cons in Q2, Hk. unfold bind at 1.
  pose proof (nc_bytes_noerr m r I l (N.of_nat (q + 1)) raw (k + 1)) as NE.
  destruct (nc_bytes_spec m r I l (N.of_nat (q + 1)) raw (k + 1)) as (a & k' & R1 & R2 & R3); [rewrite Nat2N.id; auto|unfold blen; lia|lia|].
  rewrite R1 in *. destruct R3 as [->|[->|(-> & R4 & R5)]].
  - exfalso. apply NE; auto; [rewrite Nat2N.id; auto|unfold blen; lia|lia].
  - discriminate.
  - replace (N.of_nat (q + 1) + blen l)%N with (N.of_nat (q + 1 + length l)) by (unfold blen; lia).
    apply (IH lim' _ ls e'); auto.
    + destruct F as [F F2]. split; [apply Forall_inv_tail in F; auto|]. rewrite wire_len_cons in F2. lia.
    + unfold pb. lia.
    + lia.
    + lia.
Qed.
Lemma fo_skip : forall m r, inv m r -> forall hash items s, ~ In (as_u8 (N.of_nat (ib_len s))) (map item_len items) ->
  fst (fo_loop (mr_buf r) hash items s) = Ok NO_OFFSET.
Proof.
  intros m r I hash items. induction items as [|it items IH]; intros s H; [reflexivity|]. cbn [map In] in H. cbn [fo_loop]. unfold bind at 1, nc_compare, bind at 1, get at 1.
  replace (item_len it =? as_u8 (N.of_nat (ib_len s)))%N with false by (symmetry; apply N.eqb_neq; intros X; apply H; auto).
  rewrite orb_true_r. unfold ret at 1. apply IH. tauto.
Qed.
Lemma fo_loop_once : forall m r ls, inv m r -> wf_labels ls -> forall hash items,
  Forall (item_ok (rdm m r)) items -> NoDup (map item_len items) -> fst (fo_loop (mr_buf r) hash items (ib_new (enc ls))) <> Err.
Proof.
  intros m r ls I F hash items. induction items as [|it items IH]; intros Hi Nd; [discriminate|]. cbn [map] in Nd. apply NoDup_cons_iff in Nd. destruct Nd as [Ni Nd].
  apply Forall_cons_iff in Hi. destruct Hi as [A Hi]. cbn [fo_loop]. unfold bind at 1. unfold nc_compare. unfold bind at 1, get. unfold ib_len. unfold ib_new at 1. cbn [ib_data].
  destruct (negb (item_hash it =? hash)%N || negb (item_len it =? as_u8 (N.of_nat (length (enc ls))))%N) eqn:E.
  - unfold ret at 1. apply IH; auto.
  - bl. destruct A as (ils & e & Kn & F' & W & A1 & A2 & A3).
    assert (Eq : wire_len ils = wire_len ls).
    { rewrite A1 in H0. unfold as_u8 in H0. change (length (enc ls)) with (wire_len ls) in H0. destruct F, F'. rewrite N.mod_small in H0 by lia. lia. }
    assert (Hp : pb (N.to_nat (item_pos it)) ils) by (unfold pb; destruct F'; lia).
    assert (Hlt : N.to_nat (item_pos it) <= S (mr_len r)).
    { assert (N.to_nat (item_pos it) < mr_len r); [|lia].
      destruct W; match goal with H : rdm m r _ = Some _ |- _ => apply (ob_at_rdm _ _ _ _ I) in H; lia end. }
    pose proof (nc_loop_noerr m r I (S (length (enc ls))) _ _ ils e (enc ls) 0 W F' Hp Hlt) as NE.
    destruct (nc_loop_spec m r I (S (length (enc ls))) _ _ ils e (enc ls) 0 W F') as (a & k' & B1 & B2 & B3); auto; try lia.
    replace (N.of_nat (N.to_nat (item_pos it))) with (item_pos it) in * by lia. unfold ib_new. cbn [ib_data]. rewrite B1 in *. cbn [fst] in NE.
    destruct B3 as [->|[->|(-> & post & B4)]].
    + exfalso. apply NE; auto. change (length (enc ls)) with (wire_len ls). lia.
    + rewrite (fo_skip m r I); [discriminate|]. unfold ib_len. cbn [ib_data]. rewrite <- H0. auto.
    + discriminate.
Qed.
Lemma find_offset_once : forall m r ls h, inv m r -> wf_labels ls -> spread (mr_table r) (mr_counts r) -> find_offset r (enc ls) h <> Err.
Proof.
  intros m r ls h I F Sp. unfold find_offset. set (b := N.to_nat (h mod 64)) in *.
  destruct (idx (mr_table r) b) as [row| | |] eqn:E; try discriminate; [|unfold idx in E; destruct (nth_error _ _); discriminate]. cbn [rbind].
  destruct (idx (mr_counts r) b) as [c| | |] eqn:Ec; try discriminate; [|unfold idx in Ec; destruct (nth_error _ _); discriminate]. cbn [rbind].
  apply idx_ok_inv in E, Ec. destruct E as [E _], Ec as [Ec _]. specialize (Sp b). unfold used in Sp. rewrite E, Ec in Sp.
  unfold slice. destruct ((0 <=? c) && (c <=? length row)); [|discriminate]. cbn [rbind]. rewrite Nat.sub_0_r. change (skipn 0 row) with row.
  apply (fo_loop_once m); auto.
  apply Forall_forall. intros it Hit. apply In_nth_error in Hit. destruct Hit as [k Hk].
  assert (k < c) by (assert (k < length (firstn c row)) by (apply nth_error_Some; congruence); rewrite firstn_length in *; lia).
  rewrite nth_firstn in Hk by auto. eapply inv_items; eauto.
Qed.
Lemma write_name_once : forall m r ls compress, inv m r -> wf_labels ls -> spread (mr_table r) (mr_counts r) ->
  exists lu off r1, wn_search (length ls + 1) compress (name_of ls) 0 0 r = (Ok (lu, off), r1) /\ mr_buf r1 = mr_buf r /\ inv m r1 /\ found m r1 compress ls lu off.
Proof.
  intros m r ls c I F Sp. destruct (wn_search_top m r ls c I F) as (a & r1 & S1 & (S2 & _) & S3 & S4).
  assert (NE : fst (wn_search (length ls + 1) c (name_of ls) 0 0 r) <> Err).
  { apply (wn_search_live spread m c ls F) with (pre := []) (suf := ls); auto. intros s r0 _ Ws I0 S0. eapply find_offset_once; eauto. }
  rewrite S1 in NE. cbn [fst] in NE. destruct a as [[lu off]| | |]; try (exfalso; apply NE; reflexivity); try (exfalso; exact S4). exists lu, off, r1. destruct S4. auto.
Qed.
End Known.

(** * Registering one name keeps the lengths apart *)
Lemma firstn_S_nth : forall A (l : list A) c x, nth_error l c = Some x -> firstn (S c) l = firstn c l ++ [x].
Proof. intros A. induction l as [|y l IH]; intros c x H; destruct c; try discriminate; cbn [firstn app]; [inversion H; auto|]. f_equal. apply IH. auto. Qed.
Lemma firstn_upd : forall A (l : list A) c v, firstn c (upd l c v) = firstn c l.
Proof. intros A. induction l as [|y l IH]; intros c v; destruct c; cbn [upd firstn]; auto. f_equal. apply IH. Qed.
Lemma NoDup_app_one : forall A (l : list A) x, NoDup l -> ~ In x l -> NoDup (l ++ [x]).
Proof.
  intros A l x H Hx. induction H; cbn [app]; [repeat constructor; auto|]. constructor.
  - intros X. apply in_app_iff in X. destruct X as [X|[X|[]]]; [auto|]. subst. apply Hx. left. auto.
  - apply IHNoDup. intros X. apply Hx. right. auto.
Qed.
Definition above (t : list (list N)) (c : list nat) (l : nat) : Prop := spread t c /\ forall b it, In it (used t c b) -> (N.of_nat l < item_len it)%N.
Lemma item_len_of : forall len pos hash, (len < 256)%N -> item_len (item_new len pos hash) = len.
Proof.
  intros len pos hash H. unfold item_len, item_new. assert (E : N.land (N.lor (N.lor (N.shiftl hash 32) (N.shiftl pos 16)) len) 255 = len).
  { apply N.bits_inj. intros i. rewrite N.land_spec, !N.lor_spec. change 255%N with (N.ones 8). destruct (N.lt_ge_cases i 8) as [L|L].
    - rewrite N.ones_spec_low by auto. rewrite !N.shiftl_spec_low by lia. rewrite andb_true_r. reflexivity.
    - rewrite N.ones_spec_high by auto. rewrite andb_false_r. symmetry. destruct (N.eq_dec len 0) as [->|Nz]; [apply N.bits_0|].
      apply N.bits_above_log2. apply N.log2_lt_pow2; [lia|]. apply N.lt_le_trans with (2 ^ 8)%N; [exact H|]. apply N.pow_le_mono_r; [discriminate|auto]. }
  rewrite E. unfold as_u8. apply N.mod_small. auto.
Qed.
Lemma add_offset_above : forall r hash off l l' r', add_offset hash off (as_u8 (N.of_nat l)) r = Ok r' -> above (mr_table r) (mr_counts r) l -> l <= 255 -> l' < l ->
  above (mr_table r') (mr_counts r') l'.
Proof.
  intros r hash off l l' r' H [Sp Ab] L Lt. assert (Mono : above (mr_table r) (mr_counts r) l') by (split; auto; intros b it Hit; apply Ab in Hit; lia).
  unfold add_offset in H. set (b := N.to_nat (hash mod 64)) in *.
  destruct (idx (mr_counts r) b) as [c| | |] eqn:Ec; try discriminate. cbn [rbind] in H. destruct (c + 1 =? RESERVED_ITEMS); [inversion H; subst; auto|].
  destruct (idx (mr_table r) b) as [row| | |] eqn:Et; try discriminate. cbn [rbind] in H. unfold upd_r in H.
  destruct (Nat.ltb_spec c (length row)); [|discriminate]. cbn [rbind] in H. destruct (Nat.ltb_spec b (length (mr_table r))); [|discriminate]. cbn [rbind] in H.
  destruct (Nat.ltb_spec b (length (mr_counts r))); [|discriminate]. cbn [rbind] in H. inversion H; subst r'. cbn [mr_table mr_counts].
  apply idx_ok_inv in Et, Ec. destruct Et as [Et _], Ec as [Ec _].
  assert (El : as_u8 (N.of_nat l) = N.of_nat l) by (unfold as_u8; apply N.mod_small; lia). rewrite El in *.
  assert (U : forall b', used (upd (mr_table r) b (upd row c (item_new (N.of_nat l) off hash))) (upd (mr_counts r) b (c + 1)) b' =
     if b' =? b then used (mr_table r) (mr_counts r) b ++ [item_new (N.of_nat l) off hash] else used (mr_table r) (mr_counts r) b').
  { intros b'. unfold used. destruct (Nat.eqb_spec b' b) as [->|Nb].
    - rewrite !nth_upd_same by auto. rewrite Et, Ec. rewrite Nat.add_1_r. rewrite (firstn_S_nth _ _ c (item_new (N.of_nat l) off hash)) by (apply nth_upd_same; auto). f_equal.
      rewrite firstn_upd; auto.
    - rewrite !nth_upd_other by auto. reflexivity. }
  split.
  - intros b'. rewrite U. destruct (b' =? b) eqn:Eb; [|apply Sp]. rewrite map_app. cbn [map]. rewrite item_len_of by lia.
    apply NoDup_app_one; [apply Sp|]. intros X. apply in_map_iff in X. destruct X as (it & E & Hin). apply Ab in Hin. lia.
  - intros b' it. rewrite U. destruct (b' =? b) eqn:Eb; [|apply Mono]. intros X. apply in_app_iff in X. destruct X as [X|[<-|[]]]; [eapply Mono; eauto|].
    rewrite item_len_of by lia. lia.
Qed.
Lemma register_above : forall n i p l r a r', wn_register n i p l r = (a, r') -> above (mr_table r) (mr_counts r) l -> l <= 255 -> spread (mr_table r') (mr_counts r').
Proof.
  induction n as [|n IH]; intros i p l r a r' H A L; cbn [wn_register] in H.
  - unfold ret in H. inversion H; subst. apply A.
  - unfold bind at 1, get in H. unfold bind at 1, lift in H. destruct (ob_at (mr_buf r) p) as [ll| | |]; try (inversion H; subst; apply A; fail).
    destruct (ll =? 0)%N eqn:E0; [inversion H; subst; apply A|]. destruct (MAX_COMPRESS_POINTER <? p); [inversion H; subst; apply A|].
    unfold bind at 1, lift in H. destruct (idx (mr_hashes r) i) as [hh| | |]; try (inversion H; subst; apply A; fail).
    unfold bind at 1, modify_r in H.
    destruct (add_offset hh (as_u16 (N.of_nat p)) (as_u8 (N.of_nat l)) r) as [r1| | |] eqn:Ea; try (inversion H; subst; apply A; fail).
    assert (A0 : l = 0 \/ above (mr_table r1) (mr_counts r1) (l - 1)) by (destruct l; [auto|right; eapply add_offset_above; eauto; lia]).
    assert (Sp : l <> 0 -> spread (mr_table r1) (mr_counts r1)) by (intros; destruct A0 as [|[? _]]; [contradiction|auto]).
    destruct (Nat.eq_dec l 0) as [->|Nl].
    + assert (Sp0 : spread (mr_table r1) (mr_counts r1)); [|clear A0 Sp].
      { destruct A as [Sp1 Ab1]. clear - Ea Sp1 Ab1.
        unfold add_offset in Ea. set (b := N.to_nat (hh mod 64)) in *.
        destruct (idx (mr_counts r) b) as [c| | |] eqn:Ec; try discriminate. cbn [rbind] in Ea. destruct (c + 1 =? RESERVED_ITEMS); [inversion Ea; subst; auto|].
        destruct (idx (mr_table r) b) as [row| | |] eqn:Et; try discriminate. cbn [rbind] in Ea. unfold upd_r in Ea.
        destruct (Nat.ltb_spec c (length row)); [|discriminate]. cbn [rbind] in Ea. destruct (Nat.ltb_spec b (length (mr_table r))); [|discriminate]. cbn [rbind] in Ea.
        destruct (Nat.ltb_spec b (length (mr_counts r))); [|discriminate]. cbn [rbind] in Ea. inversion Ea; subst r1. cbn [mr_table mr_counts].
        apply idx_ok_inv in Et, Ec. destruct Et as [Et _], Ec as [Ec _]. change (as_u8 (N.of_nat 0)) with 0%N.
        intros b'. unfold used. destruct (Nat.eq_dec b' b) as [->|Nb].
        - rewrite !nth_upd_same by auto. rewrite Nat.add_1_r. rewrite (firstn_S_nth _ _ c (item_new 0 (as_u16 (N.of_nat p)) hh)) by (apply nth_upd_same; auto). rewrite firstn_upd.
          rewrite map_app. cbn [map]. rewrite item_len_of by lia. apply NoDup_app_one.
          + specialize (Sp1 b). unfold used in Sp1. rewrite Et, Ec in Sp1. auto.
          + intros X. apply in_map_iff in X. destruct X as (it & E & Hin). specialize (Ab1 b it). unfold used in Ab1. rewrite Et, Ec in Ab1. apply Ab1 in Hin. lia.
        - rewrite !nth_upd_other by auto. apply (Sp1 b'). }
      unfold bind at 1, lift in H. destruct (u8_add ll 1) as [st| | |] eqn:Es; try (inversion H; subst; auto; fail).
      unfold bind at 1, lift in H. unfold u8_add in Es. destruct (ll + 1 <? 256)%N; inversion Es; subst st.
      unfold csub in H. replace (N.to_nat (ll + 1) <=? 0) with false in H by (symmetry; apply Nat.leb_gt; lia). inversion H; subst. auto.
    + specialize (Sp Nl). destruct A0 as [|A0]; [contradiction|].
      unfold bind at 1, lift in H. destruct (u8_add ll 1) as [st| | |] eqn:Es; try (inversion H; subst; auto; fail).
      unfold bind at 1, lift in H. destruct (csub l (N.to_nat st)) as [nl| | |] eqn:Ec; try (inversion H; subst; auto; fail).
      apply IH in H; auto.
      * unfold u8_add in Es. destruct (ll + 1 <? 256)%N; inversion Es; subst st. unfold csub in Ec. destruct (_ <=? l); inversion Ec; subst nl.
        destruct A0 as [B1 B2]. split; auto. intros b it Hit. apply B2 in Hit. lia.
      * unfold csub in Ec. destruct (_ <=? l); inversion Ec. lia.
Qed.
Lemma on_buf_table : forall A (m : M outbuf A) r a r', on_buf m r = (a, r') -> mr_table r' = mr_table r /\ mr_counts r' = mr_counts r.
Proof. intros A m r a r' H. unfold on_buf in H. destruct (m (mr_buf r)). inversion H. auto. Qed.
Lemma write_name_spread {KN : names} : forall m r ls c a r', inv m r -> wf_labels ls -> (forall b, used (mr_table r) (mr_counts r) b = []) ->
  write_name (name_of ls) c r = (a, r') -> spread (mr_table r') (mr_counts r').
Proof.
  intros m r ls c a r' I F U H. unfold write_name in H. rewrite label_count_of in H. unfold bind at 1 in H.
  destruct (wn_search_top m r ls c I F) as (s & r1 & S1 & (B1 & B2 & B3) & _). rewrite S1 in H.
  assert (Sp : forall x, mr_table x = mr_table r -> mr_counts x = mr_counts r -> spread (mr_table x) (mr_counts x)) by (intros x -> -> b; rewrite U; constructor).
  assert (Ab : forall x l, mr_table x = mr_table r -> mr_counts x = mr_counts r -> above (mr_table x) (mr_counts x) l).
  { intros x l E1 E2. split; [apply Sp; auto|]. rewrite E1, E2. intros b it. rewrite U. intros []. }
  destruct s as [[lu off]| | |]; try (inversion H; subst; apply Sp; auto; fail).
  unfold bind at 1, get at 1 in H. unfold bind at 1 in H.
  match type of H with (match ?w r1 with _ => _ end) = _ => destruct (w r1) as [x r2] eqn:E2 end.
  assert (T2 : mr_table r2 = mr_table r /\ mr_counts r2 = mr_counts r).
  { rewrite <- B2, <- B3. revert E2. destruct (negb c || (lu =? length ls + 1)).
    - apply on_buf_table.
    - destruct (0 <? lu); [|unfold ret; intros X; inversion X; auto]. unfold bind at 1, lift. destruct (idx _ lu); try (intros X; inversion X; auto; fail).
      unfold bind at 1, lift. destruct (slice _ _ _); try (intros X; inversion X; auto; fail). apply on_buf_table. }
  destruct x as [[]| | |]; try (inversion H; subst; apply Sp; apply T2).
  unfold bind at 1 in H.
  match type of H with (match ?w r2 with _ => _ end) = _ => destruct (w r2) as [x r3] eqn:E3 end.
  assert (T3 : mr_table r3 = mr_table r /\ mr_counts r3 = mr_counts r).
  { destruct T2 as [<- <-]. revert E3. destruct (_ && _); [apply on_buf_table|unfold ret; intros X; inversion X; auto]. }
  destruct x as [[]| | |]; try (inversion H; subst; apply Sp; apply T3).
  eapply register_above; eauto; [apply Ab; apply T3|]. rewrite name_len_of. destruct F. rewrite wire_elen in *. lia.
Qed.
Definition still {A} (w : M render A) : Prop := forall r a r', w r = (a, r') -> mr_table r' = mr_table r /\ mr_counts r' = mr_counts r.
Lemma still_seq : forall A (w : M render unit) (k : M render A), still w -> still k -> still (w ;; k).
Proof.
  intros A w k H1 H2 r a r' H. unfold bind in H. destruct (w r) as [[[]| | |] r1] eqn:E; apply H1 in E; try (inversion H; subst; auto; fail).
  apply H2 in H. destruct E, H. split; congruence.
Qed.
Lemma still_buf : forall A (m : M outbuf A), still (on_buf m).
Proof. intros A m r a r' H. eapply on_buf_table; eauto. Qed.
Lemma still_header : forall h, still (header_to_wire h).
Proof. intros h. unfold header_to_wire. repeat (apply still_seq; [apply still_buf|]). apply still_buf. Qed.
Lemma used_new : forall dat b, used (mr_table (mr_new dat)) (mr_counts (mr_new dat)) b = [].
Proof.
  intros dat b. unfold used. cbn [mr_new mr_table mr_counts]. destruct (nth_error (repeat _ BUCKETS) b); auto. destruct (nth_error (repeat 0 BUCKETS) b) eqn:E; auto.
  apply nth_error_In, repeat_spec in E. subst. auto.
Qed.
Lemma head_spread : forall dat h q ls r, bytes dat -> wf_labels ls -> q_name q = name_of ls ->
  (header_to_wire h ;; question_to_wire q) (mr_new dat) = (Ok tt, r) -> spread (mr_table r) (mr_counts r).
Proof.
  intros dat h q ls r B W En H. unfold bind at 1 in H. pose proof (@emits_header all_names h _ _ (inv_new dat B)) as Eh.
  destruct (header_to_wire h (mr_new dat)) as [[[]| | |] r1] eqn:E1; try discriminate. destruct Eh as (_ & I1 & _).
  destruct (still_header h _ _ _ E1) as [T1 T2]. unfold question_to_wire in H. rewrite En in H. unfold bind at 1 in H.
  unfold name_to_wire in H. destruct (write_name (name_of ls) true r1) as [[[]| | |] r2] eqn:E2; try discriminate.
  apply (write_name_spread _ r1 ls true _ r2 I1 W) in E2; [|intros b; rewrite T1, T2; apply used_new].
  assert (St : still (rrtype_to_wire (q_type q) ;; rrclass_to_wire (q_class q))) by (apply still_seq; apply still_buf).
  apply St in H. destruct H as [-> ->]. exact E2.
Qed.

(** * The first octets of a name *)
Definition chunk (ls : list label) (lu : nat) : nat := if lu =? length ls + 1 then wire_len ls else if 0 <? lu then elen (firstn lu ls) else 2.
Lemma write_name_chunk {KN : names} : forall m r ls lu off r1, inv m r -> wf_labels ls ->
  wn_search (length ls + 1) true (name_of ls) 0 0 r = (Ok (lu, off), r1) ->
  0 < chunk ls lu <= 255 /\
  let (a, r') := write_name (name_of ls) true r in
  if mr_len r + chunk ls lu <=? cap r then mr_len r + chunk ls lu <= mr_len r' else a = Err /\ mr_buf r' = mr_buf r.
Proof.
  intros m r ls lu off r1 I F S1. destruct (wn_search_top m r ls true I F) as (s & r1' & S1' & (B1 & B2 & B3) & I1 & S4).
  rewrite S1 in S1'. inversion S1'; subst s r1'. clear S1'. destruct S4 as [Fo Hh].
  unfold write_name. rewrite label_count_of. unfold bind at 1. rewrite S1. unfold bind at 1, get at 1.
  rewrite <- B1. replace (mr_len r) with (mr_len r1) by (unfold mr_len; rewrite B1; auto). clear S1.
  pose proof (inv_len _ _ I1) as L1.
  assert (G : forall g vs (k : M render unit), guards g (length vs) -> (grows k) ->
    let (a, r') := (on_buf (append_if g vs) ;; k) r1 in if mr_len r1 + length vs <=? cap r1 then mr_len r1 + length vs <= mr_len r' else a = Err /\ mr_buf r' = mr_buf r1).
  { intros g vs k Gd Gk. unfold bind. rewrite on_buf_if. destruct (g (mr_buf r1)) eqn:Eg.
    - apply Gd in Eg. fold (mr_len r1) in Eg. rewrite (proj2 (Nat.leb_le _ _) Eg). destruct (append_ok vs r1 Eg) as (A1 & A2 & A3 & _).
      destruct (on_buf (ob_append vs) r1) as [x r2]. cbn [fst snd] in *. subst x. destruct (k r2) as [y r3] eqn:Ek. apply Gk in Ek. lia.
    - replace (mr_len r1 + length vs <=? cap r1) with false; auto. symmetry. apply not_true_is_false. intros X. apply Nat.leb_le in X. apply Gd in X. congruence. }
  unfold chunk. destruct Fo as [[-> ->]|(_ & pre & suf & e & E & Sn & _ & -> & Ho & W)].
  - replace (negb true || (length ls + 1 =? length ls + 1)) with true by (rewrite Nat.eqb_refl; auto). rewrite !Nat.eqb_refl, N.eqb_refl. cbn [negb andb].
    change (n_raw (name_of ls)) with (enc ls). pose proof (wire_len_pos ls). split; [destruct F; lia|].
    apply (G _ (enc ls) _ (guard_le _)). apply grows_bind; [apply grows_ret|intros; apply grows_register].
  - subst ls. replace (length pre =? length (pre ++ suf) + 1) with false by (symmetry; apply Nat.eqb_neq; rewrite app_length; lia). cbn [negb orb].
    replace (off =? NO_OFFSET)%N with false by (symmetry; apply N.eqb_neq; unfold NO_OFFSET; lia). cbn [negb andb].
    destruct (0 <? length pre) eqn:E0.
    + assert (Eo : idx (n_offsets (name_of (pre ++ suf))) (length pre) = Ok (N.of_nat (elen pre))) by apply idx_offs.
      assert (Es : slice (n_raw (name_of (pre ++ suf))) 0 (N.to_nat (N.of_nat (elen pre))) = Ok (body pre)).
      { rewrite Nat2N.id. unfold name_of. cbn [n_raw]. rewrite enc_app. apply slice_pre. rewrite body_len. auto. }
      rewrite firstn_app, firstn_all, Nat.sub_diag. cbn [firstn]. rewrite app_nil_r. split.
      { destruct F as [_ F]. rewrite wire_elen, elen_app in F. destruct pre as [|l pre]; [discriminate|]. rewrite elen_cons. rewrite elen_cons in F. lia. }
      unfold bind at 1. unfold bind at 1, lift at 1. rewrite Eo. unfold bind at 1, lift at 1. rewrite Es. rewrite <- (body_len pre).
      apply (G _ (body pre) _ (guard_le _)). apply grows_bind; [apply (grows_append _ (be16 _) (guard_le 2))|intros; apply grows_register].
    + split; [lia|]. change (ret tt ;; (on_buf (ob_write_u16 (N.lor off COMPRESS_POINTER_MARK16)) ;; wn_register (length pre) 0 (ob_len (mr_buf r1)) (name_len (name_of (pre ++ suf)))))
        with (on_buf (append_if (fun b => ob_len b + 2 <=? ob_capacity b) (be16 (N.lor off COMPRESS_POINTER_MARK16))) ;; wn_register (length pre) 0 (ob_len (mr_buf r1)) (name_len (name_of (pre ++ suf)))).
      apply (G _ (be16 (N.lor off COMPRESS_POINTER_MARK16)) _ (guard_le 2)). apply grows_register.
Qed.

(** * A section starts with the owner of its first record *)
Lemma grows_name : forall n c, grows (write_name n c).
Proof.
  intros n c. unfold write_name. apply grows_bind.
  - assert (G : forall k lu level, grows (wn_search k c n lu level)).
    { induction k as [|k IH]; intros lu level; cbn [wn_search]; [apply grows_ret|]. apply grows_bind; [apply grows_lift|]. intros [|]; [apply grows_ret|].
      apply grows_bind; [apply grows_lift|]. intros h. apply grows_bind.
      - intros r a r' H. unfold modify_r in H. destruct (upd_r (mr_hashes r) lu h); inversion H; subst; auto.
      - intros _. destruct c; auto. apply grows_bind; [apply grows_get|]. intros r. apply grows_bind; [apply grows_lift|]. intros raw. apply grows_bind; [apply grows_lift|].
        intros off. destruct (negb _); auto. apply grows_ret. }
    apply G.
  - intros [lu off]. apply grows_bind; [apply grows_get|]. intros r. apply grows_bind.
    + destruct (_ || _); [apply (grows_append _ _ (guard_le _))|]. destruct (0 <? lu); [|apply grows_ret].
      apply grows_bind; [apply grows_lift|]. intros pos. apply grows_bind; [apply grows_lift|]. intros pre. apply (grows_append _ _ (guard_le _)).
    + intros _. apply grows_bind; [destruct (_ && _); [apply (grows_append _ (be16 _) (guard_le 2))|apply grows_ret]|]. intros _. apply grows_register.
Qed.
Lemma grows_map : forall A (f : A -> M render unit) l, (forall a, grows (f a)) -> grows (mapM_ f l).
Proof. intros A f l H. induction l; cbn [mapM_]; [apply grows_ret|]. apply grows_bind; auto. Qed.
Lemma grows_rdata : forall rd, grows (rdata_to_wire rd).
Proof.
  intros rd. unfold rdata_to_wire. apply grows_map. assert (B : forall d, grows (byte_binary_to_wire d)).
  { intros d. unfold byte_binary_to_wire. apply grows_bind; [apply grows_u8|intros; apply grows_bytes]. }
  intros [o|o|n|v|v|v|t|d|d|d]; cbn [field_to_wire]; auto using grows_u8, grows_u16, grows_u32, grows_bytes, grows_name, grows_map.
Qed.
Lemma grows_skip : forall n, grows (mr_skip n).
Proof. intros n r a r' H. unfold mr_skip, on_buf, ob_skip in H. destruct (_ <? _); inversion H; subst; unfold mr_len, ob_capacity; cbn; lia. Qed.
Lemma store_length : forall vs d p d', store d p vs = Ok d' -> length d' = length d.
Proof.
  induction vs as [|v vs IH]; intros d p d' H; cbn [store] in H; [inversion H; auto|]. unfold upd_r in H. destruct (p <? length d); [|discriminate]. cbn [rbind] in H.
  apply IH in H. rewrite upd_length in H. auto.
Qed.
Lemma grows_u16_at : forall p d, grows (mr_write_u16_at p d).
Proof.
  intros p d r a r' H. unfold mr_write_u16_at, on_buf, ob_write_u16_at, ob_store in H. destruct (p + 2 <=? ob_len (mr_buf r)); [|inversion H; subst; auto].
  destruct (store _ _ _) eqn:E; inversion H; subst; unfold mr_len, ob_capacity; cbn; auto. apply store_length in E. auto.
Qed.
Lemma grows_length : grows mr_length.
Proof. intros r a r' H. inversion H. auto. Qed.
Definition starts (w : M render unit) (n : name) : Prop := exists rest, grows rest /\ forall r, w r = (write_name n true ;; rest) r.
Lemma starts_then : forall w k n, starts w n -> grows k -> starts (w ;; k) n.
Proof.
  intros w k n (rest & G & E) Gk. exists (rest ;; k). split; [apply grows_bind; auto|]. intros r. rewrite <- bind_assoc. unfold bind at 1. rewrite E. reflexivity.
Qed.
Lemma grows_rr : forall rs rd, grows (rr_to_wire rs rd).
Proof.
  intros rs rd. unfold rr_to_wire, rr_prefix_to_wire. apply grows_bind; [apply grows_bind; [apply grows_name|]|].
  - intros _. apply grows_bind; [apply grows_u16|]. intros _. apply grows_bind; [apply grows_u16|]. intros _. apply grows_u32.
  - intros _. apply grows_bind; [apply grows_length|]. intros p. apply grows_bind; [apply grows_skip|]. intros _. apply grows_bind; [apply grows_rdata|].
    intros _. apply grows_bind; [apply grows_length|]. intros l. apply grows_bind; [apply grows_lift|]. intros d. apply grows_bind; [apply grows_lift|]. intros x. apply grows_u16_at.
Qed.
Lemma starts_prefix : forall rs, starts (rr_prefix_to_wire rs) (rs_name rs).
Proof.
  intros rs. eexists. split; [|reflexivity]. apply grows_bind; [apply grows_u16|]. intros _. apply grows_bind; [apply grows_u16|]. intros _. apply grows_u32.
Qed.
Lemma grows_rrset : forall rs, grows (rrset_to_wire rs).
Proof.
  intros rs. unfold rrset_to_wire. destruct (rs_rdatas rs); [|apply grows_map; apply grows_rr]. unfold rr_prefix_to_wire. apply grows_bind; [|intros; apply grows_u16].
  apply grows_bind; [apply grows_name|]. intros _. apply grows_bind; [apply grows_u16|]. intros _. apply grows_bind; [apply grows_u16|]. intros _. apply grows_u32.
Qed.
Lemma starts_rrset : forall rs, starts (rrset_to_wire rs) (rs_name rs).
Proof.
  intros rs. unfold rrset_to_wire. destruct (rs_rdatas rs) as [|d ds].
  - apply starts_then; [apply starts_prefix|apply grows_u16].
  - cbn [mapM_]. apply starts_then; [|apply grows_map; apply grows_rr]. unfold rr_to_wire. apply starts_then; [apply starts_prefix|].
    apply grows_bind; [apply grows_length|]. intros p. apply grows_bind; [apply grows_skip|]. intros _. apply grows_bind; [apply grows_rdata|].
    intros _. apply grows_bind; [apply grows_length|]. intros l. apply grows_bind; [apply grows_lift|]. intros y. apply grows_bind; [apply grows_lift|]. intros x. apply grows_u16_at.
Qed.
Lemma grows_section : forall s, grows (section_to_wire s).
Proof. intros [l|]; cbn [section_to_wire]; [apply grows_map; apply grows_rrset|apply grows_ret]. Qed.
Lemma starts_sections : forall ss, Forall section_wf ss -> flat_map records ss <> [] -> exists n, wf_name n /\ starts (mapM_ section_to_wire ss) n.
Proof.
  induction ss as [|s ss IH]; intros F H; [contradiction|]. cbn [mapM_]. apply Forall_cons_iff in F. destruct F as [Fs F].
  destruct s as [[|rs l]|].
  - destruct (IH F) as (n & W & S1); [exact H|]. exists n. auto.
  - exists (rs_name rs). split; [destruct Fs as [Fs _]; apply Forall_inv in Fs; apply Fs|]. apply starts_then; [|apply grows_map; apply grows_section].
    cbn [section_to_wire mapM_]. apply starts_then; [apply starts_rrset|apply grows_map; apply grows_rrset].
  - destruct (IH F) as (n & W & S1); [exact H|]. exists n. auto.
Qed.
Lemma sections_err : forall resp pos ss r r', mapM_ section_to_wire ss r = (Err, r') -> sections_to_wire resp pos ss r = (response_truncate resp pos ;; ret (Some pos)) r'.
Proof.
  intros resp pos. induction ss as [|s ss IH]; intros r r' H; cbn [sections_to_wire mapM_] in *; [discriminate|].
  unfold bind at 1 in H. destruct (section_to_wire s r) as [[[]| | |] r1]; try discriminate; auto. inversion H; subst. auto.
Qed.
(** When the sections fail, at what length. *)
Lemma response_panic : forall dat r r1 , bytes dat -> consistent r -> (header_to_wire (r_header r) ;; question_to_wire (r_question r)) (mr_new dat) = (Ok tt, r1) ->
  (fst (response_to_wire r (mr_new dat)) = Panic <-> exists r2, mapM_ section_to_wire [r_answer r; r_authority r; r_additional r] r1 = (Err, r2) /\ mr_len r2 = mr_len r1).
Proof.
  intros dat r r1 B Co E1. pose proof Co as (Hk & Hq1 & Qk & S1 & S2 & S3). pose proof Qk as ((ls & W & En) & _).
  destruct (response_known_all r) as [Kq Kr].
  pose proof (head_spec all_names dat (r_header r) (r_question r) ls B Hk Qk W En (fun s Hs => Kq ls s En Hs)) as H.
  rewrite E1 in H. destruct H as (I1 & C1 & A1). destruct (16 + wire_len ls <=? length dat); [|discriminate]. destruct A1 as (_ & B1 & L1).
  assert (R : response_to_wire r (mr_new dat) = (let! early := sections_to_wire r (mr_len r1) [r_answer r; r_authority r; r_additional r] in
     match early with Some n => ret n | None => mr_length end) r1).
  { transitivity (((header_to_wire (r_header r) ;; question_to_wire (r_question r)) ;; (let! pos := mr_length in
     let! early := sections_to_wire r pos [r_answer r; r_authority r; r_additional r] in
     match early with Some n => ret n | None => mr_length end)) (mr_new dat)); [rewrite bind_assoc; reflexivity|]. unfold bind at 1. rewrite E1. reflexivity. }
  rewrite R. clear R.
  assert (Em : forall ss, Forall section_wf ss -> forall r0, inv (fun _ => false) r0 -> let (a, r') := mapM_ section_to_wire ss r0 in extends r0 r' /\ inv (fun _ => false) r' /\ safe a).
  { clear. intros ss F. induction F as [|s ss Fs F IH]; intros r0 I0; cbn [mapM_]; [split; [apply extends_refl|split; [auto|split; discriminate]]|].
    unfold bind. destruct s as [l|]; cbn [section_to_wire].
    - destruct Fs as [Fw Fk]. pose proof (emits_section l Fw Fk _ r0 I0) as E. destruct (mapM_ rrset_to_wire l r0) as [[[]| | |] r1]; destruct E as (X & I1 & A); try (destruct A; fail).
      + specialize (IH r1 I1). destruct (mapM_ section_to_wire ss r1). destruct IH as (X2 & I2 & A2). split; [eapply extends_trans; eauto|auto].
      + split; auto. split; auto. split; discriminate.
    - apply IH. auto. }
  assert (Fw : Forall section_wf [r_answer r; r_authority r; r_additional r]).
  { repeat constructor; eapply section_ok_wf; eauto; intros rs l E Hin; eapply Kr; eauto. }
  specialize (Em _ Fw r1 I1). destruct (mapM_ section_to_wire _ r1) as [a r2] eqn:Ea. destruct Em as (X & I2 & Sf). unfold bind at 1.
  destruct a as [[]| | |]; try (destruct Sf; congruence; fail).
  - rewrite (proj2 (sections_whole r (mr_len r1) _ r1 r2) Ea). split; [discriminate|]. intros (r3 & E & _). discriminate.
  - rewrite (sections_err r (mr_len r1) _ r1 r2 Ea).
    destruct (extends_bytes r1 r2 X (inv_len _ _ I1) (inv_len _ _ I2)) as (tl & Et & Lt).
    destruct (response_truncate_spec r r2 (question_octets (r_question r)) tl) as (b & r4 & E4 & D4); auto; [apply (inv_len _ _ I2)|rewrite Et, B1, app_assoc; auto|].
    replace (12 + length (question_octets (r_question r))) with (mr_len r1) in E4
      by (rewrite L1; unfold question_octets; rewrite En, !app_length; cbn [n_raw name_of u16_bytes length]; unfold wire_len; lia).
    unfold bind at 1. rewrite E4. destruct X as (Le & _). destruct tl as [|x tl].
    + subst b. cbn [fst]. split; auto. intros _. exists r2. split; auto. cbn [length] in Lt. lia.
    + destruct D4 as (-> & _). unfold ret. cbn [fst]. split; [discriminate|]. intros (r3 & E & Er). inversion E; subst r3. cbn [length] in Lt. lia.
Qed.
Lemma panic_window : forall r, consistent r -> exists k, k <= 255 /\ (k = 0 <-> all_records r = []) /\
  forall dat, bytes dat -> (fst (response_to_wire r (mr_new dat)) = Panic <-> head_size r <= length dat < head_size r + k).
Proof.
  intros r Co. pose proof Co as (Hk & Hq1 & Qk & S1 & S2 & S3). pose proof Qk as ((ls & W & En) & _).
  destruct (response_known_all r) as [Kq Kr]. assert (Hs : head_size r = 16 + wire_len ls) by (unfold head_size; rewrite En; reflexivity).
  assert (Fw : Forall section_wf [r_answer r; r_authority r; r_additional r]).
  { repeat constructor; eapply section_ok_wf; eauto; intros rs l E Hin; eapply Kr; eauto. }
  assert (Er : flat_map records [r_answer r; r_authority r; r_additional r] = all_records r) by (cbn [flat_map]; rewrite app_nil_r; reflexivity).
  destruct (list_eq_dec (fun a b : unit => left (match a, b with tt, tt => eq_refl end)) (map (fun _ => tt) (all_records r)) []) as [Em|Em].
  { assert (Nr : all_records r = []) by (destruct (all_records r); [auto|discriminate]). exists 0. split; [lia|]. split; [tauto|]. intros dat B. split; [|lia].
    pose proof (response_render all_names dat r B Co (response_known_all r)) as R. destruct (response_to_wire r (mr_new dat)) as [a r']. cbn [fst].
    destruct (head_size r <=? length dat); [|subst; discriminate]. destruct R as [(-> & _)|(X & _)]; [discriminate|contradiction]. }
  assert (Nr : all_records r <> []) by (intros X; rewrite X in Em; auto). clear Em.
  destruct (starts_sections _ Fw) as (n & (os & Wo & ->) & rest & Gr & Est); [rewrite Er; auto|].
  assert (HD : forall dat, bytes dat -> head_size r <= length dat -> exists r1, (header_to_wire (r_header r) ;; question_to_wire (r_question r)) (mr_new dat) = (Ok tt, r1) /\
    inv (fun _ => false) r1 /\ mr_len r1 = head_size r /\ cap r1 = length dat).
  { intros dat B L. pose proof (head_spec all_names dat (r_header r) (r_question r) ls B Hk Qk W En (fun s Hs => Kq ls s En Hs)) as H.
    destruct ((header_to_wire (r_header r) ;; question_to_wire (r_question r)) (mr_new dat)) as [a r1]. destruct H as (I1 & C1 & A1).
    rewrite <- Hs in A1. rewrite (proj2 (Nat.leb_le _ _) L) in A1. destruct A1 as (-> & _ & L1). exists r1. auto. }
  set (dat0 := repeat 0%N (head_size r)). assert (B0 : bytes dat0).
  { apply Forall_forall. intros x Hx. apply repeat_spec in Hx. subst. reflexivity. }
  destruct (HD dat0 B0) as (r0 & E0 & I0 & L0 & C0); [unfold dat0; rewrite repeat_length; auto|].
  pose proof (head_spread dat0 _ _ ls r0 B0 W En E0) as Sp0.
  destruct (write_name_once _ r0 os true I0 Wo Sp0) as (lu & off & r0' & Se0 & _).
  destruct (write_name_chunk _ r0 os lu off r0' I0 Wo Se0) as [Ck _].
  exists (chunk os lu). split; [lia|]. split; [split; [lia|contradiction]|]. intros dat B.
  destruct (Nat.le_gt_cases (head_size r) (length dat)) as [L|L].
  2:{ split; [|lia]. pose proof (response_render all_names dat r B Co (response_known_all r)) as R. destruct (response_to_wire r (mr_new dat)) as [a r']. cbn [fst].
      rewrite (proj2 (Nat.leb_gt _ _) L) in R. subst. discriminate. }
  destruct (HD dat B L) as (r1 & E1 & I1 & L1 & C1). rewrite (response_panic dat r r1 B Co E1).
  assert (Sm : simple (header_to_wire (r_header r) ;; question_to_wire (r_question r))).
  { apply simple_then; [apply simple_header|apply simple_question; auto]. }
  destruct Sm as [_ Sm]. destruct (Sm (fun _ => false) (mr_new dat0) (mr_new dat) r0 (inv_new dat0 B0) (inv_new dat B)) as (r1' & E1' & Ag); auto.
  { split; [reflexivity|]. split; [|auto]. intros i. reflexivity. }
  { rewrite L0. exact L. }
  rewrite E1 in E1'. inversion E1'; subst r1'. clear E1'.
  destruct (wn_search_agree _ true (name_of os) _ r0 r1 0 0 _ _ I0 I1 Ag Se0) as (r2 & Se & _).
  destruct (write_name_chunk _ r1 os lu off r2 I1 Wo Se) as [_ A]. rewrite Est. unfold bind at 1.
  destruct (write_name (name_of os) true r1) as [a r3]. rewrite L1, C1 in A. destruct (Nat.leb_spec (head_size r + chunk os lu) (length dat)) as [Lc|Lc].
  - split; [|lia]. intros (r4 & E & Lr). assert (mr_len r3 <= mr_len r4); [|lia].
    destruct a as [[]| | |]; try (inversion E; subst; auto; fail). apply Gr in E. lia.
  - destruct A as [-> Eb]. split; [lia|]. intros _. exists r3. split; auto. unfold mr_len. rewrite Eb. auto.
Qed.

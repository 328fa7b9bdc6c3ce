(** Name::from_wire against the wire-format specification [wname]. *)
From Verif Require Import Base BaseLemmas NameModel SpecName.

Definition st_ord (n nused cused : nat) data offs seen cur big newc :=
  mkFw n nused cused false data offs seen WOrdinary cur big newc.
Definition st_start (n nused cused : nat) data offs seen cur big newc :=
  mkFw n nused cused false data offs seen WStart cur big newc.

Lemma read_u8_ok : forall w p c, nth_error w p = Some c -> read_u8 (mkIn w p) = (Ok c, mkIn w (p + 1)).
Proof.
  intros. unfold read_u8, ib_len. simpl.
  assert (p < length w) by (apply nth_error_Some; congruence).
  ift. rewrite (idx_nth _ _ _ _ H). reflexivity.
Qed.

Definition cu (seen : bool) (c k : nat) : nat := if seen then c else c + k.

Lemma fw_loop_more : forall f s w p c, nth_error w p = Some c -> fw_current s = p -> fw_done s = false ->
  fw_loop (S f) s (mkIn w p) =
  match fw_body s (mkIn w p) with
  | (Ok (s', true), b') => (Ok s', b')
  | (Ok (s', false), b') => fw_loop f s' b'
  | (Err, b') => (Err, b')
  | (Panic, b') => (Panic, b')
  | (Hang, b') => (Hang, b')
  end.
Proof.
  intros. subst p. unfold fw_loop at 1; fold fw_loop. unfold bind, get, ib_len. cbn [ib_data]. rewrite H1.
  assert (H2: fw_current s < length w) by (apply nth_error_Some; congruence).
  apply Nat.ltb_lt in H2. rewrite H2.
  cbn. destruct (fw_body s _) as [[[s' []]| | |] ?]; reflexivity.
Qed.
Lemma fw_loop_end : forall f s w q, fw_current s = length w \/ fw_done s = true ->
  fw_loop (S f) s (mkIn w q) = (Ok s, mkIn w q).
Proof.
  intros. unfold fw_loop at 1; fold fw_loop. unfold bind, get, ib_len. cbn [ib_data].
  replace ((fw_current s <? length w) && negb (fw_done s)) with false; [reflexivity|].
  symmetry. apply andb_false_iff. destruct H; [left|right].
  - rewrite H. apply Nat.ltb_irrefl.
  - rewrite H. reflexivity.
Qed.
Lemma skipn_cons : forall A (w : list A) p c, nth_error w p = Some c -> skipn p w = c :: skipn (p + 1) w.
Proof.
  induction w; destruct p; simpl; intros; try discriminate.
  - inversion H; auto.
  - apply IHw; auto.
Qed.

Lemma fw_body_ord : forall k w p c nused cused data offs seen big newc,
  nth_error w p = Some c ->
  fw_body (st_ord (S k) nused cused data offs seen p big newc) (mkIn w p) =
  (Ok (if k =? 0 then st_start k nused (cu seen cused 1) (data ++ [c]) offs seen (p + 1) big newc
       else st_ord k nused (cu seen cused 1) (data ++ [c]) offs seen (p + 1) big newc, false), mkIn w (p + 1)).
Proof.
  intros. unfold fw_body, st_ord, bind. rewrite (read_u8_ok _ _ _ H).
  unfold lift. rewrite csub_ok by lia. replace (S k - 1) with k by lia.
  unfold ret, st_start, cu. destruct (k =? 0), seen; reflexivity.
Qed.

Lemma fw_ord_lemma : forall k f w p nused cused data offs seen big newc,
  p <= length w ->
  fw_loop (S k + f) (st_ord (S k) nused cused data offs seen p big newc) (mkIn w p) =
  if p + S k <=? length w then
    fw_loop f (st_start 0 nused (cu seen cused (S k)) (data ++ firstn (S k) (skipn p w)) offs seen (p + S k) big newc)
      (mkIn w (p + S k))
  else (Ok (st_ord (S k - (length w - p)) nused (cu seen cused (length w - p)) (data ++ skipn p w) offs seen (length w) big newc),
        mkIn w (length w)).
Proof.
  assert (CU : forall seen a b c, cu seen (cu seen a b) c = cu seen a (b + c)) by (intros []; simpl; intros; lia).
  induction k; intros.
  - simpl (1 + f).
    destruct (Nat.eq_dec p (length w)).
    + subst. rewrite fw_loop_end by auto. iff_. rewrite Nat.sub_diag.
      rewrite skipn_all, app_nil_r. unfold cu. destruct seen; rewrite ?Nat.add_0_r; reflexivity.
    + ift. destruct (nth_error w p) eqn:E; [|apply nth_error_None in E; lia].
      rewrite (fw_loop_more _ _ w _ n0 E) by reflexivity.
      rewrite (fw_body_ord _ _ _ _ _ _ _ _ _ _ _ E). simpl (0 =? 0). cbn iota.
      rewrite (skipn_cons _ _ _ _ E). reflexivity.
  - change (S (S k) + f) with (S (S k + f)).
    destruct (Nat.eq_dec p (length w)).
    + subst. rewrite fw_loop_end by auto. iff_. rewrite Nat.sub_diag.
      rewrite skipn_all, app_nil_r. unfold cu. destruct seen; rewrite ?Nat.add_0_r; reflexivity.
    + destruct (nth_error w p) eqn:E; [|apply nth_error_None in E; lia].
      rewrite (fw_loop_more _ _ w _ n0 E) by reflexivity.
      rewrite (fw_body_ord _ _ _ _ _ _ _ _ _ _ _ E). simpl (S k =? 0). cbn iota.
      rewrite IHk by lia. rewrite !CU. rewrite <- !app_assoc.
      replace (p + 1 + S k) with (p + S (S k)) by lia.
      rewrite (skipn_cons _ _ _ _ E).
      destruct (p + S (S k) <=? length w) eqn:L; bl.
      * f_equal.
      * f_equal. f_equal. f_equal; try lia. f_equal. lia.
Qed.

Lemma wire_len_nil : wire_len [] = 1.
Proof. reflexivity. Qed.
Lemma wire_len_cons : forall l ls, wire_len (l :: ls) = 1 + length l + wire_len ls.
Proof. intros. unfold wire_len, enc, body. simpl. rewrite !app_length. lia. Qed.

Lemma wire_len_pos : forall ls, 1 <= wire_len ls.
Proof. destruct ls; [rewrite wire_len_nil|rewrite wire_len_cons]; lia. Qed.

(** potential: enough fuel *)
Definition phi (nused big : nat) : nat := 255 - nused + 2 * big + 2.

Lemma firstn_skipn_nth : forall (w : list N) p n i c,
  nth_error (firstn n (skipn p w)) i = Some c -> nth_error w (p + i) = Some c.
Proof.
  intros w p n i c H.
  assert (HH : i < n).
  { assert (i < length (firstn n (skipn p w))) by (apply nth_error_Some; congruence).
    rewrite firstn_length in H0. lia. }
  assert (G : forall A (l : list A) k j, j < k -> nth_error (firstn k l) j = nth_error l j).
  { induction l; destruct k, j; simpl; intros; auto; try lia. apply IHl. lia. }
  rewrite G in H by auto.
  assert (G2 : forall A (l : list A) k j, nth_error (skipn k l) j = nth_error l (k + j)).
  { intros A l k. revert l. induction k; destruct l; simpl; intros; auto. destruct j; auto. }
  rewrite G2 in H. auto.
Qed.

Lemma nth_all_slice : forall (w : list N) p (l : list N),
  (forall i c, nth_error l i = Some c -> nth_error w (p + i) = Some c) ->
  p <= length w ->
  p + length l <= length w /\ firstn (length l) (skipn p w) = l.
Proof.
  intros w p l. revert p. induction l; intros.
  - simpl. split; [lia|auto].
  - assert (nth_error w p = Some a) by (rewrite <- (Nat.add_0_r p); apply H; reflexivity).
    assert (p < length w) by (apply nth_error_Some; congruence).
    destruct (IHl (p + 1)) as [A B].
    + intros. rewrite <- Nat.add_assoc. apply H. simpl. auto.
    + lia.
    + split; [simpl; lia|].
      assert (skipn p w = a :: skipn (p + 1) w).
      { clear -H1. revert w H1; induction p; destruct w; simpl; intros; try discriminate; auto. inversion H1; auto. }
      rewrite H3. simpl. f_equal. auto.
Qed.

Lemma obody_snoc : forall p l ls, offs_from p (l :: ls) = N.of_nat p :: offs_from (p + 1 + length l) ls.
Proof.
  intros. unfold offs_from. simpl. f_equal. f_equal. f_equal. f_equal.
  rewrite app_length. lia.
Qed.

Lemma land192 : forall c, (c < 256)%N -> (63 < c)%N ->
  ((N.land c 192 =? 192)%N = true -> (192 <= c)%N /\ N.land c 63 = (c - 192)%N) /\
  ((N.land c 192 =? 192)%N = false -> (c < 192)%N).
Proof.
  intros.
  assert (G : forallb (fun n => let c := N.of_nat n in
     if (N.land c 192 =? 192)%N then (192 <=? c)%N && (N.land c 63 =? (c - 192))%N else (c <? 192)%N)
     (seq 0 256) = true) by (vm_compute; reflexivity).
  rewrite forallb_forall in G.
  specialize (G (N.to_nat c)). rewrite in_seq in G.
  assert (I : 0 <= N.to_nat c < 0 + 256) by lia. apply G in I. clear G.
  cbn zeta in I. rewrite N2Nat.id in I.
  destruct (N.land c 192 =? 192)%N.
  - bl. split; intros; try discriminate. auto.
  - bl. split; intros; try discriminate. auto.
Qed.

(** The outcome of the loop started at the beginning of a label. *)
Definition good (w : list N) (nused cused : nat) (data offs : list N) (seen : bool) (p big : nat) (r : res fwst * inbuf) : Prop :=
  exists ls e s' p',
    wname (rd_of w) big p ls e /\ nused + wire_len ls <= 255 /\ r = (Ok s', mkIn w p') /\
    p' <= length w /\ e <= length w /\ p < e /\
    fw_done s' = true /\ fw_data s' = data ++ enc ls /\ fw_offsets s' = offs ++ offs_from nused ls /\
    fw_cused s' = (if seen then cused else cused + (e - p)).
Definition bad (w : list N) (nused p big : nat) (r : res fwst * inbuf) : Prop :=
  (forall ls e, wname (rd_of w) big p ls e -> 255 < nused + wire_len ls) /\
  exists p', p' <= length w /\
    (r = (Err, mkIn w p') \/ exists s', fw_done s' = false /\ r = (Ok s', mkIn w p')).

Lemma fw_main : forall fuel w nused cused data offs seen p big n newc,
  bytes w -> p <= length w -> phi nused big <= fuel -> nused <= 255 ->
  let r := fw_loop fuel (st_start n nused cused data offs seen p big newc) (mkIn w p) in
  good w nused cused data offs seen p big r \/ bad w nused p big r.
Proof.
  intros fuel. induction fuel as [fuel IH] using lt_wf_ind.
  intros w nused cused data offs seen p big n newc Hb Hp Hf Hn r.
  unfold phi in Hf.
  destruct fuel as [|fuel]; [lia|].
  unfold r. clear r.
  destruct (Nat.eq_dec p (length w)) as [->|Hne].
  { right. rewrite fw_loop_end by auto. split.
    - intros ls e H. exfalso.
      assert (nth_error w (length w) = None) as X by (apply nth_error_None; lia).
      inversion H; subst; unfold rd_of in *; congruence.
    - exists (length w). split; [lia|]. right. eexists. split; [|reflexivity]. reflexivity. }
  destruct (nth_error w p) as [c|] eqn:E; [|apply nth_error_None in E; lia].
  assert (Hc : (c < 256)%N) by (unfold bytes in Hb; rewrite Forall_forall in Hb; apply Hb; eapply nth_error_In; eauto).
  rewrite (fw_loop_more _ _ w _ c E) by reflexivity.
  unfold fw_body. unfold st_start. unfold bind. 
  rewrite (read_u8_ok _ _ _ E). cbn zeta.
  destruct (c <=? MAX_LABEL_LEN)%N eqn:EL; bl; unfold MAX_LABEL_LEN in EL.
  - (* label or root *)
    unfold ensure. unfold MAX_WIRE_LEN.
    destruct (nused + (N.to_nat c + 1) <=? 255) eqn:ELen; bl.
    2:{ right. simpl. split.
        - intros ls e H. inversion H; subst; unfold rd_of in *; rewrite E in *.
          + inj H0. change (wire_len []) with 1. change (N.to_nat 0) with 0 in ELen. lia.
          + inj H1. rewrite wire_len_cons. unfold blen in ELen. pose proof (wire_len_pos ls0). lia.
          + inj H0. lia.
        - exists (p + 1). split; [lia|]. left. reflexivity. }
    unfold ret. cbn iota.
    rewrite as_u8_small by lia.
    destruct (c =? 0)%N eqn:E0; bl.
    + (* root *)
      subst c. left.
      exists (@nil label), (p + 1). eexists. exists (p + 1).
      destruct fuel as [|fuel]; [simpl in *; lia|].
      rewrite fw_loop_end by auto.
      split; [apply wn_root; auto|].
      repeat split; try reflexivity; try (simpl; lia).
      * unfold wire_len; simpl. simpl in ELen. lia.
      * simpl. unfold offs_from. simpl. rewrite Nat.add_0_r. reflexivity.
      * simpl. destruct seen; lia.
    + (* label *)
      destruct (N.to_nat c) as [|k] eqn:Ek; [lia|].
      fold (st_ord (S k) (nused + (S k + 1)) (if seen then cused else cused + 1) (data ++ [c]) (offs ++ [N.of_nat nused]) seen (p + 1) big newc).
      assert (Hfu : exists f', fuel = S k + f') by (exists (fuel - S k); lia).
      destruct Hfu as [f' ->].
      rewrite fw_ord_lemma by lia.
      destruct (p + 1 + S k <=? length w) eqn:EP; bl.
      * assert (LL : length (firstn (S k) (skipn (p + 1) w)) = S k) by (rewrite firstn_length, skipn_length; lia).
        set (l := firstn (S k) (skipn (p + 1) w)) in *.
        specialize (IH f' ltac:(lia) w (nused + (S k + 1)) (cu seen (if seen then cused else cused + 1) (S k)) ((data ++ [c]) ++ l) (offs ++ [N.of_nat nused]) seen (p + 1 + S k) big 0 newc Hb EP).
        unfold phi in IH. specialize (IH ltac:(lia) ltac:(lia)). cbn zeta in IH.
        assert (Hl : blen l = c) by (unfold blen; rewrite LL; lia).
        destruct IH as [G|B]; [left|right].
        -- destruct G as (ls & e & s' & p' & W & WL & R & P1 & P2 & P3 & D & DD & OO & CC).
           exists (l :: ls), e, s', p'.
           split.
           { apply wn_label.
             - rewrite LL. lia.
             - unfold rd_of. rewrite Hl. auto.
             - intros. unfold rd_of. eapply firstn_skipn_nth; eauto.
             - rewrite LL. auto. }
           split. { rewrite wire_len_cons. rewrite LL. lia. }
           split; [auto|]. split; [auto|]. split; [auto|]. split; [lia|]. split; [auto|].
           split. { rewrite DD. unfold enc, body. simpl flat_map. rewrite Hl. rewrite <- !app_assoc. simpl. rewrite <- !app_assoc. reflexivity. }
           split. { rewrite OO. rewrite obody_snoc. rewrite <- app_assoc. simpl. rewrite LL. replace (nused + 1 + S k) with (nused + (S k + 1)) by lia. reflexivity. }
           rewrite CC. unfold cu. destruct seen; lia.
        -- destruct B as (NW & p' & P1 & R).
           split; [|exists p'; auto].
           intros ls e H. inversion H; subst; unfold rd_of in *; rewrite E in *.
           ++ inj H0. lia.
           ++ inj H1.
              destruct (nth_all_slice w (p + 1) l0) as [X Y]; [auto|lia|].
              assert (LE : length l0 = S k) by (unfold blen in Ek, Einj; lia).
              assert (l0 = l) by (unfold l; rewrite <- LE; symmetry; auto). subst l0.
              rewrite LE in H3. apply NW in H3. rewrite wire_len_cons. lia.
           ++ inj H0. lia.
      * right. split.
        -- intros ls e H. inversion H; subst; unfold rd_of in *; rewrite E in *.
           ++ inj H0. lia.
           ++ inj H1.
              destruct (nth_all_slice w (p + 1) l) as [X Y]; [auto|lia|].
              unfold blen in Ek. lia.
           ++ inj H0. lia.
        -- exists (length w). split; [lia|]. right. eexists. split; [|reflexivity]. reflexivity.
  - unfold COMPRESS_POINTER_MARK8.
    destruct (land192 c Hc EL) as [LT LF].
    destruct (N.land c 192 =? 192)%N eqn:EPt.
    + destruct (LT eq_refl) as [LT1 LT2]. clear LT LF. unfold ret.
      (* second byte *)
      destruct fuel as [|fuel]; [lia|].
      destruct (Nat.eq_dec (p + 1) (length w)) as [EQ|Hne2].
      { right. rewrite fw_loop_end by auto. split.
        - intros ls e H. exfalso.
          assert (nth_error w (length w) = None) as X by (apply nth_error_None; lia).
          inversion H; subst; unfold rd_of in *; rewrite E in *.
          + inj H0. lia.
          + inj H1. unfold blen in *. lia.
          + rewrite EQ in *. congruence.
        - exists (p + 1). split; [lia|]. right. eexists. split; [|reflexivity]. reflexivity. }
      destruct (nth_error w (p + 1)) as [c2|] eqn:E2; [|apply nth_error_None in E2; lia].
      rewrite (fw_loop_more _ _ w _ c2 E2) by reflexivity.
      unfold fw_body. unfold bind. rewrite (read_u8_ok _ _ _ E2). cbn zeta.
      unfold lift. rewrite csub_ok by lia.
      cbn iota. rewrite Nat.sub_diag. cbn [Nat.eqb negb]. unfold ensure, ret.
      rewrite LT2.
      set (t := N.to_nat (c - 192) * 256 + N.to_nat c2).
      assert (Ht : t = N.to_nat (256 * (c - 192) + c2)) by (unfold t; lia).
      destruct (t <? big) eqn:ET; bl.
      2:{ right. simpl. split.
          - intros ls e H. inversion H; subst; unfold rd_of in *; rewrite E in *.
            + inj H0. lia.
            + inj H1. unfold blen in *. lia.
            + inj H0. rewrite E2 in *. inj H2. exfalso. clear IH. lia.
          - exists (p + 1 + 1). split; [lia|]. left. reflexivity. }
      unfold set_position, ib_len. simpl.
      destruct (t <=? length w) eqn:ET2; bl.
      2:{ right. simpl. split.
          - intros ls e H. inversion H; subst; unfold rd_of in *; rewrite E in *.
            + inj H0. lia.
            + inj H1. unfold blen in *. lia.
            + inj H0. rewrite E2 in *. inj H2.
              assert (nth_error w (N.to_nat (256 * hi + lo)) = None) as X by (apply nth_error_None; lia).
              inversion H5; subst; unfold rd_of in *; congruence.
          - exists (p + 1 + 1). split; [lia|]. left. reflexivity. }
      specialize (IH fuel ltac:(lia) w nused (if seen then (if seen then cused else cused + 1) else (if seen then cused else cused + 1) + 1) data offs true t t 0 t Hb ET2).
      unfold phi in IH. specialize (IH ltac:(lia) ltac:(lia)). cbn zeta in IH.
      destruct IH as [G|B]; [left|right].
      * destruct G as (ls & e & s' & p' & W & WL & R & P1 & P2 & P3 & D & DD & OO & CC).
        exists ls, (p + 2), s', p'.
        split. { apply wn_ptr with (hi := (c - 192)%N) (lo := c2) (t := t) (e := e); auto; try lia.
                 unfold rd_of. rewrite E. f_equal. lia. }
        split; [auto|]. split; [exact R|]. split; [auto|]. split; [lia|]. split; [lia|]. split; [auto|].
        split; [auto|]. split; [auto|].
        rewrite CC. destruct seen; lia.
      * destruct B as (NW & p' & P1 & R).
        split; [|exists p'; auto].
        intros ls e H. inversion H; subst; unfold rd_of in *; rewrite E in *.
        -- inj H0. lia.
        -- inj H1. unfold blen in *. lia.
        -- inj H0. rewrite E2 in *. inj H2.
           replace (N.to_nat (256 * hi + lo)) with t in H5 by (rewrite Ht; f_equal; lia).
           eauto.
    + specialize (LF eq_refl). right. simpl. split.
      * intros ls e H. inversion H; subst; unfold rd_of in *; rewrite E in *.
        -- inj H0. lia.
        -- inj H1. unfold blen in *. lia.
        -- inj H0. lia.
      * exists (p + 1). split; [lia|]. left. reflexivity.
Qed.

(** Full description of from_wire on every buffer and position. *)
Lemma from_wire_spec : forall w p, bytes w -> p <= length w ->
  (exists ls e, wname (rd_of w) p p ls e /\ wire_len ls <= 255 /\ p < e <= length w /\
      name_from_wire (mkIn w p) = (Ok (name_of ls), mkIn w e))
  \/ ((forall ls e, wname (rd_of w) p p ls e -> 255 < wire_len ls) /\
      exists p', p' <= length w /\ name_from_wire (mkIn w p) = (Err, mkIn w p')).
Proof.
  intros w p Hb Hp.
  pose proof (fw_main (fw_fuel p) w 0 0 [] [] false p p 0 0 Hb Hp) as H.
  unfold phi in H. specialize (H ltac:(unfold fw_fuel; lia) ltac:(lia)). cbn zeta in H.
  unfold name_from_wire, bind, position. cbn [ib_pos]. unfold st_start in H.
  destruct H as [G|B]; [left|right].
  - destruct G as (ls & e & s' & p' & W & WL & R & P1 & P2 & P3 & D & DD & OO & CC).
    exists ls, e. split; [auto|]. split; [auto|]. split; [lia|].
    rewrite R. rewrite D. unfold ensure, ret, set_position, ib_len. cbn [ib_data].
    rewrite CC. simpl. replace (p + (e - p)) with e by lia. ift.
    rewrite DD, OO. reflexivity.
  - destruct B as (NW & p' & P1 & R). split; [exact NW|].
    exists p'. split; [auto|].
    destruct R as [R|(s' & D & R)]; rewrite R; auto.
    rewrite D. reflexivity.
Qed.

Lemma wname_det : forall rd lim p ls e, wname rd lim p ls e ->
  forall lim' ls' e', wname rd lim' p ls' e' -> ls = ls' /\ e = e'.
Proof.
  induction 1; intros.
  - inversion H0; subst; auto.
    + rewrite H in H2. inj H2. unfold blen in *. lia.
    + rewrite H in H1. inj H1. lia.
  - inversion H3; subst.
    + rewrite H0 in H4. inj H4. unfold blen in *. lia.
    + rewrite H0 in H5. inj H5.
      assert (length l = length l0) by (unfold blen in Einj; lia).
      assert (l = l0).
      { apply nth_error_ext. intros.
        destruct (nth_error l i) eqn:A.
        - destruct (nth_error l0 i) eqn:B.
          + apply H1 in A. apply H6 in B. congruence.
          + apply nth_error_None in B. assert (i < length l) by (apply nth_error_Some; congruence). lia.
        - apply nth_error_None in A. symmetry. apply nth_error_None. lia. }
      subst l0. destruct (IHwname _ _ _ H7). subst. auto.
    + rewrite H0 in H4. inj H4. unfold blen in *. lia.
  - inversion H5; subst.
    + rewrite H in H6. inj H6. lia.
    + rewrite H in H7. inj H7. unfold blen in *. lia.
    + rewrite H in H6. inj H6. rewrite H1 in H8. inj H8.
      assert (hi = hi0) by lia. subst hi0.
      destruct (IHwname _ _ _ H11). subst. auto.
Qed.

Lemma wname_lim : forall rd lim p ls e, wname rd lim p ls e -> forall lim', lim <= lim' -> wname rd lim' p ls e.
Proof.
  induction 1; intros.
  - apply wn_root; auto.
  - apply wn_label; auto.
  - eapply wn_ptr; eauto. lia.
Qed.

Lemma wname_mono : forall rd lim p ls e, wname rd lim p ls e ->
  forall rd' : nat -> option N, (forall i c, rd i = Some c -> rd' i = Some c) -> wname rd' lim p ls e.
Proof.
  induction 1; intros.
  - apply wn_root; auto.
  - apply wn_label; auto.
  - eapply wn_ptr; eauto.
Qed.

Lemma wname_wf_label : forall w lim p ls e, bytes w -> wname (rd_of w) lim p ls e -> Forall wf_label ls.
Proof.
  induction 2; auto. constructor; auto. split; auto.
  unfold bytes. rewrite Forall_forall. intros x Hx.
  apply In_nth_error in Hx. destruct Hx as [i Hi]. apply H2 in Hi.
  unfold bytes in H. rewrite Forall_forall in H. apply H. eapply nth_error_In; eauto.
Qed.

Lemma wname_end_pos : forall rd lim p ls e, wname rd lim p ls e -> p < e.
Proof. induction 1; lia. Qed.
Lemma wname_end_bound : forall w lim p ls e, wname (rd_of w) lim p ls e -> e <= length w.
Proof.
  induction 1; auto.
  - assert (pos < length w) by (apply nth_error_Some; unfold rd_of in *; congruence). lia.
  - assert (pos + 1 < length w) by (apply nth_error_Some; unfold rd_of in *; congruence). lia.
Qed.

(** Completeness as a usable equation *)
Lemma from_wire_complete : forall w p ls e, bytes w ->
  wname (rd_of w) p p ls e -> wire_len ls <= 255 ->
  name_from_wire (mkIn w p) = (Ok (name_of ls), mkIn w e).
Proof.
  intros w p ls e Hb W L.
  assert (p < length w).
  { destruct W; apply nth_error_Some; unfold rd_of in *; congruence. }
  destruct (from_wire_spec w p Hb ltac:(lia)) as [(ls' & e' & W' & L' & P & R)|(NW & _)].
  - destruct (wname_det _ _ _ _ _ W _ _ _ W'). subst. auto.
  - apply NW in W. lia.
Qed.

(** The uncompressed form *)
Lemma wname_enc : forall ls pre post lim,
  Forall wf_label ls ->
  wname (rd_of (pre ++ enc ls ++ post)) lim (length pre) ls (length pre + wire_len ls).
Proof.
  induction ls; intros.
  - unfold enc, wire_len. simpl. apply wn_root. unfold rd_of.
    rewrite nth_error_app2 by lia. rewrite Nat.sub_diag. reflexivity.
  - inversion H; subst. destruct H2 as [H2 _].
    assert (X : pre ++ enc (a :: ls) ++ post = (pre ++ enc_label a) ++ enc ls ++ post).
    { unfold enc, body. simpl. rewrite <- !app_assoc. simpl. rewrite <- ?app_assoc. reflexivity. }
    apply wn_label; auto.
    + unfold rd_of. rewrite nth_error_app2 by lia. rewrite Nat.sub_diag. reflexivity.
    + intros. unfold rd_of. rewrite X. assert (i < length a) by (apply nth_error_Some; congruence).
      rewrite nth_error_app1 by (rewrite app_length; simpl; lia).
      rewrite nth_error_app2 by lia.
      replace (length pre + 1 + i - length pre) with (S i) by lia. simpl. auto.
    + rewrite X. replace (length pre + 1 + length a) with (length (pre ++ enc_label a)) by (rewrite app_length; simpl; lia).
      replace (length pre + wire_len (a :: ls)) with (length (pre ++ enc_label a) + wire_len ls).
      * apply IHls; auto.
      * rewrite wire_len_cons. rewrite !app_length. simpl. lia.
Qed.

(** The number of passes of Name::from_wire's loop. *)
From Verif Require Import Base NameModel SpecName SpecWork BaseLemmas NameWireProofs.

Definition cap (big : nat) : nat := Nat.min big (64 * 256).
Definition measure (s : fwst) : nat :=
  match fw_state s with
  | WStart => 2 * cap (fw_biggest s) + (256 - fw_nused s)
  | WOrdinary => 2 * cap (fw_biggest s) + (256 - fw_nused s) + fw_n s
  | WNewCurrent => 2 * cap (fw_biggest s) + (255 - fw_nused s)
  end.
Definition winv (s : fwst) : Prop :=
  fw_nused s <= 255 /\
  match fw_state s with
  | WStart => True
  | WOrdinary => fw_n s <> 0 \/ fw_done s = true
  | WNewCurrent => fw_n s = 1 /\ fw_new_current s <= 63
  end.
Lemma read_u8_byte : forall b c b', bytes (ib_data b) -> read_u8 b = (Ok c, b') -> (c < 256)%N /\ ib_data b' = ib_data b.
Proof.
  intros [w p] c b' B E. unfold read_u8 in E. cbn [ib_data ib_pos] in *. destruct (_ <? _) in E; [|discriminate].
  unfold idx in E. destruct (nth_error w p) as [y|] eqn:N; [|discriminate]. inversion E; subst. split; [|reflexivity].
  unfold bytes in B. rewrite Forall_forall in B. apply B. eapply nth_error_In; eauto.
Qed.
Lemma read_u8_safe : forall b r b', read_u8 b = (r, b') -> r <> Hang.
Proof.
  intros b r b' E. unfold read_u8 in E. destruct (_ <? _) in E; [|inversion E; discriminate]. unfold idx in E.
  destruct (nth_error _ _) in E; inversion E; discriminate.
Qed.
(** One pass: no hang, no break, and the measure goes down. *)
Lemma fw_step : forall s b r b', bytes (ib_data b) -> winv s -> fw_done s = false -> fw_body s b = (r, b') ->
  r <> Hang /\ forall s' brk, r = Ok (s', brk) -> ib_data b' = ib_data b /\ brk = false /\ winv s' /\ S (measure s') <= measure s.
Proof.
  intros [n nused cused done data offs seen st current big newc] b r b' B [I1 I2] D E. cbn [fw_nused fw_state fw_n fw_done fw_new_current fw_biggest] in *. subst done.
  unfold fw_body, bind in E. destruct (read_u8 b) as [rc b1] eqn:R. pose proof (read_u8_safe _ _ _ R) as NH.
  destruct rc as [c| | |]; try (inversion E; subst; split; intros; congruence). destruct (read_u8_byte _ _ _ B R) as [Hc B1]. cbn zeta in E.
  destruct st.
  - destruct (c <=? MAX_LABEL_LEN)%N eqn:EL.
    + unfold ensure in E. destruct (nused + (N.to_nat c + 1) <=? MAX_WIRE_LEN) eqn:EW; [|inversion E; subst; split; intros; congruence].
      unfold ret in E. inversion E; subst. split; [discriminate|]. intros s' brk Es. inversion Es; subst. apply Nat.leb_le in EW. unfold MAX_WIRE_LEN in EW.
      split; [auto|]. split; [auto|]. unfold winv, measure. cbn [fw_nused fw_state fw_n fw_done fw_biggest]. split; [|lia]. split; [lia|].
      destruct (N.eqb_spec c 0); [right; auto|left; lia].
    + destruct (N.land c COMPRESS_POINTER_MARK8 =? COMPRESS_POINTER_MARK8)%N eqn:EP; [|inversion E; subst; split; intros; congruence].
      unfold ret in E. inversion E; subst. split; [discriminate|]. intros s' brk Es. inversion Es; subst.
      apply N.leb_gt in EL. unfold MAX_LABEL_LEN in EL. destruct (land192 c Hc EL) as [LT _]. destruct (LT EP) as [_ L2].
      split; [auto|]. split; [auto|]. unfold winv, measure. cbn [fw_nused fw_state fw_n fw_done fw_biggest fw_new_current]. rewrite L2. split; lia.
  - destruct I2 as [I2|I2]; [|discriminate]. unfold lift in E. rewrite csub_ok in E by lia. unfold ret in E. inversion E; subst. split; [discriminate|].
    intros s' brk Es. inversion Es; subst. split; [auto|]. split; [auto|]. unfold winv, measure. cbn [fw_nused fw_state fw_n fw_done fw_biggest fw_new_current].
    destruct (n - 1 =? 0) eqn:EN; [apply Nat.eqb_eq in EN|apply Nat.eqb_neq in EN]; (split; [split; [lia|auto]|lia]).
  - destruct I2 as [-> I3]. unfold lift in E. rewrite csub_ok in E by lia. rewrite Nat.sub_diag in E. cbn [Nat.eqb negb] in E. unfold ensure in E.
    destruct (newc * 256 + N.to_nat c <? big) eqn:EB; [|inversion E; subst; split; intros; congruence]. apply Nat.ltb_lt in EB.
    unfold ret at 1 in E. unfold set_position in E. destruct (newc * 256 + N.to_nat c <=? ib_len b1) in E; [|inversion E; subst; split; intros; congruence].
    unfold ret in E. inversion E; subst. split; [discriminate|]. intros s' brk Es. inversion Es; subst. cbn [ib_data]. split; [auto|]. split; [auto|].
    unfold winv, measure, cap. cbn [fw_nused fw_state fw_n fw_done fw_biggest fw_new_current]. split; [auto|]. clear - EB I1 I3 Hc. assert (N.to_nat c < 256) by lia.
    remember (newc * 256 + N.to_nat c) as t. assert (t < (64 * 256)) by lia. lia.
Qed.
Lemma fw_enough : forall f s b k, bytes (ib_data b) -> winv s -> measure s < f -> fw_loop (f + k) s b = fw_loop f s b /\ fst (fw_loop f s b) <> Hang.
Proof.
  induction f as [|f IH]; intros s b k B W M; [lia|]. cbn [fw_loop Nat.add]. unfold bind at 1 3 5, get.
  destruct ((fw_current s <? ib_len b) && negb (fw_done s)) eqn:C; [|split; [reflexivity|cbn; discriminate]].
  apply andb_true_iff in C. destruct C as [_ C]. apply negb_true_iff in C.
  unfold bind. destruct (fw_body s b) as [r b'] eqn:E. destruct (fw_step s b r b' B W C E) as [NH ST].
  destruct r as [[s' brk]| | |]; try (split; [reflexivity|cbn; congruence]). destruct (ST _ _ eq_refl) as (D & -> & W' & M').
  apply IH; auto; [rewrite D; auto|lia].
Qed.
Lemma name_work : forall w p, bytes w -> p <= length w ->
  fst (name_from_wire_within (256 + 2 * Nat.min p (64 * 256)) (mkIn w p)) <> Hang /\
  forall k, 256 + 2 * Nat.min p (64 * 256) <= k -> name_from_wire_within k (mkIn w p) = name_from_wire (mkIn w p).
Proof.
  intros w p B Lp.
  set (s0 := mkFw 0 0 0 false [] [] false WStart p p 0).
  assert (W : winv s0) by (split; cbn; [lia|exact Logic.I]).
  assert (M : measure s0 = 256 + 2 * Nat.min p (64 * 256)) by (unfold measure, s0, cap; cbn [fw_state fw_nused fw_biggest]; lia).
  assert (G : forall k, 256 + 2 * Nat.min p (64 * 256) < k -> fw_loop k s0 (mkIn w p) = fw_loop (S (256 + 2 * Nat.min p (64 * 256))) s0 (mkIn w p)).
  { intros k Hk. destruct (fw_enough (S (256 + 2 * Nat.min p (64 * 256))) s0 (mkIn w p) (k - S (256 + 2 * Nat.min p (64 * 256))) B W) as [E _]; [lia|].
    rewrite <- E. f_equal. lia. }
  assert (Eq : forall k, 256 + 2 * Nat.min p (64 * 256) <= k -> name_from_wire_within k (mkIn w p) = name_from_wire (mkIn w p)).
  { intros k Hk. unfold name_from_wire_within, name_from_wire, bind, position. cbn [ib_pos]. fold s0. rewrite (G (S k)) by lia.
    rewrite (G (fw_fuel p)); [reflexivity|]. unfold fw_fuel. lia. }
  split; auto. rewrite Eq by lia. destruct (from_wire_spec w p B Lp) as [(ls & e & _ & _ & _ & E)|(_ & p' & _ & E)]; rewrite E; cbn; discriminate.
Qed.
(** A chain of pointers makes the loop that long. *)
Lemma chain_S : forall m, pointer_chain (S m) = pointer_chain m ++ [192 + N.of_nat (target m) / 256; N.of_nat (target m) mod 256]%N.
Proof. intros m. unfold pointer_chain. rewrite seq_S, flat_map_app. reflexivity. Qed.
Lemma chain_len : forall m, length (pointer_chain m) = 2 * m + 1.
Proof. induction m; [reflexivity|]. rewrite chain_S, app_length, IHm. cbn [length]. lia. Qed.
Lemma chain_nth : forall m i, i < m -> nth_error (pointer_chain m) (1 + 2 * i) = Some (192 + N.of_nat (target i) / 256)%N /\
  nth_error (pointer_chain m) (1 + 2 * i + 1) = Some (N.of_nat (target i) mod 256)%N.
Proof.
  induction m as [|m IH]; intros i Hi; [lia|]. rewrite chain_S. pose proof (chain_len m) as CL. destruct (Nat.eq_dec i m) as [->|Ne].
  - split; rewrite nth_error_app2 by lia; rewrite CL; [replace (1 + 2 * m - (2 * m + 1)) with 0 by lia|replace (1 + 2 * m + 1 - (2 * m + 1)) with 1 by lia]; reflexivity.
  - destruct (IH i) as [A C]; [lia|]. split; rewrite nth_error_app1 by lia; auto.
Qed.
Lemma chain_bytes : forall m, m <= 32 * 256 -> bytes (pointer_chain m).
Proof.
  induction m as [|m IH]; intros Hm; [repeat constructor|]. rewrite chain_S. apply Forall_app. split; [apply IH; lia|].
  repeat constructor; unfold byte.
  - assert (N.of_nat (target m) / 256 < 64)%N; [|lia]. apply N.div_lt_upper_bound; [lia|]. unfold target. lia.
  - apply N.mod_lt. lia.
Qed.
Lemma chain_root : forall m f n nused cused data offs seen big newc, f <= 1 ->
  fst (fw_loop f (mkFw n nused cused false data offs seen WStart 0 big newc) (mkIn (pointer_chain m) 0)) = Hang \/ 255 < nused + 1.
Proof.
  intros m f n nused cused data offs seen big newc Hf. destruct f as [|[|f]]; [left; reflexivity| |lia].
  destruct (Nat.le_gt_cases (nused + 1) 255) as [L|L]; [left|right; lia].
  rewrite (fw_loop_more _ _ _ 0 0%N) by reflexivity. unfold fw_body, bind. rewrite (read_u8_ok _ 0 0%N) by reflexivity. cbn zeta.
  cbn [N.leb N.compare]. unfold ensure, MAX_LABEL_LEN, MAX_WIRE_LEN. cbn [N.to_nat Nat.add].
  replace (nused + 1 <=? 255) with true by (symmetry; apply Nat.leb_le; lia). reflexivity.
Qed.
Lemma chain_hang : forall m, m <= 32 * 256 -> forall i, i < m -> forall f n cused data offs seen big newc, f <= 2 * i + 3 -> target i < big ->
  fst (fw_loop f (mkFw n 0 cused false data offs seen WStart (1 + 2 * i) big newc) (mkIn (pointer_chain m) (1 + 2 * i))) = Hang.
Proof.
  intros m Hm. induction i as [|i IH]; intros Hi f n cused data offs seen big newc Hf Hb.
  all: destruct f as [|f]; [reflexivity|].
  all: match goal with |- context [mkIn _ (1 + 2 * ?j)] => destruct (chain_nth m j Hi) as [N1 N2]; set (T := target j) in *;
         set (p := 1 + 2 * j) in *; assert (Tl : T < 64 * 256) by (unfold T, target; lia); assert (Ts : T <= length (pointer_chain m)) by (rewrite chain_len; unfold T, target; lia) end.
  all: assert (Q : (N.of_nat T / 256 < 64)%N) by (apply N.div_lt_upper_bound; lia).
  all: assert (DM : N.to_nat (N.of_nat T / 256) * 256 + N.to_nat (N.of_nat T mod 256) = T)
    by (pose proof (N.div_mod (N.of_nat T) 256 ltac:(lia)); remember (N.of_nat T / 256)%N as qq; remember (N.of_nat T mod 256)%N as mm; lia).
  all: rewrite (fw_loop_more _ _ _ _ _ N1) by reflexivity; unfold fw_body at 1, bind at 1; rewrite (read_u8_ok _ _ _ N1); cbn zeta.
  all: remember (N.of_nat T / 256)%N as qq eqn:Eqq; clear Eqq.
  all: assert (C1 : (192 + qq <=? MAX_LABEL_LEN)%N = false) by (apply N.leb_gt; unfold MAX_LABEL_LEN; lia).
  all: rewrite C1; assert (C2 : (192 + qq < 256)%N) by lia; assert (C3 : (63 < 192 + qq)%N) by lia.
  all: destruct (land192 _ C2 C3) as [LT LF]; unfold COMPRESS_POINTER_MARK8;
       destruct (N.land (192 + qq) 192 =? 192)%N eqn:EP; [clear LF; destruct (LT eq_refl) as [_ L2]|specialize (LF eq_refl); lia].
  all: rewrite L2; replace (192 + qq - 192)%N with (qq)%N by lia; unfold ret at 1; cbn iota.
  all: destruct f as [|f]; [reflexivity|].
  all: rewrite (fw_loop_more _ _ _ _ _ N2) by reflexivity; unfold fw_body at 1, bind at 1; rewrite (read_u8_ok _ _ _ N2); cbn zeta.
  all: unfold bind at 1, lift; rewrite csub_ok by lia; rewrite Nat.sub_diag; cbn [Nat.eqb negb]; rewrite DM; unfold bind at 1, ensure;
       replace (T <? big) with true by (symmetry; apply Nat.ltb_lt; auto); unfold bind at 1, ret at 1, set_position at 1; cbn [ib_len ib_data];
       unfold ib_len; cbn [ib_data]; replace (T <=? length (pointer_chain m)) with true by (symmetry; apply Nat.leb_le; auto); unfold ret at 1; cbn iota.
  - change T with 0. destruct (chain_root m f 0 0 (if seen then if seen then cused else cused + 1 else (if seen then cused else cused + 1) + 1) data offs true 0 0) as [H|H]; [lia|exact H|lia].
  - replace T with (1 + 2 * i) by (unfold T, target; lia). apply IH; try lia. unfold target. lia.
Qed.
Lemma chain_work : forall m k, 1 <= m <= 32 * 256 -> k <= 2 * m ->
  bytes (pointer_chain m) /\ length (pointer_chain m) = 2 * m + 1 /\ fst (name_from_wire_within k (mkIn (pointer_chain m) (2 * m - 1))) = Hang.
Proof.
  intros m k Hm Hk. split; [apply chain_bytes; lia|]. split; [apply chain_len|].
  unfold name_from_wire_within, bind at 1, position. cbn [ib_pos].
  pose proof (chain_hang m ltac:(lia) (m - 1) ltac:(lia) (S k) 0 0 [] [] false (1 + 2 * (m - 1)) 0 ltac:(lia) ltac:(unfold target; lia)) as H.
  replace (1 + 2 * (m - 1)) with (2 * m - 1) in H by lia. unfold bind at 1.
  destruct (fw_loop (S k) _ _) as [r b]. cbn [fst] in H. subst r. reflexivity.
Qed.

(** Proofs about the generated codec of an arbitrary struct. *)
From Verif Require Import Base NameModel RenderModel CodesModel RDataModel MsgModel DeriveModel SpecName SpecBuf SpecCodes SpecMsg SpecDerive
  BaseLemmas BitLemmas NameWireProofs NameOpsProofs RenderProofs RenderProofs2 BufProofs CodesProofs WireProofs RDataProofs DecodeProofs.

Definition base (d : dcodec) : codec := match d with Std k => k | NameUncompressed => KName end.
Lemma dfield_base : forall d L b, dfield_from_wire d L b = field_from_wire (base d) L b.
Proof. intros [k|] L b; reflexivity. Qed.
Lemma dfields_base : forall ds L b, dfields_from_wire ds L b = fields_from_wire (map base ds) L b.
Proof.
  induction ds as [|d ds IH]; intros L b; [reflexivity|]. cbn [dfields_from_wire fields_from_wire map]. unfold bind. rewrite dfield_base.
  destruct (field_from_wire (base d) L b) as [[[v L']| | |] b']; auto. rewrite IH. reflexivity.
Qed.
Lemma typed_base : forall ds vs, Forall2 typed ds vs <-> Forall2 wf_field (map base ds) vs.
Proof.
  induction ds as [|d ds IH]; intros vs; split; intros H; inversion H; subst; constructor; try (apply IH; auto; fail); destruct d; auto.
Qed.
Lemma open_tails : forall ds, open_only_last ds <-> tails_last (map base ds) = true.
Proof.
  assert (T : forall d, tail_codec (base d) = true <-> open_ended d).
  { intros [k|]; unfold open_ended; [destruct k|]; cbn; split; intros H; try discriminate; auto; destruct H as [H|H]; congruence. }
  intros ds. split.
  - induction ds as [|d ds IH]; intros H; [reflexivity|]. cbn [map].
    assert (H' : open_only_last ds). { intros b x a E O. apply (H (d :: b) x a); [rewrite E; reflexivity|auto]. }
    specialize (IH H'). destruct (map base ds) eqn:E; [reflexivity|]. cbn [tails_last] in *. rewrite IH, andb_true_r.
    destruct (tail_codec (base d)) eqn:Td; auto. apply T in Td. pose proof (H [] d ds eq_refl Td). subst ds. discriminate.
  - induction ds as [|d ds IH]; intros H b x a E O; [destruct b; discriminate|].
    destruct b as [|b0 b]; inversion E; subst.
    + destruct a as [|a0 a]; auto. cbn [map tails_last] in H. apply T in O. rewrite O in H. discriminate.
    + eapply IH; eauto. cbn [map tails_last] in H. destruct (map base (b ++ x :: a)) eqn:E'; [reflexivity|]. apply andb_true_iff in H. apply H.
Qed.
Lemma emits_dfield : forall d v, typed d v -> emits (dfield_to_wire d v) (Pfield v).
Proof.
  intros [k|] v W; cbn [typed dfield_to_wire] in *.
  - eapply emits_field; eauto. destruct v; try exact Logic.I. apply name_all_known.
  - destruct v; cbn [wf_field] in W; try (destruct W; fail). destruct W as (ls & W & ->). cbn [Pfield].
    eapply emits_conseq; [|apply write_name_emits_k; eauto]. intros rd s e H. exists ls. auto. intros; exact Logic.I.
Qed.
Lemma emits_derived : forall ds vs, Forall2 typed ds vs -> emits (derived_to_wire ds vs) (Pfields vs).
Proof. induction 1; cbn [derived_to_wire Pfields]; [apply emits_ret|]. apply emits_seq; auto using mono_field, emits_dfield. Qed.

Lemma derived_round_trip : forall ds, open_only_last ds -> forall dat hs r vs r', bytes dat -> history (mr_new dat) hs r -> Forall2 typed ds vs ->
  derived_to_wire ds vs r = (Ok tt, r') ->
  derived_from_wire ds (N.of_nat (mr_len r' - mr_len r)) (mkIn (mr_bytes r') (mr_len r)) = (Ok vs, mkIn (mr_bytes r') (mr_len r')).
Proof.
  intros ds T dat hs r vs r' B H W Q. destruct (history_inv _ _ _ B H) as [I _]. apply open_tails in T.
  pose proof (emitted _ _ _ _ _ I (mono_fields vs) (emits_derived ds vs W) Q) as P.
  pose proof (emits_derived ds vs W _ r I) as E. rewrite Q in E. destruct E as (X & I' & _).
  apply typed_base in W.
  destruct (fields_dec _ _ W T (mr_bytes r') (mr_len r) (mr_len r') (N.of_nat (mr_len r' - mr_len r))) as [E _]; auto.
  - eapply mr_bytes_bytes; eauto.
  - rewrite (mr_bytes_len _ _ I'). destruct X. auto.
  - rewrite Nat2N.id. destruct X. lia.
  - unfold derived_from_wire, bind. rewrite dfields_base, E. reflexivity.
Qed.

(** After an open-ended field nothing is left. *)
Lemma zero_text : forall b, text_from_wire 0 b = (Ok ([], 0%N), b).
Proof. intros b. reflexivity. Qed.
Lemma open_left : forall k L b v L' b', tail_codec k = true -> field_from_wire k L b = (Ok (v, L'), b') -> L' = 0%N.
Proof.
  intros k L b v L' b' T E. destruct k; try discriminate; cbn [field_from_wire] in E.
  - unfold text_from_wire, bind, ret in E. destruct (text_loop _ _ _ b) as [[d| | |] b0]; inversion E; auto.
  - unfold bind, ret in E. destruct (read_bytes _ b) as [[d| | |] b0]; inversion E; auto.
Qed.
Lemma zero_name : forall b r b', bytes (ib_data b) -> ib_pos b <= length (ib_data b) -> rname_from_wire 0 b = (r, b') -> forall x, r <> Ok x.
Proof.
  intros [w p] r b' Bw Lp E x ->. cbn [ib_data ib_pos] in *.
  assert (D : tdec w p (rname_from_wire 0) (fun _ _ => False)).
  { unfold rname_from_wire. apply tdec_position. eapply tdec_bind; [apply tdec_name; auto|]. intros n q Lq (ls & Wl & -> & Wn & Lt).
    apply tdec_position. apply tdec_lift; [lia|rewrite csub_ok by lia; split; discriminate|]. intros d Ed. rewrite csub_ok in Ed by lia. inversion Ed; subst d.
    pose proof (wname_span _ _ _ _ _ Wn). pose proof (proj2 Wl). rewrite as_u16_small by lia.
    apply tdec_ensure; [lia|]. intros C. apply N.leb_le in C. lia. }
  destruct D as (r & p' & E' & _ & _ & F). rewrite E in E'. inversion E'; subst. destruct (F _ eq_refl) as [_ []].
Qed.
Lemma zero_field : forall k b v L' b', bytes (ib_data b) -> ib_pos b <= length (ib_data b) -> field_from_wire k 0 b = (Ok (v, L'), b') -> v = VText [] \/ v = VBin [].
Proof.
  intros k b v L' b' Bw Lp E. destruct k; cbn [field_from_wire] in E; try (cbn in E; discriminate).
  - unfold bind in E. destruct (rname_from_wire 0 b) as [r b0] eqn:R. destruct r as [[n l]| | |]; try discriminate. exfalso. eapply zero_name; eauto.
  - cbn in E. inversion E; auto.
  - unfold byte_binary_from_wire, bind, ensure in E. destruct (read_u8 b) as [[x| | |] b0]; try discriminate.
    replace (x <? 0)%N with false in E by (symmetry; apply N.ltb_ge; lia). discriminate.
  - unfold bind, ret in E. destruct (read_bytes (N.to_nat 0) b) as [[d| | |] b0] eqn:R; inversion E; subst. right. f_equal.
    unfold read_bytes in R. destruct b as [w p]. cbn [ib_data ib_pos N.to_nat] in *. rewrite Nat.add_0_r in R. destruct (_ <=? _) in R; inversion R.
    unfold slice in H0. destruct (_ && _) in H0; inversion H0. rewrite Nat.sub_diag. reflexivity.
Qed.
Lemma second_empty : forall w ks k k' after, bytes w -> tail_codec k = true -> forall p L vs L2 b', p <= length w -> (L < 65536)%N ->
  fields_from_wire (ks ++ k :: k' :: after) L (mkIn w p) = (Ok (vs, L2), b') ->
  nth_error vs (S (length ks)) = Some (VText []) \/ nth_error vs (S (length ks)) = Some (VBin []).
Proof.
  intros w ks k k' after Bw T. induction ks as [|k0 ks IH]; intros p L vs L2 b' Lp HL E; cbn [app fields_from_wire length] in *.
  - destruct (tdec_field w Bw k L p HL Lp) as (r & q & Er & Lq & _ & P). unfold bind in E. rewrite Er in E.
    destruct r as [[v L']| | |]; try discriminate. pose proof (open_left _ _ _ _ _ _ T Er) as ->.
    destruct (field_from_wire k' 0 (mkIn w q)) as [[[v' L']| | |] b2] eqn:E2; try discriminate.
    apply zero_field in E2; auto.
    destruct (fields_from_wire after L' b2) as [[[vs' L3]| | |] b3]; try discriminate. unfold ret in E. inversion E; subst. cbn [nth_error].
    destruct E2 as [->| ->]; auto.
  - destruct (tdec_field w Bw k0 L p HL Lp) as (r & q & Er & Lq & _ & P). unfold bind in E. rewrite Er in E.
    destruct r as [[v L']| | |]; try discriminate. destruct (P _ eq_refl) as (_ & _ & _ & EL & _). cbn [snd] in EL.
    destruct (fields_from_wire (ks ++ k :: k' :: after) L' (mkIn w q)) as [[[vs' L3]| | |] b3] eqn:E2; try discriminate.
    unfold ret in E. inversion E; subst. cbn [nth_error]. eapply (IH q _ vs'); [lia| |exact E2]. lia.
Qed.
(** A value of every type whose encoding is not empty. *)
Definition full (k : codec) : fval :=
  match k with
  | KIpv4 => VIpv4 (repeat 0%N 4) | KIpv6 => VIpv6 (repeat 0%N 16) | KName => VName (name_of []) | KU8 => VU8 0 | KU16 => VU16 0
  | KU32 => VU32 0 | KType => VType TA | KText => VText [[]] | KByteBin => VByteBin [] | KBin => VBin [0%N]
  end.
Lemma full_typed : forall ds, Forall2 typed ds (map (fun d => full (base d)) ds).
Proof.
  induction ds as [|d ds IH]; cbn [map]; constructor; auto. assert (R : wf_name (name_of [])). { exists []. split; [|reflexivity]. split; [constructor|]. cbn. lia. }
  assert (Z : forall n, bytes (repeat 0%N n)). { intros n. unfold bytes. apply Forall_forall. intros x Hx. apply repeat_spec in Hx. subst. unfold byte. lia. }
  destruct d as [k|]; [destruct k|]; cbn [typed base full wf_field]; auto; try lia;
    first [split; [reflexivity|apply (Z 4)] | split; [reflexivity|apply (Z 16)] | split; [cbn; lia|constructor]
          | constructor; [split; [cbn; lia|constructor]|constructor] | repeat constructor].
Qed.
Lemma derived_ambiguous : forall ds, ~ open_only_last ds -> exists vs, Forall2 typed ds vs /\
  forall w p L b', bytes w -> p <= length w -> (L < 65536)%N -> derived_from_wire ds L (mkIn w p) <> (Ok vs, b').
Proof.
  intros ds H. assert (X : exists before d d' after, ds = before ++ d :: d' :: after /\ tail_codec (base d) = true).
  { rewrite open_tails in H. induction ds as [|d ds IH]; [destruct H; reflexivity|]. cbn [map tails_last] in H.
    destruct ds as [|d' ds]; [destruct H; reflexivity|]. cbn [map] in H. destruct (tail_codec (base d)) eqn:T.
    - exists [], d, d', ds. auto.
    - destruct IH as (b & x & y & a & E & Tx); [exact H|]. exists (d :: b), x, y, a. rewrite E. auto. }
  destruct X as (before & d & d' & after & -> & T). eexists. split; [apply full_typed|].
  intros w p L b' Bw Lp HL E. unfold derived_from_wire, bind in E. rewrite dfields_base in E.
  destruct (fields_from_wire _ L (mkIn w p)) as [[[vs L2]| | |] b2] eqn:F; try discriminate. unfold ensure in E.
  destruct (L2 =? 0)%N; try discriminate. unfold ret in E. assert (vs = map (fun d0 => full (base d0)) (before ++ d :: d' :: after)) by congruence. subst vs.
  rewrite map_app in F. cbn [map] in F. apply second_empty in F; auto. rewrite map_length in F.
  rewrite map_app in F. rewrite nth_error_app2 in F by (rewrite map_length; lia). rewrite map_length in F.
  replace (S (length before) - length before) with 1 in F by lia. cbn [map nth_error] in F.
  destruct F as [F|F]; destruct d' as [[]|]; cbn in F; inversion F.
Qed.
(** Totality and exact consumption. *)
Lemma derived_total : forall ds w p L, bytes w -> p <= length w -> (L < 65536)%N -> exists r p', p' <= length w /\ r <> Panic /\ r <> Hang /\
  derived_from_wire ds L (mkIn w p) = (r, mkIn w p') /\
  forall vs, r = Ok vs -> p' = p + N.to_nat L /\ Forall2 typed ds vs /\ fields_at w p p' vs.
Proof.
  intros ds w p L Bw Lp HL.
  assert (D : tdec w p (derived_from_wire ds L) (fun vs q => q = p + N.to_nat L /\ Forall2 typed ds vs /\ fields_at w p q vs)).
  { unfold derived_from_wire. eapply tdec_bind with (W1 := fun x q => Forall2 wf_field (map base ds) (fst x) /\ fields_at w p q (fst x) /\ snd x = (L - N.of_nat (q - p))%N /\ q - p <= N.to_nat L).
    - destruct (tdec_fields w Bw (map base ds) L p HL Lp) as (r & q & E & H). exists r, q. rewrite dfields_base. auto.
    - intros [vs L'] q Lq (F1 & F2 & F3 & F4). cbn [fst snd] in *. apply tdec_ensure; [lia|]. intros C. apply N.eqb_eq in C. apply tdec_ret; [lia|].
      split; [lia|]. split; [apply typed_base; auto|auto]. }
  destruct D as (r & q & E & Lq & [Sp Sh] & F). exists r, q. split; auto. split; auto. split; auto. split; auto. intros vs Ev. apply F. auto.
Qed.
(** The structs of rdatas.rs are instances. *)
Lemma derived_instance : forall t v len b, data_of t = Some v -> exists ks, rfc_layout t = Some ks /\
  struct_from_wire v len b = bind (derived_from_wire (map Std ks) len) (fun vs => ret (mkRData v vs)) b /\
  forall vs r, length vs = length ks -> rdata_to_wire (mkRData v vs) r = derived_to_wire (map Std ks) vs r.
Proof.
  intros t v len b D. destruct (layout_schema _ _ D) as [E _]. exists (schema v). split; auto. split.
  - unfold struct_from_wire, derived_from_wire, bind. rewrite dfields_base, map_map. cbn [base]. rewrite map_id.
    destruct (fields_from_wire _ _ b) as [[[vs L]| | |] b2]; auto. unfold ensure. destruct (L =? 0)%N; auto.
  - unfold rdata_to_wire. cbn [rd_fields]. generalize (schema v). intros ks vs. revert ks.
    induction vs as [|x vs IH]; intros [|k ks] r Ln; try discriminate; auto. cbn [mapM_ map derived_to_wire dfield_to_wire]. unfold bind.
    destruct (field_to_wire x r) as [[| | |] r2]; auto.
Qed.

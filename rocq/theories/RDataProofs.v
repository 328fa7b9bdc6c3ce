(** Proofs about rdata encoding and decoding. *)
From Verif Require Import Base NameModel RenderModel CodesModel RDataModel MsgModel SpecName SpecBuf SpecCodes SpecMsg
  BaseLemmas BitLemmas NameWireProofs NameOpsProofs RenderProofs RenderProofs2 BufProofs CodesProofs WireProofs.

(** * What a field writer emits *)
Definition Pfield (v : fval) : rel :=
  match v with
  | VIpv4 o | VIpv6 o | VBin o => Pbytes o
  | VName n => fun rd s e => exists ls, wf_labels ls /\ n = name_of ls /\ wname rd s s ls e
  | VU8 x => Pbytes [x]
  | VU16 x => Pbytes (be16 x)
  | VU32 x => Pbytes (be32 x)
  | VType t => Pbytes (be16 (rrtype_u16 t))
  | VText d => Pbytes (flat_map string_octets d)
  | VByteBin d => Pbytes (string_octets d)
  end.
Fixpoint Pfields (vs : list fval) : rel :=
  match vs with [] => Pnil | v :: vs' => Pseq (Pfield v) (Pfields vs') end.
Lemma mono_field : forall v, mono (Pfield v).
Proof.
  intros []; try apply mono_bytes. intros rd rd' s e H (ls & A & B & C). exists ls. split; auto. split; auto. eapply wname_mono; eauto.
Qed.
Lemma mono_fields : forall vs, mono (Pfields vs).
Proof. induction vs; [apply mono_nil|apply mono_seq; auto using mono_field]. Qed.

Lemma Pbytes_app : forall a b rd s e, Pseq (Pbytes a) (Pbytes b) rd s e <-> Pbytes (a ++ b) rd s e.
Proof.
  intros a b rd s e. split.
  - intros (k & L & (-> & H1) & (-> & H2)). split; [rewrite app_length; lia|]. intros i c Hi.
    destruct (Nat.lt_ge_cases i (length a)).
    + rewrite nth_error_app1 in Hi by auto. auto.
    + rewrite nth_error_app2 in Hi by auto. apply H2 in Hi. rewrite <- Hi. f_equal. lia.
  - intros (-> & H). exists (s + length a). rewrite app_length. split; [lia|]. split; split; auto; try lia; intros i c Hi.
    + apply H. rewrite nth_error_app1; auto. apply nth_error_Some. congruence.
    + rewrite <- Nat.add_assoc. apply H. rewrite nth_error_app2 by lia. rewrite <- Hi. f_equal. lia.
Qed.
Section Known.
Context {KN : names}.
Lemma emits_mapM_bytes : forall A (f : A -> M render unit) (g : A -> list N) l,
  (forall x, In x l -> emits (f x) (Pbytes (g x))) -> emits (mapM_ f l) (Pbytes (flat_map g l)).
Proof.
  induction l as [|x l IH]; intros H; cbn [mapM_ flat_map].
  - eapply emits_conseq; [|apply emits_ret]. intros rd s e ->. split; [simpl; lia|]. intros i c Hi. destruct i; discriminate.
  - eapply emits_conseq; [intros rd s e; apply Pbytes_app|]. apply emits_seq; [apply mono_bytes|apply H; simpl; auto|].
    apply IH. intros. apply H. simpl; auto.
Qed.
Lemma flat_map_single : forall A (l : list A), flat_map (fun x => [x]) l = l.
Proof. induction l; simpl; congruence. Qed.
Lemma emits_octets : forall o, bytes o -> emits (mapM_ mr_write_u8 o) (Pbytes o).
Proof.
  intros o B. rewrite <- (flat_map_single _ o) at 2. apply emits_mapM_bytes. intros x Hx. apply emits_u8.
  unfold bytes in B. rewrite Forall_forall in B. apply B. auto.
Qed.
Lemma blen_small : forall (t : list N), length t <= 255 -> as_u8 (blen t) = blen t.
Proof. intros. apply as_u8_small. unfold blen. lia. Qed.
Lemma emits_byte_binary : forall t, wf_string t -> emits (byte_binary_to_wire t) (Pbytes (string_octets t)).
Proof.
  intros t [L B]. unfold byte_binary_to_wire. rewrite blen_small by auto.
  change (string_octets t) with ([blen t] ++ t). eapply emits_conseq; [intros rd s e; apply Pbytes_app|].
  apply emits_seq; [apply mono_bytes|apply emits_u8; unfold byte, blen; lia|apply emits_bytes; auto].
Qed.
(** The names in a field, and their ancestors, are known. *)
Definition all_known (n : name) : Prop := forall ls s, n = name_of ls -> suffix_of s ls -> known s.
Definition field_known (v : fval) : Prop := match v with VName n => all_known n | _ => True end.
Lemma emits_field : forall k v, wf_field k v -> field_known v -> emits (field_to_wire v) (Pfield v).
Proof.
  intros k v W Kn. destruct k, v; cbn [wf_field] in W; try (destruct W; fail); cbn [field_to_wire Pfield].
  - apply emits_octets, W.
  - apply emits_octets, W.
  - destruct W as (ls & W & ->). eapply emits_conseq; [|apply write_name_emits_k; eauto]. intros rd s e H. exists ls. auto.
  - apply emits_u8; auto.
  - apply emits_u16.
  - apply emits_u32.
  - apply emits_u16.
  - apply emits_mapM_bytes. intros. apply emits_byte_binary. rewrite Forall_forall in W. auto.
  - apply emits_byte_binary; auto.
  - apply emits_bytes; auto.
Qed.
Lemma emits_fields : forall ks vs, Forall2 wf_field ks vs -> Forall field_known vs -> emits (mapM_ field_to_wire vs) (Pfields vs).
Proof.
  induction 1; intros Kn; cbn [mapM_ Pfields]; [apply emits_ret|]. apply Forall_cons_iff in Kn. destruct Kn. apply emits_seq; eauto using mono_field, emits_field.
Qed.

End Known.

(** * Decoding with a remaining length *)
Definition tail_codec (k : codec) : bool := match k with KText | KBin => true | _ => false end.
Fixpoint tails_last (ks : list codec) : bool :=
  match ks with
  | [] => true
  | [k] => true
  | k :: ks' => negb (tail_codec k) && tails_last ks'
  end.
Lemma schema_tails : forall v, tails_last (schema v) = true. Proof. destruct v; reflexivity. Qed.

Definition fdec (k : codec) (v : fval) : Prop := forall w s e L, bytes w -> s <= length w -> Pfield v (rd_of w) s e ->
  (if tail_codec k then e = s + N.to_nat L else e <= s + N.to_nat L) ->
  field_from_wire k L (mkIn w s) = (Ok (v, (L - N.of_nat (e - s))%N), mkIn w e) /\ s <= e <= length w.

Lemma wname_span : forall rd lim p ls e, wname rd lim p ls e -> e <= p + wire_len ls + 1.
Proof.
  induction 1; rewrite ?wire_len_nil, ?wire_len_cons; try lia. pose proof (wire_len_pos ls). lia.
Qed.
Ltac run := unfold bind, ensure, ret, lift.
Lemma fdec_num : forall k x v (dec : M inbuf N) (n : N) l (f : N -> fval), (n < 256)%N ->
  (forall L, field_from_wire k L = (ensure (n <=? L)%N ;; let! x := dec in ret (f x, (L - n)%N))) ->
  tail_codec k = false -> decodes dec x (Pbytes l) -> length l = N.to_nat n -> Pfield v = Pbytes l -> f x = v -> fdec k v.
Proof.
  intros k x v dec n l f Hn F T D Ln P E w s e L Bw Ls HP Hd. rewrite T in Hd. rewrite P in HP. rewrite F.
  destruct (D w s e Bw Ls HP) as [Er Le]. destruct HP as [-> _]. unfold bind, ensure.
  replace (n <=? L)%N with true by (symmetry; apply N.leb_le; lia).
  unfold ret. rewrite Er, E. repeat split; try lia. do 4 f_equal. lia.
Qed.
Lemma byte_binary_dec : forall t w s e L, bytes w -> s <= length w -> length t <= 255 -> Pbytes (string_octets t) (rd_of w) s e ->
  e <= s + N.to_nat L -> byte_binary_from_wire L (mkIn w s) = (Ok (t, (L - blen t - 1)%N), mkIn w e) /\ e = s + 1 + length t /\ e <= length w.
Proof.
  intros t w s e L Bw Ls Lt HP He. change (string_octets t) with ([blen t] ++ t) in HP. apply Pbytes_app in HP.
  destruct HP as (k & Lk & H1 & H2). destruct (decodes_u8 _ w s k Bw Ls H1) as [E1 L1].
  destruct (decodes_bytes t (length t) eq_refl w k e Bw L1 H2) as [E2 L2].
  destruct H1 as [Ek _]. destruct H2 as [-> _]. cbn [length] in Ek.
  unfold byte_binary_from_wire, bind. rewrite E1. unfold ensure.
  replace (blen t <? L)%N with true by (symmetry; apply N.ltb_lt; unfold blen; lia).
  unfold ret. replace (N.to_nat (blen t)) with (length t) by (unfold blen; lia). rewrite E2. unfold lift.
  replace (blen t + 1 <=? L)%N with true by (symmetry; apply N.leb_le; unfold blen; lia). repeat split; try lia.
Qed.
Lemma text_loop_dec : forall d fuel acc w s e L, bytes w -> s <= length w -> Forall wf_string d ->
  Pbytes (flat_map string_octets d) (rd_of w) s e -> e = s + N.to_nat L -> N.to_nat L < fuel ->
  text_loop fuel L acc (mkIn w s) = (Ok (acc ++ d), mkIn w e) /\ e <= length w.
Proof.
  induction d as [|t d IH]; intros fuel acc w s e L Bw Ls W HP He Hf; (destruct fuel as [|fuel]; [lia|]); cbn [text_loop].
  - destruct HP as [HP _]. cbn [flat_map length] in HP. replace (0 <? L)%N with false by (symmetry; apply N.ltb_ge; lia).
    unfold ret. rewrite app_nil_r. replace e with s by lia. auto.
  - apply Forall_cons_iff in W. destruct W as [[Wt1 Wt2] W]. cbn [flat_map] in HP. apply Pbytes_app in HP. destruct HP as (k & Lk & H1 & H2).
    destruct (byte_binary_dec t w s k L Bw Ls Wt1 H1 ltac:(lia)) as (E1 & Ek & L1).
    replace (0 <? L)%N with true by (symmetry; apply N.ltb_lt; lia). unfold bind. rewrite E1.
    destruct (IH fuel (acc ++ [t]) w k e (L - blen t - 1)%N Bw L1 W H2) as [E2 L2]; try (unfold blen; lia).
    rewrite E2, <- app_assoc. auto.
Qed.
Lemma field_dec : forall k v, wf_field k v -> fdec k v.
Proof.
  intros k v W. destruct k, v; cbn [wf_field] in W; try (destruct W; fail).
  - intros w s e L Bw Ls HP Hd. cbn [Pfield tail_codec] in *. destruct (decodes_bytes o 4 (proj1 W) w s e Bw Ls HP) as [E Le].
    destruct HP as [-> _]. destruct W as [W _]. cbn [field_from_wire]. unfold ip_from_wire, bind, ensure. rewrite W in *.
    replace (N.of_nat 4 <=? L)%N with true by (symmetry; apply N.leb_le; lia). unfold ret. rewrite E. repeat split; try lia. do 4 f_equal; lia.
  - intros w s e L Bw Ls HP Hd. cbn [Pfield tail_codec] in *. destruct (decodes_bytes o 16 (proj1 W) w s e Bw Ls HP) as [E Le].
    destruct HP as [-> _]. destruct W as [W _]. cbn [field_from_wire]. unfold ip_from_wire, bind, ensure. rewrite W in *.
    replace (N.of_nat 16 <=? L)%N with true by (symmetry; apply N.leb_le; lia). unfold ret. rewrite E. repeat split; try lia. do 4 f_equal; lia.
  - intros w s e L Bw Ls HP Hd. cbn [Pfield tail_codec] in *. destruct HP as (ls & Wl & -> & Hw).
    destruct (decodes_name ls Wl w s e Bw Ls Hw) as [E Le]. pose proof (wname_end_pos _ _ _ _ _ Hw). pose proof (wname_span _ _ _ _ _ Hw).
    destruct Wl as [_ Wl].
    cbn [field_from_wire]. unfold rname_from_wire, bind, position. cbn [ib_pos]. rewrite E. cbn [ib_pos]. unfold lift.
    rewrite csub_ok by lia. unfold ensure. rewrite as_u16_small by lia.
    replace (N.of_nat (e - s) <=? L)%N with true by (symmetry; apply N.leb_le; lia). unfold ret. split; auto; lia.
  - apply fdec_num with (n := 1%N) (f := VU8) (x := v) (l := [v]) (dec := read_u8); try reflexivity; apply decodes_u8.
  - apply fdec_num with (n := 2%N) (f := VU16) (x := v) (l := be16 v) (dec := read_u16); try reflexivity; apply decodes_u16; auto.
  - apply fdec_num with (n := 4%N) (f := VU32) (x := v) (l := be32 v) (dec := read_u32); try reflexivity; apply decodes_u32; auto.
  - apply fdec_num with (n := 2%N) (f := fun v => VType (rrtype_new v)) (x := rrtype_u16 t) (l := be16 (rrtype_u16 t)) (dec := read_u16); try reflexivity; [apply decodes_u16; apply W|].
    cbn beta. destruct W as [_ ->]. reflexivity.
  - intros w s e L Bw Ls HP Hd. cbn [Pfield tail_codec] in *.
    destruct (text_loop_dec d (S (N.to_nat L)) [] w s e L Bw Ls W HP Hd ltac:(lia)) as [E Le].
    cbn [field_from_wire]. unfold text_from_wire, bind. rewrite E. unfold ret. cbn [app]. repeat split; try lia. do 4 f_equal. lia.
  - intros w s e L Bw Ls HP Hd. cbn [Pfield tail_codec] in *. destruct W as [W _].
    destruct (byte_binary_dec d w s e L Bw Ls W HP Hd) as (E & Ee & Le).
    cbn [field_from_wire]. unfold bind. rewrite E. unfold ret. repeat split; try lia. do 3 f_equal. unfold blen. lia.
  - intros w s e L Bw Ls HP Hd. cbn [Pfield tail_codec] in *.
    assert (Hn : length d = N.to_nat L) by (destruct HP; lia).
    destruct (decodes_bytes d _ Hn w s e Bw Ls HP) as [E Le].
    cbn [field_from_wire]. unfold bind. rewrite E. unfold ret. repeat split; try lia. do 4 f_equal. lia.
Qed.
Lemma fields_dec : forall ks vs, Forall2 wf_field ks vs -> tails_last ks = true -> forall w s e L, bytes w -> s <= length w ->
  Pfields vs (rd_of w) s e -> e = s + N.to_nat L ->
  fields_from_wire ks L (mkIn w s) = (Ok (vs, 0%N), mkIn w e) /\ e <= length w.
Proof.
  induction ks as [|k ks IH]; intros vs F T w s e L Bw Ls HP He; inversion F as [|k' v ks' vs' Wk F' E1 E2]; subst; clear F.
  - cbn [Pfields] in HP. red in HP. cbn [fields_from_wire]. unfold ret. assert (L = 0%N) by lia. subst L. rewrite Nat.add_0_r. auto.
  - cbn [Pfields] in HP. destruct HP as (x & Lx & H1 & H2). cbn [fields_from_wire].
    destruct (field_dec k v Wk w s x L Bw Ls H1) as [E1 L1].
    { destruct (tail_codec k) eqn:Tk; [|lia]. cbn [tails_last] in T. rewrite Tk in T. destruct ks; [|discriminate].
      inversion F'; subst. cbn [Pfields] in H2. red in H2. lia. }
    destruct (IH vs' F') with (w := w) (s := x) (e := s + N.to_nat L) (L := (L - N.of_nat (x - s))%N) as [E2 L2]; auto; try lia.
    { destruct ks; auto. cbn [tails_last] in T. apply andb_true_iff in T. apply T. }
    unfold bind. rewrite E1, E2. auto.
Qed.
Lemma layout_schema : forall t v, data_of t = Some v -> rfc_layout t = Some (schema v) /\ variant_of_type t = Some v.
Proof. intros t v H. destruct t; cbn in H; inversion H; subst; split; reflexivity. Qed.
Lemma wf_rdata_fields : forall t rd, wf_rdata t rd -> Forall2 wf_field (schema (rd_var rd)) (rd_fields rd) /\ variant_of_type t = Some (rd_var rd).
Proof.
  intros t rd (D & ks & L & F). destruct (layout_schema _ _ D) as [E V]. rewrite E in L. inversion L; subst. auto.
Qed.
Definition Prdata (rd : rdata) : rel := Pfields (rd_fields rd).
Lemma mono_rdata : forall rd, mono (Prdata rd). Proof. intros. apply mono_fields. Qed.
Definition rdata_known {KN : names} (rd : rdata) : Prop := Forall field_known (rd_fields rd).
Lemma emits_rdata_k {KN : names} : forall t rd, wf_rdata t rd -> rdata_known rd -> emits (rdata_to_wire rd) (Prdata rd).
Proof. intros t rd W Kn. apply wf_rdata_fields in W. eapply emits_fields; [apply W|auto]. Qed.
Lemma name_all_known : forall n, all_known n. Proof. intros n ls s _ _. exact Logic.I. Qed.
Lemma rdata_all_known : forall rd, rdata_known rd.
Proof. intros rd. apply Forall_forall. intros v _. destruct v; try exact Logic.I. apply name_all_known. Qed.
Lemma emits_rdata : forall t rd, wf_rdata t rd -> emits (rdata_to_wire rd) (Prdata rd).
Proof. intros t rd W. eapply emits_rdata_k; eauto. apply rdata_all_known. Qed.
Lemma rdata_dec : forall t rd w s e L, wf_rdata t rd -> bytes w -> s <= length w -> Prdata rd (rd_of w) s e -> e = s + N.to_nat L ->
  rdata_from_wire t L (mkIn w s) = (Ok rd, mkIn w e) /\ e <= length w.
Proof.
  intros t rd w s e L W Bw Ls HP He. apply wf_rdata_fields in W. destruct W as [F V].
  destruct (fields_dec _ _ F (schema_tails _) w s e L Bw Ls HP He) as [E Le]. split; auto.
  unfold rdata_from_wire, bind, position. rewrite V. unfold struct_from_wire, bind. cbn [ib_pos]. rewrite E. unfold ensure.
  rewrite N.eqb_refl. unfold ret. cbn [ib_pos]. unfold lift. rewrite csub_ok by lia.
  replace (e - s =? N.to_nat L) with true by (symmetry; apply Nat.eqb_eq; lia). destruct rd. auto.
Qed.
Lemma rdata_round_trip : forall dat hs r t rd r', bytes dat -> history (mr_new dat) hs r -> wf_rdata t rd ->
  rdata_to_wire rd r = (Ok tt, r') ->
  rdata_from_wire t (N.of_nat (mr_len r' - mr_len r)) (mkIn (mr_bytes r') (mr_len r)) = (Ok rd, mkIn (mr_bytes r') (mr_len r')).
Proof.
  intros dat hs r t rd r' B H W Q. destruct (history_inv _ _ _ B H) as [I _].
  pose proof (emitted _ _ _ _ _ I (mono_rdata rd) (emits_rdata t rd W) Q) as P.
  pose proof (emits_rdata t rd W _ r I) as E. rewrite Q in E. destruct E as (X & I' & _).
  apply rdata_dec; auto.
  - eapply mr_bytes_bytes; eauto.
  - rewrite (mr_bytes_len _ _ I'). destruct X. auto.
  - rewrite Nat2N.id. destruct X. lia.
Qed.

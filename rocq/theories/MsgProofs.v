(** Proofs about records and sections on the wire: what the encoders emit, what the decoders accept. *)
From Verif Require Import Base NameModel RenderModel CodesModel RDataModel MsgModel SpecName SpecBuf SpecCodes SpecMsg
  BaseLemmas BitLemmas NameWireProofs NameOpsProofs NameOpsProofs2 RenderProofs RenderProofs2 BufProofs CodesProofs WireProofs
  RDataProofs DecodeProofs.

(** * Octets and emitted bytes *)
Lemma octets_P : forall w s e l, s <= length w -> (octets w s e l <-> Pbytes l (rd_of w) s e).
Proof.
  intros w s e l Ls. split.
  - intros (-> & H & Le). split; auto. intros i c Hi. unfold rd_of. rewrite <- H in Hi. unfold bytes_at in Hi.
    assert (Hl : i < length l) by (assert (i < length (firstn (length l) (skipn s w))) by (apply nth_error_Some; congruence); rewrite firstn_length in *; lia).
    rewrite nth_firstn in Hi by auto. rewrite nth_skipn in Hi. auto.
  - intros H. pose proof (Pbytes_in _ _ _ _ Ls H) as Le. apply bytes_at_Pbytes in H. destruct H as [H ->].
    unfold octets. replace (s + length l - s) with (length l) in H by lia. auto.
Qed.
Lemma octets_lt : forall w s e l, octets w s e l -> s <= e <= length w. Proof. intros w s e l (-> & _ & H). lia. Qed.
Lemma field_at_P : forall w s e k v, wf_field k v -> s <= length w -> (field_at w s e v <-> Pfield v (rd_of w) s e).
Proof.
  intros w s e k v W Ls. destruct k, v; cbn [wf_field] in W; try (destruct W; fail); cbn [field_at Pfield]; try (apply octets_P; auto); try reflexivity.
  - rewrite octets_P, be16_u16 by auto. reflexivity.
  - rewrite octets_P, be32_u32 by auto. reflexivity.
  - rewrite octets_P, be16_u16 by (auto; apply W). reflexivity.
Qed.
Lemma Pfield_in : forall w s e k v, wf_field k v -> bytes w -> s <= length w -> Pfield v (rd_of w) s e -> s <= e <= length w.
Proof.
  intros w s e k v W Bw Ls H. destruct k, v; cbn [wf_field] in W; try (destruct W; fail); cbn [Pfield] in H;
    try (split; [destruct H; lia|eapply Pbytes_in; eauto]; fail).
  destruct H as (ls & _ & _ & H). pose proof (wname_end_pos _ _ _ _ _ H). pose proof (wname_end_bound _ _ _ _ _ H). lia.
Qed.
Lemma fields_at_P : forall w ks vs, bytes w -> Forall2 wf_field ks vs -> forall s e, s <= length w -> (fields_at w s e vs <-> Pfields vs (rd_of w) s e).
Proof.
  intros w ks vs Bw. induction 1 as [|k v ks vs W F IH]; intros s e Ls; cbn [fields_at Pfields].
  - unfold Pnil. reflexivity.
  - split.
    + intros (m & H1 & H2). apply (field_at_P w s m k v W Ls) in H1. pose proof (Pfield_in _ _ _ _ _ W Bw Ls H1).
      apply IH in H2; [|lia]. exists m. split; [|auto].
      split; [lia|]. clear - H2 F Bw H. revert m H H2. induction F as [|k' v' ks' vs' W' F' IH']; intros m Hm H2.
      * cbn [Pfields] in H2; red in H2. lia.
      * destruct H2 as (x & Lx & H2 & H3). lia.
    + intros (m & Lm & H1 & H2). pose proof (Pfield_in _ _ _ _ _ W Bw Ls H1). exists m. split; [apply (field_at_P w s m k v W Ls); auto|].
      apply IH; auto. lia.
Qed.

(** * RDLENGTH is patched after the rdata has been written *)
Definition Prdlen (P : rel) : rel := fun rd s e =>
  s + 2 <= e /\ Pbytes (be16 (as_u16 (N.of_nat (e - s - 2)))) rd s (s + 2) /\ P rd (s + 2) e.
Lemma mono_rdlen : forall P, mono P -> mono (Prdlen P).
Proof. intros P M rd rd' s e H (A & B & C). split; auto. split; [eapply mono_bytes; eauto|eapply M; eauto]. Qed.
Definition with_rdlen (body : M render unit) : M render unit :=
  let! pos := mr_length in
  mr_skip 2 ;; body ;;
  let! len := mr_length in
  let! d := lift (csub len pos) in
  let! rdlen := lift (csub d 2) in
  mr_write_u16_at pos (as_u16 (N.of_nat rdlen)).
Section Known.
Context {KN : names}.
Lemma emits_rdlen : forall body P, mono P -> emits body P -> emits (with_rdlen body) (Prdlen P).
Proof.
  intros bd P MP E m r I. unfold with_rdlen, bind at 1, mr_length at 1. unfold bind at 1.
  destruct (Nat.lt_ge_cases (mr_len r + 2) (ob_capacity (mr_buf r))) as [L|L].
  2:{ unfold mr_skip, on_buf, ob_skip. unfold mr_len in L. replace (ob_len (mr_buf r) + 2 <? ob_capacity (mr_buf r)) with false
        by (symmetry; apply Nat.ltb_ge; auto). replace (mkRender _ _ _ _) with r by (destruct r; reflexivity).
      split; [apply extends_refl|]. auto. }
  destruct (skip_spec 2 m r I L) as (r1 & E1 & X1 & L1 & I1 & R1). rewrite E1.
  set (m1 := fun i => m i || ((mr_len r <=? i) && (i <? mr_len r + 2))) in *.
  assert (Sub : forall i, m i = true -> m1 i = true) by (intros i Hi; unfold m1; rewrite Hi; auto).
  unfold bind at 1. specialize (E m1 r1 I1). destruct (bd r1) as [a r2]. destruct E as (X2 & I2 & A2).
  pose proof (extends_trans _ _ _ X1 X2) as X12.
  destruct a as [[]| | |]; try (destruct A2; fail).
  2:{ split; auto. split; [eapply inv_unmask; eauto|auto]. }
  unfold bind at 1, mr_length at 1. assert (Le : mr_len r + 2 <= mr_len r2) by (destruct X2; lia).
  unfold bind at 1, lift at 1. rewrite csub_ok by lia. unfold bind at 1, lift at 1. rewrite csub_ok by lia.
  set (L' := as_u16 _).
  destruct (patch_spec (be16 L') (mr_len r) m1 r2) as (r3 & E3 & I3 & L3 & R3 & O3 & V3 & C3); auto.
  { apply be16_bytes. }
  { cbn [length be16]. intros i Hi. unfold m1. apply orb_true_iff. right. apply andb_true_iff. rewrite Nat.leb_le, Nat.ltb_lt. lia. }
  assert (Ew : mr_write_u16_at (mr_len r) L' r2 = (Ok tt, r3)).
  { rewrite <- E3. unfold mr_write_u16_at, on_buf, ob_write_u16_at. unfold mr_len in Le |- *. ift. reflexivity. }
  rewrite Ew. pose proof (inv_unmask _ _ _ I3 Sub) as Im.
  assert (Rm : forall i c, rdm m1 r2 i = Some c -> rdm m r3 i = Some c).
  { intros i c H. rewrite <- R3 in H. unfold rdm in *. destruct (m1 i) eqn:Em; [discriminate|]. destruct (m i) eqn:Em'; auto. rewrite Sub in Em; congruence. }
  split; [|split; auto].
  - destruct X12 as (Y1 & Y2 & Y3). repeat split; try lia. intros i Hi. rewrite O3 by lia. auto.
  - unfold Prdlen. rewrite L3. split; auto. split.
    + split; [reflexivity|]. intros i c Hi. fold L' in Hi. unfold rdm.
      assert (i < 2) by (change 2 with (length (be16 L')); apply nth_error_Some; congruence).
      destruct (m (mr_len r + i)) eqn:Em; [apply (inv_mask _ _ I) in Em; lia|]. rewrite L3. ift. apply V3. auto.
    + rewrite <- L1. eapply MP; eauto.
Qed.

(** * One record *)
Definition Powner (n : name) : rel := fun rd s e => exists ls, wf_labels ls /\ n = name_of ls /\ wname rd s s ls e.
Lemma mono_owner : forall n, mono (Powner n).
Proof. intros n rd rd' s e H (ls & A & B & C). exists ls. split; auto. split; auto. eapply wname_mono; eauto. Qed.
Lemma emits_owner : forall n c, wf_name n -> all_known n -> emits (write_name n c) (Powner n).
Proof.
  intros n c (ls & W & ->) Kn. eapply emits_conseq; [|apply write_name_emits_k; eauto]. intros rd s e H. exists ls. auto.
Qed.
Definition Pprefix (n : name) (t : rrtype) (c : rrclass) (ttl : N) : rel :=
  Pseq (Powner n) (Pseq (Pbytes (be16 (rrtype_u16 t))) (Pseq (Pbytes (be16 (rrclass_u16 c))) (Pbytes (be32 ttl)))).
Definition Prr (x : rr) : rel :=
  Pseq (Pprefix (rr_owner x) (rr_type x) (rr_class x) (rr_ttl x))
    (match rr_data x with None => Pbytes (be16 0) | Some rd => Prdlen (Prdata rd) end).
Lemma mono_prefix : forall n t c ttl, mono (Pprefix n t c ttl).
Proof. intros. apply mono_seq; [apply mono_owner|]. mono. Qed.
Lemma mono_rr : forall x, mono (Prr x).
Proof.
  intros x. apply mono_seq; [apply mono_prefix|]. destruct (rr_data x); [apply mono_rdlen, mono_rdata|apply mono_bytes].
Qed.
Lemma emits_prefix : forall rs, wf_name (rs_name rs) -> all_known (rs_name rs) ->
  emits (rr_prefix_to_wire rs) (Pprefix (rs_name rs) (rs_type rs) (rs_class rs) (rs_ttl rs)).
Proof.
  intros rs W Kn. unfold rr_prefix_to_wire, Pprefix. apply emits_seq; [apply mono_owner|apply emits_owner; auto|].
  apply emits_seq; [apply mono_bytes|apply emits_u16|]. apply emits_seq; [apply mono_bytes|apply emits_u16|]. apply emits_u32.
Qed.
Lemma emits_ext : forall w w' P, (forall r, w r = w' r) -> emits w P -> emits w' P.
Proof. intros w w' P H E m r I. rewrite <- H. apply E. auto. Qed.
Lemma bind_assoc : forall S A B C (m : M S A) (f : A -> M S B) (g : B -> M S C) s, bind (bind m f) g s = bind m (fun x => bind (f x) g) s.
Proof. intros. unfold bind. destruct (m s) as [[]]; auto. Qed.
Lemma emits_rr : forall rs rd, wf_name (rs_name rs) -> all_known (rs_name rs) -> wf_rdata (rs_type rs) rd -> rdata_known rd ->
  emits (rr_to_wire rs rd) (Prr (mkRR (rs_name rs) (rs_type rs) (rs_class rs) (rs_ttl rs) (Some rd))).
Proof.
  intros rs rd W Kn Wd Kd. unfold rr_to_wire, Prr. cbn [rr_data rr_owner rr_type rr_class rr_ttl].
  apply emits_seq; [apply mono_prefix|apply emits_prefix; auto|].
  apply emits_rdlen; [apply mono_rdata|eapply emits_rdata_k; eauto].
Qed.
Fixpoint Prrs (xs : list rr) : rel := match xs with [] => Pnil | x :: xs' => Pseq (Prr x) (Prrs xs') end.
Lemma mono_rrs : forall xs, mono (Prrs xs).
Proof. induction xs; [apply mono_nil|apply mono_seq; auto using mono_rr]. Qed.
Lemma Prrs_app : forall a b rd s e, Pseq (Prrs a) (Prrs b) rd s e <-> Prrs (a ++ b) rd s e.
Proof.
  induction a as [|x a IH]; intros b rd s e; cbn [Prrs app].
  - split; [intros (k & L & E & H); red in E; subst; auto|]. intros H. exists s. split; [|split; [reflexivity|auto]].
    split; auto. clear - H. revert s H. induction b as [|y b IHb]; intros s H; cbn [Prrs] in H; [red in H; lia|].
    destruct H as (k & L & _). lia.
  - split.
    + intros (k & L & (j & Lj & H1 & H2) & H3). exists j. split; [lia|]. split; auto. apply IH. exists k. split; [lia|auto].
    + intros (j & Lj & H1 & H2). apply IH in H2. destruct H2 as (k & Lk & H2 & H3). exists k. split; [lia|]. split; auto.
      exists j. split; [lia|auto].
Qed.
Definition rrset_known (rs : rrset) : Prop := all_known (rs_name rs) /\ Forall rdata_known (rs_rdatas rs).
Definition rrset_wf (rs : rrset) : Prop := wf_name (rs_name rs) /\ Forall (wf_rdata (rs_type rs)) (rs_rdatas rs).
Lemma emits_rrset : forall rs, rrset_wf rs -> rrset_known rs -> emits (rrset_to_wire rs) (Prrs (rrs_of rs)).
Proof.
  intros rs [W Wd] [Kn Kd]. unfold rrset_to_wire, rrs_of.
  assert (G : forall l, Forall (wf_rdata (rs_type rs)) l -> Forall rdata_known l ->
    emits (mapM_ (rr_to_wire rs) l) (Prrs (map (fun d => mkRR (rs_name rs) (rs_type rs) (rs_class rs) (rs_ttl rs) (Some d)) l))).
  { induction 1 as [|rd l H F IH]; intros Kl; cbn [mapM_ map Prrs]; [apply emits_ret|]. apply Forall_cons_iff in Kl. destruct Kl.
    apply emits_seq; [apply mono_rr|apply emits_rr; auto|auto]. }
  destruct (rs_rdatas rs) as [|rd l] eqn:E.
  - eapply emits_conseq; [|apply emits_seq; [apply mono_prefix|apply emits_prefix; auto|apply emits_u16]].
    intros rd s e H. cbn [Prrs]. exists e. assert (s <= e) by (destruct H as (k & L & _); lia). split; [lia|]. split; [exact H|reflexivity].
  - apply G; auto.
Qed.
Lemma emits_section : forall l, Forall rrset_wf l -> Forall rrset_known l -> emits (mapM_ rrset_to_wire l) (Prrs (flat_map rrs_of l)).
Proof.
  induction 1 as [|rs l H F IH]; intros Kl; cbn [mapM_ flat_map]; [apply emits_ret|]. apply Forall_cons_iff in Kl. destruct Kl.
  eapply emits_conseq; [intros rd s e; apply Prrs_app|]. apply emits_seq; [apply mono_rrs|apply emits_rrset; auto|auto].
Qed.
End Known.

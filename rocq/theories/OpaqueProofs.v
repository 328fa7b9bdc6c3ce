(** Proofs about the names in record data (C113). *)
From Verif Require Import Base NameModel RenderModel CodesModel RDataModel MsgModel SpecName SpecBuf SpecCodes SpecMsg SpecCompress SpecOpaque
  BaseLemmas BitLemmas NameWireProofs NameOpsProofs RenderProofs RenderProofs2 BufProofs CodesProofs WireProofs RDataProofs LiveProofs CompProofs MsgProofs5 MsgProofs6.

(** ** What is appended *)
Lemma appended : forall w l m r r', inv m r -> emits w (Pbytes l) -> w r = (Ok tt, r') -> mr_bytes r' = mr_bytes r ++ l.
Proof.
  intros w l m r r' I E H. pose proof (emitted w _ m r r' I (mono_bytes l) E H) as P.
  pose proof (E m r I) as X. rewrite H in X. destruct X as (X & I' & _).
  destruct (extends_bytes r r' X (inv_len _ _ I) (inv_len _ _ I')) as (tl & Et & Lt). rewrite Et. f_equal.
  apply bytes_at_Pbytes in P. destruct P as [P L]. rewrite Et in P. unfold bytes_at in P.
  assert (Lr : length (mr_bytes r) = mr_len r) by (apply mr_bytes_length; apply I).
  rewrite skipn_app, Lr, Nat.sub_diag, skipn_all2 in P by lia. cbn [skipn app] in P. rewrite <- Lt, firstn_all in P. exact P.
Qed.
(** A name that takes its full length is written without a pointer. *)
Lemma wname_plain : forall rd lim pos ls e, wname rd lim pos ls e -> Forall wf_label ls -> e = pos + wire_len ls -> Pbytes (enc ls) rd pos e.
Proof.
  intros rd lim pos ls e H. induction H as [lim pos H|lim pos l ls e L H1 H2 H IH|lim pos hi lo t ls e H1 H2 H3 H4 H5 H IH]; intros F E.
  - split; [reflexivity|]. intros [|[|i]] c Hc; cbn in Hc; inversion Hc; subst. rewrite Nat.add_0_r. exact H.
  - apply Forall_cons_iff in F. destruct F as [_ F]. rewrite wire_elen, elen_cons in E. rewrite wire_elen in IH.
    specialize (IH F ltac:(lia)). replace (enc (l :: ls)) with ((blen l :: l) ++ enc ls) by (unfold enc; cbn [body flat_map]; rewrite <- app_assoc; reflexivity).
    apply Pbytes_app. exists (pos + 1 + length l). split; [lia|]. split; [|exact IH]. split; [cbn [length]; lia|].
    intros [|i] c Hc; cbn in Hc; [inversion Hc; subst; rewrite Nat.add_0_r; exact H1|]. rewrite <- (H2 i c Hc). f_equal. lia.
  - exfalso. rewrite wire_elen in E. destruct ls as [|l ls]; [change (elen []) with 0 in E; lia|]. rewrite elen_cons in E.
    apply Forall_inv in F. destruct F as [F _]. lia.
Qed.
Lemma name_appended : forall m r ls c r', inv m r -> wf_labels ls -> write_name (name_of ls) c r = (Ok tt, r') ->
  mr_len r' = mr_len r + wire_len ls -> mr_bytes r' = mr_bytes r ++ enc ls.
Proof.
  intros m r ls c r' I W H L. pose proof (write_name_emits ls c W) as E.
  pose proof (emitted _ _ m r r' I (mono_name ls) E H) as P. apply wname_plain in P; [|apply W|exact L].
  pose proof (E m r I) as X. rewrite H in X. destruct X as (X & I' & _).
  destruct (extends_bytes r r' X (inv_len _ _ I) (inv_len _ _ I')) as (tl & Et & Lt). rewrite Et. f_equal.
  apply bytes_at_Pbytes in P. destruct P as [P _]. rewrite Et in P. unfold bytes_at in P.
  assert (Lr : length (mr_bytes r) = mr_len r) by (apply mr_bytes_length; apply I).
  rewrite skipn_app, Lr, Nat.sub_diag, skipn_all2 in P by lia. cbn [skipn app] in P. rewrite <- Lt, firstn_all in P. exact P.
Qed.
Lemma enc_name : forall ls, n_raw (name_of ls) = enc ls. Proof. reflexivity. Qed.

(** ** Fields without names *)
Lemma field_plain : forall k v m r r', wf_field k v -> field_names v = [] -> inv m r -> field_to_wire v r = (Ok tt, r') ->
  mr_bytes r' = mr_bytes r ++ field_octets v.
Proof.
  intros k v m r r' W N I H. assert (K : field_known v) by (destruct v; try exact Logic.I; discriminate).
  pose proof (emits_field k v W K) as E.
  destruct k, v; cbn [wf_field] in W; try (destruct W; fail); try discriminate N; cbn [Pfield field_octets] in *;
    try (eapply appended; eassumption).
  - rewrite <- be16_u16 by auto. eapply appended; eassumption.
  - rewrite <- be32_u32 by auto. eapply appended; eassumption.
  - rewrite <- be16_u16; [eapply appended; eassumption|]. apply W.
Qed.

(** ** Histories of a field *)
Definition nameless_ev (e : event) : Prop := forall ls c, ev_op e <> MName ls c.
Lemma nameless_names : forall es h, Forall nameless_ev es -> names_in (es ++ h) = names_in h.
Proof.
  induction es as [|e es IH]; intros h F; [reflexivity|]. apply Forall_cons_iff in F. destruct F as [F1 F2]. cbn [app]. unfold names_in in *. cbn [flat_map].
  rewrite IH by auto. specialize (F1). destruct (ev_op e) as [ls c| | | | | | |] eqn:Eo; try reflexivity. destruct (F1 ls c Eo).
Qed.
Lemma nameless_written : forall es h s, Forall nameless_ev es -> (written (es ++ h) s <-> written h s).
Proof.
  intros es h s F. split; intros (N & e & c & pre & A & B & C); (split; [exact N|]); exists e, c, pre; (split; [|auto]).
  - apply in_app_iff in A. destruct A as [A|A]; auto. rewrite Forall_forall in F. destruct (F e A _ _ C).
  - apply in_app_iff. auto.
Qed.
Lemma hist_one : forall r0 h r o r', history r0 h r -> mop_ok h o -> (forall ls c, o <> MName ls c) -> mop_call o r = (Ok tt, r') ->
  exists es, Forall nameless_ev es /\ history r0 (es ++ h) r'.
Proof.
  intros r0 h r o r' H V N C. exists [mkEv o (mr_len r) (mr_len r') true]. split; [constructor; [|constructor]; intros ls c; apply N|].
  cbn [app]. apply hist_ok; auto.
Qed.
Lemma hist_map : forall A (f : A -> M render unit) l, (forall x, In x l -> forall r0 h r r', history r0 h r -> f x r = (Ok tt, r') ->
    exists es, Forall nameless_ev es /\ history r0 (es ++ h) r') ->
  forall r0 h r r', history r0 h r -> mapM_ f l r = (Ok tt, r') -> exists es, Forall nameless_ev es /\ history r0 (es ++ h) r'.
Proof.
  induction l as [|x l IH]; intros F r0 h r r' H E; cbn [mapM_] in E.
  - inversion E; subst. exists []. auto.
  - unfold bind in E. destruct (f x r) as [[[]| | |] r1] eqn:E1; try discriminate.
    destruct (F x (or_introl eq_refl) r0 h r r1 H E1) as (es & F1 & H1).
    destruct (IH (fun x0 Hx => F x0 (or_intror Hx)) r0 _ r1 r' H1 E) as (es2 & F2 & H2).
    exists (es2 ++ es). split; [apply Forall_app; auto|]. rewrite <- app_assoc. exact H2.
Qed.
Lemma hist_u8 : forall d, (d < 256)%N -> forall r0 h r r', history r0 h r -> mr_write_u8 d r = (Ok tt, r') -> exists es, Forall nameless_ev es /\ history r0 (es ++ h) r'.
Proof. intros d Hd r0 h r r' H E. eapply (hist_one r0 h r (M8 d)); eauto. discriminate. Qed.
Lemma hist_bytes : forall d, bytes d -> forall r0 h r r', history r0 h r -> mr_write_bytes d r = (Ok tt, r') -> exists es, Forall nameless_ev es /\ history r0 (es ++ h) r'.
Proof. intros d Hd r0 h r r' H E. eapply (hist_one r0 h r (MBytes d)); eauto. discriminate. Qed.
Lemma hist_octets : forall d, bytes d -> forall r0 h r r', history r0 h r -> mapM_ mr_write_u8 d r = (Ok tt, r') -> exists es, Forall nameless_ev es /\ history r0 (es ++ h) r'.
Proof. intros d Hd. apply hist_map. intros x Hx. apply hist_u8. unfold bytes in Hd. rewrite Forall_forall in Hd. apply Hd. auto. Qed.
Lemma hist_string : forall d, wf_string d -> forall r0 h r r', history r0 h r -> byte_binary_to_wire d r = (Ok tt, r') -> exists es, Forall nameless_ev es /\ history r0 (es ++ h) r'.
Proof.
  intros d [Ld Hd] r0 h r r' H E. unfold byte_binary_to_wire, bind in E. destruct (mr_write_u8 _ r) as [[[]| | |] r1] eqn:E1; try discriminate.
  destruct (hist_u8 (as_u8 (blen d)) ltac:(rewrite blen_small by auto; unfold blen; lia) r0 h r r1 H E1) as (es & F1 & H1).
  destruct (hist_bytes d Hd r0 _ r1 r' H1 E) as (es2 & F2 & H2). exists (es2 ++ es). split; [apply Forall_app; auto|]. rewrite <- app_assoc. exact H2.
Qed.
Lemma field_hist : forall k v r0 h r r', wf_field k v -> field_names v = [] -> history r0 h r -> field_to_wire v r = (Ok tt, r') ->
  exists es, Forall nameless_ev es /\ history r0 (es ++ h) r'.
Proof.
  intros k v r0 h r r' W N H E. destruct k, v; cbn [wf_field] in W; try (destruct W; fail); try discriminate N; cbn [field_to_wire] in E.
  - eapply hist_octets; eauto. apply W.
  - eapply hist_octets; eauto. apply W.
  - eapply hist_u8; eauto.
  - eapply (hist_one r0 h r (M16 v)); eauto. discriminate.
  - eapply (hist_one r0 h r (M32 v)); eauto. discriminate.
  - eapply (hist_one r0 h r (M16 (rrtype_u16 t))); eauto; [apply W|discriminate].
  - eapply hist_map; [|exact H|exact E]. intros x Hx. apply hist_string. rewrite Forall_forall in W. apply W. auto.
  - eapply hist_string; eauto.
  - eapply hist_bytes; eauto.
Qed.

(** ** Record data without names *)
Lemma fields_plain : forall vs, (forall v, In v vs -> field_names v = [] /\ exists k, wf_field k v) -> forall dat h r r', bytes dat -> history (mr_new dat) h r ->
  mapM_ field_to_wire vs r = (Ok tt, r') -> mr_bytes r' = mr_bytes r ++ flat_map field_octets vs.
Proof.
  induction vs as [|v vs IH]; intros F dat h r r' B H E; cbn [mapM_ flat_map] in *.
  - inversion E; subst. rewrite app_nil_r. reflexivity.
  - unfold bind in E. destruct (field_to_wire v r) as [[[]| | |] r1] eqn:E1; try discriminate.
    destruct (F v (or_introl eq_refl)) as (N & k & W). destruct (history_inv dat h r B H) as [I _].
    rewrite app_assoc, <- (field_plain k v _ r r1 W N I E1).
    destruct (field_hist k v _ h r r1 W N H E1) as (es & _ & H1). eapply IH; eauto. intros; apply F; right; auto.
Qed.
Lemma Forall2_each : forall A B (P : A -> B -> Prop) l1 l2, Forall2 P l1 l2 -> forall b, In b l2 -> exists a, In a l1 /\ P a b.
Proof. induction 1; intros b0 Hb; [destruct Hb|]. destruct Hb as [<-|Hb]; [exists x; simpl; auto|]. destruct (IHForall2 b0 Hb) as (a & A1 & A2). exists a. simpl. auto. Qed.
Lemma nameless_fields : forall t rd, wf_rdata t rd -> nameless (rd_var rd) = true -> forall v, In v (rd_fields rd) -> field_names v = [] /\ exists k, wf_field k v.
Proof.
  intros t rd (D & ks & L & F) N v Hv. destruct (Forall2_each _ _ _ _ _ F v Hv) as (k & Hk & W). split; [|eauto].
  assert (Nk : ~ In KName ks).
  { destruct t; inversion D as [D1]; rewrite <- D1 in N; try discriminate N; inversion L as [L1]; cbn [In]; intuition congruence. }
  destruct k, v; cbn [wf_field] in W; try (destruct W; fail); try reflexivity. destruct (Nk Hk).
Qed.
Lemma data_plain : forall dat h r t rd r', bytes dat -> history (mr_new dat) h r -> wf_rdata t rd -> nameless (rd_var rd) = true ->
  rdata_to_wire rd r = (Ok tt, r') -> mr_bytes r' = mr_bytes r ++ plain_octets rd.
Proof. intros dat h r t rd r' B H W N E. eapply fields_plain; eauto. eapply nameless_fields; eauto. Qed.

(** ** Record data with names *)
Lemma fresh_ext : forall ns s1 s2, (forall s, s1 s <-> s2 s) -> (fresh s1 ns <-> fresh s2 ns).
Proof.
  induction ns as [|ls ns IH]; intros s1 s2 E; cbn [fresh]; [reflexivity|]. rewrite (IH _ (fun s => s2 s \/ (s <> [] /\ exists pre, ls = pre ++ s))).
  - split; intros [A B]; (split; [|exact B]); intros pre s Hs Q; apply (A pre s Hs); apply E; auto.
  - intro s. rewrite E. reflexivity.
Qed.
(** No bucket overflows even if the given names are written too. *)
Definition light_with (ns : list (list label)) (h : list event) : Prop := forall k, in_bucket k (flat_map ancestors (ns ++ names_in h)) <= 15.
Lemma light_with_light : forall ns h, light_with ns h -> light h.
Proof. intros ns h L k. specialize (L k). rewrite flat_map_app, in_bucket_app in L. lia. Qed.
(** One name. *)
Lemma name_full_iff : forall dat h r ls r', bytes dat -> history (mr_new dat) h r -> wf_labels ls -> collision_free (ls :: names_in h) -> light h ->
  (N.of_nat (mr_len r) <= 16384)%N -> write_name (name_of ls) true r = (Ok tt, r') ->
  mr_len r' <= mr_len r + wire_len ls /\ (mr_len r' = mr_len r + wire_len ls <-> forall pre s, ls = pre ++ s -> ~ written h s).
Proof.
  intros dat h r ls r' B H W Cf Lt Sz E. destruct (name_step dat h r ls true r' B H W Cf E) as (d & suf2 & El & [(_ & L & Q)|(_ & Wr & L & _)]).
  - split; [lia|]. split; [|auto]. intros _ pre s Es Ws. apply (Q eq_refl Lt pre s Es).
    destruct Ws as (Ns & e & c & p & A1 & A2 & A3). split; auto. exists e, c, p. split; auto. split; auto. split; auto. pose proof (history_ev dat h r B H e A1). lia.
  - assert (elen d + 3 <= wire_len ls).
    { rewrite El, wire_elen, elen_app. destruct suf2 as [|l s]; [destruct Wr; congruence|]. rewrite elen_cons.
      destruct W as [W _]. rewrite El in W. apply Forall_app in W. destruct W as [_ W]. apply Forall_inv in W. destruct W as [W _]. lia. }
    split; [lia|]. split; [lia|]. intros Q. destruct (Q d suf2 El Wr).
Qed.
Lemma written_name : forall h ls a b s, written (mkEv (MName ls true) a b true :: h) s <-> written h s \/ (s <> [] /\ exists pre, ls = pre ++ s).
Proof.
  intros h ls a b s. split.
  - intros (N & e & c & pre & A & Hk & C). destruct A as [<-|A].
    + cbn [ev_op] in C. injection C as C1 C2. right. split; auto. exists pre. auto.
    + left. split; auto. exists e, c, pre. auto.
  - intros [(N & e & c & pre & A & Hk & C)|[N [pre ->]]]; (split; [exact N|]).
    + exists e, c, pre. split; [right; auto|auto].
    + eexists _, true, pre. split; [left; reflexivity|]. split; reflexivity.
Qed.
Lemma collision_sub : forall a b, collision_free b -> incl a b -> collision_free a.
Proof.
  intros a b Cf Inc x y (lx & X1 & X2) (ly & Y1 & Y2). apply Cf; [exists lx|exists ly]; split; auto.
Qed.
Lemma in_bucket_perm : forall k a b c, in_bucket k (flat_map ancestors (a ++ b :: c)) = in_bucket k (flat_map ancestors (b :: a ++ c)).
Proof. intros k a b c. cbn [flat_map]. rewrite !flat_map_app, !in_bucket_app. cbn [flat_map]. rewrite !in_bucket_app. lia. Qed.
Lemma fields_exact : forall vs, (forall v, In v vs -> exists k, wf_field k v) -> forall ns dat h r r', bytes dat -> history (mr_new dat) h r ->
  flat_map field_names vs = map name_of ns -> Forall wf_labels ns -> collision_free (ns ++ names_in h) -> light_with ns h -> (N.of_nat (mr_len r') <= 16384)%N ->
  mapM_ field_to_wire vs r = (Ok tt, r') ->
  mr_len r <= mr_len r' /\ mr_len r' <= mr_len r + length (flat_map field_octets vs) /\
  (mr_len r' = mr_len r + length (flat_map field_octets vs) <-> fresh (written h) ns) /\
  (mr_len r' = mr_len r + length (flat_map field_octets vs) -> mr_bytes r' = mr_bytes r ++ flat_map field_octets vs).
Proof.
  induction vs as [|v vs IH]; intros F ns dat h r r' B H Nm Fn Cf Lt Sz E; cbn [mapM_ flat_map] in *.
  - destruct ns; [|discriminate Nm]. inversion E; subst. cbn [length fresh]. rewrite app_nil_r, Nat.add_0_r. repeat (split; [tauto || lia|]). auto.
  - unfold bind in E. destruct (field_to_wire v r) as [[[]| | |] r1] eqn:E1; try discriminate.
    destruct (F v (or_introl eq_refl)) as (k & W). destruct (history_inv dat h r B H) as [I _].
    specialize (IH (fun x Hx => F x (or_intror Hx))).
    assert (Cs : field_names v = [] \/ exists ls, wf_labels ls /\ v = VName (name_of ls)).
    { destruct v; try (left; reflexivity). right. destruct k; cbn [wf_field] in W; try (destruct W; fail). destruct W as (ls & W1 & ->). eauto. }
    rewrite app_length. destruct Cs as [N|(ls & Wl & ->)].
    + rewrite N in Nm. cbn [app] in Nm.
      destruct (field_hist k v _ h r r1 W N H E1) as (es & Fe & H1).
      pose proof (field_plain k v _ r r1 W N I E1) as Eb. destruct (history_inv dat _ r1 B H1) as [I1 _].
      assert (El : mr_len r1 = mr_len r + length (field_octets v)).
      { rewrite <- (mr_bytes_length r1), <- (mr_bytes_length r) by (apply I || apply I1). rewrite Eb, app_length. reflexivity. }
      destruct (IH ns dat _ r1 r' B H1 Nm) as (A0 & A1 & A2 & A3); auto.
      { rewrite nameless_names by auto. auto. } { intro k0. rewrite nameless_names by auto. apply Lt. }
      rewrite (fresh_ext ns (written (es ++ h)) (written h)) in A2 by (intro s; apply nameless_written; auto).
      split; [lia|]. split; [lia|]. split; [rewrite <- A2; lia|]. intro Q. rewrite A3, Eb, <- app_assoc by lia. reflexivity.
    + cbn [field_names app] in Nm. destruct ns as [|ls1 ns]; [discriminate Nm|]. cbn [map] in Nm. pose proof (f_equal (@hd_error name) Nm) as Nm1. cbn [hd_error] in Nm1. assert (Nm2 : name_of ls1 = name_of ls) by congruence. apply (f_equal (@tl name)) in Nm. cbn [tl] in Nm.
      apply Forall_cons_iff in Fn. destruct Fn as [Fn1 Fn].
      assert (ls1 = ls) by (apply name_of_inj; [apply Fn1|apply Wl|exact Nm2]). subst ls1.
      cbn [field_to_wire] in E1. cbn [field_octets]. rewrite enc_name. change (length (enc ls)) with (wire_len ls).
      pose proof (hist_ok _ h r (MName ls true) r1 H Wl E1) as H1. destruct (history_inv dat _ r1 B H1) as [I1 _].
      destruct (IH ns dat _ r1 r' B H1 Nm) as (A0 & A1 & A2 & A3); auto.
      { rewrite names_cons. eapply collision_sub; [exact Cf|]. intros x. cbn [app In]. rewrite !in_app_iff. cbn [In]. tauto. }
      { intro k0. rewrite names_cons, in_bucket_perm. apply Lt. }
      assert (Mo : mr_len r <= mr_len r1).
      { pose proof (write_name_emits ls true Wl _ r I) as X. rewrite E1 in X. destruct X as (X & _). apply X. }
      destruct (name_full_iff dat h r ls r1 B H Wl) as (U1 & U2); auto.
      { eapply collision_sub; [exact Cf|]. intros x. cbn [app In]. rewrite in_app_iff. tauto. }
      { eapply light_with_light; eauto. } { lia. }
      cbn [fresh]. rewrite (fresh_ext ns _ _ (written_name h ls _ _)) in A2. rewrite <- U2, <- A2.
      split; [lia|]. split; [lia|]. split; [lia|]. intro Q. rewrite A3 by lia.
      rewrite (name_appended _ r ls true r1 I Wl E1) by lia. rewrite <- app_assoc. reflexivity.
Qed.
Lemma data_exact : forall dat h r t rd ns r', bytes dat -> history (mr_new dat) h r -> wf_rdata t rd -> data_names rd ns -> Forall wf_labels ns ->
  collision_free (ns ++ names_in h) -> (forall k, in_bucket k (flat_map ancestors (ns ++ names_in h)) <= 15) -> (N.of_nat (mr_len r') <= 16384)%N ->
  rdata_to_wire rd r = (Ok tt, r') -> (mr_bytes r' = mr_bytes r ++ plain_octets rd <-> fresh (written h) ns).
Proof.
  intros dat h r t rd ns r' B H (_ & ks & _ & W) Nm Fn Cf Lt Sz E.
  assert (Fv : forall v, In v (rd_fields rd) -> exists k, wf_field k v).
  { intros v Hv. destruct (Forall2_each _ _ _ _ _ W v Hv) as (k & _ & Hk). eauto. }
  destruct (fields_exact (rd_fields rd) Fv ns dat h r r' B H Nm Fn Cf Lt Sz E) as (_ & _ & A2 & A3).
  rewrite <- A2. split; [|exact A3]. intro Q.
  assert (I' : log_ok r').
  { assert (Em : emits (mapM_ field_to_wire (rd_fields rd)) (Pfields (rd_fields rd))).
    { eapply emits_fields; eauto. apply Forall_forall. intros v _. destruct v; try exact Logic.I. intros ls s _ _. exact Logic.I. }
    destruct (history_inv dat h r B H) as [I _]. specialize (Em _ r I). unfold rdata_to_wire in E. rewrite E in Em. apply Em. }
  destruct (history_inv dat h r B H) as [I _].
  rewrite <- (mr_bytes_length r') by auto. rewrite Q, app_length, (mr_bytes_length r) by apply I. reflexivity.
Qed.

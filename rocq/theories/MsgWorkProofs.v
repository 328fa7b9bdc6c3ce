(** Rendering a message takes bounded work (C116). *)
From Verif Require Import Base NameModel RenderModel CodesModel RDataModel MsgModel SpecName SpecBuf SpecCodes SpecMsg SpecRenderWork SpecMsgWork BaseLemmas BitLemmas
  NameWireProofs NameOpsProofs RenderProofs RenderProofs2 BufProofs WireProofs RDataProofs MsgProofs MsgProofs4 MsgProofs5 IndepProofs MsgProofs6 LiveProofs FitProofs CompProofs RenderWorkProofs.

(** What is kept by a writer: the invariant, and a table whose items point at runs. *)
Definition paid (bp : M (render * nat) unit) (b : M render unit) (B : nat) : Prop := forall m r, inv m r -> on_runs m r ->
  exists c a r', does bp b r c a r' /\ c <= B /\ inv m r' /\ on_runs m r' /\ extends r r'.
Definition calm (w : M render unit) : Prop := forall r a r', w r = (a, r') -> mr_table r' = mr_table r /\ mr_counts r' = mr_counts r.

Lemma calm_on_buf : forall f, calm (on_buf f).
Proof. intros f r a r' H. apply on_buf_tables in H. tauto. Qed.
Lemma calm_seq : forall w v, calm w -> calm v -> calm (w ;; v).
Proof.
  intros w v W V r a r' H. unfold bind in H. destruct (w r) as [x r1] eqn:E. apply W in E. destruct E as [E1 E2].
  destruct x as [[]| | |]; try (apply pair_inj in H; destruct H as [_ <-]; auto). apply V in H. destruct H. split; congruence.
Qed.
Lemma calm_ret : calm (ret tt).
Proof. intros r a r' H. unfold ret in H. apply pair_inj in H. destruct H as [_ <-]. auto. Qed.
Lemma calm_mapM : forall A (f : A -> M render unit) l, (forall x, calm (f x)) -> calm (mapM_ f l).
Proof. induction l; intros H; cbn [mapM_]; [apply calm_ret|apply calm_seq; auto]. Qed.
Lemma calm_field : forall v, (forall n, v <> VName n) -> calm (field_to_wire v).
Proof.
  intros v Nn. destruct v; cbn [field_to_wire]; try (destruct (Nn n); reflexivity); try (apply calm_mapM; intro); try apply calm_on_buf; apply calm_seq; apply calm_on_buf.
Qed.

Lemma paid_free : forall w P, calm w -> emits w P -> paid (free w) w 0.
Proof.
  intros w P C E m r I O. specialize (E m r I). destruct (w r) as [a r'] eqn:Ew. destruct E as (X & I' & _).
  exists 0, a, r'. split; [apply does_free; auto|]. split; auto. split; auto. split; [|auto].
  destruct (C _ _ _ Ew). eapply on_runs_mono; [| | |exact O]; auto. apply extends_rdm. auto.
Qed.
Lemma paid_seq : forall bp b vp v B V, paid bp b B -> paid vp v V -> paid (bp ;; vp) (b ;; v) (B + V).
Proof.
  intros bp b vp v B V H1 H2 m r I O. destruct (H1 m r I O) as (c & a & r1 & D & L & I1 & O1 & X1).
  assert (St : (forall x, a <> Ok x) -> exists c a r', does (bp ;; vp) (b ;; v) r c a r' /\ c <= B + V /\ inv m r' /\ on_runs m r' /\ extends r r').
  { intros Na. exists c, a, r1. split; [|split; [lia|auto]]. eapply does_stop; [exact D|]. destruct a; try exact Logic.I. destruct (Na a); auto. }
  destruct a as [[]| | |]; try (apply St; discriminate). clear St.
  destruct (H2 m r1 I1 O1) as (c2 & a2 & r2 & D2 & L2 & I2 & O2 & X2). exists (c + c2), a2, r2.
  split; [eapply does_bind; eauto|]. split; [lia|]. split; auto. split; auto. eapply extends_trans; eauto.
Qed.
Lemma paid_ret : paid (ret tt) (ret tt) 0.
Proof. intros m r I O. exists 0, (Ok tt), r. split; [apply does_ret|]. split; auto. split; auto. split; auto. apply extends_refl. Qed.
Lemma paid_mapM : forall A (fp : A -> M (render * nat) unit) f (B : A -> nat) l, Forall (fun x => paid (fp x) (f x) (B x)) l -> paid (mapM_ fp l) (mapM_ f l) (list_sum (map B l)).
Proof.
  intros A fp f B. induction l as [|x l IH]; intros F; cbn [mapM_ map list_sum]; [apply paid_ret|]. apply Forall_cons_iff in F. destruct F.
  change (list_sum (B x :: map B l)) with (B x + list_sum (map B l)). apply paid_seq; auto.
Qed.
Lemma paid_le : forall bp b B C, paid bp b B -> B <= C -> paid bp b C.
Proof. intros bp b B C H L m r I O. destruct (H m r I O) as (c & a & r1 & D & Lc & R). exists c, a, r1. split; auto. split; [lia|auto]. Qed.
Lemma paid_name : forall n c, wf_name n -> paid (write_name_paid n c) (write_name n c) (name_price n).
Proof.
  intros n c (ls & W & ->) m r I O. destruct (name_does m (name_of ls) c r) as (cc & a & r' & D & L); auto; [apply (inv_cnt _ _ I)|].
  pose proof (write_name_emits ls c W m r I) as E. destruct D as [D1 D2]. rewrite D1 in E. destruct E as (X & I' & _).
  exists cc, a, r'. split; [split; auto|]. split; [exact L|]. split; auto. split; auto. exact (write_name_runs m r ls c a r' I W O D1).
Qed.

Definition field_price (v : fval) : nat := match v with VName n => name_price n | _ => 0 end.
Lemma paid_field : forall k v, wf_field k v -> paid (field_paid v) (field_to_wire v) (field_price v).
Proof.
  intros k v W. assert (K : field_known v) by (destruct v; try exact Logic.I; apply name_all_known). pose proof (emits_field k v W K) as E.
  destruct v; cbn [field_paid field_price]; try (eapply paid_free; [apply calm_field; discriminate|exact E]).
  cbn [field_to_wire]. apply paid_name. destruct k; try (destruct W; fail). exact W.
Qed.
Definition rdata_price (rd : rdata) : nat := list_sum (map field_price (rd_fields rd)).
Lemma paid_rdata : forall t rd, wf_rdata t rd -> paid (rdata_paid rd) (rdata_to_wire rd) (rdata_price rd).
Proof.
  intros t rd W. apply wf_rdata_fields in W. destruct W as [W _]. unfold rdata_paid, rdata_to_wire, rdata_price. apply paid_mapM.
  induction W; constructor; auto. eapply paid_field; eauto.
Qed.
Lemma paid_prefix : forall rs, wf_name (rs_name rs) -> paid (rr_prefix_paid rs) (rr_prefix_to_wire rs) (name_price (rs_name rs)).
Proof.
  intros rs W. unfold rr_prefix_paid, rr_prefix_to_wire, name_to_wire. eapply paid_le; [|apply Nat.eq_le_incl; apply Nat.add_0_r].
  apply paid_seq; [apply paid_name; auto|].
  apply (paid_seq _ _ _ _ 0 0); [eapply paid_free; [apply calm_on_buf|apply emits_u16]|].
  apply (paid_seq _ _ _ _ 0 0); [eapply paid_free; [apply calm_on_buf|apply emits_u16]|].
  eapply paid_free; [apply calm_on_buf|apply emits_u32].
Qed.

(** The length of the rdata is patched in. *)
Definition with_rdlen_paid (body : M (render * nat) unit) : M (render * nat) unit :=
  let! pos := free mr_length in
  free (mr_skip 2) ;; body ;;
  let! len := free mr_length in
  let! d := lift (csub len pos) in
  let! rdlen := lift (csub d 2) in
  free (mr_write_u16_at pos (as_u16 (N.of_nat rdlen))).
Lemma does_length : forall r, does (free mr_length) mr_length r 0 (Ok (mr_len r)) r.
Proof. intros r. apply does_free. reflexivity. Qed.
Lemma on_runs_unmask : forall m m1 r, on_runs m1 r -> (forall i, m i = true -> m1 i = true) -> on_runs m r.
Proof.
  intros m m1 r O H. eapply on_runs_mono; [reflexivity|reflexivity| |exact O]. intros i c. unfold rdm. destruct (m1 i) eqn:E1; [discriminate|].
  destruct (m i) eqn:E; [rewrite H in E1 by auto; discriminate|auto].
Qed.
Lemma paid_rdlen : forall bp b B, paid bp b B -> paid (with_rdlen_paid bp) (with_rdlen b) B.
Proof.
  intros bp b B H m r I O. unfold with_rdlen_paid, with_rdlen.
  destruct (Nat.lt_ge_cases (mr_len r + 2) (ob_capacity (mr_buf r))) as [L|L].
  2:{ exists (0 + 0), Err, r. assert (E : mr_skip 2 r = (Err, r)).
      { unfold mr_skip, on_buf, ob_skip. unfold mr_len in L. replace (ob_len (mr_buf r) + 2 <? ob_capacity (mr_buf r)) with false
          by (symmetry; apply Nat.ltb_ge; auto). destruct r; reflexivity. }
      split; [eapply does_bind; [apply does_length|]; eapply does_stop; [apply does_free; exact E|exact Logic.I]|].
      split; [lia|]. split; auto. split; auto. apply extends_refl. }
  destruct (skip_spec 2 m r I L) as (r1 & E1 & X1 & L1 & I1 & R1).
  set (m1 := fun i => m i || ((mr_len r <=? i) && (i <? mr_len r + 2))) in *.
  assert (Sub : forall i, m i = true -> m1 i = true) by (intros i Hi; unfold m1; rewrite Hi; auto).
  assert (O1 : on_runs m1 r1).
  { destruct (on_buf_tables _ _ _ _ _ E1) as (T & C & _). eapply on_runs_mono; [exact T|exact C|exact R1|exact O]. }
  destruct (H m1 r1 I1 O1) as (c & a & r2 & D2 & Lc & I2 & O2 & X2). pose proof (extends_trans _ _ _ X1 X2) as X12.
  assert (St : (forall x, a <> Ok x) -> exists c0 a0 r', does (let! pos := free mr_length in free (mr_skip 2) ;; bp ;; let! len := free mr_length in
     let! d := lift (csub len pos) in let! rdlen := lift (csub d 2) in free (mr_write_u16_at pos (as_u16 (N.of_nat rdlen))))
    (let! pos := mr_length in mr_skip 2 ;; b ;; let! len := mr_length in let! d := lift (csub len pos) in let! rdlen := lift (csub d 2) in mr_write_u16_at pos (as_u16 (N.of_nat rdlen))) r c0 a0 r' /\
    c0 <= B /\ inv m r' /\ on_runs m r' /\ extends r r').
  { intros Na. exists (0 + (0 + c)), a, r2. split; [|split; [lia|]].
    - eapply does_bind; [apply does_length|]. eapply does_bind; [apply does_free; exact E1|]. eapply does_stop; [exact D2|]. destruct a; try exact Logic.I. destruct (Na a); auto.
    - split; [eapply inv_unmask; eauto|]. split; [eapply on_runs_unmask; eauto|auto]. }
  destruct a as [[]| | |]; try (apply St; discriminate). clear St.
  assert (Le : mr_len r + 2 <= mr_len r2) by (destruct X2; lia).
  set (L' := as_u16 (N.of_nat (mr_len r2 - mr_len r - 2))).
  destruct (patch_spec (be16 L') (mr_len r) m1 r2) as (r3 & E3 & I3 & L3 & R3 & O3 & V3 & C3); auto.
  { apply be16_bytes. }
  { cbn [length be16]. intros i Hi. unfold m1. apply orb_true_iff. right. apply andb_true_iff. rewrite Nat.leb_le, Nat.ltb_lt. lia. }
  assert (Ew : mr_write_u16_at (mr_len r) L' r2 = (Ok tt, r3)).
  { rewrite <- E3. unfold mr_write_u16_at, on_buf, ob_write_u16_at. unfold mr_len in Le |- *. ift. reflexivity. }
  exists (0 + (0 + (c + (0 + (0 + (0 + 0)))))), (Ok tt), r3. split; [|split; [lia|]].
  - eapply does_bind; [apply does_length|]. eapply does_bind; [apply does_free; exact E1|]. eapply does_bind; [exact D2|].
    eapply does_bind; [apply does_length|]. cbn beta. rewrite csub_ok by lia. eapply does_bind; [apply does_lift|]. cbn beta. rewrite csub_ok by lia.
    eapply does_bind; [apply does_lift|]. cbn beta. apply does_free. exact Ew.
  - split; [eapply inv_unmask; eauto|]. split.
    + apply (on_runs_unmask m m1); auto. destruct (on_buf_tables _ _ _ _ _ Ew) as (T & C & _). eapply on_runs_mono; [exact T|exact C| |exact O2].
      intros i x. rewrite R3. auto.
    + destruct X12 as (Y1 & Y2 & Y3). repeat split; try lia. intros i Hi. rewrite O3 by lia. auto.
Qed.

Definition rr_price (rs : rrset) (rd : rdata) : nat := name_price (rs_name rs) + rdata_price rd.
Lemma paid_rr : forall rs rd, wf_name (rs_name rs) -> wf_rdata (rs_type rs) rd -> paid (rr_paid rs rd) (rr_to_wire rs rd) (rr_price rs rd).
Proof.
  intros rs rd W Wd. unfold rr_price. change (paid (rr_prefix_paid rs ;; with_rdlen_paid (rdata_paid rd)) (rr_prefix_to_wire rs ;; with_rdlen (rdata_to_wire rd)) (name_price (rs_name rs) + rdata_price rd)).
  apply paid_seq; [apply paid_prefix; auto|]. apply paid_rdlen. eapply paid_rdata; eauto.
Qed.
Definition rrset_price (rs : rrset) : nat := match rs_rdatas rs with [] => name_price (rs_name rs) | l => list_sum (map (rr_price rs) l) end.
Lemma paid_rrset : forall rs, rrset_wf rs -> paid (rrset_paid rs) (rrset_to_wire rs) (rrset_price rs).
Proof.
  intros rs [W Wd]. unfold rrset_paid, rrset_to_wire, rrset_price. destruct (rs_rdatas rs) as [|rd l] eqn:E.
  - eapply paid_le; [apply paid_seq; [apply paid_prefix; auto|eapply paid_free; [apply calm_on_buf|apply emits_u16]]|lia].
  - apply paid_mapM. eapply Forall_impl; [|exact Wd]. intros x Hx. apply paid_rr; auto.
Qed.
Definition section_price (s : section) : nat := match s with None => 0 | Some l => list_sum (map rrset_price l) end.
Lemma paid_section : forall s, section_wf s -> paid (section_paid s) (section_to_wire s) (section_price s).
Proof.
  intros [l|] F; cbn [section_paid section_to_wire section_price]; [|apply paid_ret]. apply paid_mapM. eapply Forall_impl; [|apply (proj1 F)]. apply paid_rrset.
Qed.
Lemma paid_question : forall q, wf_name (q_name q) -> paid (question_paid q) (question_to_wire q) (name_price (q_name q)).
Proof.
  intros q W. unfold question_paid, question_to_wire, name_to_wire. eapply paid_le; [|apply Nat.eq_le_incl; apply Nat.add_0_r].
  apply paid_seq; [apply paid_name; auto|].
  apply (paid_seq _ _ _ _ 0 0); eapply paid_free; try apply calm_on_buf; apply emits_u16.
Qed.
Lemma sections_does : forall resp pos ss m r, Forall section_wf ss -> inv m r -> on_runs m r ->
  exists c a r', does (sections_paid resp pos ss) (sections_to_wire resp pos ss) r c a r' /\ c <= list_sum (map section_price ss).
Proof.
  intros resp pos ss m r F. revert r. induction F as [|s ss Fs F IH]; intros r I O; cbn [sections_paid sections_to_wire].
  - exists 0, (Ok None), r. split; [apply does_ret|lia].
  - change (list_sum (map section_price (s :: ss))) with (section_price s + list_sum (map section_price ss)).
    destruct (paid_section s Fs m r I O) as (c & a & r1 & [D1 D2] & L & I1 & O1 & _). destruct a as [[]| | |].
    + destruct (IH r1 I1 O1) as (c2 & a2 & r2 & [E1 E2] & L2). exists (c + c2), a2, r2. split; [|lia]. split; [rewrite D1; auto|].
      intro j. rewrite <- Nat.add_assoc, D2. auto.
    + destruct (response_truncate resp pos r1) as [x r2] eqn:Et. exists c, (match x with Ok _ => Ok (Some pos) | Err => Err | Panic => Panic | Hang => Hang end), r2. split; [|lia].
      split; [rewrite D1; unfold bind; rewrite Et; destruct x; reflexivity|]. intro j. rewrite D2. unfold bind, free. cbn. rewrite Et. destruct x; reflexivity.
    + exists c, Panic, r1. split; [|lia]. split; [rewrite D1; auto|]. intro j. rewrite D2. auto.
    + exists c, Hang, r1. split; [|lia]. split; [rewrite D1; auto|]. intro j. rewrite D2. auto.
Qed.

(** The prices add up to the names of the message. *)
Lemma price_app : forall a b, list_sum (map name_price (a ++ b)) = list_sum (map name_price a) + list_sum (map name_price b).
Proof. intros. rewrite map_app, list_sum_app. auto. Qed.
Lemma rdata_price_names : forall rd, rdata_price rd = list_sum (map name_price (flat_map field_names (rd_fields rd))).
Proof.
  intros rd. unfold rdata_price. induction (rd_fields rd) as [|v l IH]; [reflexivity|]. cbn [map flat_map]. rewrite price_app, <- IH.
  change (list_sum (field_price v :: map field_price l)) with (field_price v + list_sum (map field_price l)). f_equal. destruct v; cbn; lia.
Qed.
Lemma rrset_price_names : forall rs, rrset_price rs = list_sum (map name_price (flat_map rr_names (rrs_of rs))).
Proof.
  intros rs. unfold rrset_price, rrs_of. destruct (rs_rdatas rs) as [|rd l]; [cbn; lia|]. generalize (rd :: l). clear. induction l as [|rd l IH]; [reflexivity|].
  cbn [map flat_map]. rewrite price_app, <- IH. change (list_sum (rr_price rs rd :: map (rr_price rs) l)) with (rr_price rs rd + list_sum (map (rr_price rs) l)). f_equal.
  unfold rr_price, rr_names. cbn [rr_owner rr_data]. rewrite rdata_price_names. reflexivity.
Qed.
Lemma section_price_names : forall s, section_price s = list_sum (map name_price (flat_map rr_names (records s))).
Proof.
  intros [l|]; [|reflexivity]. cbn [section_price records]. induction l as [|rs l IH]; [reflexivity|]. cbn [map flat_map].
  rewrite flat_map_app, price_app, <- IH, <- rrset_price_names. reflexivity.
Qed.

Lemma calm_header : forall h, calm (header_to_wire h).
Proof. intros h. unfold header_to_wire. repeat (apply calm_seq; [apply calm_on_buf|]). apply calm_on_buf. Qed.
Lemma on_runs_new : forall dat, on_runs (fun _ => false) (mr_new dat).
Proof.
  intros dat k it (row & c & i & _ & H2 & H3 & _). exfalso. cbn [mr_counts mr_new] in H2. apply nth_error_In in H2. apply repeat_spec in H2. lia.
Qed.
Lemma response_does : forall dat r, bytes dat -> consistent r -> exists c a r', does (response_paid r) (response_to_wire r) (mr_new dat) c a r' /\ c <= response_price r.
Proof.
  intros dat r B (Hk & Hq1 & (Wq & Qk) & S1 & S2 & S3).
  assert (Ep : response_price r = name_price (q_name (r_question r)) + list_sum (map section_price [r_answer r; r_authority r; r_additional r])).
  { unfold response_price, response_names, all_records. cbn [map]. rewrite !flat_map_app, !section_price_names.
    change (list_sum (?a :: ?l)) with (a + list_sum l). rewrite !price_app. cbn [list_sum fold_right]. lia. }
  rewrite Ep. unfold response_paid, response_to_wire. set (r0 := mr_new dat).
  destruct (paid_free _ _ (calm_header (r_header r)) (emits_header (r_header r)) _ r0 (inv_new dat B) (on_runs_new dat)) as (c1 & a1 & r1 & D1 & L1 & I1 & O1 & _).
  destruct a1 as [[]| | |].
  2: (exists c1, Err, r1; split; [eapply does_stop; [exact D1|exact Logic.I]|lia]).
  2: (exists c1, Panic, r1; split; [eapply does_stop; [exact D1|exact Logic.I]|lia]).
  2: (exists c1, Hang, r1; split; [eapply does_stop; [exact D1|exact Logic.I]|lia]).
  destruct (paid_question (r_question r) Wq _ r1 I1 O1) as (c2 & a2 & r2 & D2 & L2 & I2 & O2 & _).
  destruct a2 as [[]| | |].
  2: (exists (c1 + c2), Err, r2; split; [eapply does_bind; [exact D1|]; eapply does_stop; [exact D2|exact Logic.I]|lia]).
  2: (exists (c1 + c2), Panic, r2; split; [eapply does_bind; [exact D1|]; eapply does_stop; [exact D2|exact Logic.I]|lia]).
  2: (exists (c1 + c2), Hang, r2; split; [eapply does_bind; [exact D1|]; eapply does_stop; [exact D2|exact Logic.I]|lia]).
  assert (Fw : Forall section_wf [r_answer r; r_authority r; r_additional r]).
  { destruct (response_known_all r) as [_ Kr]. repeat constructor; eapply section_ok_wf; eauto; intros rs l E Hin; eapply Kr; eauto. }
  destruct (sections_does r (mr_len r2) _ _ r2 Fw I2 O2) as (c3 & a3 & r3 & D3 & L3).
  assert (G : forall cc a r', does (let! early := sections_paid r (mr_len r2) [r_answer r; r_authority r; r_additional r] in match early with Some n => ret n | None => free mr_length end)
     (let! early := sections_to_wire r (mr_len r2) [r_answer r; r_authority r; r_additional r] in match early with Some n => ret n | None => mr_length end) r2 cc a r' ->
     does (response_paid r) (response_to_wire r) r0 (c1 + (c2 + (0 + cc))) a r').
  { intros cc a r' D. unfold response_paid, response_to_wire. eapply does_bind; [exact D1|]. eapply does_bind; [exact D2|]. eapply does_bind; [apply does_length|]. exact D. }
  destruct a3 as [e| | |].
  2: (exists (c1 + (c2 + (0 + c3))), Err, r3; split; [apply G; eapply does_stop; [exact D3|exact Logic.I]|lia]).
  2: (exists (c1 + (c2 + (0 + c3))), Panic, r3; split; [apply G; eapply does_stop; [exact D3|exact Logic.I]|lia]).
  2: (exists (c1 + (c2 + (0 + c3))), Hang, r3; split; [apply G; eapply does_stop; [exact D3|exact Logic.I]|lia]).
  destruct e as [n|].
  - exists (c1 + (c2 + (0 + (c3 + 0)))), (Ok n), r3. split; [|lia]. apply G. eapply does_bind; [exact D3|apply does_ret].
  - exists (c1 + (c2 + (0 + (c3 + 0)))), (Ok (mr_len r3)), r3. split; [|lia]. apply G. eapply does_bind; [exact D3|apply does_length].
Qed.
Lemma response_bounded : forall dat r k, bytes dat -> consistent r -> response_price r <= k -> response_within k r (mr_new dat) = response_to_wire r (mr_new dat).
Proof.
  intros dat r k B C L. destruct (response_does dat r B C) as (c & a & r' & [D1 D2] & Lc).
  unfold response_within. replace k with (c + (k - c)) by lia. rewrite D2, D1. reflexivity.
Qed.
Lemma paid_within : forall bp b B dat, bytes dat -> paid bp b B -> forall k, B <= k ->
  (let (a, s) := (bp ;; free mr_length) (mr_new dat, k) in (a, fst s)) = (b ;; mr_length) (mr_new dat).
Proof.
  intros bp b B dat Bd P k L. destruct (P _ (mr_new dat) (inv_new dat Bd) (on_runs_new dat)) as (c & a & r1 & [D1 D2] & Lc & _).
  unfold bind. replace k with (c + (k - c)) by lia. rewrite D2, D1. destruct a; reflexivity.
Qed.
Lemma seq_assoc : forall S (x y : M S unit) (z : M S nat) s, (x ;; y ;; z) s = ((x ;; y) ;; z) s.
Proof. intros S x y z s. unfold bind. destruct (x s) as [[]]; auto. Qed.
Lemma seq_assoc3 : forall S (x y v : M S unit) (z : M S nat) s, (x ;; y ;; v ;; z) s = (((x ;; y) ;; v) ;; z) s.
Proof. intros S x y v z s. unfold bind. destruct (x s) as [[[]| | |] s1]; auto. destruct (y s1) as [[[]| | |] s2]; auto. Qed.
Lemma paid_head : forall h q, wf_name (q_name q) -> paid (free (header_to_wire h) ;; question_paid q) (header_to_wire h ;; question_to_wire q) (name_price (q_name q)).
Proof.
  intros h q W. apply (paid_seq _ _ _ _ 0); [eapply paid_free; [apply calm_header|apply emits_header]|apply paid_question; auto].
Qed.
Lemma request_bounded : forall dat r k, bytes dat -> request_ok r -> name_price (q_name (rq_question r)) <= k -> request_within k r (mr_new dat) = request_to_wire r (mr_new dat).
Proof.
  intros dat r k B (Hk & _ & _ & Wq & _) L. unfold request_within, request_paid, request_to_wire. rewrite !seq_assoc.
  apply (paid_within _ _ _ dat B (paid_head (rq_header r) (rq_question r) Wq) k L).
Qed.
Lemma notify_response_bounded : forall dat n k, bytes dat -> wf_name (q_name (np_question n)) -> name_price (q_name (np_question n)) <= k ->
  notify_response_within k n (mr_new dat) = notify_response_to_wire n (mr_new dat).
Proof.
  intros dat n k B Wq L. unfold notify_response_within, notify_response_paid, notify_response_to_wire. rewrite !seq_assoc.
  apply (paid_within _ _ _ dat B (paid_head (np_header n) (np_question n) Wq) k L).
Qed.
Lemma notify_bounded : forall dat n k, bytes dat -> wf_name (q_name (nq_question n)) -> (forall rs, nq_soa n = Some rs -> rrset_ok rs) ->
  list_sum (map name_price (notify_names n)) <= k -> notify_within k n (mr_new dat) = notify_to_wire n (mr_new dat).
Proof.
  intros dat n k B Wq Ws L. unfold notify_within, notify_paid, notify_to_wire.
  set (sp := match nq_soa n with Some rs => rrset_paid rs | None => ret tt end). set (s := match nq_soa n with Some rs => rrset_to_wire rs | None => ret tt end).
  assert (P : paid sp s (match nq_soa n with Some rs => rrset_price rs | None => 0 end)).
  { subst sp s. destruct (nq_soa n) as [rs|]; [|apply paid_ret]. apply paid_rrset. destruct (Ws rs eq_refl) as (W & _ & _ & _ & D & _).
    split; auto. eapply Forall_impl; [|exact D]. intros x [Hx _]. exact Hx. }
  pose proof (paid_seq _ _ _ _ _ _ (paid_head (nq_header n) (nq_question n) Wq) P) as Q. pose proof (paid_within _ _ _ dat B Q k) as R.
  rewrite !seq_assoc3. apply R. etransitivity; [|exact L].
  unfold notify_names. cbn [map]. change (list_sum (?x :: ?l)) with (x + list_sum l). destruct (nq_soa n) as [rs|]; [rewrite rrset_price_names; lia|cbn [map list_sum fold_right]; lia].
Qed.

(** One constant for each name. *)
Lemma price_constant : forall n, wf_name n -> (N.of_nat (name_price n) <= 105728)%N.
Proof.
  intros n (ls & W & ->). unfold name_price. rewrite label_count_of. change (n_raw (name_of ls)) with (enc ls). rewrite enc_len.
  pose proof (wf_count127 ls W) as L1. destruct W as [_ L2]. rewrite wire_elen in L2. clear - L1 L2.
  assert ((length ls + 1) * (3 * (1 + elen ls) + 61) <= 128 * 826) by (apply Nat.mul_le_mono; lia). lia.
Qed.

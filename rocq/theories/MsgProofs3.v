(** Grouping of records into rrsets; whole responses. *)
From Verif Require Import Base NameModel RenderModel CodesModel RDataModel MsgModel SpecName SpecBuf SpecCodes SpecMsg
  BaseLemmas BitLemmas NameWireProofs NameOpsProofs NameOpsProofs2 RenderProofs RenderProofs2 BufProofs CodesProofs WireProofs
  RDataProofs DecodeProofs MsgProofs MsgProofs2.

(** * Flattening and grouping *)
Definition rr_of (rs : rrset) (d : rdata) : rr := mkRR (rs_name rs) (rs_type rs) (rs_class rs) (rs_ttl rs) (Some d).
Definition more (rs : rrset) (ds : list rdata) : rrset := mkRRset (rs_name rs) (rs_type rs) (rs_class rs) (rs_ttl rs) (rs_rdatas rs ++ ds).
Lemma sameb_true : forall a b, wf_owner a -> wf_owner b -> same_set a b -> sameb a b = true.
Proof. intros a b Wa Wb H. apply (sameb_spec a b Wa Wb). auto. Qed.
Lemma sameb_false : forall a b, wf_owner a -> wf_owner b -> ~ same_set a b -> sameb a b = false.
Proof. intros a b Wa Wb H. apply not_true_iff_false. rewrite (proj2 (sameb_spec a b Wa Wb)). auto. Qed.
Lemma grp_run : forall ds rs rest, wf_owner rs -> (ds = [] \/ rs_type rs <> TOPT) ->
  grp rs (map (rr_of rs) ds ++ rest) = grp (more rs ds) rest /\ (opt_once rs (map (rr_of rs) ds ++ rest) <-> opt_once (more rs ds) rest).
Proof.
  induction ds as [|d ds IH]; intros rs rest Wo Ht; cbn [map app].
  - replace (more rs []) with rs by (unfold more; rewrite app_nil_r; destruct rs; auto). split; reflexivity.
  - cbn [grp opt_once]. assert (Hs : sameb rs (single (rr_of rs d)) = true).
    { apply sameb_true; auto. split; [reflexivity|]. apply same_owner_refl. exact Wo. }
    rewrite Hs. destruct Ht as [Ht|Ht]; [discriminate|]. destruct (IH (grow rs (rr_of rs d)) rest Wo (or_intror Ht)) as [E1 E2].
    change (rr_of (grow rs (rr_of rs d))) with (rr_of rs) in *. rewrite E1.
    replace (more (grow rs (rr_of rs d)) ds) with (more rs (d :: ds)) in * by (unfold more, grow, datas; cbn [rr_of rr_data rs_name rs_type rs_class rs_ttl rs_rdatas]; rewrite <- app_assoc; reflexivity).
    split; auto. rewrite E2. cbn [rr_of rr_type]. tauto.
Qed.
Definition set_like (rs : rrset) : Prop := wf_owner rs /\ (rs_type rs = TOPT -> length (rs_rdatas rs) <= 1).
Lemma rrs_of_shape : forall rs, set_like rs -> exists x xs, rrs_of rs = x :: xs /\ rs_name (single x) = rs_name rs /\ rs_type (single x) = rs_type rs /\ wf_owner (single x) /\
  forall rest, grp (single x) (xs ++ rest) = grp rs rest /\ (opt_once (single x) (xs ++ rest) <-> opt_once rs rest).
Proof.
  intros rs [Wo Ht]. unfold rrs_of. destruct (rs_rdatas rs) as [|d ds] eqn:E.
  - eexists _, []. split; [reflexivity|]. split; [reflexivity|]. split; [reflexivity|]. split; [exact Wo|]. intros rest. cbn [app].
    replace (single _) with rs by (unfold single; cbn; rewrite <- E; destruct rs; auto). split; reflexivity.
  - cbn [map]. eexists _, _. split; [reflexivity|]. split; [reflexivity|]. split; [reflexivity|]. split; [exact Wo|]. intros rest.
    set (x := mkRR _ _ _ _ (Some d)). change (map _ ds) with (map (rr_of (single x)) ds).
    destruct (grp_run ds (single x) rest Wo) as [E1 E2].
    { cbn [single x rs_type rr_type]. destruct ds; auto. right. intros X. apply Ht in X. cbn [length] in X. lia. }
    rewrite E1, E2. replace (more (single x) ds) with rs; [split; reflexivity|].
    unfold more, single. cbn. rewrite <- E. destruct rs; auto.
Qed.
Lemma grp_flat : forall l rs, Forall set_like (rs :: l) -> runs_differ (rs :: l) ->
  grp rs (flat_map rrs_of l) = rs :: l /\ opt_once rs (flat_map rrs_of l).
Proof.
  induction l as [|rs2 l IH]; intros rs F R; cbn [flat_map].
  - cbn. auto.
  - apply Forall_cons_iff in F. destruct F as [F1 F2]. destruct R as [R1 R2]. destruct (IH rs2 F2 R2) as [E1 E2].
    apply Forall_cons_iff in F2. destruct F2 as [F2 _]. destruct (rrs_of_shape rs2 F2) as (x & xs & Ex & N & T & Wx & Hg).
    rewrite Ex. cbn [app grp opt_once]. destruct (Hg (flat_map rrs_of l)) as [G1 G2].
    rewrite sameb_false; auto; [|apply F1|]. 2:{ intros [A B]. apply R1. split; [congruence|]. rewrite <- N. auto. }
    rewrite G1, E1. split; auto. apply G2. auto.
Qed.
Lemma group_flat : forall l, l <> [] -> Forall set_like l -> runs_differ l ->
  group (flat_map rrs_of l) = Some l /\ opts_once (flat_map rrs_of l).
Proof.
  intros [|rs l] N F R; [congruence|]. cbn [flat_map]. pose proof F as F0. apply Forall_cons_iff in F0. destruct F0 as [F1 _].
  destruct (rrs_of_shape rs F1) as (x & xs & Ex & _ & _ & _ & Hg). rewrite Ex. cbn [app group opts_once].
  destruct (Hg (flat_map rrs_of l)) as [G1 G2]. destruct (grp_flat l rs F R) as [E1 E2]. rewrite G1, E1. split; auto. apply G2. auto.
Qed.

(** Decoded sections are legal. *)
Definition rr_fine (x : rr) : Prop := wf_name (rr_owner x) /\ rr_wf x /\ rr_legal x.
Lemma rr_at_fine : forall w s e x, bytes w -> s <= length w -> rr_at w s e x -> rr_legal x -> rr_fine x.
Proof.
  intros w s e x Bw Ls H Leg. pose proof (rr_at_le _ _ _ _ Bw H). split; [eapply rr_at_owner; eauto|]. split; auto.
  destruct H as (ls & m & L & W & En & Hn & Wt & Ht & Wc & Hc & Wl & Htt & HL & HLo & He & Hd).
  split; auto. split; auto. split; auto. destruct (rr_data x) as [rd|]; auto. destruct Hd as (Nz & Wd & Hf). split; auto.
  pose proof (wf_rdata_fields _ _ Wd) as [F _]. apply octets_lt in HLo.
  apply (fields_at_P w _ _ Bw F) in Hf; [|lia]. apply (has_octets_pos _ _ _ _ _ Wd Hf). lia.
Qed.
Lemma rrs_at_fine : forall w xs s e, bytes w -> s <= length w -> rrs_at w s e xs -> Forall rr_legal xs -> Forall rr_fine xs.
Proof.
  intros w xs s e Bw Ls H F. revert s Ls H. induction F as [|x xs L F IH]; intros s Ls H; constructor; destruct H as (m & H1 & H2).
  - eapply rr_at_fine; eauto.
  - pose proof (rr_at_le _ _ _ _ Bw H1). eapply (IH m); eauto. lia.
Qed.
Lemma single_ok : forall x, rr_fine x -> rrset_ok (single x).
Proof.
  intros x (Wo & (Wt & Wc & Wl & Wd) & Leg). unfold single, rrset_ok. cbn [rs_name rs_type rs_class rs_ttl rs_rdatas].
  do 4 (split; [assumption|]). destruct (rr_data x) eqn:E; repeat split; auto; try discriminate; cbn; lia.
Qed.
Lemma grow_ok : forall rs x, rrset_ok rs -> rr_fine x -> rs_type rs = rr_type x -> rr_type x <> TOPT -> rrset_ok (grow rs x) /\ rrs_of (grow rs x) = rrs_of rs ++ [mkRR (rs_name rs) (rs_type rs) (rs_class rs) (rs_ttl rs) (rr_data x)].
Proof.
  intros rs x (Wo & Wt & Wc & Wl & Wd & We & Wp) (Wo' & (Wt' & Wc' & Wl' & Wd') & Leg) Et No. unfold grow, datas.
  destruct (rr_data x) as [d|] eqn:Ed; [|exfalso; apply No, Leg; auto].
  split.
  - unfold rrset_ok. cbn [rs_name rs_type rs_class rs_ttl rs_rdatas]. do 4 (split; [assumption|]). split.
    + apply Forall_app. split; auto. constructor; auto. rewrite Et. auto.
    + split; [intros X; destruct (rs_rdatas rs); discriminate|intros X; congruence].
  - unfold rrs_of at 1. cbn [rs_name rs_type rs_class rs_ttl rs_rdatas].
    destruct (rs_rdatas rs) as [|d0 ds] eqn:E.
    + exfalso. apply No. rewrite <- Et. auto.
    + cbn [app]. unfold rrs_of. rewrite E. change (d0 :: ds ++ [d]) with ((d0 :: ds) ++ [d]). rewrite map_app. reflexivity.
Qed.
Lemma grp_sound : forall xs last, rrset_ok last -> Forall rr_fine xs -> opt_once last xs ->
  Forall rrset_ok (grp last xs) /\ runs_differ (grp last xs) /\
  (exists rs l, grp last xs = rs :: l /\ rs_name rs = rs_name last /\ rs_type rs = rs_type last) /\
  Forall2 rr_like (rrs_of last ++ xs) (flat_map rrs_of (grp last xs)).
Proof.
  induction xs as [|x xs IH]; intros last Ok F Op; cbn [grp opt_once] in *.
  - split; auto. split; [cbn; auto|]. split; [exists last, []; auto|]. cbn [flat_map]. rewrite !app_nil_r.
    assert (G : forall l, Forall (fun x => wf_name (rr_owner x)) l -> Forall2 rr_like l l).
    { induction 1; constructor; auto. split; auto. split; auto. apply same_owner_refl. auto. }
    apply G. unfold rrs_of. destruct (rs_rdatas last); [repeat constructor; apply Ok|]. apply Forall_forall. intros y Hy. apply in_map_iff in Hy.
    destruct Hy as (d & <- & _). apply Ok.
  - apply Forall_cons_iff in F. destruct F as [Fx F]. destruct (sameb_spec last (single x)) as [_ Sp]; [apply Ok|apply Fx|].
    destruct (sameb last (single x)) eqn:Sb.
    + destruct Op as [No Op]. destruct (proj1 Sp eq_refl) as [Et Eo]. destruct (grow_ok last x Ok Fx Et No) as [Gk Gr].
      destruct (IH (grow last x) Gk F Op) as (H1 & H2 & (rs & l & H3 & H4 & H5) & H6). split; auto. split; auto. split; [eauto|].
      rewrite Gr in H6. rewrite <- app_assoc in H6. cbn [app] in H6. apply Forall2_app_inv_l in H6. destruct H6 as (u & v & U & V & E).
      rewrite E. apply Forall2_app; auto. inversion V as [|a b l1 l2 V1 V2 E1 E2]; subst. constructor; auto.
      destruct V1 as (V11 & V12 & V13). split; [rewrite <- V11; auto|]. split; auto. apply same_owner_sym in Eo.
      destruct Eo as (p & q & P1 & P2 & P3 & P4 & P5). destruct V13 as (p' & q' & Q1 & Q2 & Q3 & Q4 & Q5).
      cbn [rr_owner] in Q3. rewrite Q3 in P4. apply name_of_inj in P4; [|apply Q1|apply P2]. subst q. exists p, q'. split; auto. split; auto. split; auto.
      split; auto. unfold same_name in *. congruence.
    + destruct (IH (single x) (single_ok x Fx) F Op) as (H1 & H2 & (rs & l & H3 & H4 & H5) & H6). split; [auto|]. split.
      { rewrite H3 in *. split; auto. intros [A B]. apply diff_false_true. apply Sp. split; [congruence|]. rewrite <- H4. auto. }
      split; [exists last, (grp (single x) xs); auto|]. cbn [flat_map]. apply Forall2_app.
      * assert (G : forall l, Forall (fun x => wf_name (rr_owner x)) l -> Forall2 rr_like l l).
        { induction 1; constructor; auto. split; auto. split; auto. apply same_owner_refl. auto. }
        apply G. unfold rrs_of. destruct (rs_rdatas last); [repeat constructor; apply Ok|]. apply Forall_forall. intros y Hy. apply in_map_iff in Hy.
        destruct Hy as (d & <- & _). apply Ok.
      * replace (x :: xs) with (rrs_of (single x) ++ xs); auto. unfold rrs_of, single. cbn. destruct x as [o t c l0 [d|]]; reflexivity.
Qed.
Lemma rrs_of_single : forall x, rrs_of (single x) = [x].
Proof. intros [o t c l [d|]]; reflexivity. Qed.
Lemma group_sound : forall xs add, Forall rr_fine xs -> opts_once xs -> starts_ok add xs ->
  section_ok add (blen xs) (group xs) /\ Forall2 rr_like xs (records (group xs)).
Proof.
  intros [|x xs] add F Op St; cbn [group opts_once] in *.
  - split; [split; [reflexivity|exact Logic.I]|constructor].
  - apply Forall_cons_iff in F. destruct F as [Fx F]. destruct (grp_sound xs (single x) (single_ok x Fx) F Op) as (H1 & H2 & (rs & l & H3 & H4 & H5) & H6).
    rewrite rrs_of_single in H6. cbn [app] in H6. split; auto. cbn [records section_ok]. split.
    { cbn [records]. unfold blen. f_equal. clear - H6. induction H6; cbn [length]; congruence. }
    rewrite H3 in *. split; [congruence|]. split; auto. split; auto. intros Ea rs' l' E. inversion E; subst. rewrite H5.
    eapply St; eauto.
Qed.
Lemma grp_exact : forall xs last y pre, rrset_ok last -> Forall rr_fine xs -> opt_once last xs -> rrs_of last = pre ++ [y] -> uniform (y :: xs) ->
  flat_map rrs_of (grp last xs) = rrs_of last ++ xs.
Proof.
  induction xs as [|x xs IH]; intros last y pre Ok F Op Ey U; cbn [grp opt_once] in *.
  - cbn [flat_map]. rewrite app_nil_r. auto.
  - apply Forall_cons_iff in F. destruct F as [Fx F]. destruct (sameb_spec last (single x)) as [_ Sp]; [apply Ok|apply Fx|].
    destruct U as [U1 U2].
    assert (Hy : rr_owner y = rs_name last /\ rr_type y = rs_type last /\ rr_class y = rs_class last /\ rr_ttl y = rs_ttl last).
    { assert (In y (rrs_of last)) by (rewrite Ey; apply in_app_iff; simpl; auto). unfold rrs_of in H. destruct (rs_rdatas last).
      - destruct H as [<-|[]]. auto.
      - apply in_map_iff in H. destruct H as (d & <- & _). auto. }
    destruct Hy as (Y1 & Y2 & Y3 & Y4).
    destruct (sameb last (single x)) eqn:Sb.
    + destruct Op as [No Op]. destruct (proj1 Sp eq_refl) as [Et Eo]. destruct (grow_ok last x Ok Fx Et No) as [Gk Gr].
      destruct U1 as (U11 & U12 & U13); [rewrite Y2; auto|rewrite Y1; auto|].
      replace (mkRR (rs_name last) (rs_type last) (rs_class last) (rs_ttl last) (rr_data x)) with x in Gr by (destruct x; cbn in *; congruence).
      rewrite (IH (grow last x) x (rrs_of last)); auto. rewrite Gr, <- app_assoc. reflexivity.
    + cbn [flat_map]. f_equal. rewrite (IH (single x) x []); auto; [rewrite rrs_of_single; reflexivity|apply single_ok; auto|apply rrs_of_single].
Qed.
Lemma group_exact : forall xs, Forall rr_fine xs -> opts_once xs -> uniform xs -> records (group xs) = xs.
Proof.
  intros [|x xs] F Op U; cbn [group opts_once records] in *; auto. apply Forall_cons_iff in F. destruct F as [Fx F].
  rewrite (grp_exact xs (single x) x []); auto; [rewrite rrs_of_single; reflexivity|apply single_ok; auto|apply rrs_of_single].
Qed.

(** Records and sections: decoding accepts exactly what the octets say. *)
From Verif Require Import Base NameModel RenderModel CodesModel RDataModel MsgModel SpecName SpecBuf SpecCodes SpecMsg
  BaseLemmas BitLemmas NameWireProofs NameOpsProofs NameOpsProofs2 RenderProofs RenderProofs2 BufProofs CodesProofs WireProofs
  RDataProofs DecodeProofs MsgProofs.

(** * Data with at least one octet *)
Lemma Pfield_pos : forall k v rd s e, wf_field k v -> tail_codec k = false -> Pfield v rd s e -> s < e.
Proof.
  intros k v rd s e W T H. destruct k, v; cbn [wf_field] in W; try (destruct W; fail); try discriminate; cbn [Pfield] in H;
    try (destruct H as [-> _]; cbn [length be16 be32 string_octets]; try lia; try (apply proj1 in W; lia)).
  destruct H as (ls & _ & _ & H). pose proof (wname_end_pos _ _ _ _ _ H). lia.
Qed.
Lemma Pfields_le : forall vs rd s e, Pfields vs rd s e -> s <= e.
Proof. intros [|v vs] rd s e H; cbn [Pfields] in H; [red in H; lia|]. destruct H as (k & L & _). lia. Qed.
Lemma has_octets_pos : forall t rd p s e, wf_rdata t rd -> Prdata rd p s e -> (has_octets rd <-> s < e).
Proof.
  intros t rd p s e W H. apply wf_rdata_fields in W. destruct W as [F _]. pose proof (schema_tails (rd_var rd)) as T.
  unfold Prdata in H. unfold has_octets. destruct (schema (rd_var rd)) as [|k ks] eqn:Es; [destruct (rd_var rd); discriminate|].
  inversion F as [|k' v ks' vs' Wk F' E1 E2]; subst k' ks'. rewrite <- E2 in *. cbn [Pfields] in H. destruct H as (m & Lm & H1 & H2).
  destruct (tail_codec k) eqn:Tk.
  - cbn [tails_last] in T. rewrite Tk in T. destruct ks; [|discriminate]. inversion F'; subst vs'. cbn [Pfields] in H2. red in H2. subst m.
    destruct k; try discriminate; destruct v; cbn [wf_field] in Wk; try (destruct Wk; fail); cbn [Pfield] in H1; destruct H1 as [-> _].
    + destruct d as [|t0 d].
      * cbn. split; [intros [A _]; congruence|lia].
      * cbn [flat_map string_octets app length]. split; [lia|split; congruence].
    + destruct d as [|x d]; cbn [length]; [split; [intros [_ A]; congruence|lia]|split; [lia|split; congruence]].
  - pose proof (Pfield_pos _ _ _ _ _ Wk Tk H1). split; [lia|]. intros _. destruct k; try discriminate; destruct v; cbn [wf_field] in Wk; try (destruct Wk; fail); split; congruence.
Qed.

(** * One record, emitted and decoded *)
Definition rr_wf (x : rr) : Prop :=
  type_ok (rr_type x) /\ class_ok (rr_class x) /\ (rr_ttl x < 4294967296)%N /\
  match rr_data x with None => True | Some rd => wf_rdata (rr_type x) rd /\ has_octets rd end.
Lemma Prr_at : forall w s e x, bytes w -> s <= length w -> (N.of_nat (length w) <= 65535)%N -> rr_wf x -> Prr x (rd_of w) s e -> rr_at w s e x /\ e <= length w.
Proof.
  intros w s e x Bw Ls Lw (Wt & Wc & Wl & Wd) (k & Lk & (m & Lm & (ls & W & En & Hn) & (m1 & L1 & Ht & m2 & L2 & Hc & Htt)) & Hd).
  pose proof (wname_end_bound _ _ _ _ _ Hn) as Bm.
  pose proof (Pbytes_in _ _ _ _ Bm Ht) as B1. pose proof (Pbytes_in _ _ _ _ B1 Hc) as B2. pose proof (Pbytes_in _ _ _ _ B2 Htt) as B3.
  assert (E1 : m1 = m + 2) by (destruct Ht as [-> _]; reflexivity). assert (E2 : m2 = m + 4) by (destruct Hc as [-> _]; cbn [be16 length]; lia).
  assert (E3 : k = m + 8) by (destruct Htt as [-> _]; cbn [be32 length]; lia). subst m1 m2 k.
  apply octets_P in Ht, Hc, Htt; auto. rewrite be16_u16 in Ht by apply Wt. rewrite be16_u16 in Hc by apply Wc. rewrite be32_u32 in Htt by apply Wl.
  assert (G : forall L, (L < 65536)%N -> Pbytes (be16 L) (rd_of w) (m + 8) (m + 10) ->
     e = m + 10 + N.to_nat L ->
     match rr_data x with None => L = 0%N | Some rd => L <> 0%N /\ wf_rdata (rr_type x) rd /\ fields_at w (m + 10) e (rd_fields rd) end ->
     rr_at w s e x).
  { intros L HL HP He Hm. exists ls, m, L. apply octets_P in HP; [|lia]. rewrite be16_u16 in HP by auto.
    do 12 (split; [assumption|]). assumption. }
  destruct (rr_data x) as [rd|].
  - destruct Hd as (Le & HL & HF). destruct Wd as [Wd Ho]. replace (m + 8 + 2) with (m + 10) in * by lia.
    pose proof (proj1 (has_octets_pos _ _ _ _ _ Wd HF) Ho) as Pos.
    pose proof (wf_rdata_fields _ _ Wd) as [F _].
    assert (Lm10 : m + 10 <= length w) by (apply Pbytes_in in HL; lia).
    assert (HF' : fields_at w (m + 10) e (rd_fields rd)) by (eapply fields_at_P; eauto).
    assert (Le2 : e <= length w).
    { clear - HF F Bw Lm10. unfold Prdata in HF. revert HF Lm10. generalize (m + 10). induction F as [|k v ks vs W F IH]; intros p HF Lp; cbn [Pfields] in HF.
      - red in HF. lia.
      - destruct HF as (j & Lj & H1 & H2). pose proof (Pfield_in _ _ _ _ _ W Bw Lp H1). eapply IH; eauto. lia. }
    split; auto. apply G with (L := N.of_nat (e - (m + 10))); auto; try lia.
    + rewrite as_u16_small in HL by lia. replace (e - (m + 8) - 2) with (e - (m + 10)) in HL by lia. auto.
    + split; [lia|auto].
  - pose proof (Pbytes_in _ _ _ _ B3 Hd). assert (Ee : e = m + 10) by (destruct Hd as [-> _]; cbn [be16 length]; lia). subst e.
    split; auto. apply G with (L := 0%N); auto; lia.
Qed.
Lemma Prrs_at : forall w xs s e, bytes w -> s <= length w -> (N.of_nat (length w) <= 65535)%N -> Forall rr_wf xs -> Prrs xs (rd_of w) s e -> rrs_at w s e xs /\ e <= length w.
Proof.
  intros w xs s e Bw Ls Lw F. revert s Ls. induction F as [|x xs W F IH]; intros s Ls H; cbn [Prrs rrs_at] in *.
  - red in H. subst. auto.
  - destruct H as (m & Lm & H1 & H2). destruct (Prr_at w s m x Bw Ls Lw W H1) as [A Lm']. destruct (IH m Lm' H2) as [B Le]. split; auto. exists m. auto.
Qed.

Definition single (x : rr) : rrset := mkRRset (rr_owner x) (rr_type x) (rr_class x) (rr_ttl x) (match rr_data x with None => [] | Some d => [d] end).
Lemma rr_at_le : forall w s e x, bytes w -> rr_at w s e x -> s < e <= length w.
Proof.
  intros w s e x Bw (ls & m & L & W & En & Hn & Wt & Ht & Wc & Hc & Wl & Htt & HL & HLo & He & Hd).
  pose proof (wname_end_pos _ _ _ _ _ Hn). apply octets_lt in HLo.
  destruct (rr_data x) as [rd|]; [|lia]. destruct Hd as (Nz & Wd & Hf). pose proof (wf_rdata_fields _ _ Wd) as [F _].
  assert (G : forall ks vs, Forall2 wf_field ks vs -> forall p, p <= length w -> fields_at w p e vs -> e <= length w).
  { clear - Bw. induction 1 as [|k v ks vs W F IH]; intros p Lp H; cbn [fields_at] in H; [lia|]. destruct H as (j & H1 & H2).
    apply (field_at_P w p j k v W Lp) in H1. pose proof (Pfield_in _ _ _ _ _ W Bw Lp H1). apply (IH j); auto; lia. }
  pose proof (G _ _ F (m + 10) ltac:(lia) Hf). lia.
Qed.
Lemma rr_dec : forall w s e x, bytes w -> s <= length w -> rr_at w s e x -> rr_legal x -> rrset_from_wire (mkIn w s) = (Ok (single x), mkIn w e).
Proof.
  intros w s e x Bw Ls H Leg. pose proof (rr_at_le _ _ _ _ Bw H) as Le0.
  destruct H as (ls & m & L & W & En & Hn & Wt & Ht & Wc & Hc & Wl & Htt & HL & HLo & He & Hd).
  pose proof (octets_lt _ _ _ _ Ht). pose proof (octets_lt _ _ _ _ Hc). pose proof (octets_lt _ _ _ _ Htt). pose proof (octets_lt _ _ _ _ HLo).
  apply octets_P in Ht, Hc, Htt, HLo; try lia. rewrite <- be16_u16 in Ht, Hc, HLo by (try apply Wt; try apply Wc; auto). rewrite <- be32_u32 in Htt by auto.
  unfold rrset_from_wire, bind.
  destruct (decodes_name ls W w s m Bw Ls Hn) as [E1 _]. rewrite E1.
  destruct (decodes_type _ Wt w m (m + 2) Bw ltac:(lia) Ht) as [E2 _]. rewrite E2.
  destruct (decodes_class _ Wc w (m + 2) (m + 4) Bw ltac:(lia) Hc) as [E3 _]. rewrite E3.
  destruct (decodes_u32 _ Wl w (m + 4) (m + 8) Bw ltac:(lia) Htt) as [E4 _]. rewrite E4.
  destruct (decodes_u16 _ HL w (m + 8) (m + 10) Bw ltac:(lia) HLo) as [E5 _]. rewrite E5.
  unfold single. destruct (rr_data x) as [rd|] eqn:Ed.
  - destruct Hd as (Nz & Wd & Hf). replace (L =? 0)%N with false by (symmetry; apply N.eqb_neq; auto).
    pose proof (wf_rdata_fields _ _ Wd) as [F _]. apply (fields_at_P w _ _ Bw F) in Hf; [|lia].
    destruct (rdata_dec _ rd w (m + 10) e L Wd Bw ltac:(lia) Hf He) as [E6 _]. rewrite E6. rewrite <- En. reflexivity.
  - subst L. replace e with (m + 10) by lia. cbn [N.eqb]. rewrite (proj2 (rrtype_eqb_eq _ _) (Leg Ed)). rewrite <- En. reflexivity.
Qed.

(** * Grouping *)
Definition wf_owner (rs : rrset) : Prop := wf_name (rs_name rs).
Lemma is_same_spec : forall a b, wf_owner a -> wf_owner b -> exists c, is_same_rrset a b = Ok c /\ (c = true <-> same_set a b).
Proof.
  intros a b (x & Wx & Ex) (y & Wy & Ey). unfold is_same_rrset, same_set, same_owner. destruct (rrtype_eqb (rs_type a) (rs_type b)) eqn:T.
  - apply rrtype_eqb_eq in T. rewrite Ex, Ey. exists (same_nameb x y). split; [apply name_eq_spec; auto|]. rewrite same_nameb_true. split.
    + intros H. split; auto. exists x, y. auto.
    + intros (_ & x' & y' & Wx' & Wy' & E1 & E2 & H). apply name_of_inj in E1; [|apply Wx|apply Wx']. apply name_of_inj in E2; [|apply Wy|apply Wy']. subst. auto.
  - exists false. split; auto. split; [discriminate|]. intros [E _]. apply rrtype_eqb_eq in E. congruence.
Qed.
Lemma same_owner_refl : forall n, wf_name n -> same_owner n n.
Proof. intros n (ls & W & ->). exists ls, ls. unfold same_name. auto 10. Qed.
Lemma same_owner_sym : forall a b, same_owner a b -> same_owner b a.
Proof. intros a b (x & y & H1 & H2 & H3 & H4 & H5). exists y, x. unfold same_name in *. auto 10. Qed.
Lemma same_set_sym : forall a b, same_set a b -> same_set b a.
Proof. intros a b [H1 H2]. split; auto using same_owner_sym. Qed.
Definition sameb (a b : rrset) : bool := match is_same_rrset b a with Ok c => c | _ => false end.
Lemma sameb_spec : forall a b, wf_owner a -> wf_owner b -> is_same_rrset b a = Ok (sameb a b) /\ (sameb a b = true <-> same_set a b).
Proof.
  intros a b Wa Wb. destruct (is_same_spec b a Wb Wa) as (c & E & H). unfold sameb. rewrite E. split; auto. rewrite H. split; apply same_set_sym.
Qed.
Definition datas (x : rr) : list rdata := match rr_data x with None => [] | Some d => [d] end.
Definition grow (rs : rrset) (x : rr) : rrset := mkRRset (rs_name rs) (rs_type rs) (rs_class rs) (rs_ttl rs) (rs_rdatas rs ++ datas x).
(** What [Section::from_wire] makes of the records [xs] after the rrset [last]. *)
Fixpoint grp (last : rrset) (xs : list rr) : list rrset :=
  match xs with
  | [] => [last]
  | x :: xs' => if sameb last (single x) then grp (grow last x) xs' else last :: grp (single x) xs'
  end.
(** It refuses a second OPT record next to the first. *)
Fixpoint opt_once (last : rrset) (xs : list rr) : Prop :=
  match xs with
  | [] => True
  | x :: xs' => if sameb last (single x) then rr_type x <> TOPT /\ opt_once (grow last x) xs' else opt_once (single x) xs'
  end.
Definition owners_wf (xs : list rr) : Prop := Forall (fun x => wf_name (rr_owner x)) xs.
Lemma rr_at_owner : forall w s e x, rr_at w s e x -> wf_name (rr_owner x).
Proof. intros w s e x (ls & m & L & W & En & _). exists ls. auto. Qed.
Lemma rrs_at_owner : forall w xs s e, rrs_at w s e xs -> owners_wf xs.
Proof.
  intros w xs. induction xs as [|x xs IH]; intros s e H; constructor; destruct H as (m & H1 & H2); [eapply rr_at_owner; eauto|eapply IH; eauto].
Qed.
Lemma rrs_at_le : forall w xs s e, bytes w -> s <= length w -> rrs_at w s e xs -> s + length xs <= e <= length w.
Proof.
  intros w xs. induction xs as [|x xs IH]; intros s e Bw Ls H; cbn [rrs_at length] in *; [lia|]. destruct H as (m & H1 & H2).
  apply rr_at_le in H1; auto. apply IH in H2; auto; lia.
Qed.
Lemma section_loop_dec : forall w xs s e acc last, bytes w -> s <= length w -> rrs_at w s e xs -> Forall rr_legal xs -> wf_owner last -> opt_once last xs ->
  exists acc' last', section_loop (length xs) acc last (mkIn w s) = (Ok (acc', last'), mkIn w e) /\ acc' ++ [last'] = acc ++ grp last xs.
Proof.
  intros w xs. induction xs as [|x xs IH]; intros s e acc last Bw Ls H Leg Wo Op; cbn [rrs_at length section_loop grp opt_once] in *.
  - subst. unfold ret. eauto.
  - destruct H as (m & H1 & H2). apply Forall_cons_iff in Leg. destruct Leg as [L1 L2]. pose proof (rr_at_le _ _ _ _ Bw H1).
    pose proof (rr_at_owner _ _ _ _ H1) as Wx. destruct (sameb_spec last (single x) Wo Wx) as [Es _].
    unfold bind at 1. rewrite (rr_dec w s m x Bw Ls H1 L1). unfold bind at 1, lift at 1. rewrite Es.
    destruct (sameb last (single x)).
    + destruct Op as [O1 O2]. cbn [single rs_type]. replace (rrtype_eqb (rr_type x) TOPT) with false by (symmetry; apply not_true_iff_false; rewrite rrtype_eqb_eq; auto).
      unfold single. cbn [rs_rdatas]. unfold bind at 1, lift at 1. destruct (rr_data x) as [d|] eqn:Ed; [|exfalso; apply O1, L1, Ed].
      destruct (IH m e acc (grow last x) Bw ltac:(lia) H2 L2 Wo O2) as (a & l & E & Q). exists a, l. split; auto. rewrite <- E. unfold grow, datas. rewrite Ed. reflexivity.
    + destruct (IH m e (acc ++ [last]) (single x) Bw ltac:(lia) H2 L2 Wx Op) as (a & l & E & Q). exists a, l. split; auto.
      rewrite Q, <- app_assoc. reflexivity.
Qed.
Lemma tdec_section_loop : forall w n s acc last, bytes w -> s <= length w -> wf_owner last ->
  tdec w s (section_loop n acc last) (fun r e => exists xs, length xs = n /\ rrs_at w s e xs /\ Forall rr_legal xs /\ opt_once last xs /\
    fst r ++ [snd r] = acc ++ grp last xs).
Proof.
  intros w n. induction n as [|n IH]; intros s acc last Bw Ls Wo; cbn [section_loop].
  - apply tdec_ret; auto. exists []. repeat split; auto.
  - eapply tdec_bind; [apply tdec_rr; auto|]. intros rs m Lm (Lt & x & Hx & Leg & Er). change (rs = single x) in Er. subst rs.
    pose proof (rr_at_owner _ _ _ _ Hx) as Wx. destruct (sameb_spec last (single x) Wo Wx) as [Es _].
    apply tdec_lift; [lia|rewrite Es; split; discriminate|]. intros c Ec. rewrite Es in Ec. inversion Ec; subst c. clear Ec.
    destruct (sameb last (single x)) eqn:Sb.
    + cbn [single rs_type]. destruct (rrtype_eqb (rr_type x) TOPT) eqn:To; [apply tdec_fail; lia|].
      assert (No : rr_type x <> TOPT) by (intros E; apply rrtype_eqb_eq in E; congruence).
      unfold single. cbn [rs_rdatas]. destruct (rr_data x) as [d|] eqn:Ed; [|exfalso; apply No, Leg, Ed].
      apply tdec_lift; [lia|split; discriminate|]. intros rd Erd. inversion Erd; subst rd.
      replace (mkRRset _ _ _ _ _) with (grow last x) by (unfold grow, datas; rewrite Ed; reflexivity).
      eapply tdec_weaken; [apply (IH m acc (grow last x)); auto; lia|]. cbn beta. intros [a l] e Le (xs & Hn & Hr & Hl & Ho & Hq). cbn [fst snd] in *.
      exists (x :: xs). cbn [length rrs_at opt_once grp]. rewrite Sb. repeat split; eauto.
    + eapply tdec_weaken; [apply (IH m (acc ++ [last]) (single x)); auto; lia|]. intros [a l] e Le (xs & Hn & Hr & Hl & Ho & Hq). cbn [fst snd] in *.
      exists (x :: xs). cbn [length rrs_at opt_once grp]. rewrite Sb. repeat split; eauto. rewrite Hq, <- app_assoc. reflexivity.
Qed.
(** A whole section. *)
Definition starts_ok (additional : bool) (xs : list rr) : Prop := additional = false -> forall x xs', xs = x :: xs' -> rr_type x <> TOPT.
Definition is_add (t : section_type) : bool := match t with SAdditional => true | _ => false end.
Definition group (xs : list rr) : section := match xs with [] => None | x :: xs' => Some (grp (single x) xs') end.
Definition opts_once (xs : list rr) : Prop := match xs with [] => True | x :: xs' => opt_once (single x) xs' end.
Lemma section_dec : forall w xs s e t, bytes w -> s <= length w -> rrs_at w s e xs -> Forall rr_legal xs -> starts_ok (is_add t) xs -> opts_once xs ->
  section_from_wire (blen xs) t (mkIn w s) = (Ok (group xs), mkIn w e).
Proof.
  intros w xs s e t Bw Ls H Leg St Op. unfold section_from_wire. destruct xs as [|x xs].
  - cbn [rrs_at] in H. subst. reflexivity.
  - replace (blen (x :: xs) =? 0)%N with false by (symmetry; apply N.eqb_neq; unfold blen; cbn [length]; lia).
    destruct H as (m & H1 & H2). apply Forall_cons_iff in Leg. destruct Leg as [L1 L2]. pose proof (rr_at_le _ _ _ _ Bw H1).
    unfold bind at 1. rewrite (rr_dec w s m x Bw Ls H1 L1). unfold bind at 1. cbn [single rs_type].
    replace (rrtype_eqb (rr_type x) TOPT && negb _) with false.
    2:{ symmetry. apply not_true_iff_false. intros E. apply andb_true_iff in E. destruct E as [E1 E2]. apply rrtype_eqb_eq in E1.
        apply negb_true_iff in E2. eapply St; eauto. }
    unfold ret at 1. unfold blen. rewrite Nat2N.id. cbn [length]. rewrite Nat.sub_0_r || replace (S (length xs) - 1) with (length xs) by lia.
    destruct (section_loop_dec w xs m e [] (single x) Bw ltac:(lia) H2 L2 (rr_at_owner _ _ _ _ H1) Op) as (a & l & E & Q).
    unfold bind at 1. fold (single x). rewrite E. unfold ret. cbn [app] in Q. rewrite Q. reflexivity.
Qed.
Lemma tdec_section : forall w s c t, bytes w -> s <= length w ->
  tdec w s (section_from_wire c t) (fun r e => exists xs, length xs = N.to_nat c /\ rrs_at w s e xs /\ Forall rr_legal xs /\ starts_ok (is_add t) xs /\
    opts_once xs /\ r = group xs).
Proof.
  intros w s c t Bw Ls. unfold section_from_wire. destruct (N.eqb_spec c 0) as [->|Nz].
  - apply tdec_ret; auto. exists []. repeat split; auto. intros _ x xs' X. discriminate.
  - eapply tdec_bind; [apply tdec_rr; auto|]. intros rs m Lm (Lt & x & Hx & Leg & Er). change (rs = single x) in Er. subst rs.
    destruct (rrtype_eqb (rs_type (single x)) TOPT && negb _) eqn:Eo; [unfold bind; apply tdec_fail; lia|].
    assert (Q : forall B (k : unit -> M inbuf B), bind (ret tt) k = k tt) by reflexivity. rewrite Q. clear Q.
    eapply tdec_bind; [apply tdec_section_loop; auto; [lia|eapply rr_at_owner; eauto]|].
    intros [a l] e Le (xs & Hn & Hr & Hl & Ho & Hq). cbn [fst snd] in *. apply tdec_ret; [lia|]. exists (x :: xs).
    cbn [length rrs_at opts_once group]. split; [lia|]. split; [eauto|]. split; [auto|]. split; [|split; [auto|f_equal; auto]].
    intros Ea x' xs' E. inversion E; subst. apply andb_false_iff in Eo. destruct Eo as [Eo|Eo].
    + intros To. cbn [single rs_type] in Eo. rewrite (proj2 (rrtype_eqb_eq _ _) To) in Eo. discriminate.
    + destruct t; discriminate.
Qed.

(** EDNS records and notify messages in buffers of any size (C35, C65, C105): the lemmas of BuildProofs.v, NotifyProofs.v and AccessProofs.v without a
    bound on the buffer. *)
From Verif Require Import Base NameModel RenderModel CodesModel RDataModel MsgModel EqModel AccessModel SpecName SpecBuf SpecCodes SpecMsg SpecBuild SpecEq SpecAccess SpecBig
  BaseLemmas BitLemmas NameWireProofs NameOpsProofs NameOpsProofs2 RenderProofs RenderProofs2 BufProofs LiveProofs CodesProofs WireProofs
  RDataProofs DecodeProofs MsgProofs MsgProofs2 MsgProofs3 MsgProofs4 MsgProofs5 MsgProofs6 MsgProofs7 MsgProofs8 IndepProofs FirstProofs FitProofs LocalProofs
  BuildProofs BuildProofs2 EqProofs NotifyProofs AccessProofs BigProofs.

Lemma edns_written_any : forall dat hs r e, bytes dat -> history (mr_new dat) hs r -> edns_ok e -> e_options e = None ->
  let (a, r') := edns_to_wire e r in
  if mr_len r + 11 <=? length dat
  then a = Ok tt /\ mr_len r' = mr_len r + 11 /\
       mr_bytes r' = mr_bytes r ++ [0; 0; 41]%N ++ u16_bytes (e_udp e) ++ [e_xrcode e; e_version e; if e_do e then 128 else 0; 0]%N ++ [0; 0]%N /\
       exists rs, rrset_from_wire (mkIn (mr_bytes r') (mr_len r)) = (Ok rs, mkIn (mr_bytes r') (mr_len r')) /\ edns_from_rrset rs = Ok e
  else a = Err.
Proof.
  intros dat hs r e B H He Ho. destruct (history_inv _ _ _ B H) as [I _]. pose proof (hist_capacity _ _ _ B H) as Cp.
  pose proof (logs_edns e He _ r I) as Lg. destruct (edns_to_wire e r) as [a r'] eqn:Q. destruct Lg as (I' & X & A).
  change (length (edns_octets e)) with 11 in A. rewrite Cp in A. destruct (mr_len r + 11 <=? length dat); [|exact A].
  destruct A as (-> & A2 & A3). split; auto. split; auto. split; [rewrite A2; unfold edns_octets; rewrite edns_flags_octets by auto; reflexivity|].
  rewrite edns_wire_same in Q.
  pose proof (edns_rrset_ok e He) as Rk. exists (edns_to_rrset e). split; [|apply edns_rrset; auto].
  assert (W : rrset_wf (edns_to_rrset e)) by (split; [apply Rk|constructor]).
  pose proof (@emits_rrset all_names (edns_to_rrset e) W ltac:(split; [intros ls s Hs Hn; exact Logic.I|constructor])) as Em.
  pose proof (mr_bytes_bytes _ _ I') as Bw. pose proof (mr_bytes_len _ _ I') as Ln.
  pose proof (emitted _ _ _ _ _ I (mono_rrs _) Em Q) as P.
  apply Prrs_at_any in P; auto; [|rewrite Ln; lia|repeat constructor|].
  2:{ constructor; [|constructor]. destruct Rk as (O1 & O2 & O3 & O4 & _). split; auto. split; auto. split; auto. exact Logic.I. }
  destruct P as [(m & P1 & P2) Le]. cbn [rrs_at] in P2. subst m.
  assert (L0 : mr_len r <= length (mr_bytes r')) by (rewrite Ln; lia). apply (rr_dec _ _ _ _ Bw L0 P1). intros _. reflexivity.
Qed.
Theorem edns_one_record_any : forall dat hs r e r', bytes dat -> history (mr_new dat) hs r -> edns_ok e -> edns_to_wire e r = (Ok tt, r') ->
  forall n, records_at (mr_bytes r') (mr_len r) (mr_len r') n <-> n = 1.
Proof.
  intros dat hs r e r' B H He Q. pose (e0 := mkEdns (e_version e) (e_xrcode e) (e_udp e) (e_do e) None).
  pose proof (edns_written_any dat hs r e0 B H He eq_refl) as W. change (edns_to_wire e0 r) with (edns_to_wire e r) in W.
  destruct (history_inv _ _ _ B H) as [I _]. pose proof (logs_edns e He _ r I) as Lg. rewrite Q in W, Lg. destruct Lg as (I' & X & _).
  destruct (mr_len r + 11 <=? length dat); [|discriminate]. destruct W as (_ & _ & W & rs & D & _).
  assert (R1 : records_at (mr_bytes r') (mr_len r) (mr_len r') 1) by (eapply ra_more; [exact D|constructor]).
  intros n. split; [|intros ->; exact R1]. intros Rn. eapply records_unique; [eapply mr_bytes_bytes; exact I'|exact Rn| |exact R1].
  rewrite W, app_length, (mr_bytes_len _ _ I). lia.
Qed.

(** * Notify *)
Lemma name_room : forall n, wf_name n -> field_size (VName n) <= 255.
Proof.
  intros n (ls & W & ->). cbn [field_size]. change (length (n_raw (name_of ls))) with (wire_len ls). apply W.
Qed.
Lemma soa_data_fits : forall rs, rrset_ok rs -> rs_type rs = TSOA -> Forall data_fits (rrs_of rs).
Proof.
  intros rs (_ & _ & _ & _ & F & _) T. unfold rrs_of. destruct (rs_rdatas rs) as [|d ds] eqn:E; [repeat constructor|]. rewrite <- E in *. clear E.
  apply Forall_forall. intros x Hx. apply in_map_iff in Hx. destruct Hx as (rd & <- & Hin). rewrite Forall_forall in F. destruct (F rd Hin) as [(_ & ks & Ek & Ff) _].
  rewrite T in Ek. injection Ek as <-. unfold data_fits. cbn [rr_data]. revert Ff. generalize (rd_fields rd). intros vs Ff.
  repeat match goal with H : Forall2 _ (_ :: _) _ |- _ => inversion H; subst; clear H | H : Forall2 _ [] _ |- _ => inversion H; subst; clear H end.
  repeat match goal with H : wf_field _ ?v |- _ => destruct v; cbn [wf_field] in H; try contradiction end.
  repeat match goal with H : wf_name _ |- _ => apply name_room in H end.
  cbn [map list_sum fold_right]. unfold field_room. cbn [field_size] in *. lia.
Qed.
Lemma notify_data_fits : forall rnd zone soa,
  (forall rs, soa = Some rs -> rrset_ok rs /\ rs_type rs = TSOA /\ length (rs_rdatas rs) = 1) ->
  Forall data_fits (all_records (notify_shape rnd zone soa)).
Proof.
  intros rnd zone soa Hs. unfold all_records, notify_shape. cbn [r_answer r_authority r_additional]. destruct soa as [rs|]; [|constructor].
  destruct (Hs rs eq_refl) as (Ok1 & T & _). cbn [records flat_map]. rewrite !app_nil_r. apply soa_data_fits; auto.
Qed.
Lemma notify_round_trip_any : forall dat rnd zone soa, bytes dat -> (rnd < 65536)%N -> wf_name zone ->
  (forall rs, soa = Some rs -> rrset_ok rs /\ rs_type rs = TSOA /\ length (rs_rdatas rs) = 1) ->
  let (a, r') := notify_to_wire (notify_new rnd zone soa) (mr_new dat) in
  a = Err \/ (a = Ok (length (mr_bytes r')) /\ response_from_wire (mr_bytes r') = Ok (notify_shape rnd zone soa)).
Proof.
  intros dat rnd zone soa B Hr Hz Hs. pose proof (notify_consistent rnd zone soa Hr Hz Hs) as Co. rewrite notify_body. unfold bind.
  pose proof (proj1 (simple_body _ Co)) as (P & Em). specialize (Em _ _ (inv_new dat B)).
  destruct (body_to_wire (notify_shape rnd zone soa) (mr_new dat)) as [a r'] eqn:E. destruct Em as (_ & I' & A).
  destruct a as [[]| | |]; [|auto|contradiction|contradiction]. right. unfold mr_length. cbn [fst snd]. pose proof (body_complete all_names dat _ r' B Co (response_known_all _) E) as C.
  destruct (complete_decodes_any (mr_new dat) _ _ r' Co C (notify_data_fits rnd zone soa Hs)) as [_ Hd]. split; auto. rewrite (mr_bytes_len _ _ I'). reflexivity.
Qed.
Lemma notify_decode_round_any : forall dat rnd zone soa, bytes dat -> (rnd < 65536)%N -> wf_name zone ->
  (forall rs, soa = Some rs -> rrset_ok rs /\ rs_type rs = TSOA /\ length (rs_rdatas rs) = 1) ->
  let (a, r') := notify_to_wire (notify_new rnd zone soa) (mr_new dat) in
  a = Err \/ notify_read (mr_bytes r') = Ok (notify_new rnd zone soa).
Proof.
  intros dat rnd zone soa B R Z S0. pose proof (notify_round_trip_any dat rnd zone soa B R Z S0) as H.
  destruct (notify_to_wire (notify_new rnd zone soa) (mr_new dat)) as [a r']. destruct H as [H|[_ H]]; auto. right.
  destruct (notify_read_spec _ _ H) as [H0 H1]. destruct soa as [rs|].
  - destruct H1 as (rs' & A & ->); [reflexivity|]. cbn in A. injection A as <-. destruct (S0 rs eq_refl) as (_ & -> & _). reflexivity.
  - rewrite H0; [reflexivity|]. cbn. discriminate.
Qed.
Lemma response_whole_any : forall dat r n r', bytes dat -> consistent r ->
  response_to_wire r (mr_new dat) = (Ok n, r') -> response_from_wire (mr_bytes r') = Ok r -> body_to_wire r (mr_new dat) = (Ok tt, r') /\ n = mr_len r'.
Proof.
  intros dat r n r' B Co H D. pose proof (response_render all_names dat r B Co (response_known_all r)) as R. rewrite H in R.
  destruct (head_size r <=? length dat); [|discriminate].
  assert (Nc : ~ (all_records r <> [] /\ cut_off r (Ok n) r')).
  { intros [Nr C]. destruct (cut_off_decodes r _ _ Co C) as [_ X]. rewrite D in X. inversion X. eapply tc_only_differs; eauto. }
  destruct R as [C|(Nr & [C|C])]; [|tauto|discriminate]. destruct C as (C & C2 & _). inversion C. auto.
Qed.
Lemma response_indep_any : forall dat dat2 r n r1 a2 r2, bytes dat -> bytes dat2 -> consistent r ->
  response_to_wire r (mr_new dat) = (Ok n, r1) -> response_from_wire (mr_bytes r1) = Ok r ->
  response_to_wire r (mr_new dat2) = (a2, r2) -> n <= length dat2 -> a2 = Ok n /\ mr_bytes r2 = mr_bytes r1.
Proof.
  intros dat dat2 r n r1 a2 r2 B B2 Co H D H2 Ln. destruct (response_whole_any dat r n r1 B Co H D) as [E ->].
  destruct (simple_body r Co) as [(P & Em) S1].
  pose proof (inv_new dat B) as I. pose proof (inv_new dat2 B2) as I2.
  destruct (S1 (fun _ => false) (mr_new dat) (mr_new dat2) r1 I I2) as (r2' & E2 & Ag); auto.
  { split; [reflexivity|]. split; [|auto]. intros i. reflexivity. }
  apply body_render in E2 as E3. rewrite H2 in E3. inversion E3; subst a2 r2'. pose proof Ag as (Al & Ar & _). rewrite Al. split; auto.
  pose proof (Em _ _ I) as X. rewrite E in X. destruct X as (_ & J & _). pose proof (Em _ _ I2) as X. rewrite E2 in X. destruct X as (_ & J2 & _).
  apply nth_error_ext. intros i. destruct (Nat.lt_ge_cases i (mr_len r1)).
  - specialize (Ar i). unfold rdm in Ar. rewrite <- Al in Ar. replace (i <? mr_len r1) with true in Ar by (symmetry; apply Nat.ltb_lt; auto).
    unfold mr_bytes, ob_bytes. rewrite !nth_firstn; auto. change (i < mr_len r2). lia.
  - transitivity (@None N); [|symmetry]; apply nth_error_None; [rewrite (mr_bytes_len _ _ J2)|rewrite (mr_bytes_len _ _ J)]; lia.
Qed.
Lemma notify_fits_any : forall dat rnd zone soa nss, bytes dat -> (rnd < 65536)%N -> wf_name zone ->
  (forall rs, soa = Some rs -> rrset_ok rs /\ rs_type rs = TSOA /\ length (rs_rdatas rs) = 1) ->
  response_names (notify_shape rnd zone soa) = map name_of nss -> collision_free nss -> plain_size (notify_shape rnd zone soa) <= length dat ->
  exists n, fst (notify_to_wire (notify_new rnd zone soa) (mr_new dat)) = Ok n.
Proof.
  intros dat rnd zone soa nss B Hr Hz Hs Ns Cf L. pose proof (notify_consistent rnd zone soa Hr Hz Hs) as Co.
  destruct (fits_any dat _ nss B Co Ns Cf L) as (r' & E & _ & D). destruct (D (notify_data_fits rnd zone soa Hs)) as (_ & _ & _ & D').
  destruct (response_whole_any dat _ _ r' B Co E D') as [W _].
  rewrite notify_body. unfold bind. rewrite W. unfold mr_length. exists (mr_len r'). reflexivity.
Qed.

(** * Decoding and encoding again *)
Lemma field_room_wire : forall k v w s e, wf_field k v -> field_at w s e v -> field_room v <= (e - s) + match v with VName _ => 255 | _ => 0 end.
Proof.
  intros k v w s e Wf H. pose proof (field_at_least _ _ _ _ H) as L. unfold field_least in L. unfold field_room. destruct v; try lia.
  destruct k; cbn [wf_field] in Wf; try contradiction. apply name_room in Wf. lia.
Qed.
Definition names_in (vs : list fval) : nat := length (filter (fun v => match v with VName _ => true | _ => false end) vs).
Lemma fields_room_wire : forall w ks vs, Forall2 wf_field ks vs -> forall s e, fields_at w s e vs ->
  list_sum (map field_room vs) <= (e - s) + 255 * names_in vs.
Proof.
  intros w ks vs F. induction F as [|k v ks vs W F IH]; intros s e H; cbn [fields_at] in H.
  - cbn. lia.
  - destruct H as (m & H1 & H2). pose proof (field_at_least _ _ _ _ H1). pose proof (fields_at_least _ _ _ _ H2). apply (field_room_wire _ _ _ _ _ W) in H1. apply IH in H2.
    cbn [map]. change (list_sum (?x :: ?l)) with (x + list_sum l). unfold names_in in *. cbn [filter]. destruct v; cbn [length]; lia.
Qed.
Lemma two_names : forall t rd, wf_rdata t rd -> names_in (rd_fields rd) <= 2.
Proof.
  intros t rd (_ & ks & E & F). destruct t; cbn [rfc_layout] in E; try discriminate E; injection E as <-; revert F; generalize (rd_fields rd); intros vs F.
  all: repeat match goal with H : Forall2 _ (_ :: _) _ |- _ => inversion H; subst; clear H | H : Forall2 _ [] _ |- _ => inversion H; subst; clear H end.
  all: repeat match goal with H : wf_field _ ?v |- _ => destruct v; cbn [wf_field] in H; try contradiction end.
  all: cbn; lia.
Qed.
Lemma rr_at_len : forall w x s e, bytes w -> s <= length w -> rr_at w s e x -> s <= e <= length w.
Proof.
  intros w x s e Bw Ls H. apply (rrs_at_len w [x] s e Bw Ls). exists e. split; [exact H|reflexivity].
Qed.
Lemma rr_at_fits : forall w s e x, bytes w -> s <= length w -> (N.of_nat (length w) <= 65000)%N -> rr_at w s e x -> data_fits x.
Proof.
  intros w s e x Bw Ls L H. pose proof (rr_at_len w x s e Bw Ls H) as Le. destruct H as (ls & m & n & W & En & Hn & _ & _ & _ & _ & _ & _ & HL & _ & He & Hd). unfold data_fits.
  destruct (rr_data x) as [rd|]; [|exact Logic.I]. destruct Hd as (_ & Wd & F). pose proof (two_names _ _ Wd) as T. destruct (wf_rdata_fields _ _ Wd) as [F2 _].
  apply (fields_room_wire _ _ _ F2) in F. lia.
Qed.
Lemma rrs_at_fits : forall w xs s e, bytes w -> s <= length w -> (N.of_nat (length w) <= 65000)%N -> rrs_at w s e xs -> Forall data_fits xs.
Proof.
  intros w xs. induction xs as [|x xs IH]; intros s e Bw Ls L H; [constructor|]. cbn [rrs_at] in H. destruct H as (m & H1 & H2).
  pose proof (rr_at_len w x s m Bw Ls H1). constructor; [eapply rr_at_fits; eauto|]. eapply (IH m); eauto; lia.
Qed.
Lemma like_fits : forall xs ys, Forall2 rr_like xs ys -> Forall data_fits xs -> Forall data_fits ys.
Proof.
  intros xs ys F. induction F as [|x y xs ys (_ & E & _) F IH]; intros H; [constructor|]. inversion H; subst. constructor; auto. unfold data_fits in *. rewrite <- E. auto.
Qed.
Lemma decoded_fits : forall w r, bytes w -> (N.of_nat (length w) <= 65000)%N -> response_from_wire w = Ok r -> Forall data_fits (all_records r).
Proof.
  intros w r Bw L H. destruct (response_from_wire_sound w r Bw H) as (an & ns & ar & Hm & _ & _ & F1 & F2 & F3 & _).
  destruct Hm as (_ & _ & _ & _ & _ & p0 & p1 & p2 & p3 & Q & H1 & H2 & H3). apply question_at_le in Q.
  pose proof (rrs_at_len w an p0 p1 Bw ltac:(lia) H1). pose proof (rrs_at_len w ns p1 p2 Bw ltac:(lia) H2).
  apply rrs_at_fits in H1, H2, H3; auto; try lia.
  unfold all_records. apply Forall_app. split; [|apply Forall_app; split]; eapply like_fits; eauto.
Qed.
Lemma reencode_any : forall w r dat a r', bytes w -> bytes dat -> (N.of_nat (length w) <= 65000)%N -> response_from_wire w = Ok r ->
  response_to_wire r (mr_new dat) = (a, r') -> a <> Panic ->
  if head_size r <=? length dat
  then (a = Ok (length (mr_bytes r')) /\ response_from_wire (mr_bytes r') = Ok r) \/
       (all_records r <> [] /\ a = Ok (head_size r) /\ truncated r (mr_bytes r') /\ response_from_wire (mr_bytes r') = Ok (tc_only r))
  else a = Err.
Proof.
  intros w r dat a r' Bw B L H E Np. destruct (response_from_wire_sound w r Bw H) as (an & ns & ar & _ & _ & Co & _).
  pose proof (outcome_any dat r a r' B Co (decoded_fits w r Bw L H) E Np) as O. destruct (head_size r <=? length dat); auto.
  destruct O as [(-> & _ & -> & O)|O]; auto.
Qed.

(** * TTL *)
Theorem ttl_written_any : forall dat hs r t, bytes dat -> history (mr_new dat) hs r -> (t < 4294967296)%N ->
  let (a, r') := ttl_to_wire t r in
  if mr_len r + 4 <=? length dat
  then a = Ok tt /\ mr_bytes r' = mr_bytes r ++ u32_bytes t /\ ttl_from_wire (mkIn (mr_bytes r') (mr_len r)) = (Ok t, mkIn (mr_bytes r') (mr_len r'))
  else a = Err.
Proof.
  intros dat hs r t B H Ht. destruct (history_inv _ _ _ B H) as [I _]. pose proof (hist_capacity _ _ _ B H) as Cp. unfold ttl_to_wire.
  pose proof (logs_u32 t Ht _ r I) as Lg. destruct (mr_write_u32 t r) as [a r'] eqn:Q. destruct Lg as (I' & X & A).
  change (length (u32_bytes t)) with 4 in A. rewrite Cp in A. destruct (mr_len r + 4 <=? length dat) eqn:EL; [|exact A].
  destruct A as (-> & A2 & A3). split; auto. split; auto.
  pose proof (mr_bytes_bytes _ _ I') as Bw. pose proof (mr_bytes_len _ _ I) as Ln0.
  assert (L : mr_len r + 4 <= length (mr_bytes r')) by (rewrite A2, app_length, Ln0; change (length (u32_bytes t)) with 4; lia).
  assert (P : Pbytes (be32 t) (rd_of (mr_bytes r')) (mr_len r) (mr_len r + 4)).
  { rewrite be32_u32 by auto. split; [reflexivity|]. intros i c Hi. unfold rd_of. rewrite A2, nth_error_app2 by lia. rewrite <- Hi. f_equal. lia. }
  assert (L0 : mr_len r <= length (mr_bytes r')) by lia. destruct (decodes_u32 t Ht _ _ _ Bw L0 P) as [R _]. unfold ttl_from_wire. rewrite R, A3. reflexivity.
Qed.

(** * Records without names in their data *)
Lemma no_name_fits : forall x, (forall rd, rr_data x = Some rd -> Forall no_name (rd_fields rd)) -> ~ data_over x -> data_fits x.
Proof.
  intros x Nn H. unfold data_over, data_fits in *. destruct (rr_data x) as [rd|]; [|exact Logic.I].
  assert (E : list_sum (map field_room (rd_fields rd)) = list_sum (map field_least (rd_fields rd))).
  { specialize (Nn rd eq_refl). clear H. induction Nn as [|v vs V F IH]; [reflexivity|]. cbn [map].
    change (list_sum (field_room v :: map field_room vs)) with (field_room v + list_sum (map field_room vs)). change (list_sum (field_least v :: map field_least vs)) with (field_least v + list_sum (map field_least vs)).
    rewrite IH. destruct v; cbn [no_name] in V; try contradiction; unfold field_room, field_least; lia. }
  lia.
Qed.
Lemma exact_nameless : forall dat r n r', bytes dat -> consistent r -> (forall x rd, In x (all_records r) -> rr_data x = Some rd -> Forall no_name (rd_fields rd)) ->
  response_to_wire r (mr_new dat) = (Ok n, r') -> all_records r = [] \/ n <> head_size r ->
  (response_from_wire (mr_bytes r') = Ok r <-> Forall data_fits (all_records r)).
Proof.
  intros dat r n r' B Co Nn H Full.
  pose proof (response_render all_names dat r B Co (response_known_all r)) as R. rewrite H in R.
  split.
  - intros D. assert (Bw : bytes (mr_bytes r')).
    { pose proof (response_render all_names dat r B Co (response_known_all r)) as R'. rewrite H in R'.
      destruct (head_size r <=? length dat); [|discriminate R'].
      destruct R' as [C|(Nr & [C|C])]; [|exfalso|discriminate C].
      - destruct C as (_ & _ & I & _). exact (mr_bytes_bytes _ _ I).
      - destruct Full as [F|F]; [contradiction|]. destruct C as [C _]. injection C as C. contradiction. }
    apply decoded_not_over in D; [|exact Bw]. rewrite Forall_forall in *. intros x Hx. apply no_name_fits; [|apply D; exact Hx]. intros rd. apply Nn. exact Hx.
  - intros Df. pose proof (outcome_any dat r (Ok n) r' B Co Df H ltac:(discriminate)) as O. destruct (head_size r <=? length dat); [|discriminate O].
    destruct O as [O|(Nr & O & _)]; [apply O|]. destruct Full as [F|F]; [contradiction|]. injection O as O. contradiction.
Qed.

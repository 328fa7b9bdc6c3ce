(** EDNS, ResponseBuilder, ResponseIter. *)
From Verif Require Import Base NameModel RenderModel CodesModel RDataModel MsgModel SpecName SpecBuf SpecCodes SpecMsg
  BaseLemmas BitLemmas NameWireProofs NameOpsProofs NameOpsProofs2 RenderProofs RenderProofs2 BufProofs CodesProofs WireProofs
  RDataProofs DecodeProofs MsgProofs MsgProofs2 MsgProofs3 MsgProofs4 MsgProofs5 MsgProofs6 MsgProofs7 IndepProofs FitProofs MsgProofs8.

(** * EDNS *)
Definition all8 : list N := map N.of_nat (seq 0 256).
Lemma all8_in : forall x, (x < 256)%N -> In x all8.
Proof. intros x H. apply in_map_iff. exists (N.to_nat x). split; [apply N2Nat.id|]. apply in_seq. lia. Qed.
Definition edns_check (x v : N) (d : bool) : bool :=
  let f := edns_flags (mkEdns v x 0 d None) in
  (as_u8 (N.shiftr (N.land f 16711680) 16) =? v)%N && (as_u8 (N.shiftr f 24) =? x)%N && Bool.eqb (negb (N.land f 32768 =? 0)%N) d && (f <? 4294967296)%N.
Lemma edns_check_all : forallb (fun x => forallb (fun v => edns_check x v true && edns_check x v false) all8) all8 = true.
Proof. vm_compute. reflexivity. Qed.
Lemma edns_flags_spec : forall e, edns_ok e -> let f := edns_flags e in
  as_u8 (N.shiftr (N.land f 16711680) 16) = e_version e /\ as_u8 (N.shiftr f 24) = e_xrcode e /\ negb (N.land f 32768 =? 0)%N = e_do e /\ (f < 4294967296)%N.
Proof.
  intros [v x u d o] (Hv & Hx & _). cbn [e_version e_xrcode e_do] in *. pose proof edns_check_all as H. rewrite forallb_forall in H.
  specialize (H x (all8_in x Hx)). rewrite forallb_forall in H. specialize (H v (all8_in v Hv)). apply andb_true_iff in H. destruct H as [H1 H2].
  assert (H : edns_check x v d = true) by (destruct d; auto). unfold edns_check in H.
  replace (edns_flags (mkEdns v x u d o)) with (edns_flags (mkEdns v x 0 d None)) by reflexivity. cbv zeta.
  rewrite !andb_true_iff in H. destruct H as (((A & B) & C) & D). apply N.eqb_eq in A, B. apply eqb_prop in C. apply N.ltb_lt in D. auto.
Qed.
Lemma edns_rrset : forall e, edns_ok e -> e_options e = None -> edns_from_rrset (edns_to_rrset e) = Ok e.
Proof.
  intros e He Ho. pose proof (edns_flags_spec e He) as (A & B & C & _). unfold edns_from_rrset, edns_to_rrset. cbn [rs_type rs_ttl rs_class rrtype_eqb].
  change (assert_r (rrtype_eqb TOPT TOPT)) with (Ok tt : res unit). cbn [rbind]. rewrite A, B, C, rrclass_num. destruct e as [v x u d o]. cbn in Ho. subst o. reflexivity.
Qed.

Lemma write_root : forall r, name_to_wire root_name r = mr_write_u8 0 r.
Proof.
  intros [b t c h]. unfold name_to_wire, write_name. change (label_count root_name) with 1. unfold bind at 1.
  change (wn_search 1 true root_name 0 0 (mkRender b t c h)) with (Ok (1, NO_OFFSET), mkRender b t c h). cbv iota beta. unfold bind at 1, get at 1. cbv iota beta.
  change (negb true || (1 =? 1)) with true. cbv iota. unfold bind at 1. change (n_raw root_name) with [0%N]. unfold mr_write_u8, on_buf. cbn [mr_buf mr_table mr_counts mr_hashes].
  unfold ob_write_bytes, ob_write_u8. cbn [length]. replace (ob_len b + 1 <=? ob_capacity b) with (ob_len b <? ob_capacity b).
  2:{ destruct (Nat.ltb_spec (ob_len b) (ob_capacity b)); destruct (Nat.leb_spec (ob_len b + 1) (ob_capacity b)); auto; lia. }
  destruct (Nat.ltb_spec (ob_len b) (ob_capacity b)) as [L|L]; [|reflexivity].
  destruct (ob_append_spec [0%N] b ltac:(cbn [length]; lia)) as (b' & -> & C1 & L1 & B1 & _). cbn [length] in *.
  unfold bind at 1, ret at 1. change (true && negb (NO_OFFSET =? NO_OFFSET)%N) with false. cbv iota.
  change (name_len root_name) with 1. cbn [wn_register]. unfold bind, get, lift. cbn [mr_buf].
  assert (E : ob_at b' (ob_len b) = Ok 0%N).
  { unfold ob_at. rewrite L1. replace (ob_len b <? ob_len b + 1) with true by (symmetry; apply Nat.ltb_lt; lia).
    assert (Q : nth_error (ob_bytes b') (ob_len b) = Some 0%N).
    { rewrite B1. assert (F : length (ob_bytes b) = ob_len b) by (unfold ob_bytes; rewrite firstn_length_le; unfold ob_capacity in *; lia).
      rewrite nth_error_app2 by lia. rewrite F, Nat.sub_diag. reflexivity. }
    unfold ob_bytes in Q. rewrite nth_firstn in Q by lia. unfold idx. rewrite Q. reflexivity. }
  rewrite E. reflexivity.
Qed.
Lemma bind_ext : forall S A B (m m' : M S A) (f f' : A -> M S B) s, m s = m' s -> (forall x s', f x s' = f' x s') -> bind m f s = bind m' f' s.
Proof. intros S A B m m' f f' s E F. unfold bind. rewrite E. destruct (m' s) as [[| | |] s']; auto. Qed.
Lemma edns_wire_same : forall e r, edns_to_wire e r = rrset_to_wire (edns_to_rrset e) r.
Proof.
  intros e r. unfold edns_to_wire, rrset_to_wire, edns_to_rrset, rr_prefix_to_wire. cbn [rs_rdatas rs_name rs_type rs_class rs_ttl].
  rewrite bind_assoc. apply bind_ext; [symmetry; apply write_root|]. intros _ r1.
  rewrite bind_assoc. apply bind_ext; [reflexivity|]. intros _ r2.
  rewrite bind_assoc. apply bind_ext; [|reflexivity]. unfold rrclass_to_wire. rewrite rrclass_num. reflexivity.
Qed.
Lemma edns_rrset_ok : forall e, edns_ok e -> rrset_ok (edns_to_rrset e).
Proof.
  intros e He. pose proof (edns_flags_spec e He) as (_ & _ & _ & F). unfold rrset_ok, edns_to_rrset. cbn [rs_rdatas rs_name rs_type rs_class rs_ttl].
  split; [exists []; split; [split; [constructor|vm_compute; lia]|reflexivity]|]. split; [split; [reflexivity|reflexivity]|]. split; [split; rewrite rrclass_num; auto; apply He|].
  split; [exact F|]. split; [constructor|]. split; [auto|]. intros _. cbn. lia.
Qed.
Lemma ws_app_inv : forall cap log o vs ok log', write_spec cap log o ok log' -> (exists d, o = W8 d /\ vs = [d] \/ o = W32 d /\ vs = u32_bytes d) ->
  if length log + length vs <=? cap then ok = true /\ log' = log ++ vs else ok = false /\ log' = log.
Proof.
  intros cap log o vs ok log' H Ho.
  assert (G : forall vs', (exists d, (o = W8 d /\ vs' = [d]) \/ (o = W16 d /\ vs' = u16_bytes d) \/ (o = W32 d /\ vs' = u32_bytes d)) \/ o = WBytes vs' -> vs' = vs).
  { intros vs' [(d' & [[X ?]|[[X ?]|[X ?]]])|X]; destruct Ho as (d & [[Y ?]|[Y ?]]); congruence. }
  destruct H as [o vs' H L|o vs' H L|n vs' H L|n L|o p vs' H L|o p vs' H L|p L|p L|]; try (apply G in H; subst vs').
  - rewrite (proj2 (Nat.leb_le _ _) L). auto.
  - rewrite (proj2 (Nat.leb_gt _ _) L). auto.
  - destruct Ho as (d & [[X _]|[X _]]); discriminate.
  - destruct Ho as (d & [[X _]|[X _]]); discriminate.
  - destruct Ho as (d & [[X _]|[X _]]); subst o; destruct H as (? & [[X _]|[X _]]); discriminate.
  - destruct Ho as (d & [[X _]|[X _]]); subst o; destruct H as (? & [[X _]|[X _]]); discriminate.
  - destruct Ho as (d & [[X _]|[X _]]); discriminate.
  - destruct Ho as (d & [[X _]|[X _]]); discriminate.
  - destruct Ho as (d & [[X _]|[X _]]); discriminate.
Qed.
Section Known.
Context {KN : names}.
Lemma logs_app : forall o vs, wop_ok o -> (exists d, o = W8 d /\ vs = [d] \/ o = W32 d /\ vs = u32_bytes d) ->
  (forall m r, inv m r -> let (a, r') := on_buf (write_call o) r in inv m r' /\ extends r r') -> logs (on_buf (write_call o)) vs.
Proof.
  intros o vs Hd Ho Em m r I. specialize (Em m r I). destruct (on_buf (write_call o) r) as [a r'] eqn:Q. destruct Em as (I' & X). split; auto. split; auto.
  pose proof (inv_len _ _ I) as L. pose proof (write_call_spec o (mr_buf r) Hd L) as (ok & b' & E & Sp & Cap & Lb).
  eapply ws_app_inv in Sp; eauto. unfold on_buf in Q. rewrite E in Q. inversion Q; subst a r'. unfold mr_len, mr_bytes in *. cbn [mr_buf] in *.
  replace (length (ob_bytes (mr_buf r))) with (ob_len (mr_buf r)) in Sp by (unfold ob_bytes; rewrite firstn_length_le; auto).
  destruct (ob_len (mr_buf r) + length vs <=? ob_capacity (mr_buf r)) eqn:C; destruct Sp as [-> Eb]; auto. split; auto. split; auto.
  apply (f_equal (@length N)) in Eb. rewrite app_length in Eb. unfold ob_bytes in Eb. rewrite !firstn_length_le in Eb by auto. auto.
Qed.
Lemma logs_u8 : forall d, (d < 256)%N -> logs (mr_write_u8 d) [d].
Proof.
  intros d Hd. apply (logs_app (W8 d)); eauto. intros m r I. pose proof (emits_u8 d Hd m r I) as E. change (on_buf (write_call (W8 d)) r) with (mr_write_u8 d r).
  destruct (mr_write_u8 d r). destruct E as (X & I' & _). auto.
Qed.
Lemma logs_u32 : forall d, (d < 4294967296)%N -> logs (mr_write_u32 d) (u32_bytes d).
Proof.
  intros d Hd. apply (logs_app (W32 d)); eauto. intros m r I. pose proof (emits_u32 d m r I) as E. change (on_buf (write_call (W32 d)) r) with (mr_write_u32 d r).
  destruct (mr_write_u32 d r). destruct E as (X & I' & _). auto.
Qed.
Definition edns_octets (e : edns) : list N :=
  [0]%N ++ u16_bytes 41 ++ u16_bytes (e_udp e) ++ u32_bytes (edns_flags e) ++ u16_bytes 0.
Lemma logs_edns : forall e, edns_ok e -> logs (edns_to_wire e) (edns_octets e).
Proof.
  intros e He. pose proof (edns_flags_spec e He) as (_ & _ & _ & F). unfold edns_to_wire, edns_octets.
  apply logs_seq; [apply logs_u8; reflexivity|]. apply logs_seq; [apply logs_u16; reflexivity|]. apply logs_seq; [apply logs_u16; apply He|].
  apply logs_seq; [apply logs_u32; auto|apply logs_u16; reflexivity].
Qed.
End Known.
Lemma edns_check2_all : forallb (fun x => forallb (fun v => forallb (fun d : bool =>
  if list_eq_dec N.eq_dec (u32_bytes (edns_flags (mkEdns v x 0 d None))) [x; v; if d then 128 else 0; 0]%N then true else false) [true; false]) all8) all8 = true.
Proof. vm_compute. reflexivity. Qed.
Lemma edns_flags_octets : forall e, edns_ok e -> u32_bytes (edns_flags e) = [e_xrcode e; e_version e; if e_do e then 128 else 0; 0]%N.
Proof.
  intros [v x u d o] (Hv & Hx & _). cbn [e_version e_xrcode e_do] in *. pose proof edns_check2_all as H. rewrite forallb_forall in H.
  specialize (H x (all8_in x Hx)). rewrite forallb_forall in H. specialize (H v (all8_in v Hv)). rewrite forallb_forall in H.
  specialize (H d ltac:(destruct d; cbn; auto)). destruct (list_eq_dec N.eq_dec _ _) as [E|E]; [exact E|discriminate].
Qed.
Lemma edns_written : forall dat hs r e, bytes dat -> (N.of_nat (length dat) <= 65535)%N -> history (mr_new dat) hs r -> edns_ok e -> e_options e = None ->
  let (a, r') := edns_to_wire e r in
  if mr_len r + 11 <=? length dat
  then a = Ok tt /\ mr_len r' = mr_len r + 11 /\
       mr_bytes r' = mr_bytes r ++ [0; 0; 41]%N ++ u16_bytes (e_udp e) ++ [e_xrcode e; e_version e; if e_do e then 128 else 0; 0]%N ++ [0; 0]%N /\
       exists rs, rrset_from_wire (mkIn (mr_bytes r') (mr_len r)) = (Ok rs, mkIn (mr_bytes r') (mr_len r')) /\ edns_from_rrset rs = Ok e
  else a = Err.
Proof.
  intros dat hs r e B Ld H He Ho. destruct (history_inv _ _ _ B H) as [I _]. pose proof (hist_capacity _ _ _ B H) as Cp.
  pose proof (logs_edns e He _ r I) as Lg. destruct (edns_to_wire e r) as [a r'] eqn:Q. destruct Lg as (I' & X & A).
  change (length (edns_octets e)) with 11 in A. rewrite Cp in A. destruct (mr_len r + 11 <=? length dat); [|exact A].
  destruct A as (-> & A2 & A3). split; auto. split; auto. split; [rewrite A2; unfold edns_octets; rewrite edns_flags_octets by auto; reflexivity|].
  rewrite edns_wire_same in Q.
  pose proof (edns_rrset_ok e He) as Rk. exists (edns_to_rrset e). split; [|apply edns_rrset; auto].
  assert (W : rrset_wf (edns_to_rrset e)) by (split; [apply Rk|constructor]).
  pose proof (@emits_rrset all_names (edns_to_rrset e) W ltac:(split; [intros ls s Hs Hn; exact Logic.I|constructor])) as Em.
  pose proof (mr_bytes_bytes _ _ I') as Bw. pose proof (mr_bytes_len _ _ I') as Ln. pose proof (mr_bytes_len _ _ I) as Ln0.
  pose proof (emitted _ _ _ _ _ I (mono_rrs _) Em Q) as P.
  destruct X as (_ & Cp' & _). pose proof (inv_len _ _ I') as Lc. rewrite Cp', Cp in Lc.
  apply Prrs_at in P; auto; [|rewrite Ln; lia|rewrite Ln; lia|].
  2:{ constructor; [|constructor]. destruct Rk as (O1 & O2 & O3 & O4 & _). split; auto. split; auto. split; auto. exact Logic.I. }
  destruct P as [(m & P1 & P2) Le]. cbn [rrs_at] in P2. subst m.
  assert (L0 : mr_len r <= length (mr_bytes r')) by (rewrite Ln; lia). apply (rr_dec _ _ _ _ Bw L0 P1). intros _. reflexivity.
Qed.

(** * The builder *)
Lemma find_same_spec : forall rs l, wf_name (rs_name rs) -> owners_ok l ->
  (find_same rs l = Ok None /\ Forall (fun x => ~ same_set x rs) l) \/
  exists l1 old l2, find_same rs l = Ok (Some (length l1)) /\ l = l1 ++ old :: l2 /\ Forall (fun x => ~ same_set x rs) l1 /\ same_set old rs.
Proof.
  intros rs l W F. induction F as [|x l Wx F IH]; [left; split; [reflexivity|constructor]|]. cbn [find_same].
  destruct (sameb_spec rs x W Wx) as [E Sp].
  rewrite E. cbn [rbind]. destruct (sameb rs x).
  - right. exists [], x, l. split; auto. split; auto. split; [constructor|]. apply same_set_sym, Sp. reflexivity.
  - assert (Nx : ~ same_set x rs) by (intros X; apply same_set_sym, Sp in X; discriminate).
    destruct IH as [[-> H]|(l1 & old & l2 & -> & -> & H1 & H2)]; cbn [rbind option_map]; [left; auto|right].
    exists (x :: l1), old, l2. auto.
Qed.
Definition merged (old rs : rrset) : rrset := mkRRset (rs_name old) (rs_type old) (rs_class old) (rs_ttl old) (rs_rdatas old ++ rs_rdatas rs).
Lemma get_put : forall r s s' v, get_section (put_section r s v) s' = if section_index s =? section_index s' then v else get_section r s'.
Proof. intros r [] [] v; reflexivity. Qed.
Lemma put_rest : forall r s v, r_header (put_section r s v) = r_header r /\ r_question (put_section r s v) = r_question r.
Proof. intros r [] v; split; reflexivity. Qed.
Lemma index_inj : forall s s', section_index s = section_index s' -> s = s'.
Proof. intros [] [] E; auto; discriminate. Qed.
Lemma idx_mid : forall (A : Type) (l1 : list A) x l2, idx (l1 ++ x :: l2) (length l1) = Ok x.
Proof. intros A l1 x l2. unfold idx. rewrite nth_error_app2, Nat.sub_diag by lia. reflexivity. Qed.
Lemma add_rrset_spec : forall r s rs, wf_name (rs_name rs) -> owners_ok (sets (get_section r s)) -> exists l,
  add_rrset r s rs = Ok (put_section r s (Some l)) /\
  ((Forall (fun x => ~ same_set x rs) (sets (get_section r s)) /\ l = sets (get_section r s) ++ [rs]) \/
   exists l1 old l2, sets (get_section r s) = l1 ++ old :: l2 /\ Forall (fun x => ~ same_set x rs) l1 /\ same_set old rs /\ l = l1 ++ merged old rs :: l2).
Proof.
  intros r s rs W Ow. unfold add_rrset. destruct (get_section r s) as [l|] eqn:E; cbn [sets] in *.
  - destruct (find_same_spec rs l W Ow) as [[-> H]|(l1 & old & l2 & -> & -> & H1 & H2)]; cbn [rbind].
    + eexists. split; [reflexivity|]. left. auto.
    + rewrite idx_mid. cbn [rbind]. fold (merged old rs). exists (l1 ++ merged old rs :: l2). split.
      * assert (U : upd_r (l1 ++ old :: l2) (length l1) (merged old rs) = Ok (l1 ++ merged old rs :: l2)) by (apply upd_r_app_mid; reflexivity). rewrite U. reflexivity.
      * right. eauto 10.
  - exists [rs]. split; [reflexivity|]. left. split; [constructor|reflexivity].
Qed.

(** ** C38 *)
Lemma same_set_trans : forall a b c, same_set a b -> same_set b c -> same_set a c.
Proof. intros a b c [E1 O1] [E2 O2]. split; [congruence|]. eapply same_owner_trans; eauto. Qed.
Lemma unique_app : forall l rs, unique_sets l -> Forall (fun x => ~ same_set x rs) l -> unique_sets (l ++ [rs]).
Proof.
  intros l rs U F i j a b Hi Hj Sm. rewrite Forall_forall in F.
  destruct (Nat.lt_ge_cases i (length l)) as [Li|Li]; destruct (Nat.lt_ge_cases j (length l)) as [Lj|Lj].
  - rewrite nth_error_app1 in Hi, Hj by auto. eauto.
  - rewrite nth_error_app1 in Hi by auto. rewrite nth_error_app2 in Hj by auto. destruct (j - length l) as [|k]; [|destruct k; discriminate].
    inversion Hj; subst b. exfalso. eapply F; [eapply nth_error_In; eauto|auto].
  - rewrite nth_error_app2 in Hi by auto. rewrite nth_error_app1 in Hj by auto. destruct (i - length l) as [|k]; [|destruct k; discriminate].
    inversion Hi; subst a. exfalso. eapply F; [eapply nth_error_In; eauto|apply same_set_sym; auto].
  - rewrite nth_error_app2 in Hi, Hj by auto. assert (i - length l < 1) by (apply (nth_error_Some [rs]); rewrite Hi; discriminate).
    assert (j - length l < 1) by (apply (nth_error_Some [rs]); rewrite Hj; discriminate). lia.
Qed.
Lemma unique_merge : forall l1 old l2 rs, unique_sets (l1 ++ old :: l2) -> unique_sets (l1 ++ merged old rs :: l2).
Proof.
  intros l1 old l2 rs U.
  assert (G : forall i a, nth_error (l1 ++ merged old rs :: l2) i = Some a -> exists a', nth_error (l1 ++ old :: l2) i = Some a' /\ rs_type a' = rs_type a /\ rs_name a' = rs_name a).
  { intros i a H. destruct (Nat.lt_trichotomy i (length l1)) as [L|[L|L]].
    - rewrite nth_error_app1 in * by auto. eauto.
    - rewrite nth_error_app2 in * by lia. rewrite L, Nat.sub_diag in *. inversion H; subst. exists old. auto.
    - rewrite nth_error_app2 in * by lia. destruct (i - length l1) as [|k] eqn:E; [lia|]. cbn in *. eauto. }
  intros i j a b Hi Hj [T O]. apply G in Hi, Hj. destruct Hi as (a' & Hi & T1 & N1). destruct Hj as (b' & Hj & T2 & N2).
  eapply U; eauto. split; congruence.
Qed.
Lemma add_rrset_unique : forall r s rs r', wf_name (rs_name rs) -> owners_ok (sets (get_section r s)) -> unique_sets (sets (get_section r s)) ->
  add_rrset r s rs = Ok r' -> unique_sets (sets (get_section r' s)).
Proof.
  intros r s rs r' W Ow U H. destruct (add_rrset_spec r s rs W Ow) as (l & E & C). rewrite H in E. inversion E; subst r'.
  rewrite get_put, Nat.eqb_refl. cbn [sets]. destruct C as [[F ->]|(l1 & old & l2 & El & F & Sm & ->)]; [apply unique_app; auto|].
  rewrite El in U. apply unique_merge; auto.
Qed.

(** ** C37 *)
Lemma section_count : forall s, section_rr_count s = length (records s).
Proof.
  intros [l|]; [|reflexivity]. cbn [section_rr_count records].
  assert (G : forall l n, fold_left (fun count rs => if rr_count rs =? 0 then count + 1 else count + rr_count rs) l n = n + length (flat_map rrs_of l)); [|apply (G l 0)].
  clear l. induction l as [|rs l IH]; intros n; cbn [fold_left flat_map]; [cbn; lia|]. rewrite IH, app_length. unfold rr_count, rrs_of.
  destruct (rs_rdatas rs) as [|d ds]; [cbn; lia|]. rewrite map_length. cbn [length]. destruct (S (length ds) =? 0) eqn:E; [discriminate|]. lia.
Qed.
Lemma done_counts : forall r, let d := builder_done r in
  r_question d = r_question r /\ r_answer d = r_answer r /\ r_authority d = r_authority r /\ r_additional d = r_additional r /\
  h_id (r_header d) = h_id (r_header r) /\ h_flag (r_header d) = h_flag (r_header r) /\ h_opcode (r_header d) = h_opcode (r_header r) /\ h_rcode (r_header d) = h_rcode (r_header r) /\
  h_qd (r_header d) = 1%N /\
  (blen (records (r_answer r)) < 65536 -> h_an (r_header d) = blen (records (r_answer r)))%N /\
  (blen (records (r_authority r)) < 65536 -> h_ns (r_header d) = blen (records (r_authority r)))%N /\
  (blen (records (r_additional r)) < 65536 -> h_ar (r_header d) = blen (records (r_additional r)))%N.
Proof.
  intros r d. unfold d, builder_done, recalculate_header. cbn [r_question r_answer r_authority r_additional r_header h_id h_flag h_opcode h_rcode h_qd h_an h_ns h_ar].
  rewrite !section_count. unfold blen, as_u16. do 9 (split; [reflexivity|]). split; [|split]; intros L; apply N.mod_small; auto.
Qed.
(** What the builder needs to be given for a response that survives the wire. *)
Lemma section_ok_built : forall l add, l <> [] -> Forall rrset_ok l -> unique_sets l -> (add = false -> Forall (fun rs => rs_type rs <> TOPT) l) -> (blen (records (Some l)) < 65536)%N ->
  section_ok add (blen (records (Some l))) (Some l).
Proof.
  intros l add Nl F U T L. split; auto. split; auto. split; auto. split.
  - clear - U. revert U. induction l as [|a l IH]; intros U; cbn [runs_differ]; auto. destruct l as [|b l]; auto. split.
    + intros Sm. specialize (U 0 1 a b eq_refl eq_refl Sm). discriminate.
    + apply IH. intros i j x y Hi Hj Sm. assert (E : S i = S j) by (eapply U; eauto; cbn; auto). lia.
  - intros Ea rs l' El. specialize (T Ea). rewrite Forall_forall in T. apply T. subst. left. auto.
Qed.

Definition add_sec (s : section_type) : bool := match s with SAdditional => true | _ => false end.
Definition sec_good (add : bool) (s : section) : Prop :=
  match s with None => True | Some l => l <> [] /\ Forall rrset_ok l /\ unique_sets l /\ (add = false -> Forall (fun rs => rs_type rs <> TOPT) l) end.
Definition built (r : response) : Prop := header_ok (r_header r) /\ question_ok (r_question r) /\ forall s, sec_good (add_sec s) (get_section r s).
Lemma sec_owners : forall add s, sec_good add s -> owners_ok (sets s).
Proof. intros add [l|] H; [|constructor]. destruct H as (_ & F & _). eapply Forall_impl; [|exact F]. intros a Ha. apply Ha. Qed.
Lemma sec_unique : forall add s, sec_good add s -> unique_sets (sets s).
Proof. intros add [l|] H; [apply H|]. intros i j a b Hi. destruct i; discriminate. Qed.
Lemma merged_ok : forall old rs, rrset_ok old -> rrset_ok rs -> same_set old rs -> (rs_type rs <> TOPT \/ rs_rdatas rs = []) -> rrset_ok (merged old rs).
Proof.
  intros old rs (A1 & A2 & A3 & A4 & A5 & A6 & A7) (B1 & B2 & B3 & B4 & B5 & B6 & B7) [T _] H. unfold rrset_ok, merged. cbn [rs_name rs_type rs_class rs_ttl rs_rdatas].
  do 4 (split; [assumption|]). split; [apply Forall_app; split; auto; rewrite T; auto|]. split.
  - intros E. apply app_eq_nil in E. apply A6, E.
  - intros E. destruct H as [H|H]; [congruence|]. rewrite H, app_nil_r. auto.
Qed.
Lemma add_good : forall r s rs, built r -> rrset_ok rs -> (rs_type rs <> TOPT \/ s = SAdditional /\ rs_rdatas rs = []) ->
  exists r', add_rrset r s rs = Ok r' /\ built r'.
Proof.
  intros r s rs (Hh & Hq & Hs) Ok Ty. pose proof (sec_owners _ _ (Hs s)) as Ow. pose proof (sec_unique _ _ (Hs s)) as Un.
  destruct (add_rrset_spec r s rs (proj1 Ok) Ow) as (l & E & C).
  pose proof (add_rrset_unique r s rs _ (proj1 Ok) Ow Un E) as Un'. rewrite get_put, Nat.eqb_refl in Un'. cbn [sets] in Un'.
  exists (put_section r s (Some l)). split; auto. destruct (put_rest r s (Some l)) as [E1 E2]. split; [rewrite E1; auto|]. split; [rewrite E2; auto|].
  intros s'. rewrite get_put. destruct (Nat.eqb_spec (section_index s) (section_index s')) as [Es|Es]; [|apply Hs]. apply index_inj in Es. subst s'.
  specialize (Hs s). cbn [sec_good].
  assert (F0 : Forall rrset_ok (sets (get_section r s))) by (destruct (get_section r s); [apply Hs|constructor]).
  assert (T0 : add_sec s = false -> Forall (fun x => rs_type x <> TOPT) (sets (get_section r s))) by (destruct (get_section r s); [apply Hs|constructor]).
  destruct C as [[F ->]|(l1 & old & l2 & El & F & Sm & ->)].
  - split; [intros X; apply app_eq_nil in X; destruct X; discriminate|]. split; [apply Forall_app; auto|]. split; auto.
    intros Ea. apply Forall_app. split; auto. constructor; [|constructor]. destruct Ty as [Ty|[-> _]]; auto; discriminate.
  - split; [destruct l1; discriminate|]. rewrite El in F0, T0. apply Forall_app in F0. destruct F0 as [F1 F2]. apply Forall_cons_iff in F2. destruct F2 as [F2 F3]. split.
    + apply Forall_app. split; auto. constructor; auto. apply merged_ok; auto. destruct Ty as [Ty|[_ Ty]]; auto.
    + split; auto. intros Ea. specialize (T0 Ea). apply Forall_app in T0. destruct T0 as [T1 T2]. apply Forall_cons_iff in T2. destruct T2 as [T2 T3].
      apply Forall_app. split; auto.
Qed.
Lemma good_step : forall o r, good_op o -> built r -> exists r', bop_call o r = Ok r' /\ built r'.
Proof.
  intros o r G B. pose proof B as (Hh & Hq & Hs). pose proof Hh as ((H1 & H2 & H3 & H4 & H5) & H6).
  destruct o; cbn [bop_call good_op] in *; try contradiction; try (eexists; split; [reflexivity|]).
  - split; [|split; auto]. split; [|exact H6]. cbn. auto.
  - split; [exact (CodesProofs.set_flag_ok (r_header r) f true Hh)|split; auto].
  - split; [exact (CodesProofs.set_flag_ok (r_header r) f false Hh)|split; auto].
  - split; [|split; auto]. split; [|exact H6]. cbn. auto.
  - split; [|split; auto]. split; [|exact H6]. cbn. auto.
  - split; [|split]; auto.
  - apply add_good; auto. apply edns_rrset_ok; auto.
  - split; [exact (CodesProofs.set_flag_ok (r_header r) QR true Hh)|split; auto].
  - apply add_good; auto; tauto.
  - split; [|split]; [destruct s; auto|destruct s; auto|]. intros s'. unfold clear_section. rewrite get_put. destruct (_ =? _); [exact Logic.I|apply Hs].
Qed.
Lemma good_build : forall ops r, Forall good_op ops -> built r -> exists r', build ops r = Ok r' /\ built r'.
Proof.
  induction ops as [|o ops IH]; intros r F B; cbn [build]; [eauto|]. apply Forall_cons_iff in F. destruct F as [F1 F2].
  destruct (good_step o r F1 B) as (r1 & -> & B1). cbn [rbind]. auto.
Qed.
Lemma with_question_built : forall rnd n t, (rnd < 65536)%N -> wf_name n -> type_ok t -> built (response_with_question rnd n t).
Proof.
  intros rnd n t Hr Hn Ht. split; [|split].
  - apply CodesProofs.set_flag_ok. split; [repeat split; auto|]. intros i H. discriminate.
  - split; auto. split; auto. split; reflexivity.
  - intros []; exact Logic.I.
Qed.
Lemma built_consistent : forall r, built r -> (blen (records (r_answer r)) < 65536)%N -> (blen (records (r_authority r)) < 65536)%N -> (blen (records (r_additional r)) < 65536)%N ->
  consistent (builder_done r).
Proof.
  intros r (Hh & Hq & Hs) L1 L2 L3. pose proof (done_counts r) as (E1 & E2 & E3 & E4 & E5 & E6 & E7 & E8 & E9 & C1 & C2 & C3).
  pose proof Hh as ((H1 & H2 & H3 & H4 & H5) & H6). unfold consistent. rewrite E1, E2, E3, E4, E9, C1, C2, C3 by auto.
  assert (G : forall s, (blen (records (get_section r s)) < 65536)%N -> section_ok (add_sec s) (blen (records (get_section r s))) (get_section r s)).
  { intros s L. specialize (Hs s). destruct (get_section r s) as [l|]; [|split; auto; exact Logic.I]. destruct Hs as (A1 & A2 & A3 & A4). apply section_ok_built; auto. }
  split; [|split; [reflexivity|split; [exact Hq|split; [exact (G SAnswer L1)|split; [exact (G SAuthority L2)|exact (G SAdditional L3)]]]]].
  split; [rewrite E5, E9, C1, C2, C3 by auto; auto|rewrite E6; auto]. repeat split; auto. 
Qed.
Lemma builder_consistent : forall rnd n t ops, (rnd < 65536)%N -> wf_name n -> type_ok t -> Forall good_op ops ->
  exists r, build ops (response_with_question rnd n t) = Ok r /\
    ((blen (records (r_answer r)) < 65536)%N -> (blen (records (r_authority r)) < 65536)%N -> (blen (records (r_additional r)) < 65536)%N -> consistent (builder_done r)).
Proof.
  intros rnd n t ops Hr Hn Ht F. destruct (good_build ops _ F (with_question_built rnd n t Hr Hn Ht)) as (r & E & B). exists r. split; auto. apply built_consistent; auto.
Qed.

(** ** C36 *)
Lemma add_edns_spec : forall r e r', owners_ok (sets (r_additional r)) -> add_edns r e = Ok r' ->
  Forall (fun x => ~ same_set x (edns_to_rrset e)) (sets (r_additional r)) ->
  r' = put_section r SAdditional (Some (sets (r_additional r) ++ [edns_to_rrset e])).
Proof.
  intros r e r' Ow H F.
  assert (W : wf_name (rs_name (edns_to_rrset e))) by (exists []; split; [split; [constructor|vm_compute; lia]|reflexivity]).
  destruct (add_rrset_spec r SAdditional (edns_to_rrset e) W Ow) as (l & E & C). unfold add_edns in H. rewrite H in E. inversion E; subst r'.
  cbn [get_section] in C. destruct C as [[_ ->]|(l1 & old & l2 & El & _ & Sm & _)]; auto. exfalso. rewrite El in F. apply Forall_app in F. destruct F as [_ F].
  apply Forall_cons_iff in F. apply F. auto.
Qed.
Lemma get_edns_last : forall r l rs e, r_additional r = Some (l ++ [rs]) -> rs_type rs = TOPT -> edns_from_rrset rs = Ok e -> get_edns r = Ok (Some e).
Proof. intros r l rs e E T F. unfold get_edns. rewrite E, rev_app_distr. cbn [rev app]. rewrite T. change (rrtype_eqb TOPT TOPT) with true. cbv iota. rewrite F. reflexivity. Qed.
Lemma keeps : forall ops r r', Forall keeps_additional ops -> build ops r = Ok r' -> r_additional r' = r_additional r.
Proof.
  induction ops as [|o ops IH]; intros r r' F H; cbn [build] in H; [inversion H; auto|]. apply Forall_cons_iff in F. destruct F as [F1 F2].
  destruct (bop_call o r) as [r1| | |] eqn:E; cbn [rbind] in H; try discriminate. rewrite (IH r1 r' F2 H).
  destruct o; cbn [bop_call keeps_additional] in *; try contradiction; try (inversion E; subst; reflexivity).
  - destruct s; [| |contradiction].
    + unfold add_rrset in E. destruct (get_section r SAnswer); [|inversion E; reflexivity]. destruct (find_same rs l) as [[i|]| | |]; cbn [rbind] in E; try discriminate; [|inversion E; reflexivity].
      destruct (idx l i) as [x| | |]; cbn [rbind] in E; try discriminate. destruct (upd_r l i _) as [y| | |]; cbn [rbind] in E; try discriminate. inversion E. reflexivity.
    + unfold add_rrset in E. destruct (get_section r SAuthority); [|inversion E; reflexivity]. destruct (find_same rs l) as [[i|]| | |]; cbn [rbind] in E; try discriminate; [|inversion E; reflexivity].
      destruct (idx l i) as [x| | |]; cbn [rbind] in E; try discriminate. destruct (upd_r l i _) as [y| | |]; cbn [rbind] in E; try discriminate. inversion E. reflexivity.
  - destruct s; [| |contradiction]; inversion E; subst; unfold remove_rrset_by; cbn [get_section]; [destruct (r_answer r)|destruct (r_authority r)]; reflexivity.
  - destruct s; [| |contradiction]; inversion E; reflexivity.
  - destruct s; [| |contradiction]; inversion E; reflexivity.
Qed.
Lemma edns_visible : forall r e ops r', owners_ok (sets (r_additional r)) -> edns_ok e -> e_options e = None ->
  (forall x, In x (sets (r_additional r)) -> rs_type x <> TOPT) -> Forall keeps_additional ops ->
  build (BEdns e :: ops) r = Ok r' -> get_edns r' = Ok (Some e).
Proof.
  intros r e ops r' Ow He Ho No F H. cbn [build bop_call] in H. destruct (add_edns r e) as [r1| | |] eqn:E; cbn [rbind] in H; try discriminate.
  apply add_edns_spec in E; auto.
  2:{ apply Forall_forall. intros x Hx [T _]. apply (No x Hx). exact T. }
  pose proof (keeps ops r1 r' F H) as K. apply (get_edns_last r' (sets (r_additional r)) (edns_to_rrset e)); [|reflexivity|apply edns_rrset; auto].
  rewrite K, E. reflexivity.
Qed.

(** ** C36, exactly *)
Definition nonopt (l : list rrset) : Prop := Forall (fun x => rs_type x <> TOPT) l.
Definition covers (A : list rrset) (K : rrset -> Prop) : Prop := forall rs, (exists x, In x A /\ same_set x rs) <-> (exists x, K x /\ same_set x rs).
Lemma merged_same : forall old rs x, same_set (merged old rs) x <-> same_set old x.
Proof. intros. reflexivity. Qed.
Lemma merged_keys : forall l1 old l2 rs y, (exists x, In x (l1 ++ merged old rs :: l2) /\ same_set x y) <-> (exists x, In x (l1 ++ old :: l2) /\ same_set x y).
Proof.
  intros l1 old l2 rs y. split; intros (x & Hx & S1).
  - apply in_app_iff in Hx. destruct Hx as [Hx|Hx]; [exists x; split; [apply in_app_iff; auto|auto]|]. destruct Hx as [<-|Hx]; [exists old; split; [apply in_app_iff; right; left; auto|exact S1]|exists x; split; [apply in_app_iff; right; right; auto|auto]].
  - apply in_app_iff in Hx. destruct Hx as [Hx|Hx]; [exists x; split; [apply in_app_iff; auto|auto]|]. destruct Hx as [<-|Hx]; [exists (merged old rs); split; [apply in_app_iff; right; left; auto|exact S1]|exists x; split; [apply in_app_iff; right; right; auto|auto]].
Qed.
Lemma merged_forall : forall (P : rrset -> Prop) l1 old l2 rs, (P old -> P (merged old rs)) -> Forall P (l1 ++ old :: l2) -> Forall P (l1 ++ merged old rs :: l2).
Proof. intros P l1 old l2 rs H F. apply Forall_app in F. destruct F as [F1 F2]. apply Forall_app. split; auto. apply Forall_cons_iff in F2. constructor; tauto. Qed.
Lemma add_sets : forall r rs r', wf_name (rs_name rs) -> owners_ok (sets (r_additional r)) -> add_rrset r SAdditional rs = Ok r' ->
  (Forall (fun x => ~ same_set x rs) (sets (r_additional r)) /\ sets (r_additional r') = sets (r_additional r) ++ [rs]) \/
  exists l1 old l2, sets (r_additional r) = l1 ++ old :: l2 /\ Forall (fun x => ~ same_set x rs) l1 /\ same_set old rs /\ sets (r_additional r') = l1 ++ merged old rs :: l2.
Proof.
  intros r rs r' W O H. destruct (add_rrset_spec r SAdditional rs W O) as (l & E & D). rewrite H in E. apply Ok_inj in E. subst r'. exact D.
Qed.
Lemma edns_owner : forall e, wf_name (rs_name (edns_to_rrset e)).
Proof. intros e. exists []. split; [split; [constructor|vm_compute; lia]|reflexivity]. Qed.
Lemma same_edns : forall e e', same_set (edns_to_rrset e) (edns_to_rrset e').
Proof. intros e e'. split; [reflexivity|]. exists [], []. repeat split; try constructor; vm_compute; lia. Qed.
(** one call that is not an [edns] call, before any *)
Lemma step1 : forall o r r' K, edns_op o -> (forall e, o <> BEdns e) -> bop_call o r = Ok r' ->
  owners_ok (sets (r_additional r)) -> nonopt (sets (r_additional r)) -> covers (sets (r_additional r)) K ->
  owners_ok (sets (r_additional r')) /\ nonopt (sets (r_additional r')) /\ covers (sets (r_additional r')) (fun x => K x \/ o = BAdd SAdditional x).
Proof.
  intros o r r' K G Ne H Ow No Cv.
  assert (Kp : keeps_additional o -> owners_ok (sets (r_additional r')) /\ nonopt (sets (r_additional r')) /\ covers (sets (r_additional r')) (fun x => K x \/ o = BAdd SAdditional x)).
  { intros Kp. assert (E : r_additional r' = r_additional r) by (apply (keeps [o]); [constructor; auto|cbn [build]; rewrite H; reflexivity]). rewrite E.
    split; auto. split; auto. intros rs. rewrite (Cv rs). split; intros (x & Hx & S1); exists x; split; auto. destruct Hx as [Hx| ->]; auto. destruct Kp. }
  destruct o as [| | | | | |e| |s rs|s f|s|s f]; try (apply Kp; exact Logic.I); [destruct (Ne e eq_refl)| | | |]; destruct s; try (apply Kp; exact Logic.I); try destruct G.
  cbn [bop_call] in H. destruct (add_sets r rs r' H0 Ow H) as [[F ->]|(l1 & old & l2 & El & F & S1 & ->)].
  - split; [apply Forall_app; split; auto; constructor; auto; constructor|]. split; [apply Forall_app; split; auto; constructor; auto; constructor|].
    intros y. split.
    + intros (x & Hx & Sx). apply in_app_iff in Hx. destruct Hx as [Hx|[<-|[]]]; [destruct (proj1 (Cv y)) as (z & Hz & Sz); [eauto|exists z; auto]|exists rs; auto].
    + intros (x & [Hx|Hx] & Sx); [destruct (proj2 (Cv y)) as (z & Hz & Sz); [eauto|exists z; split; auto; apply in_app_iff; auto]|]. injection Hx as <-. exists rs. split; auto. apply in_app_iff. right. left. auto.
  - rewrite El in *. split; [apply merged_forall; auto|]. split; [apply merged_forall; auto|]. intros y. rewrite merged_keys. rewrite (Cv y). split.
    + intros (x & Hx & Sx). exists x. auto.
    + intros (x & [Hx|Hx] & Sx); [eauto|]. injection Hx as <-. apply (Cv y). exists old. split; [apply in_app_iff; right; left; auto|]. eapply same_set_trans; eauto.
Qed.
Lemma run1 : forall ops r r' K, Forall edns_op ops -> (forall e, ~ In (BEdns e) ops) -> build ops r = Ok r' ->
  owners_ok (sets (r_additional r)) -> nonopt (sets (r_additional r)) -> covers (sets (r_additional r)) K ->
  owners_ok (sets (r_additional r')) /\ nonopt (sets (r_additional r')) /\ covers (sets (r_additional r')) (fun x => K x \/ In (BAdd SAdditional x) ops).
Proof.
  induction ops as [|o ops IH]; intros r r' K G Ne H Ow No Cv; cbn [build] in H.
  - apply Ok_inj in H. subst r'. split; auto. split; auto. intros y. rewrite (Cv y). split; intros (x & Hx & S1); exists x; split; auto. destruct Hx as [Hx|[]]; auto.
  - destruct (bop_call o r) as [r1| | |] eqn:E; cbn [rbind] in H; try discriminate. apply Forall_cons_iff in G. destruct G as [G1 G2].
    destruct (step1 o r r1 K G1 (fun e X => Ne e (or_introl X)) E Ow No Cv) as (O1 & N1 & C1).
    destruct (IH r1 r' _ G2 (fun e X => Ne e (or_intror X)) H O1 N1 C1) as (O2 & N2 & C2). split; auto. split; auto. intros y. rewrite (C2 y).
    split; intros (x & Hx & S1); exists x; split; auto; cbn [In] in *; tauto.
Qed.
(** after the first [edns] call *)
Definition opt_at (L : list rrset) (e : edns) (K1 K2 : rrset -> Prop) : Prop := exists A o B, L = A ++ o :: B /\
  rs_type o = TOPT /\ rs_name o = root_name /\ rs_class o = rrclass_new (e_udp e) /\ rs_ttl o = edns_flags e /\ nonopt A /\ nonopt B /\ covers A K1 /\
  ((B = [] /\ forall rs, K2 rs -> exists x, K1 x /\ same_set x rs) \/ (B <> [] /\ exists rs, K2 rs /\ ~ exists x, K1 x /\ same_set x rs)).
Lemma mid_split : forall A (l1 : list A) x l2 l3 y l4, l1 ++ x :: l2 = l3 ++ y :: l4 -> x <> y ->
  (exists l, l1 = l3 ++ y :: l /\ l4 = l ++ x :: l2) \/ (exists l, l3 = l1 ++ x :: l /\ l2 = l ++ y :: l4).
Proof.
  induction l1 as [|a l1 IH]; intros x l2 [|b l3] y l4 H Ne; cbn [app] in H; injection H as H1 H2.
  - congruence.
  - subst. right. exists l3. auto.
  - subst. left. exists l1. auto.
  - subst b. destruct (IH _ _ _ _ _ H2 Ne) as [(l & -> & ->)|(l & -> & ->)]; [left|right]; exists l; auto.
Qed.
Lemma step2 : forall o r r' e K1 K2, edns_op o -> bop_call o r = Ok r' ->
  owners_ok (sets (r_additional r)) -> opt_at (sets (r_additional r)) e K1 K2 ->
  owners_ok (sets (r_additional r')) /\ opt_at (sets (r_additional r')) e K1 (fun x => K2 x \/ o = BAdd SAdditional x).
Proof.
  intros o r r' e K1 K2 G H Ow P.
  assert (Kp : keeps_additional o -> owners_ok (sets (r_additional r')) /\ opt_at (sets (r_additional r')) e K1 (fun x => K2 x \/ o = BAdd SAdditional x)).
  { intros Kp. assert (E : r_additional r' = r_additional r) by (apply (keeps [o]); [constructor; auto|cbn [build]; rewrite H; reflexivity]). rewrite E.
    split; auto. destruct P as (A & u & B & P1 & P2 & P3 & P4 & P5 & P6 & P7 & P8 & P9). exists A, u, B. do 8 (split; [assumption|]).
    destruct P9 as [[PB P9]|[PB (y & Hy & P9)]]; [left|right]; split; auto; [|exists y; auto]. intros y [Hy| ->]; auto. destruct Kp. }
  destruct o as [| | | | | |e2| |s rs|s f|s|s f]; try (apply Kp; exact Logic.I); [| | | |]; try destruct s; try (apply Kp; exact Logic.I); try destruct G as [].
  - (* edns *)
    cbn [bop_call] in H. unfold add_edns in H. destruct P as (A & u & B & P1 & P2 & P3 & P4 & P5 & P6 & P7 & P8 & P9).
    assert (Su : same_set u (edns_to_rrset e2)) by (split; [exact P2|rewrite P3; apply (same_edns e2 e2)]).
    destruct (add_sets r _ r' (edns_owner e2) Ow H) as [[F ->]|(l1 & old & l2 & El & F & S1 & ->)].
    + exfalso. rewrite P1 in F. apply Forall_app in F. destruct F as [_ F]. apply Forall_cons_iff in F. tauto.
    + assert (E3 : l1 = A /\ old = u /\ l2 = B).
      { rewrite P1 in El. assert (Ty : rs_type old = TOPT) by (destruct S1 as [T _]; exact T).
        revert l1 El F. clear - P6 Su Ty. induction A as [|a A IH]; intros [|b l1] El F; cbn [app] in El; injection El as E1 E2.
        - subst. auto.
        - subst. apply Forall_cons_iff in F. tauto.
        - subst. apply Forall_cons_iff in P6. tauto.
        - subst. apply Forall_cons_iff in F. apply Forall_cons_iff in P6. destruct (IH (proj2 P6) _ E2 (proj2 F)) as (-> & ? & ?). auto. }
      destruct E3 as (-> & -> & ->). split; [rewrite P1 in Ow; apply merged_forall; auto|]. exists A, (merged u (edns_to_rrset e2)), B. split; [reflexivity|]. do 7 (split; [assumption|]).
      destruct P9 as [[PB P9]|[PB (y & Hy & P9)]]; [left|right]; split; auto; [|exists y; auto]. intros y [Hy|Hy]; auto. discriminate.
  - (* add *)
    rename H0 into G1. rename H1 into G2. cbn [bop_call] in H. destruct P as (A & u & B & P1 & P2 & P3 & P4 & P5 & P6 & P7 & P8 & P9).
    destruct (add_sets r rs r' G1 Ow H) as [[F ->]|(l1 & old & l2 & El & F & S1 & ->)].
    + rewrite P1 in F |- *. split; [apply Forall_app; split; [rewrite <- P1; exact Ow|constructor; auto; constructor]|]. exists A, u, (B ++ [rs]). rewrite <- app_assoc. split; [reflexivity|].
      do 5 (split; [assumption|]). split; [apply Forall_app; split; auto; constructor; auto; constructor|]. split; [assumption|]. right. split; [destruct B; discriminate|].
      exists rs. split; auto. intros X. apply P8 in X. destruct X as (x & Hx & Sx). apply Forall_app in F. destruct F as [F _]. rewrite Forall_forall in F. exact (F x Hx Sx).
    + assert (Nu : old <> u) by (intros ->; destruct S1 as [T _]; congruence). rewrite P1 in El. assert (Ow2 := Ow). rewrite P1, El in Ow2. split; [apply merged_forall; auto|].
      destruct (mid_split _ _ _ _ _ _ _ (eq_sym El) Nu) as [(l & -> & ->)|(l & -> & ->)].
      * exists A, u, (l ++ merged old rs :: l2). rewrite <- app_assoc. split; [reflexivity|]. do 5 (split; [assumption|]). split; [apply merged_forall; auto|]. split; [assumption|]. right. split; [destruct l; discriminate|].
        exists rs. split; auto. intros X. apply P8 in X. destruct X as (x & Hx & Sx). apply Forall_app in F. destruct F as [F _]. rewrite Forall_forall in F. exact (F x Hx Sx).
      * exists (l1 ++ merged old rs :: l), u, B. rewrite <- app_assoc. cbn [app]. split; [reflexivity|]. do 4 (split; [assumption|]). split; [apply merged_forall; auto|]. split; [assumption|].
        split; [intros y; rewrite merged_keys; apply P8|].
        destruct P9 as [[PB P9]|[PB (y & Hy & P9)]]; [left|right]; split; auto; [|exists y; auto]. intros y [Hy|Hy]; auto. injection Hy as <-. apply P8. exists old. split; auto. apply in_app_iff. right. left. auto.
Qed.
Lemma run2 : forall ops r r' e K1 K2, Forall edns_op ops -> build ops r = Ok r' ->
  owners_ok (sets (r_additional r)) -> opt_at (sets (r_additional r)) e K1 K2 ->
  opt_at (sets (r_additional r')) e K1 (fun x => K2 x \/ In (BAdd SAdditional x) ops).
Proof.
  induction ops as [|o ops IH]; intros r r' e K1 K2 G H Ow P; cbn [build] in H.
  - apply Ok_inj in H. subst r'. destruct P as (A & u & B & P1 & P2 & P3 & P4 & P5 & P6 & P7 & P8 & P9). exists A, u, B. do 8 (split; [assumption|]).
    destruct P9 as [[PB P9]|[PB (y & Hy & P9)]]; [left|right]; split; auto; [|exists y; auto]. intros y [Hy|[]]; auto.
  - destruct (bop_call o r) as [r1| | |] eqn:E; cbn [rbind] in H; try discriminate. apply Forall_cons_iff in G. destruct G as [G1 G2].
    destruct (step2 o r r1 e K1 K2 G1 E Ow P) as (O1 & P1). destruct (IH r1 r' e K1 _ G2 H O1 P1) as (A & u & B & Q1 & Q2 & Q3 & Q4 & Q5 & Q6 & Q7 & Q8 & Q9).
    exists A, u, B. do 8 (split; [assumption|]). destruct Q9 as [[PB Q9]|[PB (y & Hy & Q9)]]; [left|right]; split; auto.
    + intros y Hy. apply Q9. cbn [In] in Hy. tauto.
    + exists y. split; auto. cbn [In]. tauto.
Qed.
Lemma split_edns : forall ops, (forall e, ~ In (BEdns e) ops) \/ exists l1 e l2, ops = l1 ++ BEdns e :: l2 /\ forall e2, ~ In (BEdns e2) l1.
Proof.
  induction ops as [|o ops IH]; [left; intros e []|].
  assert (D : (exists e, o = BEdns e) \/ forall e, o <> BEdns e) by (destruct o; try (right; intros; discriminate); left; eauto).
  destruct D as [(e & ->)|D]; [right; exists [], e, ops; split; [reflexivity|intros e2 []]|].
  destruct IH as [IH|(l1 & e & l2 & -> & IH)].
  - left. intros e [X|X]; [exact (D e X)|exact (IH e X)].
  - right. exists (o :: l1), e, l2. split; [reflexivity|]. intros e2 [X|X]; [exact (D e2 X)|exact (IH e2 X)].
Qed.
Lemma build_app : forall l1 l2 r r', build (l1 ++ l2) r = Ok r' -> exists r1, build l1 r = Ok r1 /\ build l2 r1 = Ok r'.
Proof.
  induction l1 as [|o l1 IH]; intros l2 r r' H; cbn [app build] in *; [eauto|]. destruct (bop_call o r) as [r1| | |]; cbn [rbind] in *; try discriminate. apply IH. exact H.
Qed.
Lemma edns_ttl : forall u e, edns_ok e -> rs_type u = TOPT -> rs_class u = rrclass_new (e_udp e) -> rs_ttl u = edns_flags e -> edns_from_rrset u = Ok (no_options e).
Proof.
  intros u e He T C Tt. pose proof (edns_rrset (no_options e) He eq_refl) as R. unfold edns_from_rrset in *. rewrite T, C, Tt. exact R.
Qed.
Lemma get_edns_sets : forall r, get_edns r = match rev (sets (r_additional r)) with rs :: _ => if rrtype_eqb (rs_type rs) TOPT then let? e := edns_from_rrset rs in Ok (Some e) else Ok None | [] => Ok None end.
Proof. intros r. unfold get_edns. destruct (r_additional r); reflexivity. Qed.
Lemma type_opt : forall t, rrtype_eqb t TOPT = true -> t = TOPT.
Proof. intros t H. destruct t; try discriminate; reflexivity. Qed.
Lemma last_nonopt : forall r, sets (r_additional r) = [] \/ (exists l x, sets (r_additional r) = l ++ [x] /\ rs_type x <> TOPT) -> get_edns r = Ok None.
Proof.
  intros r [E|(l & x & E & T)]; rewrite get_edns_sets, E; [reflexivity|]. rewrite rev_app_distr. cbn [rev app]. destruct (rrtype_eqb (rs_type x) TOPT) eqn:Q; auto. destruct (T (type_opt _ Q)).
Qed.
Lemma list_end : forall A (l : list A), l = [] \/ exists l' x, l = l' ++ [x].
Proof. intros A l. destruct l as [|y l]; auto. right. destruct (@exists_last A (y :: l)) as (l' & x & E); [discriminate|]. exists l', x. exact E. Qed.
Lemma nonopt_last : forall l, nonopt l -> l = [] \/ exists l' x, l = l' ++ [x] /\ rs_type x <> TOPT.
Proof. intros l F. destruct (list_end _ l) as [->|(l' & x & ->)]; auto. right. exists l', x. split; auto. apply Forall_app in F. destruct F as [_ F]. apply Forall_inv in F. exact F. Qed.
Lemma edns_exact : forall r ops r', owners_ok (sets (r_additional r)) -> (forall x, In x (sets (r_additional r)) -> rs_type x <> TOPT) -> Forall edns_op ops -> build ops r = Ok r' ->
  (forall e, get_edns r' = Ok (Some e) <-> edns_in_view (sets (r_additional r)) ops e) /\ (get_edns r' = Ok None <-> forall e, ~ edns_in_view (sets (r_additional r)) ops e).
Proof.
  intros r ops r' Ow No G H.
  assert (Main : (exists e, get_edns r' = Ok (Some e) /\ edns_in_view (sets (r_additional r)) ops e /\ forall e2, edns_in_view (sets (r_additional r)) ops e2 -> e2 = e) \/
                 (get_edns r' = Ok None /\ forall e, ~ edns_in_view (sets (r_additional r)) ops e)).
  { assert (Uniq : forall (l1 : list bop) e l2 l3 e' l4, l1 ++ BEdns e :: l2 = l3 ++ BEdns e' :: l4 -> (forall e2, ~ In (BEdns e2) l1) -> (forall e2, ~ In (BEdns e2) l3) -> l1 = l3 /\ e = e' /\ l2 = l4).
    { clear. induction l1 as [|a l1 IH]; intros e l2 [|b l3] e' l4 E N1 N3; cbn [app] in E; injection E as E1 E2; subst.
      - auto.
      - destruct (N3 e). left. auto.
      - destruct (N1 e'). left. auto.
      - destruct (IH _ _ _ _ _ E2) as (-> & -> & ->); auto; intros e2 X; [apply (N1 e2)|apply (N3 e2)]; right; auto. }
    assert (No' : nonopt (sets (r_additional r))) by (apply Forall_forall; exact No).
    assert (C0 : covers (sets (r_additional r)) (fun x => In x (sets (r_additional r)))) by (intros y; reflexivity).
    destruct (split_edns ops) as [Ne|(l1 & e & l2 & -> & Ne)].
    - right. destruct (run1 ops r r' _ G Ne H Ow No' C0) as (_ & N1 & _). split; [apply last_nonopt, nonopt_last, N1|]. intros e (l1 & e' & l2 & E & _). apply (Ne e'). rewrite E. apply in_app_iff. right. left. auto.
    - apply Forall_app in G. destruct G as [G1 G2]. apply Forall_cons_iff in G2. destruct G2 as [Ge G2].
      apply build_app in H. destruct H as (r1 & H1 & H). cbn [build bop_call] in H. destruct (add_edns r1 e) as [r2| | |] eqn:E; cbn [rbind] in H; try discriminate.
      destruct (run1 l1 r r1 _ G1 Ne H1 Ow No' C0) as (O1 & N1 & C1).
      apply add_edns_spec in E; auto.
      2:{ apply Forall_forall. intros x Hx [T _]. pose proof (proj1 (Forall_forall _ _) N1) as N2. apply (N2 x Hx). exact T. }
      assert (E2 : sets (r_additional r2) = sets (r_additional r1) ++ [edns_to_rrset e]) by (subst r2; reflexivity).
      assert (P : opt_at (sets (r_additional r2)) e (fun x => In x (sets (r_additional r)) \/ In (BAdd SAdditional x) l1) (fun _ => False)).
      { exists (sets (r_additional r1)), (edns_to_rrset e), []. split; [exact E2|]. do 4 (split; [reflexivity|]). split; [exact N1|]. split; [constructor|]. split; [exact C1|]. left. split; auto. intros y []. }
      assert (O2 : owners_ok (sets (r_additional r2))) by (rewrite E2; apply Forall_app; split; auto; constructor; [apply edns_owner|constructor]).
      destruct (run2 l2 r2 r' e _ _ G2 H O2 P) as (A & u & B & P1 & P2 & P3 & P4 & P5 & P6 & P7 & P8 & P9).
      destruct P9 as [[-> P9]|[PB (y & Hy & P9)]].
      + left. exists (no_options e). split; [|split].
        * rewrite get_edns_sets, P1, rev_app_distr. cbn [rev app]. rewrite P2. change (rrtype_eqb TOPT TOPT) with true. cbv iota. rewrite (edns_ttl u e Ge P2 P4 P5). reflexivity.
        * exists l1, e, l2. split; [reflexivity|]. split; [reflexivity|]. split; [exact Ne|]. intros rs Hr. apply P9. right. exact Hr.
        * intros e2 (m1 & e' & m2 & Em & -> & Nm & _). destruct (Uniq _ _ _ _ _ _ Em Ne Nm) as (_ & -> & _). reflexivity.
      + right. split.
        * apply last_nonopt. right. destruct (exists_last PB) as (B' & x & ->). exists (A ++ u :: B'), x. rewrite P1, <- app_assoc. split; [reflexivity|]. apply Forall_app in P7. destruct P7 as [_ P7]. apply Forall_inv in P7. exact P7.
        * intros e2 (m1 & e' & m2 & Em & -> & Nm & Cv). destruct (Uniq _ _ _ _ _ _ Em Ne Nm) as (<- & -> & <-). apply P9. apply Cv. destruct Hy as [[]|Hy]. exact Hy. }
  destruct Main as [(e & M1 & M2 & M3)|[M1 M2]]; rewrite M1; split.
  - intros e2. split; [intros X; apply Ok_inj in X; injection X as <-; exact M2|intros X; rewrite (M3 _ X); reflexivity].
  - split; [intros X; discriminate|intros X; destruct (X e M2)].
  - intros e2. split; [intros X; discriminate|intros X; destruct (M2 e2 X)].
  - split; auto.
Qed.

(** * The iterator *)
Definition it_ok (it : riter) : Prop :=
  let r := it_msg it in it_an it = length (sets (r_answer r)) /\ it_ns it = length (sets (r_authority r)) /\ it_ar it = length (sets (r_additional r)) /\
  it_index it <= it_back it <= length (items r).
Definition remaining (it : riter) : list (rrset * section_type) := firstn (it_back it - it_index it) (skipn (it_index it) (items (it_msg it))).
Lemma items_len : forall r, length (items r) = length (sets (r_answer r)) + length (sets (r_authority r)) + length (sets (r_additional r)).
Proof. intros r. unfold items. rewrite !app_length, !map_length. lia. Qed.
Lemma rrset_at : forall it i, it_ok it -> i < length (items (it_msg it)) -> exists x, get_rrset_at_index it i = Ok x /\ nth_error (items (it_msg it)) i = Some x.
Proof.
  intros it i (A & B & C & _) L. rewrite items_len in L. unfold get_rrset_at_index, items. rewrite A, B.
  set (r := it_msg it) in *.
  destruct (Nat.ltb_spec i (length (sets (r_answer r)))) as [L1|L1].
  - cbn [rbind get_section]. destruct (nth_error (sets (r_answer r)) i) as [x|] eqn:E; [|apply nth_error_None in E; lia].
    exists (x, SAnswer). split.
    + destruct (r_answer r) as [l|]; [|cbn in L1; lia]. cbn [sets] in E. unfold idx. rewrite E. reflexivity.
    + rewrite nth_error_app1 by (rewrite map_length; auto). apply map_nth_error with (f := fun x => (x, SAnswer)) in E. exact E.
  - destruct (Nat.ltb_spec i (length (sets (r_answer r)) + length (sets (r_authority r)))) as [L2|L2].
    + unfold csub. rewrite (proj2 (Nat.leb_le _ _) L1). cbn [rbind get_section].
      destruct (nth_error (sets (r_authority r)) (i - length (sets (r_answer r)))) as [x|] eqn:E; [|apply nth_error_None in E; lia].
      exists (x, SAuthority). split.
      * destruct (r_authority r) as [l|]; [|cbn in L2; lia]. cbn [sets] in E. unfold idx. rewrite E. reflexivity.
      * rewrite nth_error_app2 by (rewrite map_length; lia). rewrite map_length. rewrite nth_error_app1 by (rewrite map_length; lia).
        apply map_nth_error with (f := fun x => (x, SAuthority)) in E. exact E.
    + unfold csub. rewrite (proj2 (Nat.leb_le _ _) L1). cbn [rbind]. rewrite (proj2 (Nat.leb_le _ _)) by lia. cbn [rbind get_section].
      destruct (nth_error (sets (r_additional r)) (i - length (sets (r_answer r)) - length (sets (r_authority r)))) as [x|] eqn:E; [|apply nth_error_None in E; lia].
      exists (x, SAdditional). split.
      * destruct (r_additional r) as [l|]; [|cbn in L; lia]. cbn [sets] in E. unfold idx. rewrite E. reflexivity.
      * rewrite nth_error_app2 by (rewrite map_length; lia). rewrite map_length. rewrite nth_error_app2 by (rewrite map_length; lia). rewrite map_length.
        apply map_nth_error with (f := fun x => (x, SAdditional)) in E. exact E.
Qed.
Lemma nth_skip : forall A (l : list A) n i, nth_error (skipn n l) i = nth_error l (n + i).
Proof. induction l as [|x l IH]; intros [|n] i; cbn; auto. destruct i; auto. Qed.
Lemma remaining_len : forall it, it_ok it -> length (remaining it) = it_back it - it_index it.
Proof. intros it (_ & _ & _ & L). unfold remaining. rewrite firstn_length_le; auto. rewrite skipn_length. lia. Qed.
Lemma next_spec : forall it, it_ok it -> exists it', it_ok it' /\ it_msg it' = it_msg it /\ it_an it' = it_an it /\ it_ns it' = it_ns it /\ it_ar it' = it_ar it /\ it_back it' = it_back it /\
  match remaining it with
  | [] => iter_next it = Ok (None, it') /\ it' = it
  | x :: l => iter_next it = Ok (Some x, it') /\ remaining it' = l /\ it_index it' = it_index it + 1
  end.
Proof.
  intros it Ok. pose proof Ok as (A & B & C & L). pose proof (remaining_len it Ok) as Rl. unfold iter_next.
  destruct (Nat.eqb_spec (it_index it) (it_back it)) as [E|E].
  - exists it. do 6 (split; [auto|]). destruct (remaining it); [auto|]. cbn in Rl. lia.
  - destruct (rrset_at it (it_index it) Ok ltac:(lia)) as (x & -> & Hx). cbn [rbind]. exists (mkIter (it_index it + 1) (it_back it) (it_an it) (it_ns it) (it_ar it) (it_msg it)). split; [|do 5 (split; [reflexivity|])].
    + split; auto. split; auto. split; auto. cbn. lia.
    + unfold remaining at 1. assert (Es : skipn (it_index it) (items (it_msg it)) = x :: skipn (S (it_index it)) (items (it_msg it))).
      { clear - Hx. revert Hx. generalize (it_index it). generalize (items (it_msg it)). induction l as [|y l IH]; intros [|n] Hx; cbn in *; try discriminate; [congruence|]. apply IH. auto. }
      rewrite Es. replace (it_back it - it_index it) with (S (it_back it - S (it_index it))) by lia. cbn [firstn]. split; [reflexivity|]. cbn [it_index it_back it_msg]. split; [|reflexivity].
      unfold remaining. cbn [it_index it_back it_msg]. rewrite Nat.add_1_r. reflexivity.
Qed.
Lemma next_back_spec : forall it, it_ok it -> exists it', it_ok it' /\ it_msg it' = it_msg it /\ it_an it' = it_an it /\ it_ns it' = it_ns it /\ it_ar it' = it_ar it /\ it_index it' = it_index it /\
  match rev (remaining it) with
  | [] => iter_next_back it = Ok (None, it') /\ it' = it
  | x :: l => iter_next_back it = Ok (Some x, it') /\ remaining it' = rev l /\ it_back it' + 1 = it_back it
  end.
Proof.
  intros it Ok. pose proof Ok as (A & B & C & L). pose proof (remaining_len it Ok) as Rl. unfold iter_next_back.
  destruct (Nat.eqb_spec (it_index it) (it_back it)) as [E|E].
  - exists it. do 6 (split; [auto|]). destruct (remaining it) as [|y l]; [cbn; auto|]. exfalso. cbn [length] in Rl. lia.
  - unfold csub. rewrite (proj2 (Nat.leb_le _ _)) by lia. cbn [rbind].
    set (it' := mkIter (it_index it) (it_back it - 1) (it_an it) (it_ns it) (it_ar it) (it_msg it)).
    assert (Ok' : it_ok it') by (split; auto; split; auto; split; auto; cbn; lia).
    destruct (rrset_at it' (it_back it - 1) Ok' ltac:(cbn; lia)) as (x & -> & Hx). cbn [rbind it_msg it'] in *. exists it'. split; auto. do 5 (split; [reflexivity|]).
    assert (Er : remaining it = remaining it' ++ [x]).
    { unfold remaining. cbn [it_index it_back it_msg it']. replace (it_back it - it_index it) with (S (it_back it - 1 - it_index it)) by lia.
      assert (Hn : nth_error (skipn (it_index it) (items (it_msg it))) (it_back it - 1 - it_index it) = Some x) by (rewrite nth_skip; rewrite <- Hx; f_equal; lia).
      revert Hn. generalize (skipn (it_index it) (items (it_msg it))). generalize (it_back it - 1 - it_index it). clear.
      induction n as [|n IH]; intros [|y l] H; cbn in *; try discriminate; [congruence|]. rewrite <- IH; auto. }
    rewrite Er, rev_app_distr. cbn [rev app]. split; [reflexivity|]. split; [symmetry; apply rev_involutive|]. cbn. lia.
Qed.
Lemma drive_spec : forall ds it, it_ok it -> exists it', drive ds it = Ok (deque ds (remaining it), it') /\ it_ok it' /\ it_msg it' = it_msg it.
Proof.
  induction ds as [|d ds IH]; intros it Ok; cbn [drive deque]; [exists it; auto|]. destruct d.
  - destruct (next_spec it Ok) as (it1 & Ok1 & M1 & _ & _ & _ & _ & H). destruct (remaining it) as [|x l] eqn:E.
    + destruct H as [-> ->]. cbn [rbind]. destruct (IH it Ok1) as (it2 & -> & Ok2 & M2). cbn [rbind]. rewrite E. exists it2. auto.
    + destruct H as (-> & R & _). cbn [rbind]. destruct (IH it1 Ok1) as (it2 & -> & Ok2 & M2). cbn [rbind]. rewrite R. exists it2. repeat split; auto; try apply Ok2; congruence.
  - destruct (next_back_spec it Ok) as (it1 & Ok1 & M1 & _ & _ & _ & _ & H). destruct (rev (remaining it)) as [|x l] eqn:E.
    + destruct H as [-> ->]. cbn [rbind]. destruct (IH it Ok1) as (it2 & -> & Ok2 & M2). cbn [rbind]. exists it2. auto.
    + destruct H as (-> & R & _). cbn [rbind]. destruct (IH it1 Ok1) as (it2 & -> & Ok2 & M2). cbn [rbind]. rewrite R. exists it2. repeat split; auto; try apply Ok2; congruence.
Qed.
Lemma iter_new_ok : forall r, it_ok (iter_new r) /\ remaining (iter_new r) = items r.
Proof.
  intros r. assert (E : forall s, section_rrset_count r s = length (sets (get_section r s))) by (intros s; unfold section_rrset_count; destruct (get_section r s); reflexivity).
  unfold iter_new. rewrite !E. cbn [get_section]. split.
  - split; auto. split; auto. split; auto. cbn. rewrite items_len. lia.
  - unfold remaining. cbn [it_index it_back it_msg skipn]. rewrite firstn_all2; auto. rewrite items_len. lia.
Qed.
Lemma iter_deque : forall r ds, exists it, drive ds (iter_new r) = Ok (deque ds (items r), it).
Proof. intros r ds. destruct (iter_new_ok r) as [Ok E]. destruct (drive_spec ds _ Ok) as (it & H & _). rewrite E in H. eauto. Qed.
(** [left n ds]: how many of [n] items the calls [ds] leave *)
Lemma size_hint_front : forall r n xs it, drive (repeat Front n) (iter_new r) = Ok (xs, it) ->
  iter_size_hint it = Ok (length (items r) - n, Some (length (items r) - n)).
Proof.
  intros r n xs it H. destruct (iter_new_ok r) as [Ok E].
  assert (G : forall n it xs it', it_ok it -> it_back it = length (items (it_msg it)) -> drive (repeat Front n) it = Base.Ok (xs, it') ->
    it_ok it' /\ it_msg it' = it_msg it /\ length (items (it_msg it)) - it_index it' = length (items (it_msg it)) - it_index it - n).
  { clear. induction n as [|n IH]; intros it xs it' Ok Bk H; cbn [repeat drive] in H; [inversion H; subst; repeat split; auto; try apply Ok; lia|].
    destruct (next_spec it Ok) as (it1 & Ok1 & M1 & _ & _ & _ & B1 & S1). pose proof (remaining_len it Ok) as Rl. destruct (remaining it) as [|x l] eqn:Er.
    - destruct S1 as [S1 ->]. rewrite S1 in H. cbn [rbind] in H. destruct (drive (repeat Front n) it) as [[ys it2]| | |] eqn:D; cbn [rbind] in H; try discriminate.
      inversion H; subst. destruct (IH it _ _ Ok Bk D) as (A1 & A2 & A3). split; auto. split; auto. cbn in Rl. lia.
    - destruct S1 as (S1 & _ & I1). rewrite S1 in H. cbn [rbind] in H. destruct (drive (repeat Front n) it1) as [[ys it2]| | |] eqn:D; cbn [rbind] in H; try discriminate.
      inversion H; subst. destruct (IH it1 _ _ Ok1 ltac:(congruence) D) as (A1 & A2 & A3). rewrite M1 in *. split; auto. split; auto. rewrite A3, I1. lia. }
  destruct (G n _ _ _ Ok ltac:(unfold iter_new; cbn; rewrite items_len; unfold section_rrset_count; cbn [get_section]; destruct (r_answer r), (r_authority r), (r_additional r); cbn; lia) H) as (A1 & A2 & A3).
  change (it_msg (iter_new r)) with r in *. change (it_index (iter_new r)) with 0 in *.
  destruct A1 as (B1 & B2 & B3 & B4). rewrite A2 in *. unfold iter_size_hint, csub. rewrite B1, B2, B3, <- items_len. rewrite (proj2 (Nat.leb_le _ _)) by lia. cbn [rbind]. rewrite A3. rewrite Nat.sub_0_r. reflexivity.
Qed.

(** what is left and what the hint says, after any calls *)
Lemma deque_yield : forall A ds (l : list A), yielded Front ds (deque ds l) + yielded Back ds (deque ds l) = Nat.min (length ds) (length l).
Proof.
  induction ds as [|d ds IH]; intros l; [reflexivity|]. destruct d; cbn [deque].
  - destruct l as [|x l]; cbn [yielded length]; [rewrite IH; cbn; lia|]. specialize (IH l). lia.
  - destruct (rev l) as [|x l'] eqn:E; cbn [yielded length].
    + apply (f_equal (@length A)) in E. rewrite rev_length in E. cbn in E. rewrite IH, E. lia.
    + apply (f_equal (@length A)) in E. rewrite rev_length in E. cbn in E. specialize (IH (rev l')). rewrite rev_length in IH. lia.
Qed.
Lemma drive_hint : forall ds it, it_ok it -> exists it', drive ds it = Ok (deque ds (remaining it), it') /\ it_ok it' /\ it_msg it' = it_msg it /\
  it_an it' = it_an it /\ it_ns it' = it_ns it /\ it_ar it' = it_ar it /\
  it_index it' = it_index it + yielded Front ds (deque ds (remaining it)) /\
  it_back it' + yielded Back ds (deque ds (remaining it)) = it_back it.
Proof.
  induction ds as [|d ds IH]; intros it Ok; cbn [drive deque yielded]; [exists it; do 6 (split; [auto|]); lia|]. destruct d.
  - destruct (next_spec it Ok) as (it1 & Ok1 & M1 & A1 & N1 & R1 & B1 & H). destruct (remaining it) as [|x l] eqn:E.
    + destruct H as [-> ->]. cbn [rbind]. destruct (IH it Ok1) as (it2 & -> & Ok2 & M2 & A2 & N2 & R2 & I2 & B2). cbn [rbind]. rewrite E in *. exists it2. cbn [yielded]. do 6 (split; [auto|]). auto.
    + destruct H as (-> & R & I1). cbn [rbind]. destruct (IH it1 Ok1) as (it2 & -> & Ok2 & M2 & A2 & N2 & R2 & I2 & B2). cbn [rbind]. rewrite R in *. exists it2. cbn [yielded].
      split; [reflexivity|]. split; [exact Ok2|]. do 4 (split; [congruence|]). lia.
  - destruct (next_back_spec it Ok) as (it1 & Ok1 & M1 & A1 & N1 & R1 & I1 & H). destruct (rev (remaining it)) as [|x l] eqn:E.
    + destruct H as [-> ->]. cbn [rbind]. destruct (IH it Ok1) as (it2 & -> & Ok2 & M2 & A2 & N2 & R2 & I2 & B2). cbn [rbind]. exists it2. cbn [yielded]. do 6 (split; [auto|]). auto.
    + destruct H as (-> & R & B1). cbn [rbind]. destruct (IH it1 Ok1) as (it2 & -> & Ok2 & M2 & A2 & N2 & R2 & I2 & B2). cbn [rbind]. rewrite R in *. exists it2. cbn [yielded].
      split; [reflexivity|]. split; [exact Ok2|]. do 4 (split; [congruence|]). lia.
Qed.
Lemma size_hint_exact : forall r ds, exists xs it, drive ds (iter_new r) = Ok (xs, it) /\
  iter_size_hint it = Ok (length (items r) - yielded Front ds xs, Some (length (items r) - yielded Front ds xs)) /\
  forall more, exists ys it', drive more it = Ok (ys, it') /\
    yielded Front more ys + yielded Back more ys = Nat.min (length more) (length (items r) - yielded Front ds xs - yielded Back ds xs).
Proof.
  intros r ds. destruct (iter_new_ok r) as [Ok E].
  assert (Bk : it_back (iter_new r) = length (items r)) by (unfold iter_new; cbn; rewrite items_len; unfold section_rrset_count; cbn [get_section]; destruct (r_answer r), (r_authority r), (r_additional r); cbn; lia).
  destruct (drive_hint ds (iter_new r) Ok) as (it & D & Ok' & M & A & N & R & I & B).
  change (it_index (iter_new r)) with 0 in I. rewrite Bk in B. change (it_msg (iter_new r)) with r in M. rewrite E in *.
  pose proof Ok' as (B1 & B2 & B3 & B4). assert (T : it_an it + it_ns it + it_ar it = length (items r)) by (rewrite B1, B2, B3, items_len, M; lia).
  pose proof (remaining_len it Ok') as Rl. exists (deque ds (items r)), it. split; [exact D|]. split.
  - unfold iter_size_hint, csub. rewrite T, I. rewrite (proj2 (Nat.leb_le _ _)) by lia. reflexivity.
  - intros more. destruct (drive_hint more it Ok') as (it2 & D2 & _). exists (deque more (remaining it)), it2. split; [exact D2|]. rewrite deque_yield, Rl. f_equal. lia.
Qed.

(** ** C65 *)
Definition notify_shape (rnd : N) (zone : name) (soa : option rrset) : response :=
  mkResponse (nq_header (notify_new rnd zone soa)) (mkQuestion zone TSOA CIN) (match soa with Some rs => Some [rs] | None => None end) None None.
Lemma notify_body : forall rnd zone soa r0, notify_to_wire (notify_new rnd zone soa) r0 = (body_to_wire (notify_shape rnd zone soa) ;; mr_length) r0.
Proof.
  intros rnd zone soa r0. unfold notify_to_wire, body_to_wire. rewrite bind_assoc. apply bind_ext; [reflexivity|]. intros _ r1. rewrite bind_assoc. apply bind_ext; [reflexivity|]. intros _ r2.
  cbn [mapM_ r_answer r_authority r_additional notify_shape nq_soa notify_new section_to_wire]. destruct soa as [rs|]; [|reflexivity]. cbn [section_to_wire mapM_].
  unfold bind. destruct (rrset_to_wire rs r2) as [[[]| | |] r3]; reflexivity.
Qed.
Lemma notify_consistent : forall rnd zone soa, (rnd < 65536)%N -> wf_name zone ->
  (forall rs, soa = Some rs -> rrset_ok rs /\ rs_type rs = TSOA /\ length (rs_rdatas rs) = 1) -> consistent (notify_shape rnd zone soa).
Proof.
  intros rnd zone soa Hr Hz Hs. unfold consistent, notify_shape. cbn [r_header r_question r_answer r_authority r_additional].
  assert (Hn : header_ok (nq_header (notify_new rnd zone soa))).
  { pose proof (CodesProofs.set_flag_ok (mkHeader rnd 0 ONotify RNoError 1 (match soa with Some _ => 1 | None => 0 end) 0 0)%N AA true) as X.
    assert (Y : header_ok (mkHeader rnd 0 ONotify RNoError 1 (match soa with Some _ => 1 | None => 0 end) 0 0)%N).
    { unfold header_ok. cbn. destruct soa; repeat split; auto; try discriminate. }
    specialize (X Y). destruct soa; exact X. }
  split; [exact Hn|]. split; [reflexivity|]. split; [split; [auto|split; [split; reflexivity|split; reflexivity]]|]. split; [|split; [split; [reflexivity|exact Logic.I]|split; [reflexivity|exact Logic.I]]].
  destruct soa as [rs|]; [|split; [reflexivity|exact Logic.I]]. destruct (Hs rs eq_refl) as (Ok & T & L). split.
  - cbn. unfold blen, records, rrs_of. cbn [flat_map]. destruct (rs_rdatas rs) as [|d [|]]; try discriminate. reflexivity.
  - split; [discriminate|]. split; [constructor; auto|]. split; [exact Logic.I|]. intros _ rs' l' E. inversion E; subst. rewrite T. discriminate.
Qed.
Lemma notify_round_trip : forall dat rnd zone soa, bytes dat -> (N.of_nat (length dat) <= 65535)%N -> (rnd < 65536)%N -> wf_name zone ->
  (forall rs, soa = Some rs -> rrset_ok rs /\ rs_type rs = TSOA /\ length (rs_rdatas rs) = 1) ->
  let (a, r') := notify_to_wire (notify_new rnd zone soa) (mr_new dat) in
  a = Err \/ (a = Ok (length (mr_bytes r')) /\ response_from_wire (mr_bytes r') = Ok (notify_shape rnd zone soa)).
Proof.
  intros dat rnd zone soa B Ld Hr Hz Hs. pose proof (notify_consistent rnd zone soa Hr Hz Hs) as Co. rewrite notify_body. unfold bind.
  pose proof (proj1 (simple_body _ Co)) as (P & Em). specialize (Em _ _ (inv_new dat B)).
  destruct (body_to_wire (notify_shape rnd zone soa) (mr_new dat)) as [a r'] eqn:E. destruct Em as ((_ & Cc & _) & I' & A).
  destruct a as [[]| | |]; [|auto|contradiction|contradiction]. right. unfold mr_length. cbn [fst snd]. pose proof (body_complete all_names dat _ r' B Co (response_known_all _) E) as C.
  assert (Lc : (N.of_nat (mr_len r') <= 65535)%N) by (pose proof (inv_len _ _ I'); assert (cap r' = length dat) by exact Cc; lia).
  destruct (complete_decodes (mr_new dat) _ _ r' Co C Lc) as [Hm Hd]. split; auto. rewrite (mr_bytes_len _ _ I'). reflexivity.
Qed.

Lemma notify_fits : forall dat rnd zone soa nss, bytes dat -> (N.of_nat (length dat) <= 65535)%N -> (rnd < 65536)%N -> wf_name zone ->
  (forall rs, soa = Some rs -> rrset_ok rs /\ rs_type rs = TSOA /\ length (rs_rdatas rs) = 1) ->
  response_names (notify_shape rnd zone soa) = map name_of nss -> collision_free nss -> plain_size (notify_shape rnd zone soa) <= length dat ->
  exists n, fst (notify_to_wire (notify_new rnd zone soa) (mr_new dat)) = Ok n.
Proof.
  intros dat rnd zone soa nss B Ld Hr Hz Hs Ns Cf L. pose proof (notify_consistent rnd zone soa Hr Hz Hs) as Co.
  destruct (response_fits dat _ nss B Co Ns Cf L) as (r' & E & _ & D). specialize (D Ld). destruct (response_whole dat _ _ r' B Co Ld E D) as [W _].
  rewrite notify_body. unfold bind. rewrite W. unfold mr_length. exists (mr_len r'). reflexivity.
Qed.

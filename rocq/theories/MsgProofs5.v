(** Rendering a response: header and question first, the sections after them, or truncation. *)
From Verif Require Import Base NameModel RenderModel CodesModel RDataModel MsgModel SpecName SpecBuf SpecCodes SpecMsg
  BaseLemmas BitLemmas NameWireProofs NameOpsProofs NameOpsProofs2 RenderProofs RenderProofs2 BufProofs LiveProofs CodesProofs WireProofs
  RDataProofs DecodeProofs MsgProofs MsgProofs2 MsgProofs3 MsgProofs4.

(** * The first name of a message is never compressed *)
Definition no_names : names := fun _ => False.
Lemma inv_known : forall (K1 K2 : names) m r, (forall ls, K1 ls -> K2 ls) -> @inv K1 m r -> @inv K2 m r.
Proof.
  intros K1 K2 m r H I. constructor; try apply I. intros b row c k it H1 H2 H3 H4.
  destruct (inv_items m r I b row c k it H1 H2 H3 H4) as (ls & e & A & B). exists ls, e. split; auto. apply H. auto.
Qed.
Lemma find_offset_empty : forall m r raw h, @inv no_names m r -> find_offset r raw h <> Err.
Proof.
  intros m r raw h I. unfold find_offset. set (b := N.to_nat (h mod 64)) in *.
  destruct (idx_r _ (mr_table r) b) as [[row E]|E]; rewrite E; [|discriminate]. cbn [rbind].
  destruct (idx_r _ (mr_counts r) b) as [[c Ec]|Ec]; rewrite Ec; [|discriminate]. cbn [rbind].
  apply idx_ok_inv in E, Ec. unfold slice. destruct ((0 <=? c) && (c <=? length row)) eqn:Lc; [|discriminate]. cbn [rbind]. bl.
  destruct c as [|c]; [discriminate|]. exfalso.
  destruct (nth_lt _ row 0 ltac:(lia)) as [it Hit]. destruct (inv_items m r I b row (S c) 0 it (proj1 E) (proj1 Ec) ltac:(lia) Hit) as (ls & e & A & _). exact A.
Qed.
Lemma wn_register_buf : forall n i p l r a r', wn_register n i p l r = (a, r') -> mr_buf r' = mr_buf r.
Proof.
  induction n as [|n IH]; intros i p l r a r' H; cbn [wn_register] in H.
  - unfold ret in H. inversion H. auto.
  - unfold bind at 1, get in H. unfold bind at 1, lift in H. destruct (ob_at (mr_buf r) p) as [ll| | |]; try (inversion H; auto; fail).
    destruct (ll =? 0)%N; [inversion H; auto|]. destruct (MAX_COMPRESS_POINTER <? p); [inversion H; auto|].
    unfold bind at 1, lift in H. destruct (idx (mr_hashes r) i) as [hh| | |]; try (inversion H; auto; fail).
    unfold bind at 1, modify_r in H.
    assert (G : forall h o l r r', add_offset h o l r = Ok r' -> mr_buf r' = mr_buf r).
    { clear. intros h o l r r' H. unfold add_offset in H. destruct (idx (mr_counts r) _); try discriminate. cbn [rbind] in H.
      destruct (_ =? _); [inversion H; auto|]. destruct (idx (mr_table r) _); try discriminate. cbn [rbind] in H.
      destruct (upd_r _ _ _); try discriminate. cbn [rbind] in H. destruct (upd_r _ _ _); try discriminate. cbn [rbind] in H.
      destruct (upd_r _ _ _); try discriminate. cbn [rbind] in H. inversion H. auto. }
    destruct (add_offset hh _ _ r) as [r1| | |] eqn:Ea; try (inversion H; auto; fail). apply G in Ea.
    unfold bind at 1, lift in H. destruct (u8_add ll 1) as [st| | |]; try (inversion H; subst; auto; fail).
    unfold bind at 1, lift in H. destruct (csub l (N.to_nat st)) as [nl| | |]; try (inversion H; subst; auto; fail).
    apply IH in H. congruence.
Qed.
Lemma ws_bytes_inv : forall cap log l ok log', write_spec cap log (WBytes l) ok log' ->
  if length log + length l <=? cap then ok = true /\ log' = log ++ l else ok = false /\ log' = log.
Proof.
  intros cap log l ok log' H. remember (WBytes l) as o eqn:Eo.
  assert (G : forall vs, (exists d, (o = W8 d /\ vs = [d]) \/ (o = W16 d /\ vs = u16_bytes d) \/ (o = W32 d /\ vs = u32_bytes d)) \/ o = WBytes vs -> vs = l).
  { intros vs [(d & [[X _]|[[X _]|[X _]]])|X]; congruence. }
  destruct H as [o vs H L|o vs H L|n vs H L|n L|o p vs H L|o p vs H L|p L|p L|]; try discriminate; try (apply G in H; subst vs); try subst o.
  - rewrite (proj2 (Nat.leb_le _ _) L). auto.
  - rewrite (proj2 (Nat.leb_gt _ _) L). auto.
  - destruct H as (d & [[X _]|[X _]]); discriminate.
  - destruct H as (d & [[X _]|[X _]]); discriminate.
Qed.
Lemma on_buf_bytes : forall l r, bytes l -> mr_len r <= ob_capacity (mr_buf r) ->
  if mr_len r + length l <=? ob_capacity (mr_buf r)
  then exists r', on_buf (ob_write_bytes l) r = (Ok tt, r') /\ mr_bytes r' = mr_bytes r ++ l /\ mr_len r' = mr_len r + length l
  else on_buf (ob_write_bytes l) r = (Err, r).
Proof.
  intros l r B L. pose proof (write_call_spec (WBytes l) (mr_buf r) B L) as (ok & b' & E & Sp & Cap & Lb). cbn [write_call] in E.
  apply ws_bytes_inv in Sp. unfold on_buf. rewrite E. unfold mr_len, mr_bytes in *.
  replace (length (ob_bytes (mr_buf r))) with (ob_len (mr_buf r)) in Sp by (unfold ob_bytes; rewrite firstn_length_le; auto).
  destruct (_ <=? _) eqn:Q; destruct Sp as [-> Eb].
  - eexists. split; [reflexivity|]. cbn [mr_buf]. split; auto. apply (f_equal (@length N)) in Eb. rewrite app_length in Eb.
    unfold ob_bytes in Eb. rewrite !firstn_length_le in Eb by auto. auto.
  - unfold ob_write_bytes in E. rewrite Q in E. inversion E. destruct r; reflexivity.
Qed.
Lemma first_name : forall (K : names) m r ls, @inv no_names m r -> wf_labels ls -> (forall s, suffix_of s ls -> K s) ->
  let (a, r') := write_name (name_of ls) true r in
  @inv K m r' /\ extends r r' /\
  if mr_len r + wire_len ls <=? ob_capacity (mr_buf r) then a = Ok tt /\ mr_bytes r' = mr_bytes r ++ enc ls /\ mr_len r' = mr_len r + wire_len ls
  else a = Err /\ mr_bytes r' = mr_bytes r.
Proof.
  intros K m r ls I F Kn.
  assert (IK : @inv K m r) by (apply (inv_known no_names K m r); [intros ? []|exact I]).
  pose proof (@write_name_full K ls true m r F Kn IK) as Full.
  assert (NE : fst (wn_search (length ls + 1) true (name_of ls) 0 0 r) <> Err).
  { apply (@wn_search_live no_names (fun _ _ => True) m true ls F) with (pre := []) (suf := ls); auto. intros s r0 _ _ I0 _. eapply find_offset_empty; eauto. }
  destruct (@wn_search_top no_names m r ls true I F) as (a & r1 & S1 & (B1 & _) & S3 & S4).
  destruct (write_name (name_of ls) true r) as [a' r'] eqn:Ew. destruct Full as (X & I' & A). split; auto. split; auto.
  rewrite S1 in NE. cbn [fst] in NE. destruct a as [[lu off]| | |]; try congruence; try (destruct S4; fail).
  destruct S4 as [[[-> ->]|(_ & pre & suf & e & _ & _ & [] & _)] _].
  unfold write_name in Ew. rewrite label_count_of in Ew. unfold bind at 1 in Ew. rewrite S1 in Ew. unfold bind at 1, get at 1 in Ew.
  replace (negb true || (length ls + 1 =? length ls + 1)) with true in Ew by (rewrite Nat.eqb_refl; auto).
  rewrite N.eqb_refl in Ew. cbn [negb andb] in Ew. change (n_raw (name_of ls)) with (enc ls) in Ew.
  pose proof (on_buf_bytes (enc ls) r1) as W.
  rewrite <- B1. replace (mr_len r) with (mr_len r1) by (unfold mr_len; rewrite B1; auto). replace (mr_bytes r) with (mr_bytes r1) by (unfold mr_bytes; rewrite B1; auto).
  assert (Be : bytes (enc ls)) by (apply enc_bytes; apply F). specialize (W Be (inv_len _ _ S3)).
  change (length (enc ls)) with (wire_len ls) in W.
  unfold bind at 1 in Ew. destruct (_ <=? _) eqn:Q.
  - destruct W as (r2 & W1 & W2 & W3). rewrite W1 in Ew. unfold bind, ret in Ew. pose proof (wn_register_buf _ _ _ _ _ _ _ Ew) as Eb.
    unfold mr_bytes, mr_len in *. rewrite Eb. split; auto. destruct a' as [[]| | |]; auto; try (destruct A; fail). exfalso.
    destruct A as [A|A]; [rewrite S1 in A; discriminate|]. bl. rewrite B1 in Q. lia.
  - rewrite W in Ew. inversion Ew; subst. auto.
Qed.

(** * Writers of fixed octets *)
Section Known.
Context {KN : names}.
Definition logs (w : M render unit) (l : list N) : Prop := forall m r, inv m r ->
  let (a, r') := w r in inv m r' /\ extends r r' /\
  if mr_len r + length l <=? ob_capacity (mr_buf r) then a = Ok tt /\ mr_bytes r' = mr_bytes r ++ l /\ mr_len r' = mr_len r + length l
  else a = Err.
Lemma ws_u16_inv : forall cap log d ok log', write_spec cap log (W16 d) ok log' ->
  if length log + 2 <=? cap then ok = true /\ log' = log ++ u16_bytes d else ok = false /\ log' = log.
Proof.
  intros cap log d ok log' H. remember (W16 d) as o eqn:Eo.
  assert (G : forall vs, (exists d, (o = W8 d /\ vs = [d]) \/ (o = W16 d /\ vs = u16_bytes d) \/ (o = W32 d /\ vs = u32_bytes d)) \/ o = WBytes vs -> vs = u16_bytes d).
  { intros vs [(d' & [[X _]|[[X ?]|[X _]]])|X]; congruence. }
  destruct H as [o vs H L|o vs H L|n vs H L|n L|o p vs H L|o p vs H L|p L|p L|]; try discriminate; try (apply G in H; subst vs); try subst o.
  - cbn [length u16_bytes] in L. rewrite (proj2 (Nat.leb_le _ _) L). auto.
  - cbn [length u16_bytes] in L. rewrite (proj2 (Nat.leb_gt _ _) L). auto.
  - destruct H as (? & [[X _]|[X _]]); discriminate.
  - destruct H as (? & [[X _]|[X _]]); discriminate.
Qed.
Lemma logs_u16 : forall d, (d < 65536)%N -> logs (mr_write_u16 d) (u16_bytes d).
Proof.
  intros d Hd m r I. pose proof (emits_u16 d m r I) as E. destruct (mr_write_u16 d r) as [a r'] eqn:Q. destruct E as (X & I' & _). split; auto. split; auto.
  pose proof (inv_len _ _ I) as L. pose proof (write_call_spec (W16 d) (mr_buf r) Hd L) as (ok & b' & E & Sp & Cap & Lb). cbn [write_call] in E.
  apply ws_u16_inv in Sp. unfold mr_write_u16, on_buf in Q. rewrite E in Q. inversion Q; subst a r'. unfold mr_len, mr_bytes in *. cbn [mr_buf] in *.
  replace (length (ob_bytes (mr_buf r))) with (ob_len (mr_buf r)) in Sp by (unfold ob_bytes; rewrite firstn_length_le; auto).
  change (length (u16_bytes d)) with 2. destruct (_ <=? _) eqn:C; destruct Sp as [-> Eb]; auto. split; auto. split; auto.
  apply (f_equal (@length N)) in Eb. rewrite app_length in Eb. unfold ob_bytes in Eb. rewrite !firstn_length_le in Eb by auto. auto.
Qed.
Lemma logs_seq : forall w1 w2 l1 l2, logs w1 l1 -> logs w2 l2 -> logs (w1 ;; w2) (l1 ++ l2).
Proof.
  intros w1 w2 l1 l2 H1 H2 m r I. unfold bind. specialize (H1 m r I). destruct (w1 r) as [a r1]. destruct H1 as (I1 & X1 & A1). rewrite app_length.
  destruct (mr_len r + length l1 <=? ob_capacity (mr_buf r)) eqn:C1.
  - destruct A1 as (-> & B1 & L1). specialize (H2 m r1 I1). destruct (w2 r1) as [b r2]. destruct H2 as (I2 & X2 & A2).
    split; auto. split; [eapply extends_trans; eauto|]. destruct X1 as (_ & Cp & _). rewrite L1, Cp, <- Nat.add_assoc in A2.
    destruct (mr_len r + (length l1 + length l2) <=? ob_capacity (mr_buf r)); [|exact A2]. destruct A2 as (-> & B2 & L2). split; auto. split; [rewrite B2, B1, <- app_assoc; auto|]. lia.
  - subst a. split; auto. split; auto. replace (mr_len r + _ <=? _) with false; auto. symmetry. apply Nat.leb_gt. bl. lia.
Qed.
Definition header_octets (h : header) : list N := flat_map u16_bytes [h_id h; header_flag h; h_qd h; h_an h; h_ns h; h_ar h].
Lemma header_flag_lt : forall h, header_ok h -> (header_flag h < 65536)%N.
Proof. intros h [_ F]. rewrite header_flag_word. apply word_ok. apply flag_masked. auto. Qed.
Lemma logs_header : forall h, header_ok h -> logs (header_to_wire h) (header_octets h).
Proof.
  intros h Hk. pose proof (header_flag_lt h Hk). destruct Hk as ((H1 & H2 & H3 & H4 & H5) & _). unfold header_to_wire, header_octets. cbn [flat_map]. rewrite app_nil_r.
  repeat (apply logs_seq; [apply logs_u16; auto|]). apply logs_u16; auto.
Qed.
End Known.
Definition question_octets (q : question) : list N := n_raw (q_name q) ++ u16_bytes (rrtype_u16 (q_type q)) ++ u16_bytes (rrclass_u16 (q_class q)).
(** Header and question at the start of a fresh buffer. *)
Lemma head_spec : forall (K : names) dat h q ls, bytes dat -> header_ok h -> question_ok q -> wf_labels ls -> q_name q = name_of ls ->
  (forall s, suffix_of s ls -> K s) ->
  let (a, r) := (header_to_wire h ;; question_to_wire q) (mr_new dat) in
  @inv K (fun _ => false) r /\ ob_capacity (mr_buf r) = length dat /\
  if 16 + wire_len ls <=? length dat then a = Ok tt /\ mr_bytes r = header_octets h ++ question_octets q /\ mr_len r = 16 + wire_len ls
  else a = Err.
Proof.
  intros K dat h q ls B Hk (Qn & Qt & Qc) W En Kn.
  pose proof (@logs_header no_names h Hk (fun _ => false) (mr_new dat) (inv_new dat B)) as H. unfold bind.
  destruct (header_to_wire h (mr_new dat)) as [a r1]. destruct H as (I1 & (_ & C1 & _) & A1). change (ob_capacity (mr_buf (mr_new dat))) with (length dat) in *.
  change (mr_len (mr_new dat)) with 0 in A1. change (length (header_octets h)) with 12 in A1. cbn [Nat.add] in A1.
  assert (R : question_to_wire q r1 = (write_name (name_of ls) true ;; (rrtype_to_wire (q_type q) ;; rrclass_to_wire (q_class q))) r1).
  { unfold question_to_wire. rewrite En. reflexivity. }
  destruct (12 <=? length dat) eqn:C.
  2:{ subst a. split; [eapply (inv_known no_names); [intros ? []|auto]|]. split; auto. replace (16 + wire_len ls <=? length dat) with false; auto. symmetry. apply Nat.leb_gt. bl. lia. }
  destruct A1 as (-> & B1 & L1). rewrite R. unfold bind at 1.
  pose proof (first_name K _ r1 ls I1 W Kn) as F. destruct (write_name (name_of ls) true r1) as [a r2]. destruct F as (I2 & (_ & C2 & _) & A2).
  rewrite L1, C1 in A2.
  destruct (12 + wire_len ls <=? length dat) eqn:C'.
  2:{ destruct A2 as [-> _]. split; auto. split; [lia|]. replace (16 + wire_len ls <=? length dat) with false; auto. symmetry. apply Nat.leb_gt. bl. lia. }
  destruct A2 as (-> & B2 & L2).
  assert (Lg : @logs K (rrtype_to_wire (q_type q) ;; rrclass_to_wire (q_class q)) (u16_bytes (rrtype_u16 (q_type q)) ++ u16_bytes (rrclass_u16 (q_class q)))).
  { apply logs_seq; apply logs_u16; [apply Qt|apply Qc]. }
  specialize (Lg _ r2 I2). destruct ((rrtype_to_wire (q_type q) ;; rrclass_to_wire (q_class q)) r2) as [a r3]. destruct Lg as (I3 & (_ & C3 & _) & A3).
  rewrite L2, C2, C1 in A3. change (length (u16_bytes (rrtype_u16 (q_type q)) ++ u16_bytes (rrclass_u16 (q_class q)))) with 4 in A3.
  split; auto. split; [lia|]. replace (12 + wire_len ls + 4) with (16 + wire_len ls) in A3 by lia. destruct (16 + wire_len ls <=? length dat); auto.
  destruct A3 as (-> & B3 & L3). split; auto. split; [|lia]. rewrite B3, B2, B1. unfold question_octets. rewrite En. change (mr_bytes (mr_new dat)) with (@nil N).
  cbn [app]. rewrite <- app_assoc. reflexivity.
Qed.

(** * Truncation *)
Lemma ws_at16_inv : forall cap log p d ok log', write_spec cap log (WAt16 p d) ok log' -> p + 2 <= length log ->
  ok = true /\ log' = overwrite log p (u16_bytes d).
Proof.
  intros cap log p d ok log' H Lp. remember (WAt16 p d) as o eqn:Eo.
  destruct H as [o vs H L|o vs H L|n vs H L|n L|o p' vs H L|o p' vs H L|p' L|p' L|]; try discriminate.
  - exfalso. subst o. destruct H as [(d' & [[X _]|[[X _]|[X _]]])|X]; discriminate.
  - exfalso. subst o. destruct H as [(d' & [[X _]|[[X _]|[X _]]])|X]; discriminate.
  - subst o. destruct H as (d' & [[X _]|[X ->]]); [discriminate|]. inversion X; subst. auto.
  - exfalso. subst o. destruct H as (d' & [[X _]|[X ->]]); [discriminate|]. inversion X; subst. cbn [length u16_bytes] in L. lia.
Qed.
Lemma ws_trunc_inv : forall cap log p ok log', write_spec cap log (WTrunc p) ok log' ->
  if p <? length log then ok = true /\ log' = firstn p log else ok = false /\ log' = log.
Proof.
  intros cap log p ok log' H. remember (WTrunc p) as o eqn:Eo.
  destruct H as [o vs H L|o vs H L|n vs H L|n L|o p' vs H L|o p' vs H L|p' L|p' L|]; try discriminate.
  - exfalso. subst o. destruct H as [(d' & [[X _]|[[X _]|[X _]]])|X]; discriminate.
  - exfalso. subst o. destruct H as [(d' & [[X _]|[[X _]|[X _]]])|X]; discriminate.
  - subst o. destruct H as (d' & [[X _]|[X ->]]); discriminate.
  - subst o. destruct H as (d' & [[X _]|[X ->]]); discriminate.
  - inversion Eo; subst. rewrite (proj2 (Nat.ltb_lt _ _) L). auto.
  - inversion Eo; subst. rewrite (proj2 (Nat.ltb_ge _ _) L). auto.
Qed.
Lemma mr_bytes_length : forall r, mr_len r <= ob_capacity (mr_buf r) -> length (mr_bytes r) = mr_len r.
Proof. intros r L. unfold mr_bytes, ob_bytes. rewrite firstn_length_le; auto. Qed.
Definition log_ok (r : render) : Prop := mr_len r <= ob_capacity (mr_buf r).
Lemma at16_spec : forall r p d, log_ok r -> (d < 65536)%N -> p + 2 <= mr_len r ->
  exists r', mr_write_u16_at p d r = (Ok tt, r') /\ mr_bytes r' = overwrite (mr_bytes r) p (u16_bytes d) /\ log_ok r'.
Proof.
  intros r p d L Hd Lp. pose proof (write_call_spec (WAt16 p d) (mr_buf r) Hd L) as (ok & b' & E & Sp & Cap & Lb). cbn [write_call] in E.
  apply ws_at16_inv in Sp; [|fold (mr_bytes r); rewrite mr_bytes_length; auto]. destruct Sp as [-> Eb].
  unfold mr_write_u16_at, on_buf. rewrite E. eexists. split; [reflexivity|]. unfold mr_bytes, log_ok, mr_len. cbn [mr_buf]. auto.
Qed.
Lemma trunc_spec : forall r p, log_ok r -> if p <? mr_len r then exists r', mr_truncate p r = (Ok tt, r') /\ mr_bytes r' = firstn p (mr_bytes r) /\ log_ok r'
  else mr_truncate p r = (Err, r).
Proof.
  intros r p L. pose proof (write_call_spec (WTrunc p) (mr_buf r) Logic.I L) as (ok & b' & E & Sp & Cap & Lb). cbn [write_call] in E.
  apply ws_trunc_inv in Sp. fold (mr_bytes r) in Sp. rewrite mr_bytes_length in Sp by auto. unfold mr_truncate, on_buf. rewrite E.
  destruct (p <? mr_len r) eqn:C; destruct Sp as [-> Eb].
  - eexists. split; [reflexivity|]. unfold mr_bytes, log_ok, mr_len. cbn [mr_buf]. auto.
  - unfold ob_truncate in E. unfold mr_len in C. rewrite C in E. inversion E. destruct r; reflexivity.
Qed.
Definition tc_header (h : header) : header := mkHeader (h_id h) (h_flag (header_set_flag h TC true)) (h_opcode h) (h_rcode h) (h_qd h) 0 0 0.
Lemma set_flag_ok : forall h f, header_ok h -> header_ok (header_set_flag h f true).
Proof.
  intros h f [H1 H2]. split; [exact H1|]. intros i. cbn [header_set_flag h_flag]. unfold hf_set. rewrite N.lor_spec. intros X. apply orb_true_iff in X.
  destruct X as [X|X]; auto. exists f. destruct f; cbn [flag_mask flag_bit] in *;
  (match type of X with N.testbit ?c i = true => destruct (N.eq_dec i (N.log2 c)) as [->|Ne]; [reflexivity|];
     exfalso; change c with (2 ^ N.log2 c)%N in X; rewrite N.pow2_bits_false in X by auto; discriminate end).
Qed.
Lemma flag_only : forall h h', h_flag h = h_flag h' -> h_opcode h = h_opcode h' -> h_rcode h = h_rcode h' -> header_flag h = header_flag h'.
Proof. intros h h' A B C. rewrite !header_flag_word. congruence. Qed.
Lemma response_truncate_spec : forall resp r hd tl, log_ok r -> header_ok (r_header resp) -> mr_bytes r = header_octets (r_header resp) ++ hd ++ tl ->
  exists a r', response_truncate resp (12 + length hd) r = (a, r') /\
    match tl with
    | [] => a = Panic
    | _ => a = Ok tt /\ mr_bytes r' = header_octets (tc_header (r_header resp)) ++ hd /\ log_ok r'
    end.
Proof.
  intros resp r hd tl L Hk Eb. unfold response_truncate. set (h := r_header resp) in *.
  assert (Lr : mr_len r = 12 + length hd + length tl).
  { rewrite <- mr_bytes_length by auto. rewrite Eb, !app_length. change (length (header_octets h)) with 12. lia. }
  assert (Fl : (header_flag (header_set_flag h TC true) < 65536)%N) by (apply header_flag_lt, set_flag_ok; auto).
  destruct (at16_spec r 2 _ L Fl ltac:(lia)) as (r1 & E1 & B1 & L1).
  assert (N1 : mr_len r1 = mr_len r) by (rewrite <- !mr_bytes_length by auto; rewrite B1, Eb; cbn; rewrite !app_length; lia).
  destruct (at16_spec r1 6 0 L1 ltac:(lia) ltac:(lia)) as (r2 & E2 & B2 & L2).
  assert (N2 : mr_len r2 = mr_len r1) by (rewrite <- !mr_bytes_length by auto; rewrite B2, B1, Eb; cbn; rewrite !app_length; lia).
  destruct (at16_spec r2 8 0 L2 ltac:(lia) ltac:(lia)) as (r3 & E3 & B3 & L3).
  assert (N3 : mr_len r3 = mr_len r2) by (rewrite <- !mr_bytes_length by auto; rewrite B3, B2, B1, Eb; cbn; rewrite !app_length; lia).
  destruct (at16_spec r3 10 0 L3 ltac:(lia) ltac:(lia)) as (r4 & E4 & B4 & L4).
  assert (N4 : mr_len r4 = mr_len r3) by (rewrite <- !mr_bytes_length by auto; rewrite B4, B3, B2, B1, Eb; cbn; rewrite !app_length; lia).
  assert (B : mr_bytes r4 = (header_octets (tc_header h) ++ hd) ++ tl).
  { rewrite B4, B3, B2, B1, Eb. unfold header_octets, tc_header. cbn [h_id h_flag h_opcode h_rcode h_qd h_an h_ns h_ar flat_map].
    rewrite (flag_only (mkHeader (h_id h) (h_flag (header_set_flag h TC true)) (h_opcode h) (h_rcode h) (h_qd h) 0 0 0) (header_set_flag h TC true)) by reflexivity.
    rewrite <- app_assoc. reflexivity. }
  unfold bind, unwrap. rewrite E1, E2, E3, E4.
  pose proof (trunc_spec r4 (12 + length hd) L4) as T. destruct tl as [|x tl].
  - replace (12 + length hd <? mr_len r4) with false in T by (symmetry; apply Nat.ltb_ge; cbn [length] in Lr; lia). rewrite T. eauto.
  - replace (12 + length hd <? mr_len r4) with true in T by (symmetry; apply Nat.ltb_lt; cbn [length] in Lr; lia).
    destruct T as (r5 & E5 & B5 & L5). rewrite E5. eexists _, _. split; [reflexivity|]. split; auto. split; auto.
    rewrite B5, B, firstn_app. change (length (header_octets (tc_header h) ++ hd)) with (12 + length hd). rewrite Nat.sub_diag. cbn [firstn].
    rewrite app_nil_r, firstn_all2; auto.
Qed.

(** * The sections *)
Definition section_wf {KN : names} (s : section) : Prop := match s with None => True | Some l => Forall rrset_wf l /\ Forall rrset_known l end.
Lemma sections_spec {KN : names} : forall resp pos ss m r, Forall section_wf ss -> inv m r ->
  exists a r', sections_to_wire resp pos ss r = (a, r') /\
  ((a = Ok None /\ extends r r' /\ inv m r' /\ Prrs (flat_map records ss) (rdm m r') (mr_len r) (mr_len r')) \/
   exists r1, extends r r1 /\ inv m r1 /\ flat_map records ss <> [] /\ (a, r') = (response_truncate resp pos ;; ret (Some pos)) r1).
Proof.
  intros resp pos ss m r F. revert r. induction F as [|s ss Fs F IH]; intros r I; cbn [sections_to_wire flat_map].
  - eexists _, _. split; [reflexivity|]. left. split; auto. split; [apply extends_refl|]. split; auto. reflexivity.
  - destruct s as [l|]; cbn [section_to_wire records].
    + destruct Fs as [Fw Fk]. pose proof (emits_section l Fw Fk m r I) as E. destruct (mapM_ rrset_to_wire l r) as [a r1] eqn:Em.
      destruct E as (X1 & I1 & A1). destruct a as [[]| | |]; try (destruct A1; fail).
      * destruct (IH r1 I1) as (a & r' & E & [(-> & X2 & I2 & P2)|(r2 & X2 & I2 & N2 & E2)]).
        -- eexists _, _. split; [exact E|]. left. split; auto. split; [eapply extends_trans; eauto|]. split; auto. apply Prrs_app.
           exists (mr_len r1). split; [destruct X1, X2; lia|]. split; auto. eapply mono_rrs; [|exact A1]. apply extends_rdm. auto.
        -- eexists _, _. split; [exact E|]. right. exists r2. split; [eapply extends_trans; eauto|]. split; auto. split; auto.
           intros X. apply app_eq_nil in X. tauto.
      * eexists _, _. split; [apply surjective_pairing|]. right. exists r1. split; auto. split; auto. split; [|symmetry; apply surjective_pairing].
        intros X. apply app_eq_nil in X. destruct X as [X _]. destruct l as [|rs l]; [discriminate|]. cbn [flat_map] in X. apply app_eq_nil in X.
        destruct X as [X _]. unfold rrs_of in X. destruct (rs_rdatas rs); discriminate.
    + apply IH. auto.
Qed.

(** Decoders against the relations that describe what the encoders emit. *)
From Verif Require Import Base NameModel RenderModel CodesModel SpecName SpecBuf SpecCodes BaseLemmas BitLemmas NameWireProofs
  NameOpsProofs RenderProofs RenderProofs2 BufProofs CodesProofs.

(** [dec] reads back [v] from whatever satisfies [P]. *)
Definition decodes {A} (dec : M inbuf A) (v : A) (P : rel) : Prop :=
  forall w s e, bytes w -> s <= length w -> P (rd_of w) s e -> dec (mkIn w s) = (Ok v, mkIn w e) /\ e <= length w.

Lemma decodes_bind : forall A B (m : M inbuf A) (k : A -> M inbuf B) a b P Q,
  decodes m a P -> decodes (k a) b Q -> decodes (bind m k) b (Pseq P Q).
Proof.
  intros A B m k a b P Q H1 H2 w s e Bw L (x & Lx & HP & HQ).
  destruct (H1 w s x Bw L HP) as [E1 L1]. destruct (H2 w x e Bw L1 HQ) as [E2 L2].
  unfold bind. rewrite E1. auto.
Qed.
Lemma decodes_map : forall A B (m : M inbuf A) (f : A -> B) a P,
  decodes m a P -> decodes (let! x := m in ret (f x)) (f a) P.
Proof.
  intros A B m f a P H w s e Bw L HP. destruct (H w s e Bw L HP) as [E L1]. unfold bind. rewrite E. auto.
Qed.
Lemma decodes_last : forall A B (m : M inbuf A) (k : A -> M inbuf B) a b P,
  decodes m a P -> k a = ret b -> decodes (bind m k) b P.
Proof.
  intros A B m k a b P H K w s e Bw L HP. destruct (H w s e Bw L HP) as [E L1]. unfold bind. rewrite E, K. auto.
Qed.
Lemma decodes_ret : forall A (v : A), decodes (ret v) v Pnil.
Proof. intros A v w s e Bw L ->. auto. Qed.
Lemma decodes_ext : forall A (m m' : M inbuf A) v P, (forall b, m b = m' b) -> decodes m v P -> decodes m' v P.
Proof. intros A m m' v P H D w s e Bw L HP. rewrite <- H. apply D; auto. Qed.
(** A pure step in front does not read anything. *)
Lemma decodes_pure : forall A B (m : M inbuf A) (k : A -> M inbuf B) a b P,
  (forall i, m i = (Ok a, i)) -> decodes (k a) b P -> decodes (bind m k) b P.
Proof. intros A B m k a b P H D w s e Bw L HP. unfold bind. rewrite H. apply D; auto. Qed.
Lemma decodes_ensure : forall B (c : bool) (k : unit -> M inbuf B) b P,
  c = true -> decodes (k tt) b P -> decodes (bind (ensure c) k) b P.
Proof. intros. eapply decodes_pure; [|exact H0]. intros. subst. reflexivity. Qed.

Lemma rd_len : forall (w : list N) i c, rd_of w i = Some c -> i < length w.
Proof. intros. apply nth_error_Some. unfold rd_of in H. congruence. Qed.
Lemma Pbytes_in : forall l w s e, s <= length w -> Pbytes l (rd_of w) s e -> e <= length w.
Proof.
  intros l w s e L [-> H]. destruct l as [|x l]; [cbn [length]; lia|].
  destruct (nth_lt _ (x :: l) (length l)) as [c E]; [cbn [length]; lia|]. apply H in E. apply rd_len in E. cbn [length]. lia.
Qed.
Lemma decodes_rop : forall o w s l e, bytes w -> Pbytes l (rd_of w) s e -> s <= length w ->
  (match o with R8 => length l = 1 | R16 => length l = 2 | R32 => length l = 4 | RBytes n => length l = n | RSeek _ => False end) ->
  read_call o (mkIn w s) = (Ok (match o with RBytes _ => RData l | _ => RNum (be_val l) end), mkIn w e) /\ e <= length w.
Proof.
  intros o w s l e Bw HP L Hl. pose proof (Pbytes_in _ _ _ _ L HP) as Le.
  destruct (bytes_at_Pbytes _ _ _ _ HP) as [Eb ->]. replace (s + length l - s) with (length l) in Eb by lia.
  split; auto. rewrite read_call_spec by auto.
  destruct o; unfold read_spec; try (destruct Hl; fail); rewrite Hl in *; rewrite Eb; ift; reflexivity.
Qed.
Ltac rop o H := intros w s e Bw L HP; destruct (decodes_rop o w s _ e Bw HP L eq_refl) as [E Le];
  unfold read_call, bind in E; split; [|exact Le];
  match goal with |- ?m ?i = _ => destruct (m i) as [[x| | |] b]; try discriminate; unfold ret in E; inversion E; subst; clear E end.
Lemma decodes_u8 : forall d, decodes read_u8 d (Pbytes [d]).
Proof. intros d. rop R8 H. reflexivity. Qed.
Lemma decodes_u16 : forall d, (d < 65536)%N -> decodes read_u16 d (Pbytes (be16 d)).
Proof. intros d Hd. rop R16 H. rewrite be16_be by auto. reflexivity. Qed.
Lemma decodes_u32 : forall d, (d < 4294967296)%N -> decodes read_u32 d (Pbytes (be32 d)).
Proof. intros d Hd. rop R32 H. rewrite be32_be by auto. reflexivity. Qed.
Lemma decodes_bytes : forall l n, length l = n -> decodes (read_bytes n) l (Pbytes l).
Proof.
  intros l n Hn w s e Bw L HP. destruct (decodes_rop (RBytes n) w s _ e Bw HP L Hn) as [E Le].
  unfold read_call, bind in E. split; [|exact Le]. destruct (read_bytes n (mkIn w s)) as [[x| | |] b]; try discriminate.
  unfold ret in E. inversion E. reflexivity.
Qed.
Lemma decodes_name : forall ls, wf_labels ls -> decodes name_from_wire (name_of ls) (Pname ls).
Proof.
  intros ls W w s e Bw L HP. unfold Pname in HP. split.
  - apply from_wire_complete; auto. apply W.
  - eapply wname_end_bound; eauto.
Qed.

(** Codes. *)
Lemma decodes_type : forall t, type_ok t -> decodes rrtype_from_wire t (Pbytes (be16 (rrtype_u16 t))).
Proof. intros t [H1 H2]. unfold rrtype_from_wire. eapply decodes_last; [apply decodes_u16; auto|]. rewrite H2. auto. Qed.
Lemma decodes_class : forall t, class_ok t -> decodes rrclass_from_wire t (Pbytes (be16 (rrclass_u16 t))).
Proof. intros t [H1 H2]. unfold rrclass_from_wire. eapply decodes_last; [apply decodes_u16; auto|]. rewrite H2. auto. Qed.

(** * Header *)
Definition Pheader (h : header) : rel :=
  Pseq (Pbytes (be16 (h_id h))) (Pseq (Pbytes (be16 (header_flag h))) (Pseq (Pbytes (be16 (h_qd h)))
  (Pseq (Pbytes (be16 (h_an h))) (Pseq (Pbytes (be16 (h_ns h))) (Pbytes (be16 (h_ar h))))))).
Ltac mono := repeat (apply mono_seq; [apply mono_bytes|]); try apply mono_bytes.
Lemma mono_header : forall h, mono (Pheader h). Proof. intros. unfold Pheader. mono. Qed.
Lemma emits_header {KN : names} : forall h, emits (header_to_wire h) (Pheader h).
Proof.
  intros. unfold header_to_wire, Pheader. repeat (apply emits_seq; [apply mono_bytes|apply emits_u16|]). apply emits_u16.
Qed.
Lemma header_flag_word : forall h, header_flag h = word_of (h_opcode h) (h_rcode h) (h_flag h).
Proof. intros. destruct h. reflexivity. Qed.
Lemma decodes_header : forall h, header_ok h -> decodes header_from_wire h (Pheader h).
Proof.
  intros h ((H1 & H2 & H3 & H4 & H5) & F). pose proof (flag_masked _ F) as Mk.
  destruct (word_ok (h_opcode h) (h_rcode h) (h_flag h) Mk) as (W1 & W2 & W3 & W4 & _).
  rewrite <- header_flag_word in *. unfold header_from_wire, Pheader.
  eapply decodes_bind; [apply decodes_u16; auto|]. eapply decodes_bind; [apply decodes_u16; auto|].
  eapply decodes_bind; [apply decodes_u16; auto|]. eapply decodes_bind; [apply decodes_u16; auto|].
  eapply decodes_bind; [apply decodes_u16; auto|]. eapply decodes_last; [apply decodes_u16; auto|].
  rewrite W2, W3, W4, opcode_back, rcode_back. destruct h. reflexivity.
Qed.

(** From a writer and a decoder to the API statement, at any point of any history. *)
Lemma round_trip {KN : names} : forall A (w : M render unit) (dec : M inbuf A) v P m r r', inv m r -> mono P ->
  emits w P -> decodes dec v P -> w r = (Ok tt, r') ->
  dec (mkIn (mr_bytes r') (mr_len r)) = (Ok v, mkIn (mr_bytes r') (mr_len r')).
Proof.
  intros A w dec v P m r r' I MP E D Q. specialize (E m r I). rewrite Q in E. destruct E as (X & I' & R).
  apply D.
  - eapply mr_bytes_bytes; eauto.
  - rewrite (mr_bytes_len _ _ I'). destruct X. auto.
  - eapply MP; [|exact R]. intros i c. apply rdm_rd_of. auto.
Qed.

(** What a successful header decode has read. *)
Lemma read_u16_inv : forall w p v b, bytes w -> p <= length w -> read_u16 (mkIn w p) = (Ok v, b) ->
  p + 2 <= length w /\ v = be_val (bytes_at w p 2) /\ b = mkIn w (p + 2) /\ (v < 65536)%N.
Proof.
  intros w p v b Bw L H. pose proof (read_call_spec R16 w p Bw L) as E. unfold read_call, bind in E. rewrite H in E.
  unfold read_spec in E. destruct (p + 2 <=? length w) eqn:El; [|discriminate]. unfold ret in E. inversion E; subst. bl.
  repeat split; auto. destruct (nth_lt _ w p ltac:(lia)) as [x Ex]. destruct (nth_lt _ w (p + 1) ltac:(lia)) as [y Ey].
  rewrite (bytes_at_S _ _ _ _ Ex), (bytes_at_1 _ _ _ Ey). unfold be_val. cbn [fold_left].
  pose proof (nth_byte _ _ _ Bw Ex). pose proof (nth_byte _ _ _ Bw Ey). lia.
Qed.
Definition decode_check (f : N) : bool :=
  let o := opcode_new (as_u8 (N.shiftr (N.land f OPCODE_MASK) OPCODE_SHIFT)) in
  let c := rcode_new (as_u8 (N.land f RCODE_MASK)) in
  let f' := word_of o c (N.land f HEADERFLAG_MASK) in
  (f' <? 65536)%N &&
  forallb (fun fl => Bool.eqb (N.testbit f' (flag_bit fl)) (N.testbit f (flag_bit fl))) all_flags &&
  (if existsb (N.eqb (opcode_field f)) [0; 1; 2; 4; 5; 6]%N then opcode_field f' =? opcode_field f else opcode_field f' =? 6)%N &&
  (if rcode_field f <=? 11 then rcode_field f' =? rcode_field f else rcode_field f' =? 11)%N &&
  (opcode_u8 o =? opcode_field f')%N && (rcode_u8 c =? rcode_field f')%N.
Lemma decode_checked : all_lt 65536 decode_check = true. Proof. vm_compute. reflexivity. Qed.

Lemma header_decode_inv : forall w p h b, bytes w -> p <= length w -> header_from_wire (mkIn w p) = (Ok h, b) ->
  p + 12 <= length w /\ b = mkIn w (p + 12) /\
  h_id h = be_val (bytes_at w p 2) /\ h_qd h = be_val (bytes_at w (p + 4) 2) /\ h_an h = be_val (bytes_at w (p + 6) 2) /\
  h_ns h = be_val (bytes_at w (p + 8) 2) /\ h_ar h = be_val (bytes_at w (p + 10) 2) /\
  let f := be_val (bytes_at w (p + 2) 2) in
  (f < 65536)%N /\ h_flag h = N.land f HEADERFLAG_MASK /\
  h_opcode h = opcode_new (as_u8 (N.shiftr (N.land f OPCODE_MASK) OPCODE_SHIFT)) /\
  h_rcode h = rcode_new (as_u8 (N.land f RCODE_MASK)).
Proof.
  intros w p h b Bw L H. unfold header_from_wire in H.
  apply bind_ok in H. destruct H as (id & b1 & H1 & H). apply read_u16_inv in H1; auto. destruct H1 as (L1 & E1 & -> & B1).
  apply bind_ok in H. destruct H as (fl & b2 & H2 & H). apply read_u16_inv in H2; auto. destruct H2 as (L2 & E2 & -> & B2).
  apply bind_ok in H. destruct H as (qd & b3 & H3 & H). apply read_u16_inv in H3; auto. destruct H3 as (L3 & E3 & -> & B3).
  apply bind_ok in H. destruct H as (an & b4 & H4 & H). apply read_u16_inv in H4; auto. destruct H4 as (L4 & E4 & -> & B4).
  apply bind_ok in H. destruct H as (ns & b5 & H5 & H). apply read_u16_inv in H5; auto. destruct H5 as (L5 & E5 & -> & B5).
  apply bind_ok in H. destruct H as (ar & b6 & H6 & H). apply read_u16_inv in H6; auto. destruct H6 as (L6 & E6 & -> & B6).
  unfold ret in H. inversion H; subst h b. cbn [h_id h_qd h_an h_ns h_ar h_flag h_opcode h_rcode].
  replace (p + 4) with (p + 2 + 2) by lia. replace (p + 6) with (p + 2 + 2 + 2) by lia.
  replace (p + 8) with (p + 2 + 2 + 2 + 2) by lia. replace (p + 10) with (p + 2 + 2 + 2 + 2 + 2) by lia.
  replace (p + 12) with (p + 2 + 2 + 2 + 2 + 2 + 2) by lia. rewrite <- E2.
  repeat split; auto.
Qed.
Lemma header_decoded_ok : forall w p h b, bytes w -> p <= length w -> header_from_wire (mkIn w p) = (Ok h, b) -> header_ok h.
Proof.
  intros w p h b Bw L H.
  assert (Bd : forall q, q + 2 <= length w -> (be_val (bytes_at w q 2) < 65536)%N).
  { intros q Lq. destruct (nth_lt _ w q ltac:(lia)) as [x Ex]. destruct (nth_lt _ w (q + 1) ltac:(lia)) as [y Ey].
    rewrite (bytes_at_S _ _ _ _ Ex), (bytes_at_1 _ _ _ Ey). unfold be_val. cbn [fold_left].
    pose proof (nth_byte _ _ _ Bw Ex). pose proof (nth_byte _ _ _ Bw Ey). lia. }
  apply header_decode_inv in H; auto. destruct H as (L12 & _ & H1 & H2 & H3 & H4 & H5 & _ & H6 & _).
  split.
  - rewrite H1, H2, H3, H4, H5. repeat split; apply Bd; lia.
  - intros i Hi. rewrite H6, N.land_spec, mask_bits in Hi. apply andb_true_iff in Hi. destruct Hi as [_ Hi].
    apply existsb_exists in Hi. destruct Hi as (f & _ & Hf). apply N.eqb_eq in Hf. eauto.
Qed.

Lemma Pheader_bytes : forall h w s e, Pheader h (rd_of w) s e ->
  e = s + 12 /\ bytes_at w s 2 = be16 (h_id h) /\ bytes_at w (s + 2) 2 = be16 (header_flag h) /\
  bytes_at w (s + 4) 2 = be16 (h_qd h) /\ bytes_at w (s + 6) 2 = be16 (h_an h) /\
  bytes_at w (s + 8) 2 = be16 (h_ns h) /\ bytes_at w (s + 10) 2 = be16 (h_ar h).
Proof.
  intros h w s e (k1 & _ & H1 & k2 & _ & H2 & k3 & _ & H3 & k4 & _ & H4 & k5 & _ & H5 & H6).
  assert (G : forall d s e, Pbytes (be16 d) (rd_of w) s e -> bytes_at w s 2 = be16 d /\ e = s + 2).
  { intros d s0 e0 H. apply bytes_at_Pbytes in H. destruct H as [A ->]. replace (s0 + length (be16 d) - s0) with 2 in A by (cbn [length be16]; lia). auto. }
  apply G in H1, H2, H3, H4, H5, H6. destruct H1 as [H1 ->], H2 as [H2 ->], H3 as [H3 ->], H4 as [H4 ->], H5 as [H5 ->], H6 as [H6 ->].
  replace (s + 4) with (s + 2 + 2) by lia. replace (s + 6) with (s + 2 + 2 + 2) by lia.
  replace (s + 8) with (s + 2 + 2 + 2 + 2) by lia. replace (s + 10) with (s + 2 + 2 + 2 + 2 + 2) by lia.
  repeat split; auto. lia.
Qed.
Lemma emitted {KN : names} : forall w P m r r', inv m r -> mono P -> emits w P -> w r = (Ok tt, r') ->
  P (rd_of (mr_bytes r')) (mr_len r) (mr_len r').
Proof.
  intros w P m r r' I MP E Q. specialize (E m r I). rewrite Q in E. destruct E as (X & I' & R).
  eapply MP; [|exact R]. intros i c. apply rdm_rd_of. auto.
Qed.

Lemma header_round_trip : forall dat hs r h r', bytes dat -> history (mr_new dat) hs r -> header_ok h ->
  header_to_wire h r = (Ok tt, r') ->
  header_from_wire (mkIn (mr_bytes r') (mr_len r)) = (Ok h, mkIn (mr_bytes r') (mr_len r')) /\ mr_len r' = mr_len r + 12.
Proof.
  intros dat hs r h r' B H Hh Q. destruct (history_inv _ _ _ B H) as [I _]. split.
  - eapply round_trip; eauto using mono_header, emits_header, decodes_header.
  - eapply emitted in Q; eauto using mono_header, emits_header. apply Pheader_bytes in Q. apply Q.
Qed.
Lemma header_reencode : forall w p h b dat hs r r', bytes w -> p <= length w -> header_from_wire (mkIn w p) = (Ok h, b) ->
  bytes dat -> history (mr_new dat) hs r -> header_to_wire h r = (Ok tt, r') ->
  let x := mr_bytes r' in let q := mr_len r in
  bytes_at x q 2 = bytes_at w p 2 /\
  (forall k, In k [4; 6; 8; 10] -> bytes_at x (q + k) 2 = bytes_at w (p + k) 2) /\
  let f := be_val (bytes_at w (p + 2) 2) in
  let f' := be_val (bytes_at x (q + 2) 2) in
  (forall fl, N.testbit f' (flag_bit fl) = N.testbit f (flag_bit fl)) /\
  (In (opcode_field f) [0; 1; 2; 4; 5]%N -> opcode_field f' = opcode_field f) /\
  (rcode_field f <= 10 -> rcode_field f' = rcode_field f)%N.
Proof.
  intros w p h b dat hs r r' Bw L H B Hi Q x q. destruct (history_inv _ _ _ B Hi) as [I _].
  eapply emitted in Q; eauto using mono_header, emits_header. apply Pheader_bytes in Q.
  destruct Q as (_ & Q1 & Q2 & Q3 & Q4 & Q5 & Q6).
  destruct (header_decode_inv _ _ _ _ Bw L H) as (L12 & _ & H1 & H2 & H3 & H4 & H5 & Hf & H6 & H7 & H8).
  assert (U : forall i, i + 2 <= length w -> be16 (be_val (bytes_at w i 2)) = bytes_at w i 2).
  { intros i Li. destruct (nth_lt _ w i ltac:(lia)) as [y Ey]. destruct (nth_lt _ w (i + 1) ltac:(lia)) as [z Ez].
    rewrite (bytes_at_S _ _ _ _ Ey), (bytes_at_1 _ _ _ Ez). pose proof (nth_byte _ _ _ Bw Ey). pose proof (nth_byte _ _ _ Bw Ez).
    unfold be_val. cbn [fold_left]. rewrite be16_u16 by lia. unfold u16_bytes.
    replace (256 * (256 * 0 + y) + z)%N with (z + y * 256)%N by lia.
    rewrite N.div_add, N.mod_add by discriminate. rewrite N.div_small, N.mod_small by auto. reflexivity. }
  subst x q. split; [rewrite Q1, H1; apply U; lia|]. split.
  { intros k [<-|[<-|[<-|[<-|[]]]]].
    - rewrite Q3, H2. apply U. lia. - rewrite Q4, H3. apply U. lia.
    - rewrite Q5, H4. apply U. lia. - rewrite Q6, H5. apply U. lia. }
  intros f f'. pose proof (all_lt_ok _ _ decode_checked f Hf) as C. unfold decode_check in C. cbv zeta in C.
  assert (Ef : f' = word_of (opcode_new (as_u8 (N.shiftr (N.land f OPCODE_MASK) OPCODE_SHIFT))) (rcode_new (as_u8 (N.land f RCODE_MASK))) (N.land f HEADERFLAG_MASK)).
  { subst f'. rewrite Q2, header_flag_word, H6, H7, H8. fold f. apply be16_be. bl. auto. }
  rewrite <- Ef in C. bl. split; [|split].
  - rewrite forallb_forall in H13. intros fl. apply eqb_prop. apply H13. destruct fl; cbn; auto 10.
  - intros Hin. assert (Et : existsb (N.eqb (opcode_field f)) [0; 1; 2; 4; 5; 6]%N = true).
    { apply existsb_exists. exists (opcode_field f). split; [|apply N.eqb_refl]. cbn [In] in *. tauto. }
    rewrite Et in H12. apply N.eqb_eq. auto.
  - intros Hle. replace (rcode_field f <=? 11)%N with true in H11 by (symmetry; apply N.leb_le; lia). apply N.eqb_eq. auto.
Qed.

Definition field_check (f : N) : bool :=
  let o := opcode_new (as_u8 (N.shiftr (N.land f OPCODE_MASK) OPCODE_SHIFT)) in
  let c := rcode_new (as_u8 (N.land f RCODE_MASK)) in
  (if existsb (N.eqb (opcode_field f)) (map snd iana_opcodes) then opcode_u8 o =? opcode_field f else true)%N &&
  (if existsb (N.eqb (rcode_field f)) (map snd iana_rcodes) then rcode_u8 c =? rcode_field f else true)%N.
Lemma field_checked : all_lt 65536 field_check = true. Proof. vm_compute. reflexivity. Qed.
Lemma header_decode_spec : forall w p h b, bytes w -> p <= length w -> header_from_wire (mkIn w p) = (Ok h, b) ->
  p + 12 <= length w /\ b = mkIn w (p + 12) /\ header_ok h /\
  h_id h = be_val (bytes_at w p 2) /\ h_qd h = be_val (bytes_at w (p + 4) 2) /\ h_an h = be_val (bytes_at w (p + 6) 2) /\
  h_ns h = be_val (bytes_at w (p + 8) 2) /\ h_ar h = be_val (bytes_at w (p + 10) 2) /\
  let f := be_val (bytes_at w (p + 2) 2) in
  (forall fl, header_is_set h fl = N.testbit f (flag_bit fl)) /\
  (forall s, In (s, opcode_field f) iana_opcodes -> opcode_u8 (h_opcode h) = opcode_field f) /\
  (forall s, In (s, rcode_field f) iana_rcodes -> rcode_u8 (h_rcode h) = rcode_field f).
Proof.
  intros w p h b Bw L H. pose proof (header_decoded_ok _ _ _ _ Bw L H) as Ok.
  destruct (header_decode_inv _ _ _ _ Bw L H) as (L12 & Eb & H1 & H2 & H3 & H4 & H5 & Hf & H6 & H7 & H8).
  do 8 (split; [assumption|]). cbv zeta. set (f := be_val (bytes_at w (p + 2) 2)) in *.
  pose proof (all_lt_ok _ _ field_checked f Hf) as C. unfold field_check in C. cbv zeta in C. apply andb_true_iff in C. destruct C as [C1 C2].
  split; [|split].
  - intros fl. unfold header_is_set. rewrite hf_is_set_bit, H6, N.land_spec, mask_bits.
    replace (existsb _ all_flags) with true; [apply andb_true_r|]. symmetry. apply existsb_exists. exists fl.
    split; [destruct fl; cbn; auto 10|apply N.eqb_refl].
  - intros s Hs. rewrite H7. replace (existsb (N.eqb (opcode_field f)) (map snd iana_opcodes)) with true in C1.
    + apply N.eqb_eq. auto.
    + symmetry. apply existsb_exists. exists (opcode_field f). split; [apply (in_map snd) in Hs; auto|apply N.eqb_refl].
  - intros s Hs. rewrite H8. replace (existsb (N.eqb (rcode_field f)) (map snd iana_rcodes)) with true in C2.
    + apply N.eqb_eq. auto.
    + symmetry. apply existsb_exists. exists (rcode_field f). split; [apply (in_map snd) in Hs; auto|apply N.eqb_refl].
Qed.

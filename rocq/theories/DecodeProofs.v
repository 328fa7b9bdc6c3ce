(** Totality and soundness of the decoders: on every input they stop with Ok or Err, the cursor stays inside the data,
    and a successful result is what the octets denote. *)
From Verif Require Import Base NameModel RenderModel CodesModel RDataModel MsgModel SpecName SpecBuf SpecCodes SpecMsg
  BaseLemmas BitLemmas NameWireProofs NameOpsProofs RenderProofs RenderProofs2 BufProofs CodesProofs WireProofs RDataProofs.

(** Hoare-style judgement for a decoder at cursor [p] of data [w]. *)
Definition tdec {A} (w : list N) (p : nat) (dec : M inbuf A) (W : A -> nat -> Prop) : Prop :=
  exists r p', dec (mkIn w p) = (r, mkIn w p') /\ p' <= length w /\ safe r /\ forall v, r = Ok v -> p <= p' /\ W v p'.
Lemma tdec_ret : forall A w p (v : A) (W : A -> nat -> Prop), p <= length w -> W v p -> tdec w p (ret v) W.
Proof. intros. exists (Ok v), p. repeat split; auto; try discriminate; inversion H1; subst; auto. Qed.
Lemma tdec_fail : forall A w p (W : A -> nat -> Prop), p <= length w -> tdec w p fail W.
Proof. intros. exists Err, p. repeat split; auto; discriminate. Qed.
Lemma tdec_bind : forall A B w p (m : M inbuf A) (k : A -> M inbuf B) W1 W2, tdec w p m W1 ->
  (forall a q, p <= q <= length w -> W1 a q -> tdec w q (k a) W2) -> tdec w p (bind m k) W2.
Proof.
  intros A B w p m k W1 W2 (r & q & E & L & [S1 S2] & H) K. unfold tdec, bind. rewrite E. destruct r; try congruence.
  - destruct (H a eq_refl) as [Lq Wa]. destruct (K a q (conj Lq L) Wa) as (r & q' & E' & L' & S' & H').
    exists r, q'. repeat split; auto; try apply S'; intros; subst; destruct (H' _ eq_refl); auto; lia.
  - exists Err, q. repeat split; auto; discriminate.
Qed.
Lemma tdec_weaken : forall A w p (m : M inbuf A) (W W' : A -> nat -> Prop), tdec w p m W ->
  (forall v q, p <= q <= length w -> W v q -> W' v q) -> tdec w p m W'.
Proof.
  intros A w p m W W' (r & q & E & L & Sf & H) K. exists r, q. split; auto. split; auto. split; auto. intros v Ev.
  destruct (H v Ev). auto.
Qed.
Lemma tdec_ensure : forall B w p (c : bool) (k : unit -> M inbuf B) W, p <= length w -> (c = true -> tdec w p (k tt) W) ->
  tdec w p (bind (ensure c) k) W.
Proof.
  intros B w p c k W L H. destruct c.
  - destruct (H eq_refl) as (r & q & X). exists r, q. exact X.
  - exists Err, p. repeat split; auto; discriminate.
Qed.
Lemma tdec_lift : forall A B w p (r : res A) (k : A -> M inbuf B) W, p <= length w -> safe r -> (forall a, r = Ok a -> tdec w p (k a) W) ->
  tdec w p (bind (lift r) k) W.
Proof.
  intros A B w p r k W L [S1 S2] H. destruct r; try congruence.
  - destruct (H a eq_refl) as (r & q & X). exists r, q. exact X.
  - exists Err, p. repeat split; auto; discriminate.
Qed.
Lemma tdec_position : forall B w p (k : nat -> M inbuf B) W, tdec w p (k p) W -> tdec w p (bind position k) W.
Proof. intros. exact H. Qed.

Section W.
Context (w : list N) (Bw : bytes w).

Lemma octets_read : forall p n, p + n <= length w -> octets w p (p + n) (bytes_at w p n).
Proof.
  intros. unfold octets, bytes_at. rewrite firstn_length_le by (rewrite skipn_length; lia). auto.
Qed.
Lemma tdec_rop : forall o p, p <= length w -> tdec w p (read_call o) (fun v q => read_spec w p o = Some (v, q)) \/ exists q, o = RSeek q.
Proof.
  intros o p L. destruct o; eauto; left; unfold tdec; rewrite read_call_spec by auto; destruct (read_spec w p _) as [[v q]|] eqn:E;
    try (exists Err, p; repeat split; auto; discriminate);
    (exists (Ok v), q; split; auto; split; [eapply read_spec_in; eauto|]; split; [split; discriminate|];
     intros v' E'; inversion E'; subst; split; auto; unfold read_spec in E;
     match type of E with (if ?c then _ else _) = _ => destruct c; inversion E; lia end).
Qed.
Lemma bytes_at_bytes : forall p n, bytes (bytes_at w p n).
Proof. intros. unfold bytes_at, bytes in *. rewrite Forall_forall in *. intros x Hx. apply firstn_In, skipn_In in Hx. auto. Qed.
Lemma tdec_u8 : forall p, p <= length w -> tdec w p read_u8 (fun v q => q = p + 1 /\ (v < 256)%N /\ octets w p q [v]).
Proof.
  intros p L. destruct (tdec_rop R8 p L) as [(r & q & E & Lq & Sf & H)|[q H]]; [|discriminate].
  unfold read_call, bind in E. destruct (read_u8 (mkIn w p)) as [[x| | |] b] eqn:Er; unfold ret in E; inversion E; subst r b; try (exists Err, q; repeat split; auto; discriminate); try (destruct Sf; congruence).
  destruct (H _ eq_refl) as [Lp Hs]. exists (Ok x), q. split; auto. split; auto. split; [split; discriminate|].
  intros v Ev. inversion Ev; subst v. split; auto. unfold read_spec in Hs. destruct (p + 1 <=? length w) eqn:El; inversion Hs. bl.
  split; auto. destruct (nth_lt _ w p ltac:(lia)) as [y Ey]. rewrite (bytes_at_1 _ _ _ Ey). cbv [be_val fold_left].
  pose proof (nth_byte _ _ _ Bw Ey). split; [lia|]. pose proof (octets_read p 1 ltac:(lia)) as O. rewrite (bytes_at_1 _ _ _ Ey) in O.
  replace (256 * 0 + y)%N with y by lia. exact O.
Qed.
Lemma u16_of_bytes : forall p, p + 2 <= length w -> (be_val (bytes_at w p 2) < 65536)%N /\ u16_bytes (be_val (bytes_at w p 2)) = bytes_at w p 2.
Proof.
  intros p L. destruct (nth_lt _ w p ltac:(lia)) as [x Ex]. destruct (nth_lt _ w (p + 1) ltac:(lia)) as [y Ey].
  rewrite (bytes_at_S _ _ _ _ Ex), (bytes_at_1 _ _ _ Ey). unfold be_val. cbn [fold_left].
  pose proof (nth_byte _ _ _ Bw Ex). pose proof (nth_byte _ _ _ Bw Ey). split; [lia|]. unfold u16_bytes.
  replace (256 * (256 * 0 + x) + y)%N with (y + x * 256)%N by lia. rewrite N.div_add, N.mod_add, N.div_small, N.mod_small by (auto; lia).
  reflexivity.
Qed.
Lemma tdec_u16 : forall p, p <= length w -> tdec w p read_u16 (fun v q => q = p + 2 /\ (v < 65536)%N /\ octets w p q (u16_bytes v)).
Proof.
  intros p L. destruct (tdec_rop R16 p L) as [(r & q & E & Lq & Sf & H)|[q H]]; [|discriminate].
  unfold read_call, bind in E. destruct (read_u16 (mkIn w p)) as [[x| | |] b] eqn:Er; unfold ret in E; inversion E; subst r b; try (exists Err, q; repeat split; auto; discriminate); try (destruct Sf; congruence).
  destruct (H _ eq_refl) as [Lp Hs]. exists (Ok x), q. split; auto. split; auto. split; [split; discriminate|].
  intros v Ev. inversion Ev; subst v. split; auto. unfold read_spec in Hs. destruct (p + 2 <=? length w) eqn:El; inversion Hs. bl.
  split; auto. destruct (u16_of_bytes p El) as [B ->]. split; [exact B|]. apply octets_read; auto.
Qed.
Lemma u32_of_bytes : forall p, p + 4 <= length w -> (be_val (bytes_at w p 4) < 4294967296)%N /\ u32_bytes (be_val (bytes_at w p 4)) = bytes_at w p 4.
Proof.
  intros p L. destruct (nth_lt _ w p ltac:(lia)) as [x Ex]. destruct (nth_lt _ w (p + 1) ltac:(lia)) as [y Ey].
  destruct (nth_lt _ w (p + 1 + 1) ltac:(lia)) as [z Ez]. destruct (nth_lt _ w (p + 1 + 1 + 1) ltac:(lia)) as [u Eu].
  rewrite (bytes_at_S _ _ _ _ Ex), (bytes_at_S _ _ _ _ Ey), (bytes_at_S _ _ _ _ Ez), (bytes_at_1 _ _ _ Eu). unfold be_val. cbn [fold_left].
  pose proof (nth_byte _ _ _ Bw Ex). pose proof (nth_byte _ _ _ Bw Ey). pose proof (nth_byte _ _ _ Bw Ez). pose proof (nth_byte _ _ _ Bw Eu).
  split; [lia|]. unfold u32_bytes.
  assert (D : forall q r, (r < 256)%N -> ((256 * q + r) / 256 = q /\ (256 * q + r) mod 256 = r)%N).
  { intros q r Hr. replace (256 * q + r)%N with (r + q * 256)%N by lia. rewrite N.div_add, N.mod_add, N.div_small, N.mod_small by (auto; lia). split; lia. }
  change 16777216%N with (256 * (256 * 256))%N. change 65536%N with (256 * 256)%N. rewrite <- !N.div_div by discriminate.
  replace (256 * 0 + x)%N with x by lia.
  rewrite !(proj1 (D _ _ H2)), (proj2 (D _ _ H2)), !(proj1 (D _ _ H1)), (proj2 (D _ _ H1)), (proj1 (D _ _ H0)), (proj2 (D _ _ H0)). reflexivity.
Qed.
Lemma tdec_u32 : forall p, p <= length w -> tdec w p read_u32 (fun v q => q = p + 4 /\ (v < 4294967296)%N /\ octets w p q (u32_bytes v)).
Proof.
  intros p L. destruct (tdec_rop R32 p L) as [(r & q & E & Lq & Sf & H)|[q H]]; [|discriminate].
  unfold read_call, bind in E. destruct (read_u32 (mkIn w p)) as [[x| | |] b] eqn:Er; unfold ret in E; inversion E; subst r b; try (exists Err, q; repeat split; auto; discriminate); try (destruct Sf; congruence).
  destruct (H _ eq_refl) as [Lp Hs]. exists (Ok x), q. split; auto. split; auto. split; [split; discriminate|].
  intros v Ev. inversion Ev; subst v. split; auto. unfold read_spec in Hs. destruct (p + 4 <=? length w) eqn:El; inversion Hs. bl.
  split; auto. destruct (u32_of_bytes p El) as [B ->]. split; [exact B|]. apply octets_read; auto.
Qed.
Lemma tdec_bytes : forall n p, p <= length w -> tdec w p (read_bytes n) (fun v q => q = p + n /\ length v = n /\ bytes v /\ octets w p q v).
Proof.
  intros n p L. destruct (tdec_rop (RBytes n) p L) as [(r & q & E & Lq & Sf & H)|[q H]]; [|discriminate].
  unfold read_call, bind in E. destruct (read_bytes n (mkIn w p)) as [[x| | |] b] eqn:Er; unfold ret in E; inversion E; subst r b; try (exists Err, q; repeat split; auto; discriminate); try (destruct Sf; congruence).
  destruct (H _ eq_refl) as [Lp Hs]. exists (Ok x), q. split; auto. split; auto. split; [split; discriminate|].
  intros v Ev. inversion Ev; subst v. split; auto. unfold read_spec in Hs. destruct (p + n <=? length w) eqn:El; inversion Hs. bl.
  split; auto. split; [unfold bytes_at; apply firstn_length_le; rewrite skipn_length; lia|]. split; [apply bytes_at_bytes|apply octets_read; auto].
Qed.
Lemma tdec_name : forall p, p <= length w -> tdec w p name_from_wire (fun n q => exists ls, wf_labels ls /\ n = name_of ls /\ wname (rd_of w) p p ls q /\ p < q).
Proof.
  intros p L. destruct (from_wire_spec w p Bw L) as [(ls & e & W & WL & Le & E)|(_ & p' & L' & E)].
  - exists (Ok (name_of ls)), e. split; auto. split; [lia|]. split; [split; discriminate|]. intros v Ev. inversion Ev; subst. split; [lia|].
    exists ls. split; [split; auto; eapply wname_wf_label; eauto|]. repeat split; auto; lia.
  - exists Err, p'. repeat split; auto; discriminate.
Qed.

(** ** rdata fields *)
Lemma tdec_byte_binary : forall L p, p <= length w -> tdec w p (byte_binary_from_wire L) (fun x q =>
  wf_string (fst x) /\ octets w p q (string_octets (fst x)) /\ q = p + 1 + length (fst x) /\ snd x = (L - N.of_nat (q - p))%N /\ q - p <= N.to_nat L).
Proof.
  intros L p Lp. unfold byte_binary_from_wire. eapply tdec_bind; [apply tdec_u8; auto|]. intros dl q Lq (-> & Bd & O1).
  apply tdec_ensure; [lia|]. intros C. bl. eapply tdec_bind; [apply tdec_bytes; lia|]. intros d q' Lq' (-> & Ld & Bd' & O2).
  apply tdec_lift; [lia|destruct (dl + 1 <=? L)%N eqn:E; [split; discriminate|bl; lia]|]. intros l El.
  destruct (dl + 1 <=? L)%N; inversion El; subst. apply tdec_ret; [lia|]. cbn [fst snd]. split; [split; [lia|auto]|].
  split; [|split; [lia|split; [lia|lia]]]. unfold string_octets. unfold octets in *. cbn [length].
  destruct O1 as (_ & O1 & O1l). destruct O2 as (_ & O2 & O2l). split; [lia|]. split; [|lia].
  destruct (nth_lt _ w p ltac:(cbn [length] in *; lia)) as [y Ey]. rewrite (bytes_at_S _ _ _ _ Ey), O2. f_equal.
  cbn [length] in O1. rewrite (bytes_at_1 _ _ _ Ey) in O1. inversion O1. unfold blen. lia.
Qed.
Lemma octets_app : forall s m e a b, octets w s m a -> octets w m e b -> octets w s e (a ++ b).
Proof.
  intros s m e a b (-> & H1 & L1) (-> & H2 & L2). unfold octets. rewrite app_length. split; [lia|]. split; [|lia].
  apply nth_error_ext. intros i.
  assert (G : forall n p j, j < n -> nth_error (bytes_at w p n) j = nth_error w (p + j)).
  { intros n p j Hj. unfold bytes_at. rewrite nth_firstn by auto. apply nth_skipn. }
  destruct (Nat.lt_ge_cases i (length a)); [|destruct (Nat.lt_ge_cases i (length a + length b))].
  - rewrite nth_error_app1 by auto. rewrite <- H1 at 2. rewrite !G by lia. auto.
  - rewrite nth_error_app2 by auto. rewrite <- H2 at 2. rewrite !G by lia. f_equal. lia.
  - transitivity (@None N); [|symmetry]; apply nth_error_None; [unfold bytes_at; rewrite firstn_length; lia|rewrite app_length; lia].
Qed.
Lemma octets_nil : forall p, p <= length w -> octets w p p [].
Proof. intros. unfold octets. simpl. repeat split; auto. Qed.
Lemma tdec_text_loop : forall fuel L acc p p0, p0 <= p <= length w -> N.to_nat L < fuel -> Forall wf_string acc ->
  octets w p0 p (flat_map string_octets acc) -> tdec w p (text_loop fuel L acc) (fun d q =>
    Forall wf_string d /\ octets w p0 q (flat_map string_octets d) /\ q = p + N.to_nat L).
Proof.
  induction fuel as [|fuel IH]; intros L acc p p0 Lp Lf Wa O; [lia|]. cbn [text_loop].
  destruct (0 <? L)%N eqn:E; bl.
  - eapply tdec_bind; [apply tdec_byte_binary; lia|]. intros [t L'] q Lq (Wt & Ot & Eq & EL & Lq'). cbn [fst snd] in *.
    eapply tdec_weaken; [apply (IH L' (acc ++ [t]) q p0)|].
    + lia.
    + lia.
    + apply Forall_app; auto.
    + rewrite flat_map_app. eapply octets_app; eauto. cbn [flat_map]. rewrite app_nil_r. auto.
    + intros d q' Lq2 (H1 & H2 & H3). repeat split; auto; try apply H2. lia.
  - apply tdec_ret; [lia|]. repeat split; auto; try apply O. lia.
Qed.
Definition field_post (k : codec) (L : N) (p : nat) : fval * N -> nat -> Prop := fun x q =>
  wf_field k (fst x) /\ field_at w p q (fst x) /\ snd x = (L - N.of_nat (q - p))%N /\ q - p <= N.to_nat L.
Lemma type_new_ok : forall v, (v < 65536)%N -> type_ok (rrtype_new v) /\ rrtype_u16 (rrtype_new v) = v.
Proof.
  intros v H. pose proof (rrtype_num v) as R. split; auto. split; rewrite R; auto.
Qed.
Lemma class_new_ok : forall v, (v < 65536)%N -> class_ok (rrclass_new v) /\ rrclass_u16 (rrclass_new v) = v.
Proof.
  intros v H. pose proof (rrclass_num v) as R. split; auto. split; rewrite R; auto.
Qed.
Lemma tdec_ip : forall k L p, p <= length w -> tdec w p (ip_from_wire k L) (fun x q =>
  length (fst x) = k /\ bytes (fst x) /\ octets w p q (fst x) /\ snd x = (L - N.of_nat (q - p))%N /\ q - p <= N.to_nat L).
Proof.
  intros k L p Lp. unfold ip_from_wire. apply tdec_ensure; [lia|]. intros C. bl. eapply tdec_bind; [apply tdec_bytes; lia|].
  intros d q Lq (-> & Ld & Bd & O). apply tdec_ret; [lia|]. cbn [fst snd]. repeat split; auto; try apply O; lia.
Qed.
Lemma tdec_field : forall k L p, (L < 65536)%N -> p <= length w -> tdec w p (field_from_wire k L) (field_post k L p).
Proof.
  intros k L p HL Lp. destruct k; cbn [field_from_wire].
  - eapply tdec_bind; [apply tdec_ip; auto|]. intros [d l] q Lq (H1 & H2 & H3 & H4 & H5). cbn [fst snd] in *. apply tdec_ret; [lia|].
    split; [cbn; auto|]. cbn [fst snd field_at]. auto.
  - eapply tdec_bind; [apply tdec_ip; auto|]. intros [d l] q Lq (H1 & H2 & H3 & H4 & H5). cbn [fst snd] in *. apply tdec_ret; [lia|].
    split; [cbn; auto|]. cbn [fst snd field_at]. auto.
  - eapply tdec_bind with (W1 := fun x q => field_post KName L p (VName (fst x), snd x) q).
    + unfold rname_from_wire. apply tdec_position. eapply tdec_bind; [apply tdec_name; auto|]. intros n q Lq (ls & Wl & -> & Wn & Lt).
      apply tdec_position. apply tdec_lift; [lia|rewrite csub_ok by lia; split; discriminate|]. intros d Ed. rewrite csub_ok in Ed by lia. inversion Ed; subst d.
      pose proof (wname_span _ _ _ _ _ Wn). pose proof (proj2 Wl). rewrite as_u16_small by lia.
      apply tdec_ensure; [lia|]. intros C. bl. apply tdec_ret; [lia|]. cbn [fst snd]. split; [exists ls; auto|]. cbn [fst snd field_at].
      split; [exists ls; auto|]. lia.
    + intros [n l] q Lq F. apply tdec_ret; [lia|exact F].
  - apply tdec_ensure; [lia|]. intros C. bl. eapply tdec_bind; [apply tdec_u8; lia|]. intros v q Lq (-> & Bv & O). apply tdec_ret; [lia|].
    split; [exact Bv|]. cbn [fst snd field_at]. split; auto. lia.
  - apply tdec_ensure; [lia|]. intros C. bl. eapply tdec_bind; [apply tdec_u16; lia|]. intros v q Lq (-> & Bv & O). apply tdec_ret; [lia|].
    split; [exact Bv|]. cbn [fst snd field_at]. split; auto. lia.
  - apply tdec_ensure; [lia|]. intros C. bl. eapply tdec_bind; [apply tdec_u32; lia|]. intros v q Lq (-> & Bv & O). apply tdec_ret; [lia|].
    split; [exact Bv|]. cbn [fst snd field_at]. split; auto. lia.
  - apply tdec_ensure; [lia|]. intros C. bl. eapply tdec_bind; [apply tdec_u16; lia|]. intros v q Lq (-> & Bv & O). apply tdec_ret; [lia|].
    destruct (type_new_ok _ Bv) as [T1 T2]. split; [exact T1|]. cbn [fst snd field_at]. rewrite T2. split; auto. lia.
  - eapply tdec_bind with (W1 := fun x q => field_post KText L p (VText (fst x), snd x) q).
    + unfold text_from_wire. eapply tdec_bind; [apply (tdec_text_loop _ _ _ p p); auto; try lia; apply octets_nil; auto|].
      intros d q Lq (H1 & H2 & H3). apply tdec_ret; [lia|]. split; [exact H1|]. cbn [fst snd field_at]. split; [exact H2|]. lia.
    + intros [n l] q Lq F. apply tdec_ret; [lia|exact F].
  - eapply tdec_bind; [apply tdec_byte_binary; auto|]. intros [d l] q Lq (H1 & H2 & H3 & H4 & H5). cbn [fst snd] in *. apply tdec_ret; [lia|].
    split; [exact H1|]. cbn [fst snd field_at]. auto.
  - eapply tdec_bind; [apply tdec_bytes; auto|]. intros d q Lq (-> & H1 & H2 & H3). apply tdec_ret; [lia|]. split; [exact H2|]. cbn [fst snd field_at].
    split; auto. lia.
Qed.
Lemma tdec_fields : forall ks L p, (L < 65536)%N -> p <= length w -> tdec w p (fields_from_wire ks L) (fun x q =>
  Forall2 wf_field ks (fst x) /\ fields_at w p q (fst x) /\ snd x = (L - N.of_nat (q - p))%N /\ q - p <= N.to_nat L).
Proof.
  induction ks as [|k ks IH]; intros L p HL Lp; cbn [fields_from_wire].
  - apply tdec_ret; [lia|]. cbn [fst snd fields_at]. split; auto. split; auto. lia.
  - eapply tdec_bind; [apply tdec_field; auto|]. intros [v L'] q Lq (F1 & F2 & F3 & F4). cbn [fst snd] in *.
    eapply tdec_bind; [apply IH; lia|]. intros [vs L''] q' Lq' (G1 & G2 & G3 & G4). cbn [fst snd] in *. apply tdec_ret; [lia|]. cbn [fst snd fields_at].
    split; [auto|]. split; [exists q; auto|]. lia.
Qed.
Lemma variant_data : forall t v, variant_of_type t = Some v -> data_of t = Some v.
Proof. intros t v H. destruct t; cbn in H |- *; inversion H; auto. Qed.
Lemma tdec_rdata : forall t L p, (L < 65536)%N -> p <= length w -> tdec w p (rdata_from_wire t L) (fun rd q =>
  wf_rdata t rd /\ fields_at w p q (rd_fields rd) /\ q = p + N.to_nat L).
Proof.
  intros t L p HL Lp. unfold rdata_from_wire. apply tdec_position. destruct (variant_of_type t) as [v|] eqn:V; [|apply tdec_fail; auto].
  eapply tdec_bind with (W1 := fun rd q => wf_rdata t rd /\ fields_at w p q (rd_fields rd)).
  - unfold struct_from_wire. eapply tdec_bind; [apply tdec_fields; auto|]. intros [vs L'] q Lq (F1 & F2 & F3 & F4). cbn [fst snd] in *.
    apply tdec_ensure; [lia|]. intros C. bl. apply tdec_ret; [lia|]. apply variant_data in V. cbn [rd_fields]. split; auto.
    split; [auto|]. exists (schema v). split; auto. apply layout_schema. auto.
  - intros rd q Lq (F1 & F2). apply tdec_position. apply tdec_lift; [lia|rewrite csub_ok by lia; split; discriminate|]. intros d Ed.
    rewrite csub_ok in Ed by lia. inversion Ed; subst d. apply tdec_ensure; [lia|]. intros C. bl. apply tdec_ret; [lia|]. repeat split; auto; try apply F1. lia.
Qed.
Lemma rrtype_eqb_eq : forall a b, rrtype_eqb a b = true <-> a = b.
Proof.
  intros a b. split.
  - destruct a, b; cbn; intros H; try discriminate; auto. bl. subst. auto.
  - intros ->. destruct b; cbn; auto. apply N.eqb_refl.
Qed.
(** One record. *)
Lemma tdec_rr : forall p, p <= length w -> tdec w p rrset_from_wire (fun rs q => p < q /\
  exists x, rr_at w p q x /\ rr_legal x /\
    rs = mkRRset (rr_owner x) (rr_type x) (rr_class x) (rr_ttl x) (match rr_data x with None => [] | Some d => [d] end)).
Proof.
  intros p Lp. unfold rrset_from_wire. eapply tdec_bind; [apply tdec_name; auto|]. intros n m Lm (ls & Wl & -> & Wn & Lt).
  eapply tdec_bind with (W1 := fun t q => q = m + 2 /\ type_ok t /\ octets w m q (u16_bytes (rrtype_u16 t))).
  { unfold rrtype_from_wire. eapply tdec_bind; [apply tdec_u16; lia|]. intros v q Lq (-> & Bv & O). apply tdec_ret; [lia|].
    destruct (type_new_ok _ Bv) as [T1 T2]. rewrite T2. auto. }
  intros t q Lq (-> & Tt & Ot).
  eapply tdec_bind with (W1 := fun t q => q = m + 2 + 2 /\ class_ok t /\ octets w (m + 2) q (u16_bytes (rrclass_u16 t))).
  { unfold rrclass_from_wire. eapply tdec_bind; [apply tdec_u16; lia|]. intros v q Lq' (-> & Bv & O). apply tdec_ret; [lia|].
    destruct (class_new_ok _ Bv) as [T1 T2]. rewrite T2. auto. }
  intros c q Lq2 (-> & Tc & Oc).
  eapply tdec_bind; [apply tdec_u32; lia|]. intros ttl q Lq3 (-> & Bt & Ott).
  eapply tdec_bind; [apply tdec_u16; lia|]. intros L q Lq4 (-> & BL & OL).
  replace (m + 2 + 2) with (m + 4) in * by lia. replace (m + 4 + 4) with (m + 8) in * by lia. replace (m + 8 + 2) with (m + 10) in * by lia.
  destruct (N.eqb_spec L 0) as [->|NZ].
  - destruct (rrtype_eqb t TOPT) eqn:E; [|apply tdec_fail; lia]. apply rrtype_eqb_eq in E. apply tdec_ret; [lia|]. split; [lia|].
    exists (mkRR (name_of ls) t c ttl None). split; [|split; [intros _; exact E|reflexivity]].
    exists ls, m, 0%N. cbn [rr_owner rr_type rr_class rr_ttl rr_data]. repeat split; auto; try apply Wl; try apply Tt; try apply Tc; try apply Ot; try apply Oc; try apply Ott; try apply OL; lia.
  - eapply tdec_bind; [apply tdec_rdata; auto; lia|]. intros rd q Lq5 (Wr & Fr & ->). apply tdec_ret; [lia|]. split; [lia|].
    exists (mkRR (name_of ls) t c ttl (Some rd)). split; [|split; [intros X; discriminate|reflexivity]].
    exists ls, m, L. cbn [rr_owner rr_type rr_class rr_ttl rr_data]. repeat split; auto; try apply Wl; try apply Tt; try apply Tc; try apply Ot; try apply Oc; try apply Ott; try apply OL; try apply Wr; lia.
Qed.
End W.

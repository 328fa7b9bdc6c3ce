(** Decoding a message takes bounded work (C115). *)
From Verif Require Import Base NameModel RenderModel CodesModel RDataModel MsgModel SpecName SpecWork SpecRenderWork SpecDecodeWork BaseLemmas NameWireProofs
  WorkProofs RenderWorkProofs.

(** ** Reads move forward and stay within the buffer *)
Definition fwd {A} (w : list N) (m : M inbuf A) : Prop := forall p, p <= length w -> exists a p', m (mkIn w p) = (a, mkIn w p') /\ p <= p' <= length w.
Lemma fwd_ret : forall A w (a : A), fwd w (ret a).
Proof. intros A w a p L. exists (Ok a), p. split; [reflexivity|lia]. Qed.
Lemma fwd_fail : forall A w, fwd w (@fail inbuf A).
Proof. intros A w p L. exists Err, p. split; [reflexivity|lia]. Qed.
Lemma fwd_lift : forall A w (x : res A), fwd w (lift x).
Proof. intros A w x p L. exists x, p. split; [reflexivity|lia]. Qed.
Lemma fwd_ensure : forall w b, fwd w (@ensure inbuf b).
Proof. intros w []; [apply fwd_ret|apply fwd_fail]. Qed.
Lemma fwd_bind : forall A B w (m : M inbuf A) (f : A -> M inbuf B), fwd w m -> (forall a, fwd w (f a)) -> fwd w (bind m f).
Proof.
  intros A B w m f Hm Hf p L. destruct (Hm p L) as (a & p1 & E & L1). unfold bind. rewrite E. destruct a as [a| | |].
  - destruct (Hf a p1) as (b & p2 & E2 & L2); [lia|]. exists b, p2. split; [auto|lia].
  - exists Err, p1. auto.
  - exists Panic, p1. auto.
  - exists Hang, p1. auto.
Qed.
Lemma fwd_u8 : forall w, fwd w read_u8.
Proof.
  intros w p L. unfold read_u8, ib_len. cbn [ib_data ib_pos]. destruct (p <? length w) eqn:E; [apply Nat.ltb_lt in E|].
  - eexists _, _. split; [reflexivity|lia].
  - eexists _, _. split; [reflexivity|lia].
Qed.
Lemma fwd_u16 : forall w, fwd w read_u16.
Proof.
  intros w p L. unfold read_u16, ib_len. cbn [ib_data ib_pos]. destruct (p + 1 <? length w) eqn:E; [apply Nat.ltb_lt in E|].
  - eexists _, _. split; [reflexivity|lia].
  - eexists _, _. split; [reflexivity|lia].
Qed.
Lemma fwd_u32 : forall w, fwd w read_u32.
Proof.
  intros w p L. unfold read_u32, ib_len. cbn [ib_data ib_pos]. destruct (p + 3 <? length w) eqn:E; [apply Nat.ltb_lt in E|].
  - eexists _, _. split; [reflexivity|lia].
  - eexists _, _. split; [reflexivity|lia].
Qed.
Lemma fwd_bytes : forall w n, fwd w (read_bytes n).
Proof.
  intros w n p L. unfold read_bytes, ib_len. cbn [ib_data ib_pos]. destruct (p + n <=? length w) eqn:E; [apply Nat.leb_le in E|].
  - eexists _, _. split; [reflexivity|lia].
  - eexists _, _. split; [reflexivity|lia].
Qed.
Lemma fwd_byte_binary : forall w len, fwd w (byte_binary_from_wire len).
Proof.
  intros w len. unfold byte_binary_from_wire. apply fwd_bind; [apply fwd_u8|]. intro dl. apply fwd_bind; [apply fwd_ensure|]. intros _.
  apply fwd_bind; [apply fwd_bytes|]. intro d. apply fwd_bind; [apply fwd_lift|]. intro l. apply fwd_ret.
Qed.
Lemma fwd_text : forall w f len data, fwd w (text_loop f len data).
Proof.
  induction f as [|f IH]; intros len data; cbn [text_loop]; [apply fwd_lift|]. destruct (0 <? len)%N; [|apply fwd_ret].
  apply fwd_bind; [apply fwd_byte_binary|]. intros [t l]. apply IH.
Qed.
Lemma fwd_field : forall w k len, k <> KName -> fwd w (field_from_wire k len).
Proof.
  intros w k len Nk. destruct k; cbn [field_from_wire]; try congruence;
    try (apply fwd_bind; [apply fwd_ensure|]; intros _; apply fwd_bind; [first [apply fwd_u8|apply fwd_u16|apply fwd_u32]|]; intro v; apply fwd_ret).
  - apply fwd_bind; [|intros [b l]; apply fwd_ret]. unfold ip_from_wire. apply fwd_bind; [apply fwd_ensure|]. intros _. apply fwd_bind; [apply fwd_bytes|]. intro b. apply fwd_ret.
  - apply fwd_bind; [|intros [b l]; apply fwd_ret]. unfold ip_from_wire. apply fwd_bind; [apply fwd_ensure|]. intros _. apply fwd_bind; [apply fwd_bytes|]. intro b. apply fwd_ret.
  - apply fwd_bind; [|intros [b l]; apply fwd_ret]. unfold text_from_wire. apply fwd_bind; [apply fwd_text|]. intro d. apply fwd_ret.
  - apply fwd_bind; [apply fwd_byte_binary|intros [b l]; apply fwd_ret].
  - apply fwd_bind; [apply fwd_bytes|]. intro d. apply fwd_ret.
Qed.
Lemma fwd_type : forall w, fwd w rrtype_from_wire.
Proof. intro w. unfold rrtype_from_wire. apply fwd_bind; [apply fwd_u16|]. intro. apply fwd_ret. Qed.
Lemma fwd_class : forall w, fwd w rrclass_from_wire.
Proof. intro w. unfold rrclass_from_wire. apply fwd_bind; [apply fwd_u16|]. intro. apply fwd_ret. Qed.
Lemma fwd_header : forall w, fwd w header_from_wire.
Proof. intro w. unfold header_from_wire. do 6 (apply fwd_bind; [apply fwd_u16|]; intro). apply fwd_ret. Qed.

(** ** Costs *)
Section Cost.
Variable w : list N.
Hypothesis Bw : bytes w.
(** What one name may cost. *)
Definition price : nat := 257 + 2 * Nat.min (length w) (64 * 256).
Definition cheap {A} (mp : M (inbuf * nat) A) (m : M inbuf A) : Prop := forall p, p <= length w -> exists c a p', does mp m (mkIn w p) c a (mkIn w p') /\
  match a with Ok _ => p <= p' <= length w /\ c <= price * (p' - p) | _ => c <= price * (length w - p + 1) end.
Lemma cheap_bind : forall A B (mp : M (inbuf * nat) A) m (fp : A -> M (inbuf * nat) B) f, cheap mp m -> (forall a, cheap (fp a) (f a)) -> cheap (bind mp fp) (bind m f).
Proof.
  intros A B mp m fp f Hm Hf p L. destruct (Hm p L) as (c1 & a & p1 & D1 & L1). destruct a as [a| | |].
  2: (exists c1, Err, p1; split; [eapply does_stop; [exact D1|exact Logic.I]|auto]).
  2: (exists c1, Panic, p1; split; [eapply does_stop; [exact D1|exact Logic.I]|auto]).
  2: (exists c1, Hang, p1; split; [eapply does_stop; [exact D1|exact Logic.I]|auto]).
  destruct L1 as [L1 C1]. destruct (Hf a p1) as (c2 & b & p2 & D2 & L2); [lia|]. exists (c1 + c2), b, p2. split; [eapply does_bind; eauto|].
  assert (G : forall q, p1 <= q -> price * (q - p) = price * (p1 - p) + price * (q - p1)) by (intros q Lq; rewrite <- Nat.mul_add_distr_l; f_equal; lia).
  destruct b as [b| | |].
  - destruct L2 as [L2 C2]. split; [lia|]. rewrite G by lia. lia.
  - replace (length w - p + 1) with (length w + 1 - p) by lia. rewrite G by lia. replace (length w + 1 - p1) with (length w - p1 + 1) by lia. lia.
  - replace (length w - p + 1) with (length w + 1 - p) by lia. rewrite G by lia. replace (length w + 1 - p1) with (length w - p1 + 1) by lia. lia.
  - replace (length w - p + 1) with (length w + 1 - p) by lia. rewrite G by lia. replace (length w + 1 - p1) with (length w - p1 + 1) by lia. lia.
Qed.
Lemma cheap_lift : forall A (x : res A), cheap (lift x) (lift x).
Proof. intros A x p L. exists 0, x, p. split; [apply does_lift|]. destruct x; [split; [lia|apply Nat.le_0_l]|apply Nat.le_0_l..]. Qed.
Lemma cheap_ret : forall A (a : A), cheap (ret a) (ret a).
Proof. intros A a p L. exists 0, (Ok a), p. split; [apply does_ret|split; [lia|apply Nat.le_0_l]]. Qed.
Lemma cheap_fail : forall A, cheap (@fail _ A) fail.
Proof. intros A. exact (cheap_lift A Err). Qed.
Lemma cheap_ensure : forall b, cheap (ensure b) (ensure b).
Proof. intros []; [apply cheap_ret|apply cheap_fail]. Qed.
Lemma cheap_position : cheap (free position) position.
Proof. intros p L. exists 0, (Ok p), p. split; [apply does_free; reflexivity|split; [lia|apply Nat.le_0_l]]. Qed.
Lemma price_pos : 1 <= price.
Proof. unfold price. lia. Qed.
Lemma cheap_charged : forall A (m : M inbuf A), fwd w m -> cheap (charged m) m.
Proof.
  intros A m H p L. destruct (H p L) as (a & p' & E & L'). exists (p' - p), a, p'. split.
  - split; [exact E|]. intro j. unfold charged. cbn [fst snd]. rewrite E. cbn [ib_pos].
    replace (p' - p <=? p' - p + j) with true by (symmetry; apply Nat.leb_le; lia). repeat f_equal. lia.
  - pose proof price_pos. assert (Q : forall d, d <= price * d) by (intro d; rewrite <- (Nat.mul_1_l d) at 1; apply Nat.mul_le_mono_r; auto).
    pose proof (Q (p' - p)). pose proof (Q (length w - p + 1)). destruct a; [split; lia|lia|lia|lia].
Qed.

(** The loop of [Name::from_wire]: at most [measure] passes. *)
Lemma fw_does : forall f s b, bytes (ib_data b) -> winv s -> measure s < f -> exists c a b', does (fw_loop_paid f s) (fw_loop f s) b c a b' /\ c <= S (measure s).
Proof.
  induction f as [|f IH]; intros s b B W M; [lia|]. cbn [fw_loop fw_loop_paid].
  destruct ((fw_current s <? ib_len b) && negb (fw_done s)) eqn:C.
  2: { exists 0, (Ok s), b. split; [|lia]. split; [unfold bind at 1, get; rewrite C; reflexivity|]. intro j. unfold bind at 1, get. rewrite C. reflexivity. }
  pose proof C as C'. apply andb_true_iff in C'. destruct C' as [_ C']. apply negb_true_iff in C'.
  destruct (fw_body s b) as [r b1] eqn:E. destruct (fw_step s b r b1 B W C' E) as [NH ST].
  assert (D : forall c a b', does (let! (s', brk) := free (fw_body s) in if brk : bool then ret s' else fw_loop_paid f s')
                 (let! (s', brk) := fw_body s in if brk : bool then ret s' else fw_loop f s') b c a b' ->
     does (fw_loop_paid (S f) s) (fw_loop (S f) s) b (S c) a b').
  { intros c a b' [D1 D2]. split; [cbn [fw_loop]; unfold bind at 1, get; rewrite C; exact D1|].
    intro j. cbn [fw_loop_paid]. unfold bind at 1, get. rewrite C. unfold bind at 1, pay. cbn [snd fst Nat.add]. exact (D2 j). }
  destruct r as [[s' brk]| | |].
  - destruct (ST _ _ eq_refl) as (Dt & -> & W' & M'). destruct (IH s' b1) as (c & a & b' & D2 & L2); [rewrite Dt; auto|auto|lia|].
    exists (S (0 + c)), a, b'. split; [apply D; eapply does_bind; [apply does_free; exact E|exact D2]|lia].
  - exists 1, Err, b1. split; [apply D; eapply does_stop; [apply does_free; exact E|exact Logic.I]|lia].
  - exists 1, Panic, b1. split; [apply D; eapply does_stop; [apply does_free; exact E|exact Logic.I]|lia].
  - congruence.
Qed.
Lemma name_does : forall p, p <= length w -> exists c a b', does name_from_wire_paid name_from_wire (mkIn w p) c a b' /\ c <= price.
Proof.
  intros p L. set (s0 := mkFw 0 0 0 false [] [] false WStart p p 0).
  assert (W : winv s0) by (split; cbn; [lia|exact Logic.I]).
  assert (M : measure s0 = 256 + 2 * Nat.min p (64 * 256)) by (unfold measure, s0, cap; cbn [fw_state fw_nused fw_biggest]; lia).
  destruct (fw_does (fw_fuel p) s0 (mkIn w p) Bw W) as (c & a & b & D & Lc); [unfold fw_fuel; lia|].
  assert (Lp : c <= price) by (unfold price; lia).
  assert (D0 : does (free position) position (mkIn w p) 0 (Ok p) (mkIn w p)) by (apply does_free; reflexivity).
  assert (St : forall x : res name, bad a x -> exists c a b', does name_from_wire_paid name_from_wire (mkIn w p) c a b' /\ c <= price).
  { intros x Hx. exists (0 + c), x, b. split; [|lia]. unfold name_from_wire_paid, name_from_wire. eapply does_bind; [exact D0|]. eapply does_stop; [exact D|exact Hx]. }
  destruct a as [s| | |]; [|apply (St Err Logic.I)|apply (St Panic Logic.I)|apply (St Hang Logic.I)]. clear St.
  assert (T : exists a b', does (ensure (fw_done s) ;; free (set_position (p + fw_cused s)) ;; ret (mkName (fw_data s) (fw_offsets s)))
                (ensure (fw_done s) ;; set_position (p + fw_cused s) ;; ret (mkName (fw_data s) (fw_offsets s))) b 0 a b').
  { destruct (fw_done s).
    - destruct (set_position (p + fw_cused s) b) as [r b'] eqn:Q. pose proof (does_free _ _ _ _ _ _ Q) as D1.
      assert (Te : does (ensure true) (ensure true) b 0 (Ok tt) b) by apply does_ret.
      destruct r as [[]| | |].
      + exists (Ok (mkName (fw_data s) (fw_offsets s))), b'. change 0 with (0 + (0 + 0)). eapply does_bind; [exact Te|]. eapply does_bind; [exact D1|]. apply does_ret.
      + exists Err, b'. change 0 with (0 + 0). eapply does_bind; [exact Te|]. eapply does_stop; [exact D1|exact Logic.I].
      + exists Panic, b'. change 0 with (0 + 0). eapply does_bind; [exact Te|]. eapply does_stop; [exact D1|exact Logic.I].
      + exists Hang, b'. change 0 with (0 + 0). eapply does_bind; [exact Te|]. eapply does_stop; [exact D1|exact Logic.I].
    - exists Err, b. eapply does_stop; [apply (does_lift _ _ (@Err unit))|exact Logic.I]. }
  destruct T as (a & b' & T). exists (0 + (c + 0)), a, b'. split; [|lia]. unfold name_from_wire_paid, name_from_wire.
  eapply does_bind; [exact D0|]. eapply does_bind; [exact D|exact T].
Qed.
Lemma price_once : forall d, 1 <= d -> price <= price * d.
Proof. intros d Hd. rewrite <- (Nat.mul_1_r price) at 1. apply Nat.mul_le_mono_l. auto. Qed.
Lemma cheap_name : cheap name_from_wire_paid name_from_wire.
Proof.
  intros p L. destruct (name_does p L) as (c & a & b' & D & Lc).
  destruct (from_wire_spec w p Bw L) as [(ls & e & _ & _ & Le & E)|(_ & p' & Lp' & E)].
  - exists c, (Ok (name_of ls)), e. destruct D as [D1 D2]. rewrite E in D1. inversion D1. subst a b'. split; [split; [exact E|exact D2]|]. split; [lia|].
    pose proof (price_once (e - p)). lia.
  - exists c, Err, p'. destruct D as [D1 D2]. rewrite E in D1. inversion D1. subst a b'. split; [split; [exact E|exact D2]|].
    pose proof (price_once (length w - p + 1)). lia.
Qed.
Lemma cheap_question : cheap question_from_wire_paid question_from_wire.
Proof.
  apply cheap_bind; [apply cheap_name|intro n]. apply cheap_bind; [apply cheap_charged, fwd_type|intro t]. apply cheap_bind; [apply cheap_charged, fwd_class|intro c]. apply cheap_ret.
Qed.
Lemma cheap_rname : forall len, cheap (rname_from_wire_paid len) (rname_from_wire len).
Proof.
  intro len. apply cheap_bind; [apply cheap_position|intro p]. apply cheap_bind; [apply cheap_name|intro n]. apply cheap_bind; [apply cheap_position|intro q].
  apply cheap_bind; [apply cheap_lift|intro d]. apply cheap_bind; [apply cheap_ensure|intros _]. apply cheap_ret.
Qed.
Lemma cheap_field : forall k len, cheap (field_from_wire_paid k len) (field_from_wire k len).
Proof.
  intros k len. destruct k; try (apply cheap_charged, fwd_field; discriminate).
  apply cheap_bind; [apply cheap_rname|]. intros [n l]. apply cheap_ret.
Qed.
Lemma cheap_fields : forall ks len, cheap (fields_from_wire_paid ks len) (fields_from_wire ks len).
Proof.
  induction ks as [|k ks IH]; intro len; cbn [fields_from_wire fields_from_wire_paid]; [apply cheap_ret|].
  apply cheap_bind; [apply cheap_field|]. intros [v l]. apply cheap_bind; [apply IH|]. intros [vs l']. apply cheap_ret.
Qed.
Lemma cheap_struct : forall v len, cheap (struct_from_wire_paid v len) (struct_from_wire v len).
Proof. intros v len. apply cheap_bind; [apply cheap_fields|]. intros [vs l]. apply cheap_bind; [apply cheap_ensure|intros _]. apply cheap_ret. Qed.
Lemma cheap_rdata : forall t len, cheap (rdata_from_wire_paid t len) (rdata_from_wire t len).
Proof.
  intros t len. apply cheap_bind; [apply cheap_position|intro p]. destruct (variant_of_type t) as [v|]; [|apply cheap_fail].
  apply cheap_bind; [apply cheap_struct|intro r]. apply cheap_bind; [apply cheap_position|intro q]. apply cheap_bind; [apply cheap_lift|intro d].
  apply cheap_bind; [apply cheap_ensure|intros _]. apply cheap_ret.
Qed.
Lemma cheap_rrset : cheap rrset_from_wire_paid rrset_from_wire.
Proof.
  apply cheap_bind; [apply cheap_name|intro n]. apply cheap_bind; [apply cheap_charged, fwd_type|intro t]. apply cheap_bind; [apply cheap_charged, fwd_class|intro c].
  apply cheap_bind; [apply cheap_charged, fwd_u32|intro ttl]. apply cheap_bind; [apply cheap_charged, fwd_u16|intro l].
  destruct (l =? 0)%N; [destruct (rrtype_eqb t TOPT); [apply cheap_ret|apply cheap_fail]|]. apply cheap_bind; [apply cheap_rdata|intro r]. apply cheap_ret.
Qed.
Lemma cheap_loop : forall n l last, cheap (section_loop_paid n l last) (section_loop n l last).
Proof.
  induction n as [|n IH]; intros l last; cbn [section_loop section_loop_paid]; [apply cheap_ret|].
  apply cheap_bind; [apply cheap_rrset|intro rs]. apply cheap_bind; [apply cheap_lift|intro same]. destruct same; [|apply IH].
  destruct (rrtype_eqb (rs_type rs) TOPT); [apply cheap_fail|]. apply cheap_bind; [apply cheap_lift|intro rd0]. apply IH.
Qed.
Lemma cheap_section : forall n typ, cheap (section_from_wire_paid n typ) (section_from_wire n typ).
Proof.
  intros n typ. unfold section_from_wire_paid, section_from_wire. destruct (n =? 0)%N; [apply cheap_ret|].
  apply cheap_bind; [apply cheap_rrset|intro last]. apply cheap_bind; [destruct (rrtype_eqb (rs_type last) TOPT && negb (match typ with SAdditional => true | _ => false end)); [apply cheap_fail|apply cheap_ret]|intros _].
  apply cheap_bind; [apply cheap_loop|]. intros [l last']. apply cheap_ret.
Qed.
Lemma cheap_response : cheap response_from_buf_paid response_from_buf.
Proof.
  apply cheap_bind; [apply cheap_charged, fwd_header|intro h]. apply cheap_bind; [apply cheap_ensure|intros _]. apply cheap_bind; [apply cheap_question|intro q].
  do 3 (apply cheap_bind; [apply cheap_section|intro]). apply cheap_ret.
Qed.
Lemma cheap_request : cheap request_from_buf_paid request_from_buf.
Proof.
  apply cheap_bind; [apply cheap_charged, fwd_header|intro h]. apply cheap_bind; [destruct (h_qd h =? 1)%N; [apply cheap_question|apply cheap_fail]|intro q].
  do 2 (apply cheap_bind; [apply cheap_ensure|intros _]). apply cheap_ret.
Qed.
Lemma cheap_total : forall A (mp : M (inbuf * nat) A) m k, cheap mp m -> (length w + 1) * price <= k -> fst (mp (ib_new w, k)) = fst (m (ib_new w)).
Proof.
  intros A mp m k H Hk. destruct (H 0) as (c & a & p' & [D1 D2] & L); [lia|].
  assert (Lc : c <= k).
  { eapply Nat.le_trans; [|exact Hk]. rewrite Nat.mul_comm. destruct a as [a| | |].
    - destruct L as [L C]. eapply Nat.le_trans; [exact C|]. apply Nat.mul_le_mono_l. lia.
    - eapply Nat.le_trans; [exact L|]. apply Nat.mul_le_mono_l. lia.
    - eapply Nat.le_trans; [exact L|]. apply Nat.mul_le_mono_l. lia.
    - eapply Nat.le_trans; [exact L|]. apply Nat.mul_le_mono_l. lia. }
  specialize (D2 (k - c)). replace (c + (k - c)) with k in D2 by lia. unfold ib_new. rewrite D1, D2. reflexivity.
Qed.
End Cost.
Theorem decode_work : forall w k, bytes w -> (length w + 1) * (257 + 2 * Nat.min (length w) (64 * 256)) <= k ->
  response_from_wire_within k w = response_from_wire w /\ request_from_wire_within k w = request_from_wire w.
Proof.
  intros w k B Hk. split; [exact (cheap_total w _ _ _ k (cheap_response w B) Hk)|exact (cheap_total w _ _ _ k (cheap_request w B) Hk)].
Qed.

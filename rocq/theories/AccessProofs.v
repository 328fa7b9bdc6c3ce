(** Proofs of C105, C107, C108. *)
From Verif Require Import Base BaseLemmas NameModel RenderModel CodesModel RDataModel MsgModel TextModel AccessModel SpecName SpecBuf SpecCodes SpecMsg SpecText SpecAccess
  RenderProofs BufProofs LiveProofs WireProofs DecodeProofs MsgProofs5 BuildProofs TextProofs TextProofs2 TextProofs3 TextProofs6.
Open Scope list_scope.
Open Scope nat_scope.

Lemma left_spec : forall raw pos, pos <= length raw -> valid_utf8 (skipn pos raw) = true ->
  left_str (mkSB raw pos) = Ok (match skipn pos raw with [] => None | l => Some l end).
Proof.
  intros raw pos P V. unfold left_str, read_left, sb_eos. cbn [sb_pos sb_raw]. destruct (Nat.eqb_spec pos (length raw)) as [->|Ne].
  - rewrite skipn_all. reflexivity.
  - unfold bind, lift. cbn [sb_raw sb_pos].
    replace (slice raw pos (length raw)) with (Ok (skipn pos raw)).
    2:{ symmetry. assert (Sk : skipn pos raw = skipn pos raw ++ []) by (rewrite app_nil_r; reflexivity).
        pose proof (slice_unread _ _ _ _ Sk P) as S. rewrite skipn_length in S. replace (pos + (length raw - pos)) with (length raw) in S by lia. exact S. }
    unfold utf8_unwrap. rewrite V. unfold put, ret. cbn [fst]. destruct (skipn pos raw) eqn:Es; [|reflexivity].
    apply (f_equal (@length N)) in Es. rewrite skipn_length in Es. cbn [length] in Es. lia.
Qed.
Lemma taken_read : forall pre l, taken pre l -> forall rest raw pos, blank_next rest -> skipn pos raw = pre ++ rest -> pos <= length raw -> valid_utf8 (pre ++ rest) = true ->
  next_n (length l) (mkSB raw pos) = (Ok (map Some l), mkSB raw (pos + length pre)) /\ valid_utf8 rest = true /\ skipn (pos + length pre) raw = rest /\ pos + length pre <= length raw.
Proof.
  induction 1 as [|gap w pre l G Nw W E HT IH]; intros rest raw pos B Es P U.
  - cbn [length next_n map app]. rewrite Nat.add_0_r. auto.
  - rewrite <- !app_assoc in Es, U. rewrite utf8_gap in U by auto.
    assert (St : starts_char (pre ++ rest)).
    { destruct E as [->|(c & r & -> & Hc)]; [|cbn [app starts_char]; apply cont_big, is_ws_ascii; auto]. cbn [app]. destruct B as [->|(c & r & -> & Hc)]; cbn [starts_char]; auto. apply cont_big, is_ws_ascii; auto. }
    destruct (utf8_split (length w) w (pre ++ rest)) as [U1 U2]; auto.
    pose proof (skipn_after _ _ _ _ Es) as E1. pose proof (skipn_after _ _ _ _ E1) as E2. pose proof (pos_le _ _ _ _ Es P) as P1. pose proof (pos_le _ _ _ _ E1 P1) as P2.
    destruct (IH rest raw (pos + length gap + length w) B E2 P2 U2) as (A1 & A2 & A3 & A4).
    cbn [length next_n map]. unfold bind at 1. rewrite (read_str_word raw pos gap w (pre ++ rest)); auto.
    2:{ destruct E as [->|(c & r & -> & Hc)]; cbn [app ends_ws]; auto. destruct B as [->|(c & r & -> & Hc)]; cbn [ends_ws]; auto. }
    unfold bind at 1. rewrite A1. unfold ret. rewrite !app_length. replace (pos + (length gap + (length w + length pre))) with (pos + length gap + length w + length pre) by lia. auto.
Qed.
Theorem words_then_left : forall pre l rest, taken pre l -> blank_next rest -> valid_utf8 (pre ++ rest) = true ->
  exists b, next_n (length l) (mkSB (pre ++ rest) 0) = (Ok (map Some l), b) /\ left_str b = Ok (match rest with [] => None | r => Some r end).
Proof.
  intros pre l rest T B U. destruct (taken_read _ _ T rest (pre ++ rest) 0 B eq_refl ltac:(lia) U) as (A1 & A2 & A3 & A4). eexists. split; [exact A1|].
  rewrite (left_spec _ _ A4) by (rewrite A3; exact A2). rewrite A3. destruct rest; reflexivity.
Qed.
Theorem set_data_fresh : forall cs cs' w b, after_calls (cs ++ ISetData w :: cs') b = after_calls cs' (mkIn w 0).
Proof. induction cs as [|c cs IH]; intros cs' w b; cbn [app after_calls]; [reflexivity|apply IH]. Qed.
Theorem ttl_written : forall dat hs r t, bytes dat -> (N.of_nat (length dat) <= 65535)%N -> history (mr_new dat) hs r -> (t < 4294967296)%N ->
  let (a, r') := ttl_to_wire t r in
  if mr_len r + 4 <=? length dat
  then a = Ok tt /\ mr_bytes r' = mr_bytes r ++ u32_bytes t /\ ttl_from_wire (mkIn (mr_bytes r') (mr_len r)) = (Ok t, mkIn (mr_bytes r') (mr_len r'))
  else a = Err.
Proof.
  intros dat hs r t B Ld H Ht. destruct (history_inv _ _ _ B H) as [I _]. pose proof (hist_capacity _ _ _ B H) as Cp. unfold ttl_to_wire.
  pose proof (logs_u32 t Ht _ r I) as Lg. destruct (mr_write_u32 t r) as [a r'] eqn:Q. destruct Lg as (I' & X & A).
  change (length (u32_bytes t)) with 4 in A. rewrite Cp in A. destruct (mr_len r + 4 <=? length dat) eqn:EL; [|exact A].
  destruct A as (-> & A2 & A3). split; auto. split; auto.
  pose proof (mr_bytes_bytes _ _ I') as Bw. pose proof (mr_bytes_len _ _ I) as Ln0.
  assert (L : mr_len r + 4 <= length (mr_bytes r')) by (rewrite A2, app_length, Ln0; change (length (u32_bytes t)) with 4; lia).
  assert (P : Pbytes (be32 t) (rd_of (mr_bytes r')) (mr_len r) (mr_len r + 4)).
  { rewrite be32_u32 by auto. split; [reflexivity|]. intros i c Hi. unfold rd_of. rewrite A2, nth_error_app2 by lia. rewrite <- Hi. f_equal. lia. }
  assert (L0 : mr_len r <= length (mr_bytes r')) by lia. destruct (decodes_u32 t Ht _ _ _ Bw L0 P) as [R _]. unfold ttl_from_wire. rewrite R, A3. reflexivity.
Qed.
Theorem records_unique : forall w, bytes w -> forall p e n, records_at w p e n -> p <= length w -> forall m, records_at w p e m -> n = m.
Proof.
  intros w B. assert (ADV : forall p rs q, p <= length w -> rrset_from_wire (mkIn w p) = (Ok rs, mkIn w q) -> p < q /\ q <= length w).
  { intros p rs q L R. pose proof (tdec_rr w B p L) as D. destruct D as (a & q' & E1 & Lq & _ & P). rewrite R in E1. apply pair_inj in E1. destruct E1 as [E0 E1]. injection E1 as E1. subst q'. symmetry in E0. destruct (P _ E0) as (_ & A & _). auto. }
  assert (LE : forall p e n, records_at w p e n -> p <= length w -> p <= e /\ (n <> 0 -> p < e)).
  { induction 1 as [|p q e n rs R HR IH]; intros L; [lia|]. destruct (ADV _ _ _ L R) as [A1 A2]. destruct (IH A2). lia. }
  induction 1 as [p|p q e n rs R HR IH]; intros L m HM.
  - destruct m; [reflexivity|]. destruct (LE _ _ _ HM L) as [_ X]. specialize (X ltac:(lia)). lia.
  - destruct (ADV _ _ _ L R) as [A1 A2]. destruct (LE _ _ _ HR A2) as [A3 _]. inversion HM; subst; [lia|]. f_equal. apply IH; auto.
    match goal with H : rrset_from_wire _ = (Ok _, mkIn w ?q0) |- _ => rewrite R in H; injection H as _ Eq end. congruence.
Qed.
Theorem edns_one_record : forall dat hs r e r', bytes dat -> (N.of_nat (length dat) <= 65535)%N -> history (mr_new dat) hs r -> edns_ok e -> edns_to_wire e r = (Ok tt, r') ->
  forall n, records_at (mr_bytes r') (mr_len r) (mr_len r') n <-> n = 1.
Proof.
  intros dat hs r e r' B Ld H He Q. pose (e0 := mkEdns (e_version e) (e_xrcode e) (e_udp e) (e_do e) None).
  pose proof (edns_written dat hs r e0 B Ld H He eq_refl) as W. change (edns_to_wire e0 r) with (edns_to_wire e r) in W.
  destruct (history_inv _ _ _ B H) as [I _]. pose proof (logs_edns e He _ r I) as Lg. rewrite Q in W, Lg. destruct Lg as (I' & X & _).
  destruct (mr_len r + 11 <=? length dat); [|discriminate]. destruct W as (_ & _ & W & rs & D & _).
  assert (R1 : records_at (mr_bytes r') (mr_len r) (mr_len r') 1) by (eapply ra_more; [exact D|constructor]).
  intros n. split; [|intros ->; exact R1]. intros Rn. eapply records_unique; [eapply mr_bytes_bytes; exact I'|exact Rn| |exact R1].
  rewrite W, app_length, (mr_bytes_len _ _ I). lia.
Qed.

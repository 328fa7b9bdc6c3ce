(** Round trip of whole records and rrsets in text form. *)
From Verif Require Import Base BaseLemmas NameModel RenderModel CodesModel RDataModel MsgModel TextModel SpecName SpecBuf SpecCodes SpecMsg SpecText
  NameTextProofs NameTextProofs2 CodesProofs TextProofs TextProofs2 TextProofs3 TextProofs4.
Open Scope list_scope.
Open Scope nat_scope.

Fixpoint tail_only (ds : list (codec * disp)) : bool :=
  match ds with [] => true | [_] => true | d :: ds' => negb (last_only (snd d)) && tail_only ds' end.
Lemma tail_only_cons : forall d d2 ds, tail_only (d :: d2 :: ds) = negb (last_only (snd d)) && tail_only (d2 :: ds).
Proof. reflexivity. Qed.
Lemma good_join : forall a b, good_text a -> good_text b -> good_text (a ++ [32%N] ++ b).
Proof.
  intros a b (A1 & (c & r & -> & V) & _) (B1 & _ & (r2 & c2 & -> & V2)). split; [|split].
  - apply Forall_app. split; auto. constructor; [lia|auto].
  - cbn [app]. eauto.
  - exists (((c :: r) ++ [32%N]) ++ r2), c2. rewrite <- !app_assoc. auto.
Qed.
Lemma fields_ok : forall x ds vs, Forall2 (field_rt x) ds vs -> ds <> [] -> tail_only ds = true ->
  exists s fs, fields_to_str x ds vs = Ok s /\ s = joined [32%N] fs /\
    Forall2 (fun pv s => presented x (fst pv) (snd pv) s) (combine (map (fun kd => pres_of (snd kd)) ds) vs) fs /\ good_text s /\
    forall raw pos gap, skipn pos raw = gap ++ s -> pos <= length raw -> forallb is_ws gap = true ->
      fields_from_str x ds (mkSB raw pos) = (Ok vs, mkSB raw (length raw)).
Proof.
  intros x ds vs F. induction F as [|d v ds vs (s & E & G & Pr & R) F IH]; intros Nn T; [congruence|].
  destruct ds as [|d2 ds].
  - inversion F; subst. exists s, [s]. cbn [fields_to_str map combine joined]. split; [exact E|]. split; [reflexivity|].
    split; [repeat constructor; exact Pr|]. split; [exact G|].
    intros raw pos gap Sk P Gp. cbn [fields_from_str]. unfold bind. rewrite (R raw pos gap []); auto; [|rewrite app_nil_r; exact Sk|exact I].
    unfold ret. f_equal. f_equal. apply (f_equal (@length _)) in Sk. rewrite skipn_length, app_length in Sk. lia.
  - inversion F as [|? v2 ? vs' F2 F3]; subst. rewrite tail_only_cons in T. apply andb_true_iff in T. destruct T as [T1 T2]. apply negb_true_iff in T1.
    destruct IH as (s2 & fs & E2 & Ej & Fp & G2 & R2); [discriminate|exact T2|].
    exists (s ++ [32%N] ++ s2), (s :: fs). split; [|split; [|split; [|split]]].
    + change (fields_to_str x (d :: d2 :: ds) (v :: v2 :: vs')) with (let? a := field_to_str x (snd d) v in let? b := fields_to_str x (d2 :: ds) (v2 :: vs') in Ok (a ++ [32%N] ++ b)).
      rewrite E, E2. reflexivity.
    + destruct fs as [|f fs]; [cbn [map combine] in Fp; inversion Fp|]. rewrite Ej. reflexivity.
    + cbn [map combine]. constructor; [exact Pr|exact Fp].
    + apply good_join; auto.
    + intros raw pos gap Sk P Gp.
      change (fields_from_str x (d :: d2 :: ds)) with (let! v := field_from_str x d in let! vs := fields_from_str x (d2 :: ds) in ret (v :: vs)).
      unfold bind at 1. rewrite (R raw pos gap ([32%N] ++ s2)); auto; [|reflexivity|congruence].
      unfold bind at 1. rewrite (R2 raw (pos + length gap + length s) [32%N]); auto.
      * apply skipn_after with (a := s). apply skipn_after with (a := gap). exact Sk.
      * eapply pos_le. { apply skipn_after with (a := gap). exact Sk. } eapply pos_le; eauto.
Qed.
Lemma schema_rt : forall x t ds vs, ext_ok x -> Forall2 same_kind (map fst ds) vs -> Forall (text_field t) vs ->
  (forall k d, In (k, d) ds -> compat k d = true /\ (d = PString -> quotes_binary t)) -> Forall2 (field_rt x) ds vs.
Proof.
  intros x t ds. induction ds as [|[k d] ds IH]; intros vs X K T C; cbn [map fst] in K; inversion K as [|? v ? vs' K1 K2]; subst; constructor.
  - inversion T; subst. destruct (C k d (or_introl eq_refl)) as [C1 C2]. eapply field_ok; eauto.
  - inversion T; subst. apply IH; auto. intros k' d' I. apply C. right. exact I.
Qed.
Lemma variant_data : forall t, variant_of_type t = data_of t.
Proof. destruct t; reflexivity. Qed.
Lemma schema_facts : forall t v ks, data_of t = Some v -> rfc_layout t = Some ks ->
  map fst (text_schema v) = ks /\ text_schema v <> [] /\ tail_only (text_schema v) = true /\ map (fun kd => pres_of (snd kd)) (text_schema v) = rfc_present t /\
  (forall k d, In (k, d) (text_schema v) -> compat k d = true /\ (d = PString -> quotes_binary t)).
Proof.
  intros t v ks D L. destruct t; cbn [data_of rfc_layout] in D, L; try discriminate; apply Some_inj in D; apply Some_inj in L; subst;
  (split; [reflexivity|split; [discriminate|split; [reflexivity|split; [reflexivity|]]]]);
  intros k d I; cbn [text_schema In] in I;
  repeat (destruct I as [I|I]; [injection I as <- <-; split; [reflexivity|try discriminate; intros _; unfold quotes_binary; auto]|]); contradiction.
Qed.
Lemma rdata_ok : forall x t rd, ext_ok x -> text_rdata t rd ->
  exists s fs, rdata_display x rd = Ok s /\ s = joined [32%N] fs /\
    Forall2 (fun pv s => presented x (fst pv) (snd pv) s) (combine (rfc_present t) (rd_fields rd)) fs /\ good_text s /\
    forall raw pos gap, skipn pos raw = gap ++ s -> pos <= length raw -> forallb is_ws gap = true ->
      rdata_from_sb x t (mkSB raw pos) = (Ok rd, mkSB raw (length raw)).
Proof.
  intros x t rd X (D & (ks & L & K) & T). destruct (schema_facts t _ ks D L) as (Ek & Nn & To & Ep & C).
  assert (F : Forall2 (field_rt x) (text_schema (rd_var rd)) (rd_fields rd)) by (eapply schema_rt; eauto; rewrite Ek; exact K).
  destruct (fields_ok x _ _ F Nn To) as (s & fs & E & Ej & Fp & G & R). exists s, fs. rewrite <- Ep.
  split; [exact E|]. split; [exact Ej|]. split; [exact Fp|]. split; [exact G|].
  intros raw pos gap Sk P Gp. unfold rdata_from_sb. rewrite variant_data, D. unfold bind. rewrite (R raw pos gap Sk P Gp). destruct rd; reflexivity.
Qed.
(** * Trimming *)
Lemma strip_rev_vis : forall c l, vis c -> strip_ws (map (@rev N) ws_chars) (c :: l) = None.
Proof.
  intros c l V. unfold ws_chars. cbn [map rev app strip_ws strip_prefix].
  repeat match goal with |- context [(?n =? c)%N] => replace (n =? c)%N with false by (symmetry; apply N.eqb_neq; unfold vis in V; lia) end.
  reflexivity.
Qed.
Lemma strip_rev_ws : forall c l, is_ws c = true -> strip_ws (map (@rev N) ws_chars) (c :: l) = Some l.
Proof.
  intros c l V. unfold is_ws in V. rewrite !orb_true_iff, !N.eqb_eq in V. destruct V as [[[[->| ->]| ->]| ->]| ->]; reflexivity.
Qed.
Lemma trim_start_gap : forall cs, (forall c l, vis c -> strip_ws cs (c :: l) = None) -> (forall c l, is_ws c = true -> strip_ws cs (c :: l) = Some l) ->
  forall gap c s fuel, forallb is_ws gap = true -> vis c -> length gap < fuel -> trim_start fuel cs (gap ++ c :: s) = c :: s.
Proof.
  intros cs H1 H2. induction gap as [|g gap IH]; intros c s fuel G V L; (destruct fuel as [|fuel]; [lia|]); cbn [app trim_start].
  - rewrite H1 by auto. reflexivity.
  - cbn [forallb] in G. apply andb_true_iff in G. destruct G as [G1 G2]. rewrite H2 by auto. apply IH; auto. cbn [length] in L. lia.
Qed.
Lemma forallb_rev : forall (p : N -> bool) l, forallb p l = true -> forallb p (rev l) = true.
Proof. intros p l H. rewrite forallb_forall in *. intros c I. apply H. apply in_rev. exact I. Qed.
Lemma trim_spec : forall a s b, forallb is_ws a = true -> forallb is_ws b = true -> (exists c r, s = c :: r /\ vis c) -> (exists r c, s = r ++ [c] /\ vis c) ->
  trim (a ++ s ++ b) = s.
Proof.
  intros a s b A B (c & r & E & V) (r2 & c2 & E2 & V2). unfold trim.
  assert (T1 : trim_start (length (a ++ s ++ b)) ws_chars (a ++ s ++ b) = s ++ b).
  { rewrite E at 2 3. cbn [app]. apply trim_start_gap; auto.
    - apply strip_ws_vis.
    - apply strip_ws_ws.
    - rewrite E, !app_length. cbn [length]. lia. }
  rewrite T1. rewrite rev_app_distr. rewrite E2, rev_app_distr. cbn [rev app]. rewrite trim_start_gap; auto.
  - cbn [rev]. rewrite rev_involutive. reflexivity.
  - apply strip_rev_vis.
  - apply strip_rev_ws.
  - apply forallb_rev; auto.
  - rewrite rev_length, !app_length. cbn [length]. lia.
Qed.
(** * Records *)
Definition line_of (h r : list N) : list N := h ++ [9%N] ++ r.
Lemma rrset_header_ok : forall rs ls, wf_labels ls -> rs_name rs = name_of ls ->
  rrset_header rs = Ok (show_name ls ++ [9%N] ++ dec (rs_ttl rs) ++ [9%N] ++ of_string (rrclass_str (rs_class rs)) ++ [9%N] ++ of_string (rrtype_str (rs_type rs))).
Proof. intros rs ls W E. unfold rrset_header. rewrite E, name_display_spec by auto. reflexivity. Qed.
Lemma record_ok : forall x rs rd, ext_ok x -> text_rrset rs -> In rd (rs_rdatas rs) ->
  exists h r, rrset_header rs = Ok h /\ rdata_display x rd = Ok r /\ record_line x rs rd (line_of h r) /\ ~ In 10%N (line_of h r) /\
    forall md a b, forallb is_ws a = true -> forallb is_ws b = true ->
      rrset_from_str md x (a ++ line_of h r ++ b) = Ok (mkRRset (rs_name rs) (rs_type rs) (rs_class rs) (rs_ttl rs) [rd]).
Proof.
  intros x rs rd X ((ls & W & Pl & En) & Tl & Cl & Ty & F) I. rewrite Forall_forall in F. specialize (F rd I).
  destruct (rdata_ok x _ rd X F) as (r & fs & Er & Ej & Fp & G & R).
  destruct (type_word _ Ty) as (Wt & Pt & Mt). destruct (class_word _ Cl) as (Wc & Pc & Mc).
  pose proof (show_word ls W) as Wn. pose proof (dec_word _ Tl) as Wd.
  rewrite (rrset_header_ok rs ls W En). eexists. exists r. split; [reflexivity|]. split; [exact Er|].
  set (tn := show_name ls) in *. set (td := dec (rs_ttl rs)) in *. set (tc := of_string (rrclass_str (rs_class rs))) in *. set (tt0 := of_string (rrtype_str (rs_type rs))) in *.
  assert (EL : line_of (tn ++ [9%N] ++ td ++ [9%N] ++ tc ++ [9%N] ++ tt0) r = tn ++ [9%N] ++ td ++ [9%N] ++ tc ++ [9%N] ++ tt0 ++ [9%N] ++ r).
  { unfold line_of. rewrite <- !app_assoc. reflexivity. }
  rewrite EL. split; [|split].
  - exists ls, td, tc, tt0, fs. destruct (dec_spec _ Tl) as [C1 C2]. repeat (split; [assumption|]). split; [exists (rfc_present (rs_type rs)); auto|].
    cbn [joined]. rewrite <- Ej. reflexivity.
  - assert (Q : forall w, word_text w -> ~ In 10%N w). { intros w [_ Fw] J. rewrite Forall_forall in Fw. specialize (Fw _ J). cbn beta in Fw. lia. }
    cbn [app]. intro J. apply in_app_or in J. destruct J as [J|J]; [apply (Q tn); assumption|].
    destruct J as [J|J]; [discriminate|]. apply in_app_or in J. destruct J as [J|J]; [apply (Q td); assumption|].
    destruct J as [J|J]; [discriminate|]. apply in_app_or in J. destruct J as [J|J]; [apply (Q tc); assumption|].
    destruct J as [J|J]; [discriminate|]. apply in_app_or in J. destruct J as [J|J]; [apply (Q tt0); assumption|].
    destruct J as [J|J]; [discriminate|]. destruct G as [G _]. rewrite Forall_forall in G. specialize (G _ J). cbn beta in G. lia.
  - intros md a b A B. unfold rrset_from_str. rewrite trim_spec; auto.
    2:{ destruct (word_good _ Wn) as (_ & (c & q & -> & V) & _). cbn [app]. eauto. }
    2:{ destruct G as (_ & _ & (q & c & -> & V)). exists (tn ++ [9%N] ++ td ++ [9%N] ++ tc ++ [9%N] ++ tt0 ++ [9%N] ++ q), c. rewrite <- !app_assoc. auto. }
    set (raw := tn ++ [9%N] ++ td ++ [9%N] ++ tc ++ [9%N] ++ tt0 ++ [9%N] ++ r).
    assert (Nr : sb_new md raw = Ok (mkSB raw 0)).
    { unfold raw. destruct Wn as [Wn _]. destruct tn; [congruence|]. destruct md; reflexivity. }
    rewrite Nr. cbn [rbind]. unfold rrset_from_sb. unfold bind at 1.
    assert (S0 : skipn 0 raw = [] ++ tn ++ [9%N] ++ td ++ [9%N] ++ tc ++ [9%N] ++ tt0 ++ [9%N] ++ r) by reflexivity.
    rewrite (sb_read_word _ _ _ _ _ _ _ S0); auto; [|lia|reflexivity]. unfold tn at 1. rewrite name_new_show by auto.
    pose proof (skipn_after _ _ _ _ (skipn_after _ _ _ _ S0)) as S1. pose proof (pos_le _ _ _ _ (skipn_after _ _ _ _ S0) ltac:(cbn [length]; lia)) as P1.
    set (p1 := 0 + length [] + length tn) in *. clearbody p1. clear S0.
    unfold bind at 1. rewrite (sb_read_word _ _ _ _ _ _ _ S1); auto; [|reflexivity]. unfold td at 1. unfold parse_u32. rewrite parse_dec by auto.
    pose proof (skipn_after _ _ _ _ (skipn_after _ _ _ _ S1)) as S2. pose proof (pos_le _ _ _ _ (skipn_after _ _ _ _ S1) (pos_le _ _ _ _ S1 P1)) as P2.
    set (p2 := p1 + length [9%N] + length td) in *. clearbody p2. clear S1 P1.
    unfold bind at 1. rewrite (sb_read_word _ _ _ _ _ _ _ S2); auto; [|reflexivity]. fold tc in Pc. rewrite Pc.
    pose proof (skipn_after _ _ _ _ (skipn_after _ _ _ _ S2)) as S3. pose proof (pos_le _ _ _ _ (skipn_after _ _ _ _ S2) (pos_le _ _ _ _ S2 P2)) as P3.
    set (p3 := p2 + length [9%N] + length tc) in *. clearbody p3. clear S2 P2.
    unfold bind at 1. rewrite (sb_read_word _ _ _ _ _ _ _ S3); auto; [|reflexivity]. fold tt0 in Pt. rewrite Pt.
    pose proof (skipn_after _ _ _ _ (skipn_after _ _ _ _ S3)) as S4. pose proof (pos_le _ _ _ _ (skipn_after _ _ _ _ S3) (pos_le _ _ _ _ S3 P3)) as P4.
    set (p4 := p3 + length [9%N] + length tt0) in *. clearbody p4.
    unfold bind at 1. rewrite (R raw p4 [9%N] S4 P4 eq_refl). rewrite <- En. reflexivity.
Qed.
Lemma rrset_display_lines : forall x rs, ext_ok x -> text_rrset rs ->
  exists lines, rrset_display x rs = Ok (flat_map (fun l => l ++ [10%N]) lines) /\
    Forall2 (fun line rd => record_line x rs rd line /\ ~ In 10%N line /\
      forall md a b, forallb is_ws a = true -> forallb is_ws b = true ->
        rrset_from_str md x (a ++ line ++ b) = Ok (mkRRset (rs_name rs) (rs_type rs) (rs_class rs) (rs_ttl rs) [rd])) lines (rs_rdatas rs).
Proof.
  intros x rs X T. unfold rrset_display.
  assert (H : forall rds acc, incl rds (rs_rdatas rs) -> exists lines,
    rfold (fun acc rd => let? h := rrset_header rs in let? r := rdata_display x rd in Ok (acc ++ h ++ [9%N] ++ r ++ [10%N])) rds acc = Ok (acc ++ flat_map (fun l => l ++ [10%N]) lines) /\
    Forall2 (fun line rd => record_line x rs rd line /\ ~ In 10%N line /\
      forall md a b, forallb is_ws a = true -> forallb is_ws b = true ->
        rrset_from_str md x (a ++ line ++ b) = Ok (mkRRset (rs_name rs) (rs_type rs) (rs_class rs) (rs_ttl rs) [rd])) lines rds).
  { induction rds as [|rd rds IH]; intros acc I.
    - exists []. cbn [rfold flat_map]. rewrite app_nil_r. split; [reflexivity|constructor].
    - destruct (record_ok x rs rd X T (I rd (or_introl eq_refl))) as (h & r & Eh & Er & Rl & N10 & Rt).
      destruct (IH (acc ++ h ++ [9%N] ++ r ++ [10%N])) as (lines & E & F). { intros q Q. apply I. right. exact Q. }
      exists (line_of h r :: lines). split; [|constructor; auto]. cbn [rfold]. match goal with |- rbind ?m ?k = _ => replace m with (Ok (acc ++ h ++ [9%N] ++ r ++ [10%N])) by (rewrite Eh, Er; reflexivity) end. cbn [rbind]. rewrite E.
      cbn [flat_map]. unfold line_of. rewrite <- !app_assoc. reflexivity. }
  destruct (H (rs_rdatas rs) [] (incl_refl _)) as (lines & E & F). exists lines. auto.
Qed.

(** Proofs for C98: the printed form of a NOTIFY request. *)
From Coq Require String.
From Verif Require Import Base BaseLemmas NameModel RenderModel CodesModel RDataModel MsgModel TextModel DisplayModel SpecName SpecBuf SpecCodes SpecMsg SpecText SpecDisplay
  NameTextProofs2 TextProofs TextProofs2 TextProofs3 TextProofs4 TextProofs5 TextProofs6 CodesProofs DisplayProofs.
Import String.StringSyntax.
Open Scope string_scope.
Open Scope list_scope.
Open Scope nat_scope.

Lemma soa_fields : forall rs, soa_set rs -> exists ls m r a b c d e, wf_labels ls /\ wf_labels m /\ wf_labels r /\
  (a < 4294967296 /\ b < 4294967296 /\ c < 4294967296 /\ d < 4294967296 /\ e < 4294967296)%N /\
  rs = mkRRset (name_of ls) TSOA (rs_class rs) (rs_ttl rs) [mkRData DSOA [VName (name_of m); VName (name_of r); VU32 a; VU32 b; VU32 c; VU32 d; VU32 e]].
Proof.
  intros rs (T & C & L & (ls & W & En) & rd & Er & (D & ks & Lk & F)).
  injection Lk as <-. injection D as D.
  repeat match goal with H : Forall2 wf_field (_ :: _) _ |- _ => inversion H; clear H; subst | H : Forall2 wf_field [] _ |- _ => inversion H; clear H; subst end.
  destruct rs as [n t cl ttl rds], rd as [v fs]; cbn [rs_name rs_type rs_class rs_ttl rs_rdatas rd_var rd_fields] in *. subst.
  repeat match goal with H : wf_field _ ?v |- _ => destruct v; cbn [wf_field] in H; try contradiction end.
  repeat match goal with H : wf_name _ |- _ => destruct H as (? & ? & ->) end.
  match goal with |- exists l0 m0 r0 a0 b0 c0 d0 e0, _ /\ _ /\ _ /\ _ /\ mkRRset (name_of ?l) _ _ _ [mkRData _ [VName (name_of ?m); VName (name_of ?r); VU32 ?a; VU32 ?b; VU32 ?c; VU32 ?d; VU32 ?e]] = _ =>
    exists l, m, r, a, b, c, d, e end.
  repeat (split; [assumption|]). split; [|reflexivity]. auto.
Qed.
Definition soa_line (ls m r : list (list N)) (ttl a b c d e : N) (cl : rrclass) : list N :=
  show_name ls ++ 9%N :: dec ttl ++ 9%N :: of_string (rrclass_str cl) ++ 9%N :: of_string (rrtype_str TSOA) ++ 9%N ::
  show_name m ++ 32%N :: show_name r ++ 32%N :: dec a ++ 32%N :: dec b ++ 32%N :: dec c ++ 32%N :: dec d ++ 32%N :: dec e.
Lemma soa_display : forall x ls m r ttl a b c d e cl, wf_labels ls -> wf_labels m -> wf_labels r ->
  rrset_display x (mkRRset (name_of ls) TSOA cl ttl [mkRData DSOA [VName (name_of m); VName (name_of r); VU32 a; VU32 b; VU32 c; VU32 d; VU32 e]]) =
    Ok (soa_line ls m r ttl a b c d e cl ++ [10%N]).
Proof.
  intros x ls m r ttl a b c d e cl W1 W2 W3. unfold rrset_display. cbn [rs_rdatas rfold].
  rewrite (rrset_header_ok _ ls W1) by reflexivity. unfold rdata_display. cbn [rd_var rd_fields text_schema fields_to_str snd field_to_str].
  rewrite (name_display_spec m W2), (name_display_spec r W3). cbn [rbind rs_ttl rs_class rs_type]. unfold soa_line.
  repeat first [rewrite <- app_assoc | progress cbn [app]]. reflexivity.
Qed.
Lemma dec_no_ws : forall n c, (n < 4294967296)%N -> (c <= 32)%N -> ~ In c (dec n).
Proof. intros n c N C. apply dec_no; auto. unfold is_dec. lia. Qed.
Lemma soa_line_inj : forall ls m r ttl a b c d e cl ls' m' r' ttl' a' b' c' d' e' cl',
  wf_labels ls -> wf_labels m -> wf_labels r -> wf_labels ls' -> wf_labels m' -> wf_labels r' ->
  (a < 4294967296 /\ b < 4294967296 /\ c < 4294967296 /\ d < 4294967296 /\ e < 4294967296)%N ->
  (a' < 4294967296 /\ b' < 4294967296 /\ c' < 4294967296 /\ d' < 4294967296 /\ e' < 4294967296)%N -> (ttl < 4294967296)%N -> (ttl' < 4294967296)%N ->
  (forall v, cl <> CUnknown v) -> (forall v, cl' <> CUnknown v) ->
  soa_line ls m r ttl a b c d e cl = soa_line ls' m' r' ttl' a' b' c' d' e' cl' ->
  ls = ls' /\ m = m' /\ r = r' /\ ttl = ttl' /\ a = a' /\ b = b' /\ c = c' /\ d = d' /\ e = e' /\ cl = cl'.
Proof.
  intros ls m r ttl a b c d e cl ls' m' r' ttl' a' b' c' d' e' cl' W1 W2 W3 W4 W5 W6 (A & B & C & D & F) (A' & B' & C' & D' & F') T T' K K' E. unfold soa_line in E.
  apply split_char in E; try (apply show_name_no; auto; lia). destruct E as [E1 E]. apply show_name_inj in E1; auto.
  apply split_char in E; try (apply dec_no_ws; auto; lia). destruct E as [E2 E]. apply dec_inj in E2; auto.
  apply split_char in E; try (apply class_str_no; lia). destruct E as [E3 E]. apply class_str_inj in E3; auto.
  apply split_char in E; try (apply type_str_no; lia). destruct E as [_ E].
  apply split_char in E; try (apply show_name_no; auto; lia). destruct E as [E4 E]. apply show_name_inj in E4; auto.
  apply split_char in E; try (apply show_name_no; auto; lia). destruct E as [E5 E]. apply show_name_inj in E5; auto.
  apply split_char in E; try (apply dec_no_ws; auto; lia). destruct E as [E6 E]. apply dec_inj in E6; auto.
  apply split_char in E; try (apply dec_no_ws; auto; lia). destruct E as [E7 E]. apply dec_inj in E7; auto.
  apply split_char in E; try (apply dec_no_ws; auto; lia). destruct E as [E8 E]. apply dec_inj in E8; auto.
  apply split_char in E; try (apply dec_no_ws; auto; lia). destruct E as [E9 E]. apply dec_inj in E9; auto.
  apply dec_inj in E; auto 20.
Qed.
(** The line is that of master files. *)
Lemma soa_record_line : forall x ls m r ttl a b c d e cl, wf_labels ls -> wf_labels m -> wf_labels r ->
  (a < 4294967296 /\ b < 4294967296 /\ c < 4294967296 /\ d < 4294967296 /\ e < 4294967296)%N -> (ttl < 4294967296)%N -> (forall v, cl <> CUnknown v) ->
  let rd := mkRData DSOA [VName (name_of m); VName (name_of r); VU32 a; VU32 b; VU32 c; VU32 d; VU32 e] in
  record_line x (mkRRset (name_of ls) TSOA cl ttl [rd]) rd (soa_line ls m r ttl a b c d e cl) /\ ~ In 10%N (soa_line ls m r ttl a b c d e cl).
Proof.
  intros x ls m r ttl a b c d e cl W1 W2 W3 (A & B & C & D & F) T K rd.
  assert (N32 : forall v, (v < 4294967296)%N -> canonical_dec (dec v) /\ dec_val (dec v) = v) by (intros; apply dec_spec; auto).
  split.
  - destruct (class_word cl K) as (_ & _ & Mc). destruct (type_word TSOA) as (_ & _ & Mt); [split; discriminate|]. destruct (N32 ttl T) as [T1 T2].
    exists ls, (dec ttl), (of_string (rrclass_str cl)), (of_string (rrtype_str TSOA)), [show_name m; show_name r; dec a; dec b; dec c; dec d; dec e].
    split; [exact W1|]. split; [reflexivity|]. split; [exact T1|]. split; [exact T2|]. split; [exact Mc|]. split; [exact Mt|]. split; [|reflexivity].
    exists (rfc_present TSOA). split; [|reflexivity]. cbn [rfc_present rd rd_fields combine].
    repeat (constructor; [cbn [fst snd presented]; try (eexists; split; [|split; [reflexivity|reflexivity]]; assumption); apply N32; assumption|]). constructor.
  - unfold soa_line. intro I.
    repeat (apply in_app_or in I; destruct I as [I|I]; [revert I; first [apply show_name_no; [assumption|lia] | apply dec_no_ws; [assumption|lia] | apply class_str_no; lia | apply type_str_no; lia]|];
      destruct I as [I|I]; [discriminate|]).
    revert I. apply dec_no_ws; [assumption|lia].
Qed.

Lemma notify_text : forall x n, wf_name (q_name (nq_question n)) -> (forall rs, nq_soa n = Some rs -> soa_set rs) ->
  exists zone soa, (exists ls, wf_labels ls /\ q_name (nq_question n) = name_of ls /\ zone = show_name ls) /\
    (nq_soa n = None -> soa = []) /\
    (forall rs, nq_soa n = Some rs -> exists rd line, rs_rdatas rs = [rd] /\ record_line x rs rd line /\ ~ In 10%N line /\ soa = of_string "soa " ++ line ++ [10; 10]%N) /\
    notify_display x n = Ok (of_string "notify for zone " ++ zone ++ [10%N] ++ soa).
Proof.
  intros x n (ls & W & E) S0. unfold notify_display. rewrite E, (name_display_spec ls W). cbn [rbind].
  destruct (nq_soa n) as [rs|].
  - specialize (S0 rs eq_refl). pose proof S0 as (_ & K & T & _). destruct (soa_fields rs S0) as (ns & m & r & a & b & c & d & e & W1 & W2 & W3 & R & Er).
    destruct (soa_record_line x ns m r (rs_ttl rs) a b c d e (rs_class rs) W1 W2 W3 R T K) as [Rl N10].
    pose proof (soa_display x ns m r (rs_ttl rs) a b c d e (rs_class rs) W1 W2 W3) as Dd.
    remember (mkRData DSOA [VName (name_of m); VName (name_of r); VU32 a; VU32 b; VU32 c; VU32 d; VU32 e]) as rd eqn:Erd. clear Erd. rewrite <- Er in Dd, Rl. rewrite Dd. cbn [rbind].
    exists (show_name ls), (of_string "soa " ++ soa_line ns m r (rs_ttl rs) a b c d e (rs_class rs) ++ [10; 10]%N). split; [eauto|]. split; [discriminate|]. split.
    + intros rs' E'. injection E' as <-. exists rd, (soa_line ns m r (rs_ttl rs) a b c d e (rs_class rs)). split; [rewrite Er; reflexivity|]. auto.
    + rewrite <- !app_assoc. reflexivity.
  - exists (show_name ls), []. split; [eauto|]. split; [auto|]. split; [discriminate|reflexivity].
Qed.
Lemma notify_text_inj : forall x n k s, wf_name (q_name (nq_question n)) -> wf_name (q_name (nq_question k)) ->
  (forall rs, nq_soa n = Some rs -> soa_set rs) -> (forall rs, nq_soa k = Some rs -> soa_set rs) ->
  notify_display x n = Ok s -> notify_display x k = Ok s -> q_name (nq_question n) = q_name (nq_question k) /\ nq_soa n = nq_soa k.
Proof.
  intros x n k s (ls & W & E) (ls' & W' & E') Sn Sk D1 D2. rewrite <- D2 in D1. clear D2. revert D1. unfold notify_display. rewrite E, E', (name_display_spec ls W), (name_display_spec ls' W'). cbn [rbind].
  destruct (nq_soa n) as [rs|], (nq_soa k) as [rs'|]; cbn [rbind];
    try (specialize (Sn rs eq_refl); pose proof Sn as (_ & K & T & _); destruct (soa_fields rs Sn) as (ns & m & r & a & b & c & d & e & W1 & W2 & W3 & R & Er); clear Sn);
    try (specialize (Sk rs' eq_refl); pose proof Sk as (_ & K' & T' & _); destruct (soa_fields rs' Sk) as (ns' & m' & r' & a' & b' & c' & d' & e' & W1' & W2' & W3' & R' & Er'); clear Sk);
    try (rewrite Er; rewrite soa_display by auto; rewrite <- Er); try (rewrite Er'; rewrite soa_display by auto; rewrite <- Er'); cbn [rbind];
    intro D; apply Ok_inj in D; apply app_strip in D; cbn [app] in D; (apply split_char in D; [|apply show_name_no; [assumption|lia]|apply show_name_no; [assumption|lia]]);
    destruct D as [D1 D]; (apply show_name_inj in D1; [|assumption|assumption]); subst ls'; (split; [reflexivity|]); try discriminate; [|reflexivity].
  apply app_strip in D. apply app_inv_tail in D. apply app_inv_tail in D.
  apply soa_line_inj in D; try assumption. destruct D as (D1 & D2 & D3 & D4 & D5 & D6 & D7 & D8 & D9 & D10). subst ns' m' r' a' b' c' d' e'. rewrite D4, D10 in Er. congruence.
Qed.

(** the exact text of headers and requests *)
Import String.StringSyntax.
Open Scope string_scope.
Open Scope list_scope.
Lemma header_text : forall h, header_display h = header_lines dec h.
Proof.
  intros h. unfold header_display, header_lines.
  assert (F : flat_map (fun f => 32%N :: of_string (hflag_str f)) (hf_setted (h_flag h)) = List.concat (map (fun w => if N.testbit (h_flag h) (fst w) then of_string " " ++ of_string (snd w) else []) flag_words)).
  { unfold hf_setted, flag_words. cbn [filter map List.concat fst snd]. rewrite !hf_is_set_bit. change (flag_bit QR) with 15%N. change (flag_bit AA) with 10%N. change (flag_bit TC) with 9%N. change (flag_bit RD) with 8%N.
    change (flag_bit RA) with 7%N. change (flag_bit AD) with 5%N. change (flag_bit CD) with 4%N.
    destruct (N.testbit (h_flag h) 15), (N.testbit (h_flag h) 10), (N.testbit (h_flag h) 9), (N.testbit (h_flag h) 8), (N.testbit (h_flag h) 7), (N.testbit (h_flag h) 5), (N.testbit (h_flag h) 4); reflexivity. }
  rewrite F. reflexivity.
Qed.
Lemma request_text : forall r ls, wf_labels ls -> q_name (rq_question r) = name_of ls ->
  request_display r = Ok (header_lines dec (rq_header r) ++ of_string "
;; QUESTION SECTION:
" ++ question_line ls (rq_question r) ++ of_string "

").
Proof.
  intros r ls W E. unfold request_display. rewrite (question_display_ok _ ls W E). cbn [rbind]. f_equal. rewrite header_text. reflexivity.
Qed.

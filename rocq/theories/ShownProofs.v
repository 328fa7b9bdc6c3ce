(** The printed line of any record in range, and the printed form of any message in range. *)
From Coq Require String.
From Verif Require Import Base BaseLemmas NameModel RenderModel CodesModel RDataModel MsgModel TextModel DisplayModel SpecName SpecBuf SpecCodes SpecMsg SpecText SpecDisplay SpecShown
  NameTextProofs NameTextProofs2 CodesProofs TextProofs TextProofs2 TextProofs3 TextProofs4 TextProofs5 TextProofs6 MsgProofs2 MsgProofs3 MsgProofs4 DisplayProofs DisplayProofs2.
From Verif Require TextProofs9.
Import String.StringSyntax.
Open Scope string_scope.
Open Scope list_scope.
Open Scope nat_scope.

Lemma type_shown : forall t, shown_type t (of_string (rrtype_str t)).
Proof. intro t. destruct t; cbn [shown_type]; try reflexivity; eapply type_word; split; discriminate. Qed.
Lemma class_shown : forall t, shown_class t (of_string (rrclass_str t)).
Proof. intro t. destruct t; cbn [shown_class]; try reflexivity; eapply class_word; discriminate. Qed.
Lemma field_shown : forall x k d v, wf_field k v -> compat k d = true -> exists s, field_to_str x d v = Ok s /\ shown_field x (pres_of d) v s.
Proof.
  intros x k d v W C. destruct k, v; cbn [wf_field] in W; try contradiction; destruct d; cbn [compat] in C; try discriminate; cbn [field_to_str pres_of shown_field presented].
  - eexists. split; reflexivity.
  - eexists. split; reflexivity.
  - destruct W as (ls & W & ->). exists (show_name ls). split; [apply name_display_spec; auto|]. exists ls. auto.
  - eexists. split; [reflexivity|]. apply dec_spec. lia.
  - eexists. split; [reflexivity|]. apply dec_spec. lia.
  - eexists. split; [reflexivity|]. apply dec_spec. exact W.
  - eexists. split; reflexivity.
  - eexists. split; [reflexivity|]. apply type_shown.
  - eexists. split; [reflexivity|]. exists (map (flat_map escape_char) d0). split.
    + clear C. induction W as [|a l Wa W IH]; constructor; auto. apply escape_all_quoted. apply Wa.
    + unfold text_to_str. clear. induction d0 as [|a l IH]; cbn [flat_map map]; auto. rewrite IH. reflexivity.
  - eexists. split; [reflexivity|]. exists (flat_map escape_char d0). destruct W as [_ W]. split; [reflexivity|]. split; [apply escape_all_quoted; auto|].
    pose proof (string_to_str_ascii d0 W) as A; rewrite Forall_forall in A; exact A.
  - exists (hex_text d0). split; [apply to_hex_text; apply W|apply hex_text_values; apply W].
  - eexists. split; reflexivity.
  - eexists. split; [reflexivity|]. exists (flat_map escape_char d0). split; [reflexivity|]. split; [apply escape_all_quoted; auto|].
    pose proof (string_to_str_ascii d0 W) as A; rewrite Forall_forall in A; exact A.
  - exists (hex_text d0). split; [apply to_hex_text; apply W|apply hex_text_values; apply W].
  - eexists. split; reflexivity.
Qed.
Lemma fields_shown : forall x ds vs, Forall2 wf_field (map fst ds) vs -> (forall k d, In (k, d) ds -> compat k d = true) ->
  exists fs, fields_to_str x ds vs = Ok (joined [32%N] fs) /\ length fs = length vs /\
    Forall2 (fun pv s => shown_field x (fst pv) (snd pv) s) (combine (map (fun kd => pres_of (snd kd)) ds) vs) fs.
Proof.
  intros x. induction ds as [|[k d] ds IH]; intros vs F C; cbn [map fst] in F; inversion F as [|? v ? vs' F1 F2]; subst.
  - exists []. split; [reflexivity|]. split; [reflexivity|constructor].
  - destruct (field_shown x k d v F1 (C k d (or_introl eq_refl))) as (a & A & Sa).
    destruct (IH vs' F2 ltac:(intros; apply C; right; assumption)) as (fs & B & L & Sf). exists (a :: fs). split; [|split; [cbn [length]; rewrite L; reflexivity|constructor; auto]].
    destruct ds as [|d2 ds].
    + cbn [map] in F2. inversion F2; subst. destruct fs; [|discriminate]. cbn [fields_to_str snd joined]. exact A.
    + change (fields_to_str x ((k, d) :: d2 :: ds) (v :: vs')) with (let? a := field_to_str x d v in let? b := fields_to_str x (d2 :: ds) vs' in Ok (a ++ [32%N] ++ b)).
      rewrite A, B. cbn [rbind]. cbn [map] in F2. inversion F2; subst. destruct fs as [|f fs]; [discriminate|]. reflexivity.
Qed.
Lemma record_shown : forall x rs rd, ext_ok x -> x_b64_enc x [] = [] -> wf_name (rs_name rs) -> (rs_ttl rs < 4294967296)%N -> wf_rdata (rs_type rs) rd ->
  exists h r, rrset_header rs = Ok h /\ rdata_display x rd = Ok r /\ ~ In 10%N (line_of h r) /\
    shown_line x (mkRR (rs_name rs) (rs_type rs) (rs_class rs) (rs_ttl rs) (Some rd)) (line_of h r).
Proof.
  intros x rs rd X B0 (ls & W & En) Tl (D & ks & L & F). destruct (schema_facts _ _ ks D L) as (Ek & _ & _ & Ep & C).
  rewrite <- Ek in F. destruct (fields_shown x _ _ F (fun k d I => proj1 (C k d I))) as (fs & Ef & Lf & Sf). rewrite Ep in Sf.
  pose proof (TextProofs9.fields_print x _ _ _ X B0 F (fun k d I => proj1 (C k d I)) Ef) as Pr.
  rewrite (rrset_header_ok rs ls W En). eexists. exists (joined [32%N] fs). split; [reflexivity|]. split; [exact Ef|].
  set (tn := show_name ls). set (td := dec (rs_ttl rs)). set (tc := of_string (rrclass_str (rs_class rs))). set (tt0 := of_string (rrtype_str (rs_type rs))).
  assert (EL : line_of (tn ++ [9%N] ++ td ++ [9%N] ++ tc ++ [9%N] ++ tt0) (joined [32%N] fs) = joined [9%N] [tn; td; tc; tt0; joined [32%N] fs]).
  { unfold line_of. cbn [joined]. rewrite <- !app_assoc. reflexivity. }
  rewrite EL. destruct (dec_spec _ Tl) as [C1 C2]. split.
  - assert (Q : forall w, Forall (fun c => 32 <= c <= 126)%N w -> ~ In 10%N w). { intros w Fw J. rewrite Forall_forall in Fw. specialize (Fw _ J). cbn beta in Fw. lia. }
    cbn [joined app]. intro J. apply in_app_or in J. destruct J as [J|J]; [apply (Q tn); [apply TextProofs9.word_print, show_word; exact W|assumption]|].
    destruct J as [J|J]; [discriminate|]. apply in_app_or in J. destruct J as [J|J]; [apply (Q td); [apply TextProofs9.word_print, dec_word; exact Tl|assumption]|].
    destruct J as [J|J]; [discriminate|]. apply in_app_or in J. destruct J as [J|J]; [apply (Q tc); [apply TextProofs9.class_print|assumption]|].
    destruct J as [J|J]; [discriminate|]. apply in_app_or in J. destruct J as [J|J]; [apply (Q tt0); [apply TextProofs9.type_print|assumption]|].
    destruct J as [J|J]; [discriminate|]. apply (Q _ Pr J).
  - exists rd, ls, td, tc, tt0, fs. cbn [rr_data rr_owner rr_ttl rr_class rr_type]. repeat (split; [assumption || reflexivity|]). split; [apply class_shown|]. split; [apply type_shown|].
    repeat (split; [assumption|]). reflexivity.
Qed.
Lemma rrset_shown : forall x rs, ext_ok x -> x_b64_enc x [] = [] -> wf_name (rs_name rs) -> (rs_ttl rs < 4294967296)%N -> Forall (wf_rdata (rs_type rs)) (rs_rdatas rs) ->
  exists lines, rrset_display x rs = Ok (flat_map (fun l => l ++ [10%N]) lines) /\ Forall (fun l => ~ In 10%N l) lines /\
    Forall2 (shown_line x) (map (fun d => mkRR (rs_name rs) (rs_type rs) (rs_class rs) (rs_ttl rs) (Some d)) (rs_rdatas rs)) lines.
Proof.
  intros x rs X B0 W Tl F. unfold rrset_display.
  assert (H : forall rds acc, Forall (wf_rdata (rs_type rs)) rds -> exists lines,
    rfold (fun acc rd => let? h := rrset_header rs in let? r := rdata_display x rd in Ok (acc ++ h ++ [9%N] ++ r ++ [10%N])) rds acc = Ok (acc ++ flat_map (fun l => l ++ [10%N]) lines) /\
    Forall (fun l => ~ In 10%N l) lines /\ Forall2 (shown_line x) (map (fun d => mkRR (rs_name rs) (rs_type rs) (rs_class rs) (rs_ttl rs) (Some d)) rds) lines).
  { induction rds as [|rd rds IH]; intros acc I.
    - exists []. cbn [rfold flat_map map]. rewrite app_nil_r. repeat split; constructor.
    - inversion I as [|? ? I1 I2]; subst. destruct (record_shown x rs rd X B0 W Tl I1) as (h & r & Eh & Er & N10 & Sl).
      destruct (IH (acc ++ h ++ [9%N] ++ r ++ [10%N]) I2) as (lines & E & Fn & F2).
      exists (line_of h r :: lines). split; [|split; constructor; auto]. cbn [rfold]. match goal with |- rbind ?m ?k = _ => replace m with (Ok (acc ++ h ++ [9%N] ++ r ++ [10%N])) by (rewrite Eh, Er; reflexivity) end. cbn [rbind]. rewrite E.
      cbn [flat_map]. unfold line_of. rewrite <- !app_assoc. reflexivity. }
  destruct (H (rs_rdatas rs) [] F) as (lines & E & Fn & F2). exists lines. auto.
Qed.
Lemma section_shown : forall x l acc, ext_ok x -> x_b64_enc x [] = [] -> Forall rrset_ok l ->
  exists lines, rfold (fun acc rs => if rrtype_eqb (rs_type rs) TOPT then Ok acc else let? t := rrset_display x rs in Ok (acc ++ t)) l acc = Ok (acc ++ flat_map (fun z => z ++ [10%N]) lines) /\
    Forall (fun l => ~ In 10%N l) lines /\ Forall2 (shown_line x) (filter (fun y => negb (rrtype_eqb (rr_type y) TOPT)) (flat_map rrs_of l)) lines.
Proof.
  intros x l acc X B0. revert acc. induction l as [|rs l IH]; intros acc F.
  - exists []. cbn. rewrite app_nil_r. auto.
  - inversion F as [|? ? K F']; subst. cbn [rfold flat_map]. rewrite filter_app. destruct (rrtype_eqb (rs_type rs) TOPT) eqn:E.
    + cbn [rbind]. destruct (IH acc F') as (lines & A & Bn & B). exists lines. split; auto. split; auto.
      rewrite (filter_none _ _ (rrs_of rs)); [exact B|]. intros y Y. apply rrs_of_type in Y. rewrite Y, E. reflexivity.
    + assert (N : rs_type rs <> TOPT). { intros Z. rewrite Z in E. discriminate. }
      destruct (rrset_ok_wf rs K) as [Wn Wr]. destruct K as (_ & _ & _ & Tl & _ & Ne & _).
      destruct (rrset_shown x rs X B0 Wn Tl Wr) as (ls & D & Gn & G). rewrite D. cbn [rbind].
      destruct (IH (acc ++ flat_map (fun z => z ++ [10%N]) ls) F') as (lines & A & Bn & B).
      exists (ls ++ lines). rewrite A. split; [rewrite flat_map_app, app_assoc; reflexivity|]. split; [apply Forall_app; auto|]. apply Forall2_app; [|exact B].
      rewrite filter_all. 2:{ intros y Y. apply rrs_of_type in Y. rewrite Y, E. reflexivity. }
      rewrite rrs_of_some; [exact G|]. intros Z. apply N. apply Ne. exact Z.
Qed.
Lemma section_shown_lines : forall x b c s, ext_ok x -> x_b64_enc x [] = [] -> section_ok b c s -> exists t, section_display x s = Ok t /\ shown_lines x s t.
Proof.
  intros x b c s X B0 K. destruct s as [l|].
  - destruct (section_shown x l [] X B0) as (lines & A & Bn & B); [eapply section_ok_rrsets; eauto|].
    exists (flat_map (fun z => z ++ [10%N]) lines). split; [exact A|]. exists lines. auto.
  - exists []. split; [reflexivity|]. exists []. repeat split; constructor.
Qed.
Lemma titled_shown : forall x b c s title eol, ext_ok x -> x_b64_enc x [] = [] -> section_ok b c s -> exists t, titled x c title s eol = Ok t /\ shown_section x title s eol t.
Proof.
  intros x b c s title eol X B0 K. destruct (section_shown_lines x b c s X B0 K) as (t & D & R). unfold titled, shown_section. rewrite (proj1 K), blen_pos.
  destruct (records s) eqn:E.
  - exists []. split; [reflexivity|]. split; congruence.
  - rewrite D. cbn [rbind]. exists (of_string title ++ [10%N] ++ t ++ eol). split; [reflexivity|]. split; [congruence|]. intros _. exists t. auto.
Qed.
Lemma response_shown : forall x r, ext_ok x -> x_b64_enc x [] = [] -> consistent r ->
  exists e ls an ns ar, get_edns r = Ok e /\ wf_labels ls /\ q_name (r_question r) = name_of ls /\
    shown_section x ";; ANSWER SECTION:" (r_answer r) [10%N] an /\ shown_section x ";; AUTHORITY SECTION:" (r_authority r) [10%N] ns /\
    shown_section x ";; ADDITIONAL SECTION:" (r_additional r) [] ar /\
    response_display x r = Ok (header_display (r_header r) ++ [10%N] ++ edns_part e ++ of_string ";; QUESTION SECTION:" ++ [10%N] ++ question_line ls (r_question r) ++ [10; 10]%N ++ an ++ ns ++ ar).
Proof.
  intros x r X B0 (_ & _ & Q & A & B & C). unfold response_display. destruct (get_edns_total r) as (e & E). destruct Q as ((ls & Wl & En) & _).
  destruct (titled_shown x _ _ _ ";; ANSWER SECTION:" [10%N] X B0 A) as (an & E1 & S1).
  destruct (titled_shown x _ _ _ ";; AUTHORITY SECTION:" [10%N] X B0 B) as (ns & E2 & S2).
  destruct (titled_shown x _ _ _ ";; ADDITIONAL SECTION:" [] X B0 C) as (ar & E3 & S3).
  exists e, ls, an, ns, ar. repeat (split; [assumption|]). rewrite E, (question_display_ok _ ls Wl En), E1, E2, E3. cbn [rbind]. reflexivity.
Qed.
Lemma edns_part_lines : forall e, edns_part e = edns_lines dec e.
Proof. intros [e|]; [|reflexivity]. unfold edns_part, edns_lines, edns_display. destruct (e_do e); reflexivity. Qed.

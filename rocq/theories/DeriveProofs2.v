(** Proofs for C101: the text code generated by [#[derive(Rdata)]]. *)
From Verif Require Import Base BaseLemmas NameModel RenderModel CodesModel RDataModel MsgModel TextModel DeriveModel SpecName SpecBuf SpecCodes SpecMsg SpecText SpecDerive SpecCtor
  NameTextProofs NameTextProofs2 CodesProofs TextProofs TextProofs2 TextProofs3 TextProofs4 TextProofs5 TextProofs6.
Open Scope list_scope.
Open Scope nat_scope.

Lemma fits_compat : forall k d, fits (k, d) -> compat k d = true.
Proof. intros k d. destruct k, d; cbn; auto; intros []. Qed.
Lemma carried_rt : forall x kd v, ext_ok x -> fits kd -> carried kd v -> field_rt x kd v.
Proof.
  intros x [k d] v X F [K C]. cbn [fst snd] in *. pose proof (fits_compat _ _ F) as Cp.
  destruct (match d with PString => true | _ => false end) eqn:D.
  - assert (d = PString) by (destruct d; discriminate || reflexivity). subst d. apply (field_ok x TCAA); auto; [|intros _; right; left; reflexivity].
    destruct v; cbn [text_field]; auto; destruct C as (A & B & L); repeat split; auto.
  - assert (Nd : d <> PString) by (intros ->; discriminate). apply (field_ok x TA); auto; [|congruence].
    assert (Q : ~ quotes_binary TA) by (intros [H|[H|H]]; discriminate).
    destruct v; cbn [text_field]; auto; destruct C as (A & B & L); repeat split; auto; intros; contradiction.
Qed.
Lemma end_tail : forall ds, end_only_last ds -> tail_only ds = true.
Proof.
  induction ds as [|d ds IH]; intros H; [reflexivity|]. destruct ds as [|d2 ds]; [reflexivity|]. rewrite tail_only_cons. apply andb_true_iff. split.
  - apply negb_true_iff. destruct (last_only (snd d)) eqn:E; auto. exfalso.
    assert (T : to_the_end d) by (unfold to_the_end; destruct (snd d); try discriminate; auto). discriminate (H [] d (d2 :: ds) eq_refl T).
  - apply IH. intros before e after E T. apply (H (d :: before) e after); auto. rewrite E. reflexivity.
Qed.
Lemma derived_text_rt : forall x ds vs, ext_ok x -> Forall fits ds -> end_only_last ds -> ds <> [] -> Forall2 carried ds vs ->
  exists s fs, derived_display x ds vs = Ok s /\ s = joined [32%N] fs /\
    Forall2 (fun pv t => presented x (fst pv) (snd pv) t) (combine (map format_of ds) vs) fs /\
    (forall md a, forallb is_ws a = true -> derived_from_str md x ds (a ++ s) = Ok vs).
Proof.
  intros x ds vs X F E Nn C.
  assert (R : Forall2 (field_rt x) ds vs). { clear E Nn. induction C as [|d v ds vs C1 C IH]; [constructor|]. apply Forall_cons_iff in F. constructor; [apply carried_rt; tauto|apply IH; tauto]. }
  destruct (fields_ok x ds vs R Nn (end_tail ds E)) as (s & fs & D & J & P & (_ & (c & r & Ec & _) & _) & Rd).
  exists s, fs. split; [exact D|]. split; [exact J|]. split; [exact P|].
  intros md a A. unfold derived_from_str. assert (Sb : sb_new md (a ++ s) = Ok (mkSB (a ++ s) 0)). { unfold sb_new. rewrite Ec. destruct md; [|reflexivity]. destruct a; reflexivity. }
  rewrite Sb. cbn [rbind]. rewrite (Rd (a ++ s) 0 a); auto. lia.
Qed.

(** * Nothing is read at the end of the text *)
Definition at_end (b : sbuf) : Prop := sb_eos b = true.
Lemma skip_end : forall b, at_end b -> skip_whitespace b = (Ok tt, b).
Proof. intros b H. unfold skip_whitespace. rewrite Nat.add_1_r. cbn [sb_skip_ws]. rewrite H. reflexivity. Qed.
Lemma read_str_end : forall b, at_end b -> read_str b = (Ok None, b).
Proof.
  intros b H. unfold read_str, bind. rewrite (skip_end b H). unfold get. rewrite Nat.add_1_r. cbn [sb_skip_word]. rewrite H. rewrite Nat.eqb_refl. reflexivity.
Qed.
Lemma char_end : forall b, at_end b -> read_char_string b = (Err, b).
Proof. intros b H. unfold read_char_string, bind. rewrite (skip_end b H). unfold get. rewrite H. reflexivity. Qed.
Lemma text_end : forall b, at_end b -> fst (read_text b) = Err.
Proof. intros b H. unfold read_text, bind, get. rewrite Nat.add_1_r. cbn [text_loop_str]. unfold bind. rewrite (char_end b H). reflexivity. Qed.
Lemma sb_read_end : forall A (p : list N -> res A) b, at_end b -> sb_read p b = (Err, b).
Proof. intros A p b H. unfold sb_read, bind. rewrite (read_str_end b H). reflexivity. Qed.
Lemma field_end : forall x kd b, at_end b -> fst (field_from_str x kd b) = Err.
Proof.
  intros x [k d] b H. unfold field_from_str. cbn [snd fst]. destruct d; unfold bind; try (rewrite (sb_read_end _ _ b H); reflexivity).
  - pose proof (text_end b H) as E. destruct (read_text b) as [[]]; cbn [fst] in E; try discriminate; reflexivity.
  - rewrite (char_end b H). reflexivity.
  - unfold timestamp_from_str, bind. rewrite (read_str_end b H). reflexivity.
  - unfold binary_from_str, bind. rewrite (read_str_end b H). reflexivity.
  - unfold base64_from_str, bind, read_left. rewrite H. reflexivity.
Qed.
Lemma text_loop_ends : forall fuel l b a b', text_loop_str fuel l b = (Ok a, b') -> at_end b'.
Proof.
  induction fuel as [|fuel IH]; intros l b a b' H; cbn [text_loop_str] in H; [discriminate|]. apply bind_ok in H. destruct H as (d & b1 & _ & H). unfold bind, get in H.
  destruct (sb_eos b1) eqn:E; [unfold ret in H; injection H as _ <-; exact E|]. eapply IH; eauto.
Qed.
Lemma read_left_ends : forall b s b', read_left b = (Ok (Some s), b') -> at_end b'.
Proof.
  intros b s b' H. unfold read_left in H. destruct (sb_eos b); [discriminate|]. apply bind_ok in H. destruct H as (w & b1 & _ & H). apply bind_ok in H. destruct H as (t & b2 & _ & H).
  unfold bind, put, ret in H. injection H as _ <-. unfold at_end, sb_eos. cbn. apply Nat.eqb_refl.
Qed.
Lemma field_ends : forall x kd b v b', to_the_end kd -> field_from_str x kd b = (Ok v, b') -> at_end b'.
Proof.
  intros x [k d] b v b' [T|T] H; cbn [snd] in T; subst d; unfold field_from_str in H; cbn [snd fst] in H; apply bind_ok in H; destruct H as (u & b1 & H & H2); unfold ret in H2; injection H2 as _ <-.
  - unfold read_text in H. apply bind_ok in H. destruct H as (s0 & b2 & _ & H). apply bind_ok in H. destruct H as (data & b3 & H & H2).
    apply bind_ok in H2. destruct H2 as ([] & b4 & H3 & H4). unfold ret in H4. injection H4 as _ <-. unfold ensure in H3. destruct data; [discriminate|]. unfold ret in H3. injection H3 as <-. eapply text_loop_ends; eauto.
  - unfold base64_from_str in H. apply bind_ok in H. destruct H as (o & b2 & H & H2). destruct o as [s|]; [|discriminate]. apply read_left_ends in H.
    unfold of_opt in H2. destruct (x_b64_dec x _); [|discriminate]. unfold ret in H2. injection H2 as _ <-. exact H.
Qed.
Lemma derived_never : forall x ds, ~ end_only_last ds -> forall md s vs, derived_from_str md x ds s <> Ok vs.
Proof.
  intros x ds Ne md s vs H. apply Ne. intros before d after -> T. destruct after as [|d2 after]; auto. exfalso.
  unfold derived_from_str in H. apply rbind_ok in H. destruct H as (b & _ & H). destruct (fields_from_str x (before ++ d :: d2 :: after) b) as [r b'] eqn:E. cbn [fst] in H. subst r. clear - E T.
  revert b vs b' E. induction before as [|e before IH]; intros b vs b' E; cbn [app fields_from_str] in E; apply bind_ok in E; destruct E as (v & b1 & E1 & E2).
  - apply (field_ends _ _ _ _ _ T) in E1. apply bind_ok in E2. destruct E2 as (vs' & b2 & E2 & _). apply bind_ok in E2. destruct E2 as (v2 & b3 & E2 & _).
    pose proof (field_end x d2 b1 E1) as F. rewrite E2 in F. discriminate.
  - apply bind_ok in E2. destruct E2 as (vs' & b2 & E2 & _). eapply IH; eauto.
Qed.
Lemma derived_text_safe : forall md x ds s, str s -> s <> [] -> (Forall (fun c => c < 128)%N s \/ forall kd, In kd ds -> snd kd <> PTime) ->
  derived_from_str md x ds s <> Panic /\ derived_from_str md x ds s <> Hang.
Proof.
  intros md x ds s [B V] Nn H. unfold derived_from_str. assert (Sb : sb_new md s = Ok (mkSB s 0)) by (destruct md, s; reflexivity || congruence). rewrite Sb. cbn [rbind].
  destruct H as [A|H].
  - destruct (good_start _ true (fields_from_str x ds) _ s (good_fields true x ds ltac:(discriminate))) as [S1 S2]; [split; [exact V|intros _; exact A]|]. auto.
  - destruct (good_start _ false (fields_from_str x ds) _ s (good_fields false x ds (fun _ => H))) as [S1 S2]; [split; [exact V|discriminate]|]. auto.
Qed.
Lemma derived_instances : forall t v, data_of t = Some v -> Forall fits (text_schema v) /\ end_only_last (text_schema v) /\ text_schema v <> [] /\
  map format_of (text_schema v) = rfc_present t /\
  (forall vs, Forall2 carried (text_schema v) vs <-> text_rdata t (mkRData v vs)) /\
  forall x vs, rdata_display x (mkRData v vs) = derived_display x (text_schema v) vs /\
  forall md s, rdata_from_str md x t s = let? vs := derived_from_str md x (text_schema v) s in Ok (mkRData v vs).
Proof.
  intros t v D. assert (Lk : exists ks, rfc_layout t = Some ks) by (destruct t; cbn in D |- *; try discriminate; eauto). destruct Lk as (ks & Lk).
  destruct (schema_facts t v ks D Lk) as (Ek & Nn & To & Ep & C). split; [|split; [|split; [exact Nn|split; [exact Ep|split]]]].
  - apply Forall_forall. intros [k d] I. destruct (C k d I) as [C1 _]. destruct k, d; cbn in C1 |- *; try discriminate; exact Logic.I.
  - clear - To. intros before d after E T. revert To. rewrite E. clear E. induction before as [|e before IH]; intros To.
    + destruct after as [|d2 after]; auto. cbn [app] in To. rewrite tail_only_cons in To. apply andb_true_iff in To. destruct To as [To _]. apply negb_true_iff in To. destruct T as [T|T]; rewrite T in To; discriminate.
    + apply IH. destruct before as [|e2 before]; cbn [app] in *; rewrite tail_only_cons in To; apply andb_true_iff in To; tauto.
  - intros vs. unfold text_rdata. cbn [rd_var rd_fields]. 
    assert (QA : quotes_binary t -> forall k d, In (k, d) (text_schema v) -> k = KByteBin \/ k = KBin -> d = PString).
    { intros Q k d I K. destruct Q as [ -> | [ -> | -> ] ]; cbn in D; inversion D; subst v; cbn in I; repeat (destruct I as [I|I]; [inversion I; subst; first [reflexivity|destruct K; discriminate]|]); destruct I. }
    split.
    + intros F. split; [exact D|]. split.
      * exists ks. split; [exact Lk|]. rewrite <- Ek. clear - F. induction F as [|[k d] u ds vs [K _] F IH]; cbn [map fst]; constructor; auto.
      * clear - F QA. revert F QA. generalize (text_schema v). intros ds F. induction F as [|[k d] u ds vs [K Cu] F IH]; intros QA; constructor.
        -- cbn [fst snd] in *. destruct u; cbn [text_field]; auto; destruct Cu as (A & B & L); split; auto; split; auto; intros Q; apply L; apply (QA Q k d (or_introl eq_refl)); destruct k; cbn in K; try contradiction; auto.
        -- apply IH. intros Q k' d' I. apply (QA Q k' d'). right. exact I.
    + intros (_ & (ks' & Lk' & K) & F). rewrite Lk in Lk'. injection Lk' as <-. rewrite <- Ek in K. clear - K F C. revert vs K F. revert C. generalize (text_schema v). induction l as [|[k d] ds IH]; intros C vs K F; cbn [map fst] in K; inversion K as [|? u ? vs' K1 K2]; subst; constructor.
      * split; [exact K1|]. apply Forall_inv in F. destruct (C k d (or_introl eq_refl)) as [_ C2]. destruct u; cbn [text_field] in F; auto; destruct F as (A & B & L); split; auto; split; auto.
      * apply IH; auto; [intros k' d' I; apply C; right; exact I|]. apply Forall_inv_tail in F. exact F.
  - intros x vs. split; [reflexivity|]. intros md s. unfold rdata_from_str, derived_from_str. destruct (sb_new md s) as [b| | |]; cbn [rbind]; try reflexivity.
    unfold rdata_from_sb. rewrite variant_data, D. unfold bind. destruct (fields_from_str x (text_schema v) b) as [[]]; reflexivity.
Qed.

(** What a successful parse of text gives: values in range. *)
From Coq Require Import String.
From Verif Require Import Base BaseLemmas NameModel RenderModel CodesModel RDataModel MsgModel TextModel SpecName SpecBuf SpecCodes SpecMsg SpecText SpecApi SpecCtor
  NameApiProofs NameTextProofs NameTextProofs2 CodesProofs TextProofs TextProofs2 TextProofs3 TextProofs4 TextProofs5 TextProofs6.
Open Scope list_scope.
Open Scope nat_scope.

Section P.
Variable P : N -> Prop.
Hypothesis PB : forall c, P c -> (c < 256)%N.
Definition okP {A} (m : M sbuf A) (Q : A -> Prop) : Prop := forall raw pos, pos <= length raw -> Forall P raw -> valid_utf8 (skipn pos raw) = true ->
  forall a b', m (mkSB raw pos) = (Ok a, b') -> Q a /\ exists pos', b' = mkSB raw pos' /\ pos' <= length raw /\ valid_utf8 (skipn pos' raw) = true.
Lemma ok_bind : forall A B (m : M sbuf A) (k : A -> M sbuf B) Q R, okP m Q -> (forall a, Q a -> okP (k a) R) -> okP (bind m k) R.
Proof.
  intros A B m k Q R Hm Hk raw pos L F V a b' E. apply bind_ok in E. destruct E as (c & b1 & E1 & E2).
  destruct (Hm raw pos L F V c b1 E1) as (Qc & pos' & -> & L' & V'). exact (Hk c Qc raw pos' L' F V' a b' E2).
Qed.
Lemma ok_ret : forall A (a : A) (Q : A -> Prop), Q a -> okP (ret a) Q.
Proof. intros A a Q H raw pos L F V a' b' E. unfold ret in E. inversion E; subst. split; auto. exists pos. auto. Qed.
Lemma ok_fail : forall A (Q : A -> Prop), okP fail Q.
Proof. intros A Q raw pos L F V a' b' E. discriminate. Qed.
Lemma ok_lift : forall A (r : res A) (Q : A -> Prop), (forall a, r = Ok a -> Q a) -> okP (lift r) Q.
Proof. intros A r Q H raw pos L F V a b' E. unfold lift in E. inversion E; subst. split; auto. exists pos. auto. Qed.
Lemma ok_ensure : forall b, okP (ensure b) (fun _ => True).
Proof. intros. destruct b; [apply ok_ret; auto|apply ok_fail]. Qed.
Lemma ok_of_opt : forall A (o : option A) (Q : A -> Prop), (forall a, o = Some a -> Q a) -> okP (of_opt o) Q.
Proof. intros A [a|] Q H; [apply ok_ret; auto|apply ok_fail]. Qed.
Lemma ok_weaken : forall A (m : M sbuf A) (Q R : A -> Prop), okP m Q -> (forall a, Q a -> R a) -> okP m R.
Proof. intros A m Q R H I raw pos L F V a b' E. destruct (H raw pos L F V a b' E). split; auto. Qed.
Lemma Forall_skipn' : forall (l : list N) n, Forall P l -> Forall P (skipn n l).
Proof. intros l n H. rewrite <- (firstn_skipn n l) in H. apply Forall_app in H. apply H. Qed.
Lemma ok_read_str : okP read_str (fun o => match o with Some w => w <> [] /\ forallb (fun c => negb (is_ws c)) w = true /\ Forall P w | None => True end).
Proof.
  intros raw pos L F V a b' E0. destruct (words_exist (skipn pos raw)) as (l & W). pose proof (Forall_skipn' raw pos F) as FS. remember (skipn pos raw) as s eqn:Es. symmetry in Es.
  assert (Va : asc false s) by (split; [exact V|discriminate]).
  destruct W as [s W|gap w rest l G Nw W E HW].
  - subst s. rewrite read_str_none in E0 by auto. inversion E0; subst. split; [exact Logic.I|]. exists (length raw). split; auto. split; auto. rewrite skipn_all. reflexivity.
  - pose proof (asc_gap false gap _ G Va) as V1.
    assert (St : starts_char rest). { destruct E as [->|(c & r & -> & Hc)]; cbn [starts_char]; auto. apply cont_big, is_ws_ascii; auto. }
    destruct (asc_split false w rest St V1) as [V2 V3].
    rewrite (read_str_word raw pos gap w rest) in E0; auto; [|destruct E as [->|(c & r & -> & Hc)]; cbn [ends_ws]; auto|apply V2].
    inversion E0; subst a b'. apply Forall_app in FS. destruct FS as [_ FS]. apply Forall_app in FS. destruct FS as [FS _]. split; [auto|].
    exists (pos + length gap + length w). split; [reflexivity|]. split.
    + eapply pos_le. { apply skipn_after with (a := gap). exact Es. } eapply pos_le; eauto.
    + replace (skipn (pos + length gap + length w) raw) with rest; [apply V3|]. symmetry. apply skipn_after with (a := w). apply skipn_after with (a := gap). exact Es.
Qed.
Lemma ok_pos : forall A (m : M sbuf A) (Q : A -> Prop), goodP false m (fun _ => True) -> (forall raw pos a b', pos <= length raw -> Forall P (skipn pos raw) -> m (mkSB raw pos) = (Ok a, b') -> Q a) -> okP m Q.
Proof.
  intros A m Q G H raw pos L F V a b' E. assert (Va : asc false (skipn pos raw)) by (split; [exact V|discriminate]). destruct (G raw pos L Va) as [_ Pc]. destruct (Pc a b' E) as (_ & pos' & -> & L' & V' & _).
  split; [eapply H; [exact L|apply Forall_skipn'; exact F|exact E]|]. exists pos'. auto.
Qed.
Lemma quoted_bytes : forall t d, quoted t d -> Forall P t -> bytes d.
Proof.
  intros t d Q. induction Q as [|c t d _ _ _ IH|c t d _ _ IH|a b c t d _ _ _ Lt _ IH]; intros F; [constructor| | |].
  - inversion F; subst. constructor; [apply PB; assumption|apply IH; assumption].
  - inversion F as [|? ? _ F1]; subst. inversion F1; subst. constructor; [apply PB; assumption|apply IH; assumption].
  - inversion F as [|? ? _ F1]; subst. inversion F1 as [|? ? _ F2]; subst. inversion F2 as [|? ? _ F3]; subst. inversion F3; subst. constructor; [assumption|apply IH; assumption].
Qed.
Lemma ok_read_char_string : okP read_char_string (fun d => bytes d /\ 1 <= length d <= 255).
Proof.
  apply ok_pos; [apply good_read_char_string|]. intros raw pos a b' L F E. apply read_char_string_sound in E; auto. destruct E as (gap & t & rest & Sk & G & Q & Ln & _).
  split; [|exact Ln]. eapply quoted_bytes; [exact Q|]. rewrite Sk in F. apply Forall_app in F. destruct F as [_ F]. inversion F as [|? ? _ F1]; subst. apply Forall_app in F1. apply F1.
Qed.
Lemma texts_bytes : forall s ds, texts s ds -> Forall P s -> ds <> [] /\ Forall wf_string ds.
Proof.
  intros s ds T. induction T as [gap t d G Q L|gap t d rest ds G Q L T IH]; intros F; apply Forall_app in F; destruct F as [_ F]; inversion F as [|? ? _ F1]; subst; apply Forall_app in F1; destruct F1 as [F1 F2].
  - split; [discriminate|]. constructor; [|constructor]. split; [lia|]. eapply quoted_bytes; eauto.
  - inversion F2 as [|? ? _ F3]; subst. split; [discriminate|]. constructor; [|apply IH; exact F3]. split; [lia|]. eapply quoted_bytes; eauto.
Qed.
Lemma ok_read_text : okP read_text (fun ds => ds <> [] /\ Forall wf_string ds).
Proof. apply ok_pos; [apply good_read_text|]. intros raw pos a b' L F E. apply read_text_iff in E; auto. destruct E as [T _]. eapply texts_bytes; eauto. Qed.
Lemma ok_sb_read : forall A (p : list N -> res A), okP (sb_read p) (fun a => exists s, Forall P s /\ p s = Ok a).
Proof.
  intros A p. unfold sb_read. eapply ok_bind; [apply ok_read_str|]. intros o H. destruct o as [s|]; [|apply ok_fail]. apply ok_lift. intros a E. exists s. split; [apply H|exact E].
Qed.
Lemma match_in : forall A (tb : list (string * A)) s t (Q : A -> Prop), match_str tb s = Ok t -> Forall (fun p => Q (snd p)) tb -> Q t.
Proof.
  intros A tb s t Q H F. unfold match_str in H. destruct (find _ tb) as [p|] eqn:E; [|discriminate]. inversion H; subst. apply find_some in E. rewrite Forall_forall in F. apply F, E.
Qed.
Lemma type_from_ok : forall s t, rrtype_from_str s = Ok t -> type_ok t.
Proof. intros s t H. apply (match_in _ _ _ _ _ H). repeat (apply Forall_cons; [split; vm_compute; reflexivity|]). apply Forall_nil. Qed.
Lemma class_from_ok : forall s t, rrclass_from_str s = Ok t -> class_ok t.
Proof. intros s t H. apply (match_in _ _ _ _ _ H). repeat (apply Forall_cons; [split; vm_compute; reflexivity|]). apply Forall_nil. Qed.
(** What is known of a field that was read. *)
Definition parsed_field (k : codec) (v : fval) : Prop :=
  match k, v with
  | KName, VName n => exists s, Forall P s /\ name_new s = Ok n
  | KByteBin, VByteBin d => bytes d
  | KByteBin, _ | KName, _ => False
  | _, _ => wf_field k v
  end.
Lemma ok_field : forall x k d, ext_range x -> compat k d = true ->
  okP (field_from_str x (k, d)) (fun v => parsed_field k v /\ v <> VText [] /\ (d = PHex -> v <> VBin [])).
Proof.
  intros x k d X C. unfold field_from_str. cbn [snd fst].
  destruct k, d; cbn [compat] in C; try discriminate C; clear C.
  - eapply ok_bind; [apply ok_sb_read|]. intros v (s & _ & E). apply ok_ret. split; [|split; discriminate]. destruct (x_ip4_parse x s) eqn:Ex; [|discriminate]. inversion E; subst. apply (er_ip4 x X s _ Ex).
  - eapply ok_bind; [apply ok_sb_read|]. intros v (s & _ & E). apply ok_ret. split; [|split; discriminate]. destruct (x_ip6_parse x s) eqn:Ex; [|discriminate]. inversion E; subst. apply (er_ip6 x X s _ Ex).
  - eapply ok_bind; [apply ok_sb_read|]. intros v (s & F & E). apply ok_ret. split; [|split; discriminate]. exists s. auto.
  - eapply ok_bind; [apply ok_sb_read|]. intros v (s & _ & E). apply ok_ret. split; [|split; discriminate]. apply parse_uint_iff in E; [apply E|reflexivity].
  - eapply ok_bind; [apply ok_sb_read|]. intros v (s & _ & E). apply ok_ret. split; [|split; discriminate]. apply parse_uint_iff in E; [apply E|reflexivity].
  - eapply ok_bind; [apply ok_sb_read|]. intros v (s & _ & E). apply ok_ret. split; [|split; discriminate]. apply parse_uint_iff in E; [apply E|reflexivity].
  - eapply ok_bind with (Q := fun v => (v < 4294967296)%N); [|intros v H; apply ok_ret; split; [exact H|split; discriminate]].
    unfold timestamp_from_str. eapply ok_bind; [apply ok_read_str|]. intros o _. destruct o as [ts|]; [|apply ok_fail]. destruct (negb _); [apply ok_fail|].
    repeat (eapply ok_bind; [first [apply ok_ensure|apply ok_lift with (Q := fun _ => True); auto]|intros ? _]). apply ok_ret.
    match goal with |- (Z.to_N (?z mod 4294967296) < _)%N => pose proof (Z.mod_pos_bound z 4294967296 eq_refl) end. lia.
  - eapply ok_bind; [apply ok_sb_read|]. intros v (s & _ & E). apply ok_ret. split; [|split; discriminate]. eapply type_from_ok; exact E.
  - eapply ok_bind; [apply ok_read_text|]. intros v (Nn & F). apply ok_ret. split; [exact F|]. split; [intros Q; inversion Q; congruence|discriminate].
  - eapply ok_bind; [apply ok_read_char_string|]. intros v (B & _). apply ok_ret. split; [exact B|split; discriminate].
  - eapply ok_bind with (Q := bytes); [|intros v B; apply ok_ret; split; [exact B|split; discriminate]].
    unfold binary_from_str. eapply ok_bind; [apply ok_read_str|]. intros o _. destruct o as [s|]; [|apply ok_fail]. apply ok_of_opt. intros d E. apply from_hex_iff in E. apply E.
  - eapply ok_bind with (Q := bytes); [|intros v B; apply ok_ret; split; [exact B|split; discriminate]].
    unfold base64_from_str. eapply ok_bind with (Q := fun _ => True); [|intros o _; destruct o as [s|]; [|apply ok_fail]; apply ok_of_opt; intros d E; exact (er_b64 x X _ _ E)].
    apply ok_pos; [apply good_read_left|auto].
  - eapply ok_bind; [apply ok_read_char_string|]. intros v (B & _). apply ok_ret. split; [exact B|split; discriminate].
  - eapply ok_bind with (Q := fun v => bytes v /\ v <> []); [|intros v (B & Nn); apply ok_ret; split; [exact B|split; [discriminate|intros _ Q; inversion Q; congruence]]].
    unfold binary_from_str. eapply ok_bind; [apply ok_read_str|]. intros o H. destruct o as [s|]; [|apply ok_fail]. apply ok_of_opt. intros d E. apply from_hex_iff in E. destruct E as [E B].
    split; [exact B|]. intros ->. cbn [flat_map map] in E. destruct H as (Nn & W & _). apply map_eq_nil in E.
    destruct s as [|c s]; [congruence|]. cbn [forallb] in W. apply andb_prop in W. destruct W as [W _]. cbn [hex_digits filter] in E.
    replace (hex_space c) with false in E; [discriminate|]. symmetry. unfold is_ws in W. unfold hex_space. 
    destruct (c =? 32)%N, (c =? 9)%N, (c =? 10)%N, (c =? 13)%N; cbn in *; try reflexivity; try discriminate; destruct (c =? 12)%N; discriminate.
  - eapply ok_bind with (Q := bytes); [|intros v B; apply ok_ret; split; [exact B|split; discriminate]].
    unfold base64_from_str. eapply ok_bind with (Q := fun _ => True); [|intros o _; destruct o as [s|]; [|apply ok_fail]; apply ok_of_opt; intros d E; exact (er_b64 x X _ _ E)].
    apply ok_pos; [apply good_read_left|auto].
Qed.
Lemma ok_fields : forall x ds, ext_range x -> (forall k d, In (k, d) ds -> compat k d = true) ->
  okP (fields_from_str x ds) (fun vs => Forall2 (fun kd v => parsed_field (fst kd) v /\ v <> VText [] /\ (snd kd = PHex -> v <> VBin [])) ds vs).
Proof.
  intros x ds X. induction ds as [|[k d] ds IH]; intros C; cbn [fields_from_str]; [apply ok_ret; constructor|].
  eapply ok_bind; [apply ok_field; [exact X|apply C; left; reflexivity]|intros v Hv]. eapply ok_bind; [apply IH; intros k' d' I; apply C; right; exact I|intros vs Hvs].
  apply ok_ret. constructor; assumption.
Qed.
Definition parsed_rdata (t : rrtype) (rd : rdata) : Prop :=
  data_of t = Some (rd_var rd) /\ has_octets rd /\ exists ks, rfc_layout t = Some ks /\ Forall2 parsed_field ks (rd_fields rd).
Lemma layout_some : forall t v, data_of t = Some v -> exists ks, rfc_layout t = Some ks.
Proof. intros t v H. destruct t; cbn in *; try discriminate; eauto. Qed.
Lemma ok_rdata : forall x t, ext_range x -> okP (rdata_from_sb x t) (parsed_rdata t).
Proof.
  intros x t X. unfold rdata_from_sb. destruct (variant_of_type t) as [v|] eqn:E; [|apply ok_fail]. rewrite variant_data in E.
  destruct (layout_some t v E) as (ks & Lk). destruct (schema_facts t v ks E Lk) as (Ek & _ & _ & _ & C).
  eapply ok_bind; [apply ok_fields; [exact X|intros k d I; apply (C k d I)]|]. intros vs F. apply ok_ret. split; [exact E|]. split.
  - split; cbn [rd_fields]; intros ->.
    + inversion F as [|a b l l' H]; subst. destruct H as (_ & H & _). congruence.
    + inversion F as [|a b l l' H F' Ea]; subst. destruct H as (H1 & _ & H). inversion F'; subst. destruct t; cbn [data_of] in E; try discriminate; inversion E; subst v; try discriminate Ea;
        inversion Ea; subst a; cbn in H1; try contradiction. apply H; reflexivity.
  - exists ks. split; [exact Lk|]. cbn [rd_fields]. rewrite <- Ek. clear - F. induction F as [|a b l l' H F IH]; cbn [map]; constructor; [apply H|exact IH].
Qed.
Definition parsed_rrset (rs : rrset) : Prop :=
  (exists s, Forall P s /\ name_new s = Ok (rs_name rs)) /\ type_ok (rs_type rs) /\ class_ok (rs_class rs) /\ (rs_ttl rs < 4294967296)%N /\ exists rd, rs_rdatas rs = [rd] /\ parsed_rdata (rs_type rs) rd.
Lemma ok_rrset : forall x, ext_range x -> okP (rrset_from_sb x) parsed_rrset.
Proof.
  intros x X. unfold rrset_from_sb. eapply ok_bind; [apply ok_sb_read|intros n Hn]. eapply ok_bind; [apply ok_sb_read|intros ttl (s & _ & Ht)]. apply parse_uint_iff in Ht; [|reflexivity]. destruct Ht as [_ Ht].
  eapply ok_bind; [apply ok_sb_read|intros cs _].
  assert (R : forall t c, type_ok t -> class_ok c -> okP (let! rd := rdata_from_sb x t in ret (mkRRset n t c ttl [rd])) parsed_rrset).
  { intros t c T C. eapply ok_bind; [apply ok_rdata; exact X|intros rd Hr]. apply ok_ret. split; [exact Hn|]. split; [exact T|]. split; [exact C|]. split; [exact Ht|]. exists rd. auto. }
  assert (I1 : class_ok CIN) by (split; vm_compute; reflexivity).
  destruct (rrclass_from_str (string_of cs)) as [c| | |] eqn:Ec.
  - eapply ok_bind; [apply ok_sb_read|intros t (s' & _ & Et)]. apply R; [eapply type_from_ok; exact Et|eapply class_from_ok; exact Ec].
  - eapply ok_bind; [apply ok_lift with (Q := type_ok); intros t Et; eapply type_from_ok; exact Et|intros t T]. apply R; auto.
  - eapply ok_bind; [apply ok_lift with (Q := type_ok); intros t Et; eapply type_from_ok; exact Et|intros t T]. apply R; auto.
  - eapply ok_bind; [apply ok_lift with (Q := type_ok); intros t Et; eapply type_from_ok; exact Et|intros t T]. apply R; auto.
Qed.
Lemma trim_start_P : forall fuel cs l, Forall P l -> Forall P (trim_start fuel cs l).
Proof.
  induction fuel as [|f IH]; intros cs l F; cbn [trim_start]; auto. destruct (strip_ws cs l) as [l'|] eqn:E; auto. apply IH. apply strip_ws_inv in E. destruct E as (c & _ & ->). apply Forall_app in F. apply F.
Qed.
Lemma trim_P : forall s, Forall P s -> Forall P (trim s).
Proof. intros s F. unfold trim. apply Forall_rev. apply trim_start_P. apply Forall_rev. apply trim_start_P. exact F. Qed.
Lemma from_str_parsed : forall md x s rs, ext_range x -> Forall P s -> valid_utf8 s = true -> rrset_from_str md x s = Ok rs -> parsed_rrset rs.
Proof.
  intros md x s rs X F V H. unfold rrset_from_str in H. apply rbind_ok in H. destruct H as (b & Eb & H).
  assert (Eb' : b = mkSB (trim s) 0). { unfold sb_new in Eb. destruct md; [destruct (trim s); [discriminate|]|]; inversion Eb; reflexivity. }
  subst b. destruct (rrset_from_sb x (mkSB (trim s) 0)) as [r b'] eqn:E. cbn [fst] in H. subst r.
  assert (Va : asc false (trim s)) by (apply trim_asc; split; [exact V|discriminate]).
  apply (ok_rrset x X (trim s) 0 ltac:(lia) (trim_P s F) (proj1 Va) rs b' E).
Qed.
End P.
Lemma parsed_wf : forall P t rd, parsed_rdata P t rd -> (forall n, In n (flat_map field_names (rd_fields rd)) -> wf_name n) ->
  (forall d, In (VByteBin d) (rd_fields rd) -> length d <= 255) -> wf_rdata t rd /\ has_octets rd.
Proof.
  intros P t rd (D & H & ks & L & F) Nm Sh. split; [|exact H]. split; [exact D|]. exists ks. split; [exact L|]. clear - F Nm Sh.
  induction F as [|k v ks vs Pf F IH]; constructor.
  - destruct k, v; cbn [parsed_field wf_field] in *; try contradiction; try exact Pf.
    + apply Nm. cbn [flat_map field_names app]. left. reflexivity.
    + split; [apply Sh; left; reflexivity|exact Pf].
  - apply IH; [intros n I; apply Nm; cbn [flat_map]; apply in_or_app; right; exact I|intros d I; apply Sh; right; exact I].
Qed.
Lemma parsed_ok : forall P rs, parsed_rrset P rs -> Forall wf_name (set_names rs) -> short_binaries rs -> rrset_ok rs.
Proof.
  intros P rs (_ & T & C & L & rd & E & Pr) Nm Sh. unfold set_names in Nm. rewrite E in Nm. inversion Nm as [|? ? W Nm']; subst. cbn [flat_map] in Nm'. rewrite app_nil_r in Nm'.
  rewrite Forall_forall in Nm'. split; [exact W|]. split; [exact T|]. split; [exact C|]. split; [exact L|]. rewrite E. split.
  - constructor; [|constructor]. eapply parsed_wf; [exact Pr|exact Nm'|]. intros d I. eapply Sh; [rewrite E; left; reflexivity|exact I].
  - split; [discriminate|intros _; cbn; lia].
Qed.
Lemma plain_no_bs : forall s, no_backslash s -> plain_end s.
Proof. intros s H r ->. unfold no_backslash in H. rewrite Forall_forall in H. apply (H 92%N); [|reflexivity]. apply in_or_app. right. left. reflexivity. Qed.
Lemma name_new_wf : forall s n, bytes s -> no_backslash s -> name_new s = Ok n -> wf_name n.
Proof.
  intros s n B NB E. destruct (api_name_ok n (an_new s n B (plain_no_bs s NB) E)) as (ls & -> & W & L & _). exists ls. split; [|reflexivity]. split; [exact W|exact L].
Qed.
Definition plain_octet (c : N) : Prop := (c < 256)%N /\ c <> 92%N.
Lemma plain_name : forall s n, Forall plain_octet s -> name_new s = Ok n -> wf_name n.
Proof. intros s n F. apply name_new_wf; (eapply Forall_impl; [|exact F]); intros c H; apply H. Qed.
Lemma parsed_names : forall rs, parsed_rrset plain_octet rs -> Forall wf_name (set_names rs).
Proof.
  intros rs ((s & F & E) & _ & _ & _ & rd & Er & (_ & _ & ks & _ & F2)). constructor; [eapply plain_name; eauto|]. rewrite Er. cbn [flat_map]. rewrite app_nil_r. clear - F2.
  induction F2 as [|k v ks vs Pf F IH]; cbn [flat_map]; [constructor|]. apply Forall_app. split; [|exact IH].
  destruct v; cbn [field_names]; try constructor; [|constructor]. destruct k; cbn [parsed_field wf_field] in Pf; try contradiction. destruct Pf as (s & Fs & E). eapply plain_name; eauto.
Qed.
Lemma str_plain : forall s, str s -> no_backslash s -> Forall plain_octet s.
Proof. intros s [B _] NB. unfold bytes, no_backslash in *. rewrite Forall_forall in *. intros c I. split; [apply B, I|apply NB, I]. Qed.
Theorem from_str_ok : forall md x s rs, ext_range x -> str s -> rrset_from_str md x s = Ok rs -> Forall wf_name (set_names rs) \/ no_backslash s -> short_binaries rs -> rrset_ok rs.
Proof.
  intros md x s rs X St E D Sh. destruct D as [Nm|NB].
  - eapply parsed_ok; [|exact Nm|exact Sh]. exact (from_str_parsed (fun c => (c < 256)%N) (fun c H => H) md x s rs X (proj1 St) (proj2 St) E).
  - pose proof (from_str_parsed plain_octet (fun c H => proj1 H) md x s rs X (str_plain s St NB) (proj2 St) E) as Pp. eapply parsed_ok; [exact Pp|apply parsed_names; exact Pp|exact Sh].
Qed.
Theorem from_strs_rrset_ok : forall md x ss rs, ext_range x -> Forall str ss -> rrset_from_strs md x ss = Ok rs -> Forall wf_name (set_names rs) \/ Forall no_backslash ss -> short_binaries rs -> rrset_ok rs.
Proof.
  intros md x ss rs X St E D Sh. destruct ss as [|s0 ss]; [discriminate|]. set (l := s0 :: ss) in *.
  destruct (proj1 (from_strs_ok md x l rs ltac:(discriminate)) E) as (sets & r0 & F2 & E0 & Ft & No & ->).
  assert (Each : forall s r, In s l -> rrset_from_str md x s = Ok r -> In r sets -> Forall wf_name (set_names r) \/ no_backslash s -> rrset_ok r).
  { intros s r Is Er Ir Dr. eapply from_str_ok; eauto; [rewrite Forall_forall in St; auto|]. intros rd d I1 I2. eapply Sh; [|exact I2]. cbn [rs_rdatas]. apply in_flat_map. exists r. auto. }
  assert (Names : forall r, In r sets -> exists s, In s l /\ rrset_from_str md x s = Ok r).
  { clear - F2. induction F2 as [|a b la lb H F IH]; intros r I; [destruct I|]. destruct I as [<-|I]; [exists a; split; [left; reflexivity|exact H]|]. destruct (IH r I) as (s & I1 & E). exists s. split; [right; exact I1|exact E]. }
  assert (I0 : In r0 sets) by (eapply nth_error_In; eauto).
  assert (Rd : forall r, In r sets -> Forall wf_name (flat_map (fun rd => flat_map field_names (rd_fields rd)) (rs_rdatas r)) \/ no_backslash s0 /\ Forall no_backslash ss).
  { intros r I. destruct D as [D|D]; [left|right; inversion D; auto]. inversion D as [|? ? _ D']; subst. cbn [rs_rdatas] in D'. rewrite Forall_forall in *. intros n In1. apply D'. 
    apply in_flat_map in In1. destruct In1 as (rd & I1 & I2). apply in_flat_map. exists rd. split; [|exact I2]. apply in_flat_map. exists r. auto. }
  assert (OkR : forall r, In r sets -> Forall (fun rd => wf_rdata (rs_type r) rd /\ has_octets rd) (rs_rdatas r) /\ type_ok (rs_type r) /\ class_ok (rs_class r) /\ (rs_ttl r < 4294967296)%N).
  { intros r I. destruct (Names r I) as (s & Is & Er). assert (Ss : str s) by (rewrite Forall_forall in St; auto). 
    pose proof (from_str_parsed (fun c => (c < 256)%N) (fun c H => H) md x s r X (proj1 Ss) (proj2 Ss) Er) as Pp. destruct (Rd r I) as [Nm|NB].
    - destruct Pp as (_ & T & C & L & rd & Erd & Pr). rewrite Erd in *. cbn [flat_map] in Nm. rewrite app_nil_r, Forall_forall in Nm. split; [|auto]. constructor; [|constructor]. eapply parsed_wf; [exact Pr|exact Nm|].
      intros d Id. eapply Sh; [|exact Id]. cbn [rs_rdatas]. apply in_flat_map. exists r. rewrite Erd. split; [exact I|left; reflexivity].
    - assert (NBs : no_backslash s) by (destruct NB as [N1 N2]; destruct Is as [<-|Is]; [exact N1|rewrite Forall_forall in N2; apply N2, Is]).
      destruct (Each s r Is Er I (or_intror NBs)) as (_ & T & C & L & F & _). auto. }
  assert (W0 : wf_name (rs_name r0)).
  { destruct D as [D|D]; [inversion D; assumption|]. destruct (Names r0 I0) as (s & Is & Er). rewrite Forall_forall in D. apply (Each s r0 Is Er I0 (or_intror (D s Is))). }
  destruct (OkR r0 I0) as (_ & T & C & L). split; [exact W0|]. split; [exact T|]. split; [exact C|]. split; [exact L|]. cbn [rs_type rs_rdatas]. split.
  - apply Forall_forall. intros rd I. apply in_flat_map in I. destruct I as (r & Ir & Ird). destruct (OkR r Ir) as (F & _). rewrite Forall_forall in F, Ft. rewrite <- (Ft r Ir). apply F, Ird.
  - split.
    + intros Z. exfalso. destruct (Names r0 I0) as (s & _ & Er). destruct (from_str_one _ _ _ _ Er) as (d & Ed). assert (I : In d (flat_map rs_rdatas sets)) by (apply in_flat_map; exists r0; rewrite Ed; split; [exact I0|left; reflexivity]).
      rewrite Z in I. destruct I.
    + intros To. destruct ss as [|s1 ss]; [|exfalso; apply No; [unfold l; cbn [length]; lia|exact To]]. inversion F2 as [|? r1 ? ? Er F3]; subst. inversion F3; subst. cbn [flat_map]. rewrite app_nil_r. destruct (from_str_one _ _ _ _ Er) as (d & ->). cbn; lia.
Qed.

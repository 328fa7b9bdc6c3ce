(** What a successful parse gives can be printed and read back. *)
From Coq Require Import String.
From Verif Require Import Base BaseLemmas NameModel RenderModel CodesModel RDataModel MsgModel TextModel SpecName SpecBuf SpecCodes SpecMsg SpecText SpecApi SpecCtor SpecNormal
  NameApiProofs NameTextProofs NameTextProofs2 CodesProofs TextProofs TextProofs2 TextProofs3 TextProofs4 TextProofs5 TextProofs6 TextProofs7.
Open Scope list_scope.
Open Scope nat_scope.

(** Text that does not end in white space. *)
Definition solid (raw : list N) : Prop := forall c w, In c ws_chars -> raw <> w ++ c.
Lemma strip_prefix_app : forall c r, strip_prefix c (c ++ r) = Some r.
Proof. induction c as [|a c IH]; intros r; cbn [app strip_prefix]; auto. rewrite N.eqb_refl. auto. Qed.
Lemma strip_ws_in : forall cs c r, In c cs -> strip_ws cs (c ++ r) <> None.
Proof.
  induction cs as [|a cs IH]; intros c r H; [destruct H|]. cbn [strip_ws]. destruct (strip_prefix a (c ++ r)) eqn:E; [discriminate|].
  destruct H as [->|H]; [rewrite strip_prefix_app in E; discriminate|auto].
Qed.
Lemma trim_start_done : forall cs, (forall c, In c cs -> c <> []) -> forall fuel l, length l <= fuel -> strip_ws cs (trim_start fuel cs l) = None.
Proof.
  intros cs Nn. induction fuel as [|f IH]; intros l L; cbn [trim_start].
  - destruct l; [|cbn in L; lia]. destruct (strip_ws cs []) as [r|] eqn:E; auto. apply strip_ws_inv in E. destruct E as (c & I & E). symmetry in E. apply app_eq_nil in E. destruct E as [-> _]. destruct (Nn _ I eq_refl).
  - destruct (strip_ws cs l) as [r|] eqn:E; auto. apply IH. apply strip_ws_inv in E. destruct E as (c & I & ->). apply Nn in I. rewrite app_length in L. destruct c; [congruence|]. cbn [length] in L. lia.
Qed.
Lemma trim_solid : forall s, solid (trim s).
Proof.
  intros s c w I E. unfold trim in E. set (l := trim_start (length s) ws_chars s) in E.
  assert (D : strip_ws (map (@rev N) ws_chars) (trim_start (length l) (map (@rev N) ws_chars) (rev l)) = None).
  { apply trim_start_done; [|rewrite rev_length; auto]. intros c' Ic ->. apply in_map_iff in Ic. destruct Ic as (c0 & E0 & I0). apply (f_equal (@rev N)) in E0. rewrite rev_involutive in E0. cbn in E0. subst c0.
    cbn in I0. repeat (destruct I0 as [I0|I0]; [discriminate I0|]). exact I0. }
  apply (f_equal (@rev N)) in E. rewrite rev_involutive, rev_app_distr in E. rewrite E in D. eapply strip_ws_in; [|exact D]. apply in_map. exact I.
Qed.
Lemma remove_ws_nil : forall fuel l, length l <= fuel -> remove_ws fuel l = [] -> l = [] \/ exists c w, In c ws_chars /\ l = w ++ c.
Proof.
  induction fuel as [|f IH]; intros l L H; [destruct l; auto; cbn in L; lia|]. cbn [remove_ws] in H. destruct (strip_ws ws_chars l) as [r|] eqn:E.
  - apply strip_ws_inv in E. destruct E as (c & I & ->). assert (Nc : c <> []). { intros ->. cbn in I. repeat (destruct I as [I|I]; [discriminate I|]). exact I. }
    rewrite app_length in L. destruct (IH r) as [->|(c' & w & I' & ->)]; auto.
    + destruct c; [congruence|]. cbn [length] in L. lia.
    + right. exists c, []. rewrite app_nil_r. auto.
    + right. exists c', (c ++ w). rewrite app_assoc. auto.
  - destruct l; [auto|discriminate].
Qed.
Notation B256 := (fun c : N => (c < 256)%N).
Definition okS {A} (m : M sbuf A) (Q : A -> Prop) : Prop := forall raw pos, solid raw -> pos <= length raw -> bytes raw -> valid_utf8 (skipn pos raw) = true ->
  forall a b', m (mkSB raw pos) = (Ok a, b') -> Q a /\ exists pos', b' = mkSB raw pos' /\ pos' <= length raw /\ valid_utf8 (skipn pos' raw) = true.
Lemma okS_P : forall A (m : M sbuf A) Q, okP B256 m Q -> okS m Q.
Proof. intros A m Q H raw pos _ L F V a b' E. exact (H raw pos L F V a b' E). Qed.
Lemma okS_bind : forall A B (m : M sbuf A) (k : A -> M sbuf B) Q R, okS m Q -> (forall a, Q a -> okS (k a) R) -> okS (bind m k) R.
Proof.
  intros A B m k Q R Hm Hk raw pos So L F V a b' E. apply bind_ok in E. destruct E as (c & b1 & E1 & E2).
  destruct (Hm raw pos So L F V c b1 E1) as (Qc & pos' & -> & L' & V'). exact (Hk c Qc raw pos' So L' F V' a b' E2).
Qed.
Lemma okS_ret : forall A (a : A) (Q : A -> Prop), Q a -> okS (ret a) Q.
Proof. intros. apply okS_P, ok_ret. auto. Qed.
Lemma okS_fail : forall A (Q : A -> Prop), okS fail Q.
Proof. intros. apply okS_P, ok_fail. Qed.
Lemma okS_and : forall A (m : M sbuf A) Q R, okS m Q -> okS m R -> okS m (fun a => Q a /\ R a).
Proof. intros A m Q R H1 H2 raw pos So L F V a b' E. destruct (H1 raw pos So L F V a b' E) as [Qa X]. destruct (H2 raw pos So L F V a b' E) as [Ra _]. auto. Qed.
Lemma okS_weaken : forall A (m : M sbuf A) (Q R : A -> Prop), okS m Q -> (forall a, Q a -> R a) -> okS m R.
Proof. intros A m Q R H I raw pos So L F V a b' E. destruct (H raw pos So L F V a b' E). split; auto. Qed.
(** What is known of a field that was read, seen from the text side. *)
Definition read_field (kd : codec * disp) (v : fval) : Prop :=
  same_kind (fst kd) v /\
  match v with
  | VIpv4 o => length o = 4 /\ bytes o
  | VIpv6 o => length o = 16 /\ bytes o
  | VName n => True
  | VU8 x => (x < 256)%N
  | VU16 x => (x < 65536)%N
  | VU32 x => (x < 4294967296)%N
  | VType c => forall u, c <> TUnknown u
  | VText l => l <> [] /\ Forall (fun d => bytes d /\ 1 <= length d <= 255) l
  | VByteBin d | VBin d => bytes d /\ d <> [] /\ (snd kd = PString -> length d <= 255)
  end.
Lemma type_named : forall s t, rrtype_from_str s = Ok t -> forall u, t <> TUnknown u.
Proof. intros s t H u. apply (match_in _ _ _ _ (fun t => t <> TUnknown u) H). repeat (apply Forall_cons; [discriminate|]). apply Forall_nil. Qed.
Lemma class_named : forall s t, rrclass_from_str s = Ok t -> forall u, t <> CUnknown u.
Proof. intros s t H u. apply (match_in _ _ _ _ (fun t => t <> CUnknown u) H). repeat (apply Forall_cons; [discriminate|]). apply Forall_nil. Qed.
Lemma texts_strings : forall s ds, texts s ds -> Forall B256 s -> ds <> [] /\ Forall (fun d => bytes d /\ 1 <= length d <= 255) ds.
Proof.
  intros s ds T. induction T as [gap t d G Q L|gap t d rest ds G Q L T IH]; intros F; apply Forall_app in F; destruct F as [_ F]; inversion F as [|? ? _ F1]; subst; apply Forall_app in F1; destruct F1 as [F1 F2].
  - split; [discriminate|]. constructor; [|constructor]. split; [|lia]. eapply (quoted_bytes B256); eauto.
  - inversion F2 as [|? ? _ F3]; subst. split; [discriminate|]. constructor; [|apply IH; exact F3]. split; [|lia]. eapply (quoted_bytes B256); eauto.
Qed.
Lemma okS_base64 : forall x, ext_range x -> b64_exact x -> okS (base64_from_str x) (fun d => bytes d /\ d <> []).
Proof.
  intros x X BX raw pos So L F V a b' E.
  assert (O : okP B256 (base64_from_str x) bytes).
  { unfold base64_from_str. eapply ok_bind with (Q := fun _ => True); [|intros o _; destruct o as [s|]; [|apply ok_fail]; apply ok_of_opt; intros d Ed; exact (er_b64 x X _ _ Ed)].
    apply (ok_pos B256); [apply good_read_left|auto]. }
  destruct (O raw pos L F V a b' E) as [Ba Q]. split; [|exact Q]. split; [exact Ba|]. intros ->. clear O Ba Q.
  unfold base64_from_str in E. apply bind_ok in E. destruct E as (o & b1 & E1 & E2). destruct o as [s|]; [|discriminate].
  destruct (x_b64_dec x (remove_ws (length s) s)) as [d|] eqn:D; cbn [of_opt] in E2; [|discriminate]. unfold ret in E2. inversion E2; subst d b1. apply BX in D.
  assert (Es : s = skipn pos raw /\ s <> []).
  { unfold read_left in E1. unfold sb_eos in E1. cbn [sb_raw sb_pos] in E1. destruct (pos =? length raw) eqn:Ep; [discriminate|]. apply Nat.eqb_neq in Ep.
    unfold bind, lift, slice in E1. replace ((pos <=? length raw) && (length raw <=? length raw)) with true in E1 by (symmetry; apply andb_true_iff; split; apply Nat.leb_le; lia).
    rewrite firstn_all2 in E1 by (rewrite skipn_length; lia). unfold utf8_unwrap in E1. rewrite V in E1. unfold put, ret in E1. inversion E1; subst. split; auto.
    intros H. apply (f_equal (@length N)) in H. rewrite skipn_length in H. cbn in H. lia. }
  destruct Es as [Es Ns]. destruct (remove_ws_nil (length s) s (le_n _) D) as [->|(c & w & I & Ew)]; [congruence|].
  apply (So c (firstn pos raw ++ w) I). rewrite <- app_assoc, <- Ew, Es, firstn_skipn. reflexivity.
Qed.
Lemma okS_field : forall x k d, ext_range x -> b64_exact x -> compat k d = true -> okS (field_from_str x (k, d)) (read_field (k, d)).
Proof.
  intros x k d X BX C. unfold field_from_str. cbn [snd fst].
  assert (HS : forall f : list N -> fval, f = VByteBin \/ f = VBin -> okS (let! v := read_char_string in ret (f v)) (fun v => exists l, v = f l /\ bytes l /\ 1 <= length l <= 255)).
  { intros f _. eapply okS_bind; [apply okS_P, ok_read_char_string; auto|]. intros v H. apply okS_ret. exists v. auto. }
  assert (HH : okS binary_from_str (fun v => bytes v /\ v <> [])).
  { apply okS_P. unfold binary_from_str. eapply ok_bind; [apply ok_read_str|]. intros o H. destruct o as [s|]; [|apply ok_fail]. apply ok_of_opt. intros l E. apply from_hex_iff in E. destruct E as [E B].
    split; [exact B|]. intros ->. cbn [flat_map map] in E. destruct H as (Nn & W & _). apply map_eq_nil in E.
    destruct s as [|c s]; [congruence|]. cbn [forallb] in W. apply andb_prop in W. destruct W as [W _]. cbn [hex_digits filter] in E.
    replace (hex_space c) with false in E; [discriminate|]. symmetry. unfold is_ws in W. unfold hex_space.
    destruct (c =? 32)%N, (c =? 9)%N, (c =? 10)%N, (c =? 13)%N; cbn in *; try reflexivity; try discriminate; destruct (c =? 12)%N; discriminate. }
  pose proof (okS_base64 x X BX) as HB.
  destruct k, d; cbn [compat] in C; try discriminate C; clear C; cbn [bin_of].
  - eapply okS_bind; [apply okS_P, ok_sb_read|]. intros v (s & _ & E). apply okS_ret. split; [exact Logic.I|]. destruct (x_ip4_parse x s) eqn:Ex; [|discriminate]. inversion E; subst. apply (er_ip4 x X s _ Ex).
  - eapply okS_bind; [apply okS_P, ok_sb_read|]. intros v (s & _ & E). apply okS_ret. split; [exact Logic.I|]. destruct (x_ip6_parse x s) eqn:Ex; [|discriminate]. inversion E; subst. apply (er_ip6 x X s _ Ex).
  - eapply okS_bind; [apply okS_P, ok_sb_read|]. intros v (s & F & E). apply okS_ret. split; exact Logic.I.
  - eapply okS_bind; [apply okS_P, ok_sb_read|]. intros v (s & _ & E). apply okS_ret. split; [exact Logic.I|]. apply parse_uint_iff in E; [apply E|reflexivity].
  - eapply okS_bind; [apply okS_P, ok_sb_read|]. intros v (s & _ & E). apply okS_ret. split; [exact Logic.I|]. apply parse_uint_iff in E; [apply E|reflexivity].
  - eapply okS_bind; [apply okS_P, ok_sb_read|]. intros v (s & _ & E). apply okS_ret. split; [exact Logic.I|]. apply parse_uint_iff in E; [apply E|reflexivity].
  - eapply okS_bind with (Q := fun v => (v < 4294967296)%N); [|intros v H; apply okS_ret; split; [exact Logic.I|exact H]]. apply okS_P.
    unfold timestamp_from_str. eapply ok_bind; [apply ok_read_str|]. intros o _. destruct o as [ts|]; [|apply ok_fail]. destruct (negb _); [apply ok_fail|].
    repeat (eapply ok_bind; [first [apply ok_ensure|apply ok_lift with (Q := fun _ => True); auto]|intros ? _]). apply ok_ret.
    match goal with |- (Z.to_N (?z mod 4294967296) < _)%N => pose proof (Z.mod_pos_bound z 4294967296 eq_refl) end. lia.
  - eapply okS_bind; [apply okS_P, ok_sb_read|]. intros v (s & _ & E). apply okS_ret. split; [exact Logic.I|]. eapply type_named; exact E.
  - eapply okS_bind with (Q := fun ds => ds <> [] /\ Forall (fun d => bytes d /\ 1 <= length d <= 255) ds); [|intros v H; apply okS_ret; split; [exact Logic.I|exact H]].
    apply okS_P. apply (ok_pos B256); [apply good_read_text|]. intros raw pos a b' L F E. apply read_text_iff in E; auto. destruct E as [T _]. eapply texts_strings; eauto.
  - eapply okS_weaken; [apply HS; auto|]. intros v (l & -> & B & L). split; [exact Logic.I|]. split; [exact B|]. split; [intros ->; cbn in L; lia|lia].
  - eapply okS_bind; [exact HH|]. intros v (B & Nn). apply okS_ret. split; [exact Logic.I|]. split; [exact B|]. split; [exact Nn|discriminate].
  - eapply okS_bind; [exact HB|]. intros v (B & Nn). apply okS_ret. split; [exact Logic.I|]. split; [exact B|]. split; [exact Nn|discriminate].
  - eapply okS_weaken; [apply HS; auto|]. intros v (l & -> & B & L). split; [exact Logic.I|]. split; [exact B|]. split; [intros ->; cbn in L; lia|lia].
  - eapply okS_bind; [exact HH|]. intros v (B & Nn). apply okS_ret. split; [exact Logic.I|]. split; [exact B|]. split; [exact Nn|discriminate].
  - eapply okS_bind; [exact HB|]. intros v (B & Nn). apply okS_ret. split; [exact Logic.I|]. split; [exact B|]. split; [exact Nn|discriminate].
Qed.
Lemma okS_fields : forall x ds, ext_range x -> b64_exact x -> (forall k d, In (k, d) ds -> compat k d = true) ->
  okS (fields_from_str x ds) (fun vs => Forall2 read_field ds vs).
Proof.
  intros x ds X BX. induction ds as [|[k d] ds IH]; intros C; cbn [fields_from_str]; [apply okS_ret; constructor|].
  eapply okS_bind; [apply okS_field; [exact X|exact BX|apply C; left; reflexivity]|intros v Hv]. eapply okS_bind; [apply IH; intros k' d' I; apply C; right; exact I|intros vs Hvs].
  apply okS_ret. constructor; assumption.
Qed.
Definition read_rdata (t : rrtype) (rd : rdata) : Prop := data_of t = Some (rd_var rd) /\ Forall2 read_field (text_schema (rd_var rd)) (rd_fields rd).
Lemma okS_rdata : forall x t, ext_range x -> b64_exact x -> okS (rdata_from_sb x t) (read_rdata t).
Proof.
  intros x t X BX. unfold rdata_from_sb. destruct (variant_of_type t) as [v|] eqn:E; [|apply okS_fail]. rewrite variant_data in E.
  destruct (layout_some t v E) as (ks & Lk). destruct (schema_facts t v ks E Lk) as (Ek & _ & _ & _ & C).
  eapply okS_bind; [apply okS_fields; [exact X|exact BX|intros k d I; apply (C k d I)]|]. intros vs F. apply okS_ret. split; [exact E|exact F].
Qed.
Definition read_rrset (rs : rrset) : Prop :=
  (forall u, rs_type rs <> TUnknown u) /\ (forall u, rs_class rs <> CUnknown u) /\ (rs_ttl rs < 4294967296)%N /\ exists rd, rs_rdatas rs = [rd] /\ read_rdata (rs_type rs) rd.
Lemma okS_rrset : forall x, ext_range x -> b64_exact x -> okS (rrset_from_sb x) read_rrset.
Proof.
  intros x X BX. unfold rrset_from_sb. eapply okS_bind; [apply okS_P, ok_sb_read|intros n Hn]. eapply okS_bind; [apply okS_P, ok_sb_read|intros ttl (s & _ & Ht)]. apply parse_uint_iff in Ht; [|reflexivity]. destruct Ht as [_ Ht].
  eapply okS_bind; [apply okS_P, ok_sb_read|intros cs _].
  assert (R : forall t c, (forall u, t <> TUnknown u) -> (forall u, c <> CUnknown u) -> okS (let! rd := rdata_from_sb x t in ret (mkRRset n t c ttl [rd])) read_rrset).
  { intros t c T C. eapply okS_bind; [apply okS_rdata; auto|intros rd Hr]. apply okS_ret. split; [exact T|]. split; [exact C|]. split; [exact Ht|]. exists rd. auto. }
  destruct (rrclass_from_str (string_of cs)) as [c| | |] eqn:Ec.
  - eapply okS_bind; [apply okS_P, ok_sb_read|intros t (s' & _ & Et)]. apply R; [eapply type_named; exact Et|eapply class_named; exact Ec].
  - eapply okS_bind; [apply okS_P, ok_lift with (Q := fun t => forall u, t <> TUnknown u); intros t Et; eapply type_named; exact Et|intros t T]. apply R; [auto|discriminate].
  - eapply okS_bind; [apply okS_P, ok_lift with (Q := fun t => forall u, t <> TUnknown u); intros t Et; eapply type_named; exact Et|intros t T]. apply R; [auto|discriminate].
  - eapply okS_bind; [apply okS_P, ok_lift with (Q := fun t => forall u, t <> TUnknown u); intros t Et; eapply type_named; exact Et|intros t T]. apply R; [auto|discriminate].
Qed.
Lemma from_str_read : forall md x s rs, ext_range x -> b64_exact x -> str s -> rrset_from_str md x s = Ok rs -> read_rrset rs.
Proof.
  intros md x s rs X BX [F V] H. unfold rrset_from_str in H. apply rbind_ok in H. destruct H as (b & Eb & H).
  assert (Eb' : b = mkSB (trim s) 0). { unfold sb_new in Eb. destruct md; [destruct (trim s); [discriminate|]|]; inversion Eb; reflexivity. }
  subst b. destruct (rrset_from_sb x (mkSB (trim s) 0)) as [r b'] eqn:E. cbn [fst] in H. subst r.
  assert (Va : asc false (trim s)) by (apply trim_asc; split; [exact V|discriminate]).
  apply (okS_rrset x X BX (trim s) 0 (trim_solid s) ltac:(lia) (trim_P B256 s F) (proj1 Va) rs b' E).
Qed.
Lemma quote_all : forall t v, data_of t = Some v -> quotes_binary t -> forall k d, In (k, d) (text_schema v) -> k = KByteBin \/ k = KBin -> d = PString.
Proof.
  intros t v D Q k d I K. destruct Q as [ -> | [ -> | -> ] ]; cbn in D; inversion D; subst v; cbn in I;
  repeat (destruct I as [I|I]; [inversion I; subst; first [reflexivity|destruct K; discriminate]|]); destruct I.
Qed.
Lemma read_text_rdata : forall t rd, read_rdata t rd -> ~ In (VType TCERT) (rd_fields rd) ->
  Forall (fun n => exists ls, wf_labels ls /\ plain_labels ls /\ n = name_of ls) (flat_map field_names (rd_fields rd)) -> text_rdata t rd.
Proof.
  intros t rd (D & F) NC Nm. destruct (layout_some t _ D) as (ks & Lk). destruct (schema_facts t _ ks D Lk) as (Ek & _ & _ & _ & _).
  pose proof (quote_all t _ D) as QA. split; [exact D|]. split.
  - exists ks. split; [exact Lk|]. rewrite <- Ek. clear - F. induction F as [|a b l l' H F IH]; cbn [map]; constructor; [apply H|exact IH].
  - clear Ek Lk D. induction F as [|[k d] v ds vs H F IH]; constructor.
    + destruct H as [K H]. cbn [fst snd] in *. destruct v; cbn [text_field]; auto.
      * cbn [flat_map field_names app] in Nm. inversion Nm; subst. auto.
      * split; [|exact H]. intros ->. apply NC. left. reflexivity.
      * destruct H as (B & Nn & L). split; [exact B|]. split; [exact Nn|]. intros Q. apply L. apply (QA Q k d); [left; reflexivity|]. destruct k; cbn in K; try contradiction. auto.
      * destruct H as (B & Nn & L). split; [exact B|]. split; [exact Nn|]. intros Q. apply L. apply (QA Q k d); [left; reflexivity|]. destruct k; cbn in K; try contradiction. auto.
    + apply IH; [intros I; apply NC; right; exact I|cbn [flat_map] in Nm; apply Forall_app in Nm; apply Nm|intros Q k' d' I; apply (QA Q k' d'); right; exact I].
Qed.
Lemma read_text_rrset : forall md x s rs, ext_range x -> b64_exact x -> str s -> rrset_from_str md x s = Ok rs -> plain_names rs -> no_cert rs -> text_rrset rs.
Proof.
  intros md x s rs X BX St E PN [NC1 NC2]. destruct (from_str_read md x s rs X BX St E) as (T & C & L & rd & Er & R).
  unfold plain_names, set_names in PN. rewrite Er in *. cbn [flat_map] in PN. rewrite app_nil_r in PN. apply Forall_cons_iff in PN. destruct PN as [P1 P2].
  split; [exact P1|]. split; [exact L|]. split; [exact C|]. split; [split; auto|]. rewrite Er. constructor; [|constructor]. apply read_text_rdata; auto. apply NC2. left. reflexivity.
Qed.
(** Printing what was parsed and parsing again. *)
Lemma normal_one : forall md x s rs, ext_ok x -> ext_range x -> b64_exact x -> str s -> rrset_from_str md x s = Ok rs -> plain_names rs -> no_cert rs ->
  exists line, rrset_display x rs = Ok (line ++ [10%N]) /\ ~ In 10%N line /\ (exists rd, rs_rdatas rs = [rd] /\ record_line x rs rd line) /\
    forall md' a b, forallb is_ws a = true -> forallb is_ws b = true -> rrset_from_str md' x (a ++ line ++ b) = Ok rs.
Proof.
  intros md x s rs X R BX St E PN NC. pose proof (read_text_rrset md x s rs R BX St E PN NC) as T.
  destruct (from_str_read md x s rs R BX St E) as (_ & _ & _ & rd & Er & _).
  destruct (rrset_display_lines x rs X T) as (lines & D & F). rewrite Er in F. inversion F as [|line rd' ls' rds' (RL & NL & P) F']; subst. inversion F'; subst.
  cbn [flat_map] in D. rewrite app_nil_r in D. exists line. split; [exact D|]. split; [exact NL|]. split; [exists rd; auto|].
  intros md' a b Ha Hb. rewrite (P md' a b Ha Hb). destruct rs as [n t c l ds]. cbn [rs_name rs_type rs_class rs_ttl rs_rdatas] in *. subst ds. reflexivity.
Qed.
Lemma read_many_text : forall md x ss rs, ext_range x -> b64_exact x -> ss <> [] -> Forall str ss -> rrset_from_strs md x ss = Ok rs -> plain_names rs -> no_cert rs -> text_rrset rs.
Proof.
  intros md x ss rs X BX Nn St E PN [NC1 NC2]. apply from_strs_ok in E; [|exact Nn]. destruct E as (sets & r0 & F & E0 & Ty & _ & ->).
  cbn [rs_name rs_type rs_class rs_ttl rs_rdatas] in *. apply Forall_cons_iff in PN. destruct PN as [P1 P2]. cbn [rs_name rs_rdatas] in P1, P2.
  assert (R : Forall read_rrset sets). { clear - X BX St F. induction F as [|s r ss sets E F IH]; constructor; inversion St; subst; [eapply from_str_read; eauto|auto]. }
  assert (R0 : read_rrset r0). { rewrite Forall_forall in R. apply R. eapply nth_error_In. exact E0. }
  destruct R0 as (T & C & L & _). split; [exact P1|]. split; [exact L|]. split; [exact C|]. split; [split; auto|]. cbn [rs_type rs_rdatas].
  clear - R Ty NC2 P2. revert NC2 P2. induction sets as [|r sets IH]; intros NC2 P2; cbn [flat_map] in *; [constructor|].
  inversion R as [|? ? (_ & _ & _ & rd & Er & Rd) R']; subst. inversion Ty; subst. rewrite Er in *. cbn [app flat_map] in *. apply Forall_app in P2. destruct P2 as [Pa Pb].
  constructor; [|apply IH; auto; intros rd' I; apply NC2; right; exact I]. apply read_text_rdata; [rewrite <- H1; exact Rd|apply NC2; left; reflexivity|exact Pa].
Qed.
Lemma normal_many : forall md x ss rs, ext_ok x -> ext_range x -> b64_exact x -> ss <> [] -> Forall str ss -> rrset_from_strs md x ss = Ok rs -> plain_names rs -> no_cert rs ->
  exists lines, rrset_display x rs = Ok (flat_map (fun l => l ++ [10%N]) lines) /\ length lines = length ss /\ Forall (fun l => ~ In 10%N l) lines /\
    Forall2 (fun line rd => record_line x rs rd line) lines (rs_rdatas rs) /\ forall md', rrset_from_strs md' x lines = Ok rs.
Proof.
  intros md x ss rs X R BX Nn St E PN NC. pose proof (read_many_text md x ss rs R BX Nn St E PN NC) as T.
  destruct (rrset_display_lines x rs X T) as (lines & D & F). exists lines. split; [exact D|].
  assert (LL : length lines = length ss /\ (length ss > 1 -> rs_type rs <> TOPT)).
  { apply from_strs_ok in E; [|exact Nn]. destruct E as (sets & r0 & F0 & E0 & Ty & O & ->). split; [|exact O].
    transitivity (length (flat_map rs_rdatas sets)); [clear - F; cbn [rs_rdatas] in F; induction F; cbn [length]; congruence|]. clear - F0. induction F0 as [|s r ss sets E F IH]; [reflexivity|]. cbn [flat_map length]. rewrite app_length, IH.
    destruct (from_str_one _ _ _ _ E) as (d & ->). reflexivity. }
  destruct LL as [LL LO]. split; [exact LL|]. split; [clear - F; induction F as [|? ? ? ? (_ & A & _) F IH]; constructor; auto|].
  split; [clear - F; induction F as [|? ? ? ? (A & _ & _) F IH]; constructor; auto|].
  intros md'. assert (Nl : lines <> []). { intros ->. destruct ss; [congruence|discriminate]. }
  apply from_strs_ok; [exact Nl|]. set (one := fun rd => mkRRset (rs_name rs) (rs_type rs) (rs_class rs) (rs_ttl rs) [rd]).
  exists (map one (rs_rdatas rs)). destruct (rs_rdatas rs) as [|d ds] eqn:Er. { inversion F. subst. congruence. }
  exists (one d). split.
  - clear - F. induction F as [|line rd lines rds (_ & _ & P) F IH]; cbn [map]; constructor; [|exact IH]. specialize (P md' [] [] eq_refl eq_refl). rewrite app_nil_r in P. exact P.
  - split; [reflexivity|]. split; [apply Forall_forall; intros r I; apply in_map_iff in I; destruct I as (y & <- & _); reflexivity|]. split; [rewrite LL; exact LO|].
    cbn [one rs_name rs_type rs_class rs_ttl]. destruct rs as [n t c l rds]. cbn [rs_name rs_type rs_class rs_ttl rs_rdatas] in *. subst rds. f_equal.
    clear. generalize (d :: ds). intros l0. induction l0 as [|a l0 IH]; cbn [map flat_map app rs_rdatas one]; [reflexivity|]. unfold one at 1. cbn [rs_rdatas app]. f_equal. exact IH.
Qed.

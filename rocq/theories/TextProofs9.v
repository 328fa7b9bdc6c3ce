(** The converse of C58: only what [text_rrset] describes survives Display and from_str. *)
From Coq Require Import String.
From Verif Require Import Base BaseLemmas NameModel RenderModel CodesModel RDataModel MsgModel TextModel SpecName SpecBuf SpecCodes SpecMsg SpecText SpecApi SpecCtor SpecNormal
  NameApiProofs NameTextProofs NameTextProofs2 EscProofs2 CodesProofs TextProofs TextProofs2 TextProofs3 TextProofs4 TextProofs5 TextProofs6 TextProofs7 TextProofs8.
Open Scope list_scope.
Open Scope nat_scope.

Notation print1 := (fun c => 32 <= c <= 126)%N.
Lemma word_print : forall w, word_text w -> Forall print1 w.
Proof. intros w [_ F]. eapply Forall_impl; [|exact F]. cbn beta. intros. lia. Qed.
Lemma pad_print : forall k n, Forall print1 (pad k n).
Proof.
  induction k as [|k IH]; intros n; cbn [pad]; [constructor|]. apply Forall_app. split; [apply IH|]. constructor; [|constructor].
  assert (n mod 10 < 10)%N by (apply N.mod_lt; lia). remember (n mod 10)%N. lia.
Qed.
Lemma type_print : forall t, Forall print1 (of_string (rrtype_str t)).
Proof. destruct t; repeat constructor; vm_compute; congruence. Qed.
Lemma class_print : forall t, Forall print1 (of_string (rrclass_str t)).
Proof. destruct t; repeat constructor; vm_compute; congruence. Qed.
Lemma field_print : forall x k d v s, ext_ok x -> x_b64_enc x [] = [] -> wf_field k v -> compat k d = true -> field_to_str x d v = Ok s -> Forall print1 s.
Proof.
  intros x k d v s X B0 W C E. destruct k, v; cbn [wf_field] in W; try contradiction; destruct d; cbn [compat] in C; try discriminate; cbn [field_to_str] in E;
    try (apply Ok_inj in E; subst s).
  - apply word_print. apply (eo_ip4 x X); apply W.
  - apply word_print. apply (eo_ip6 x X); apply W.
  - destruct W as (ls & W & ->). rewrite name_display_spec in E by auto. apply Ok_inj in E. subst s. apply word_print, show_word. exact W.
  - apply word_print, dec_word. lia.
  - apply word_print, dec_word. lia.
  - apply word_print, dec_word. lia.
  - destruct (eo_time x X _ W) as (y & mo & dd & h & mi & ss & _ & -> & _). do 5 (apply Forall_app; split; [apply pad_print|]); apply pad_print.
  - apply type_print.
  - unfold text_to_str. clear C. induction W as [|a l Wa W IH]; cbn [flat_map]; [constructor|]. apply Forall_app. split; [apply string_to_str_ascii; apply Wa|exact IH].
  - apply string_to_str_ascii. apply W.
  - destruct (to_from_hex d0) as (t & Et & At & _); [apply W|]. rewrite Et in E. apply Ok_inj in E. subst t. eapply Forall_impl; [|exact At]. cbn beta. intros. lia.
  - destruct d0 as [|a d0]; [rewrite B0; constructor|]. apply word_print. apply (eo_b64 x X); [discriminate|apply W].
  - apply string_to_str_ascii. apply W.
  - destruct (to_from_hex d0) as (t & Et & At & _); [apply W|]. rewrite Et in E. apply Ok_inj in E. subst t. eapply Forall_impl; [|exact At]. cbn beta. intros. lia.
  - destruct d0 as [|a d0]; [rewrite B0; constructor|]. apply word_print. apply (eo_b64 x X); [discriminate|apply W].
Qed.
Lemma fields_print : forall x ds vs s, ext_ok x -> x_b64_enc x [] = [] -> Forall2 wf_field (map fst ds) vs -> (forall k d, In (k, d) ds -> compat k d = true) ->
  fields_to_str x ds vs = Ok s -> Forall print1 s.
Proof.
  intros x. induction ds as [|[k d] ds IH]; intros vs s X B0 F C E; [apply Ok_inj in E; subst s; constructor|]. cbn [map fst] in F. inversion F as [|? v ? vs' F1 F2]; subst.
  destruct ds as [|d2 ds]; [cbn [fields_to_str snd] in E; eapply field_print; eauto; apply C; left; reflexivity|].
  change (fields_to_str x ((k, d) :: d2 :: ds) (v :: vs')) with (let? a := field_to_str x d v in let? b := fields_to_str x (d2 :: ds) vs' in Ok (a ++ [32%N] ++ b)) in E.
  apply rbind_ok in E. destruct E as (a & Ea & E). apply rbind_ok in E. destruct E as (b & Eb & E). apply Ok_inj in E. subst s.
  apply Forall_app. split; [eapply field_print; eauto; apply C; left; reflexivity|]. constructor; [lia|]. eapply IH; eauto. intros; apply C; right; assumption.
Qed.
(** The text of a field that the decoder could have made, and what follows if it makes it of that very text. *)
Lemma field_conv : forall x t k d v, ext_ok x -> read_field (k, d) v -> wf_field k v -> compat k d = true -> (d = PString -> quotes_binary t) ->
  (quotes_binary t -> k = KByteBin \/ k = KBin -> d = PString) ->
  exists s, field_to_str x d v = Ok s /\ good_text s /\
  forall raw pos gap rest b, skipn pos raw = gap ++ s ++ rest -> pos <= length raw -> forallb is_ws gap = true -> ends_ws rest ->
    field_from_str x (k, d) (mkSB raw pos) = (Ok v, b) -> text_field t v.
Proof.
  intros x t k d v X [K R] W C Q QA. cbn [fst snd] in *.
  assert (Done : text_field t v -> exists s, field_to_str x d v = Ok s /\ good_text s /\
    forall raw pos gap rest b, skipn pos raw = gap ++ s ++ rest -> pos <= length raw -> forallb is_ws gap = true -> ends_ws rest -> field_from_str x (k, d) (mkSB raw pos) = (Ok v, b) -> text_field t v).
  { intros T. destruct (field_ok x t k d v X T K C Q) as (s & E & G & _). cbn [snd] in E. exists s. auto. }
  destruct v as [o|o|n|u|u|u|ty|l|b|b]; try (apply Done; exact R).
  - destruct k; cbn [same_kind] in K; try contradiction. destruct d; cbn [compat] in C; try discriminate. cbn [wf_field] in W. destruct W as (ls & W & ->).
    exists (show_name ls). split; [apply name_display_spec; exact W|]. pose proof (show_word ls W) as Ws. split; [apply word_good; exact Ws|].
    intros raw pos gap rest b Sk P G E H. unfold field_from_str, snd in H. apply bind_ok in H. destruct H as (v & b1 & H & H2). unfold ret in H2. injection H2 as -> _.
    rewrite (sb_read_word _ _ raw pos gap _ rest Sk P G Ws E) in H. apply pair_inj in H. destruct H as [H _]. exists ls. split; [exact W|]. split; [|reflexivity]. apply round_trip_plain; auto.
  - destruct k; cbn [same_kind] in K; try contradiction. destruct d; cbn [compat] in C; try discriminate.
    assert (Wt : word_text (of_string (rrtype_str ty))).
    { destruct ty; try (split; [discriminate|repeat constructor; vm_compute; congruence]). }
    exists (of_string (rrtype_str ty)). split; [reflexivity|]. split; [apply word_good; exact Wt|].
    intros raw pos gap rest b Sk P G E H. unfold field_from_str, snd in H. apply bind_ok in H. destruct H as (v & b1 & H & H2). unfold ret in H2. injection H2 as -> _.
    rewrite (sb_read_word _ _ raw pos gap _ rest Sk P G Wt E) in H. apply pair_inj in H. destruct H as [H _]. split; [|exact R]. intros ->. rewrite string_of_of in H. vm_compute in H. discriminate.
  - destruct k; cbn [same_kind] in K; try contradiction. apply Done. destruct R as (A & B & L). split; [exact A|]. split; [exact B|]. intros q. apply L. apply QA; auto.
  - destruct k; cbn [same_kind] in K; try contradiction. apply Done. destruct R as (A & B & L). split; [exact A|]. split; [exact B|]. intros q. apply L. apply QA; auto.
Qed.
Lemma fields_conv : forall x t ds vs, ext_ok x -> Forall2 read_field ds vs -> Forall2 wf_field (map fst ds) vs -> ds <> [] -> tail_only ds = true ->
  (forall k d, In (k, d) ds -> compat k d = true /\ (d = PString -> quotes_binary t)) -> (quotes_binary t -> forall k d, In (k, d) ds -> k = KByteBin \/ k = KBin -> d = PString) ->
  exists s, fields_to_str x ds vs = Ok s /\ good_text s /\
  forall raw pos gap b, skipn pos raw = gap ++ s -> pos <= length raw -> forallb is_ws gap = true -> fields_from_str x ds (mkSB raw pos) = (Ok vs, b) -> Forall (text_field t) vs.
Proof.
  intros x t. induction ds as [|[k d] ds IH]; intros vs X R W Nn To C QA; [congruence|]. cbn [map fst] in W. inversion R as [|? v ? vs' R1 R2]; subst. inversion W as [|? ? ? ? W1 W2]; subst.
  destruct (C k d (or_introl eq_refl)) as [C1 C2].
  destruct (field_conv x t k d v X R1 W1 C1 C2 (fun q => QA q k d (or_introl eq_refl))) as (s & E & G & P1).
  destruct ds as [|d2 ds].
  - inversion R2; subst. exists s. split; [exact E|]. split; [exact G|]. intros raw pos gap b Sk P Gp H. cbn [fields_from_str] in H. apply bind_ok in H. destruct H as (v' & b1 & H & H2).
    unfold bind, ret in H2. injection H2 as -> _. constructor; [|constructor]. eapply (P1 raw pos gap [] b1); auto. rewrite app_nil_r. exact Sk. exact I.
  - destruct vs' as [|v2 vs']; [inversion R2|]. rewrite tail_only_cons in To. apply andb_true_iff in To. destruct To as [T1 T2]. apply negb_true_iff in T1. cbn [snd] in T1.
    destruct (IH (v2 :: vs') X R2 W2) as (s2 & E2 & G2 & P2); [discriminate|exact T2|intros; apply C; right; assumption|intros; eapply QA; eauto; right; assumption|].
    exists (s ++ [32%N] ++ s2). split; [|split].
    + change (fields_to_str x ((k, d) :: d2 :: ds) (v :: v2 :: vs')) with (let? a := field_to_str x d v in let? b := fields_to_str x (d2 :: ds) (v2 :: vs') in Ok (a ++ [32%N] ++ b)).
      rewrite E, E2. reflexivity.
    + apply good_join; auto.
    + intros raw pos gap b Sk P Gp H.
      change (fields_from_str x ((k, d) :: d2 :: ds)) with (let! v := field_from_str x (k, d) in let! vs := fields_from_str x (d2 :: ds) in ret (v :: vs)) in H.
      apply bind_ok in H. destruct H as (v' & b1 & H & H2). apply bind_ok in H2. destruct H2 as (vs2 & b2 & H2 & H3). unfold ret in H3. injection H3 as -> -> _.
      assert (Tv : text_field t v). { eapply (P1 raw pos gap ([32%N] ++ s2) b1); auto. reflexivity. }
      constructor; [exact Tv|].
      destruct (field_ok x t k d v X Tv (proj1 R1) C1 C2) as (s' & E' & _ & _ & Rt). cbn [snd] in E'. rewrite E in E'. apply Ok_inj in E'. subst s'.
      rewrite (Rt raw pos gap ([32%N] ++ s2)) in H; auto; [|reflexivity|cbn [snd]; congruence]. apply pair_inj in H. destruct H as [_ <-].
      eapply (P2 raw (pos + length gap + length s) [32%N]); [| |reflexivity|exact H2].
      * apply skipn_after with (a := s). apply skipn_after with (a := gap). exact Sk.
      * eapply pos_le. { apply skipn_after with (a := gap). exact Sk. } eapply pos_le; eauto.
Qed.
Lemma line_str : forall x rs rd ls r, ext_ok x -> x_b64_enc x [] = [] -> wf_labels ls -> rs_name rs = name_of ls -> (rs_ttl rs < 4294967296)%N -> wf_rdata (rs_type rs) rd -> rdata_display x rd = Ok r ->
  exists h, rrset_header rs = Ok h /\ str (line_of h r) /\ ~ In 10%N (line_of h r).
Proof.
  intros x rs rd ls r X B0 W En L (D & ks & Lk & Fw) E. eexists. split; [apply rrset_header_ok; eauto|].
  destruct (schema_facts _ _ ks D Lk) as (Ek & _ & _ & _ & C).
  assert (P : Forall print1 r). { eapply fields_print; eauto; [rewrite Ek; exact Fw|]. intros k d I. apply C. exact I. }
  assert (A : Forall (fun c => c = 9 \/ 32 <= c <= 126)%N (line_of (show_name ls ++ [9%N] ++ dec (rs_ttl rs) ++ [9%N] ++ of_string (rrclass_str (rs_class rs)) ++ [9%N] ++ of_string (rrtype_str (rs_type rs))) r)).
  { assert (Q : forall w, Forall print1 w -> Forall (fun c => c = 9 \/ 32 <= c <= 126)%N w). { intros w F. eapply Forall_impl; [|exact F]. cbn beta. intros. lia. }
    assert (T9 : Forall (fun c => c = 9 \/ 32 <= c <= 126)%N [9%N]). { constructor; [lia|constructor]. }
    pose proof (Q _ (word_print _ (show_word ls W))). pose proof (Q _ (word_print _ (dec_word _ L))). pose proof (Q _ (class_print (rs_class rs))). pose proof (Q _ (type_print (rs_type rs))). pose proof (Q _ P).
    unfold line_of. rewrite !Forall_app. auto 20. }
  split; [|intros I; rewrite Forall_forall in A; specialize (A _ I); cbn beta in A; lia].
  split; [eapply Forall_impl; [|exact A]; cbn beta; intros c Hc; change (c < 256)%N; lia|]. apply utf8_ascii. eapply Forall_impl; [|exact A]. cbn beta. intros. lia.
Qed.
Lemma record_conv0 : forall md x rs rs2 rd h r, ext_ok x -> ext_range x -> b64_exact x -> x_b64_enc x [] = [] -> wf_name (rs_name rs) -> (rs_ttl rs < 4294967296)%N -> wf_rdata (rs_type rs) rd ->
  rrset_header rs = Ok h -> rdata_display x rd = Ok r -> rrset_from_str md x (line_of h r) = Ok rs2 -> rs_type rs2 = rs_type rs -> rs_rdatas rs2 = [rd] -> (forall v, rs_class rs <> CUnknown v) ->
  (rs_name rs2 = rs_name rs -> exists ls, wf_labels ls /\ plain_labels ls /\ rs_name rs = name_of ls) /\ readable_type (rs_type rs) /\ text_rdata (rs_type rs) rd.
Proof.
  intros md x rs rs2 rd h r X Xr B B0 (ls & W & En) L Wr Eh Er H ET ER Cl.
  destruct (line_str x rs rd ls r X B0 W En L Wr Er) as (h' & Eh' & St & _). rewrite Eh in Eh'. apply Ok_inj in Eh'. subst h'.
  destruct (from_str_read md x _ _ Xr B St H) as (Ty & _ & _ & rd' & E1 & Rd). rewrite ER in E1. rewrite ET in *. injection E1 as <-.
  destruct Rd as [D Fr]. destruct Wr as (_ & ks & Lk & Fw). destruct (schema_facts _ _ ks D Lk) as (Ek & Nn & To & _ & C). pose proof (quote_all _ _ D) as QA.
  rewrite <- Ek in Fw. destruct (fields_conv x (rs_type rs) _ _ X Fr Fw Nn To C QA) as (r' & Er' & G & Conv).
  unfold rdata_display in Er. rewrite Er' in Er. apply Ok_inj in Er. subst r'.
  rewrite (rrset_header_ok rs ls W En) in Eh. apply Ok_inj in Eh. subst h.
  pose proof (show_word ls W) as Wn. pose proof (dec_word _ L) as Wd. destruct (class_word _ Cl) as (Wc & Pc & _).
  assert (Wt : word_text (of_string (rrtype_str (rs_type rs)))). { clear. destruct (rs_type rs); (split; [discriminate|repeat constructor; vm_compute; congruence]). }
  set (tn := show_name ls) in *. set (td := dec (rs_ttl rs)) in *. set (tc := of_string (rrclass_str (rs_class rs))) in *. set (tt0 := of_string (rrtype_str (rs_type rs))) in *.
  assert (EL : line_of (tn ++ [9%N] ++ td ++ [9%N] ++ tc ++ [9%N] ++ tt0) r = tn ++ [9%N] ++ td ++ [9%N] ++ tc ++ [9%N] ++ tt0 ++ [9%N] ++ r).
  { unfold line_of. rewrite <- !app_assoc. reflexivity. }
  rewrite EL in H. unfold rrset_from_str in H.
  assert (Tr : trim (tn ++ [9%N] ++ td ++ [9%N] ++ tc ++ [9%N] ++ tt0 ++ [9%N] ++ r) = tn ++ [9%N] ++ td ++ [9%N] ++ tc ++ [9%N] ++ tt0 ++ [9%N] ++ r).
  { pose proof (trim_spec [] (tn ++ [9%N] ++ td ++ [9%N] ++ tc ++ [9%N] ++ tt0 ++ [9%N] ++ r) [] eq_refl eq_refl) as T. cbn [app] in T. rewrite app_nil_r in T. apply T; clear T.
    - destruct (word_good _ Wn) as (_ & (c & q & -> & V) & _). cbn [app]. eauto.
    - destruct G as (_ & _ & (q & c & -> & V)). exists (tn ++ [9%N] ++ td ++ [9%N] ++ tc ++ [9%N] ++ tt0 ++ [9%N] ++ q), c. cbn [app]. rewrite <- !app_assoc. cbn [app]. rewrite <- !app_assoc. cbn [app]. rewrite <- !app_assoc. cbn [app]. rewrite <- !app_assoc. auto. }
  rewrite Tr in H. set (raw := tn ++ [9%N] ++ td ++ [9%N] ++ tc ++ [9%N] ++ tt0 ++ [9%N] ++ r) in *.
  assert (Nr : sb_new md raw = Ok (mkSB raw 0)). { unfold raw. destruct Wn as [Wn _]. destruct tn; [congruence|]. destruct md; reflexivity. }
  rewrite Nr in H. cbn [rbind] in H. destruct (rrset_from_sb x (mkSB raw 0)) as [res b'] eqn:Hb. cbn [fst] in H. subst res. unfold rrset_from_sb in Hb.
  apply bind_ok in Hb. destruct Hb as (n & b1 & H1 & Hb).
  assert (S0 : skipn 0 raw = [] ++ tn ++ [9%N] ++ td ++ [9%N] ++ tc ++ [9%N] ++ tt0 ++ [9%N] ++ r) by reflexivity.
  rewrite (sb_read_word _ _ _ _ _ _ _ S0) in H1; auto; [|lia|reflexivity]. apply pair_inj in H1. destruct H1 as [H1 <-].
  pose proof (skipn_after _ _ _ _ (skipn_after _ _ _ _ S0)) as S1. pose proof (pos_le _ _ _ _ (skipn_after _ _ _ _ S0) ltac:(cbn [length]; lia)) as P1.
  set (p1 := 0 + length [] + length tn) in *. clearbody p1. clear S0.
  apply bind_ok in Hb. destruct Hb as (tl & b2 & H2 & Hb). rewrite (sb_read_word _ _ _ _ _ _ _ S1) in H2; auto; [|reflexivity]. apply pair_inj in H2. destruct H2 as [H2 <-].
  pose proof (skipn_after _ _ _ _ (skipn_after _ _ _ _ S1)) as S2. pose proof (pos_le _ _ _ _ (skipn_after _ _ _ _ S1) (pos_le _ _ _ _ S1 P1)) as P2.
  set (p2 := p1 + length [9%N] + length td) in *. clearbody p2. clear S1 P1.
  apply bind_ok in Hb. destruct Hb as (cs & b3 & H3 & Hb). rewrite (sb_read_word _ _ _ _ _ _ _ S2) in H3; auto; [|reflexivity]. apply pair_inj in H3. destruct H3 as [H3 <-]. apply Ok_inj in H3. subst cs.
  fold tc in Pc. rewrite Pc in Hb.
  pose proof (skipn_after _ _ _ _ (skipn_after _ _ _ _ S2)) as S3. pose proof (pos_le _ _ _ _ (skipn_after _ _ _ _ S2) (pos_le _ _ _ _ S2 P2)) as P3.
  set (p3 := p2 + length [9%N] + length tc) in *. clearbody p3. clear S2 P2.
  apply bind_ok in Hb. destruct Hb as (ty & b4 & H4 & Hb). rewrite (sb_read_word _ _ _ _ _ _ _ S3) in H4; auto; [|reflexivity]. apply pair_inj in H4. destruct H4 as [H4 <-].
  pose proof (skipn_after _ _ _ _ (skipn_after _ _ _ _ S3)) as S4. pose proof (pos_le _ _ _ _ (skipn_after _ _ _ _ S3) (pos_le _ _ _ _ S3 P3)) as P4.
  set (p4 := p3 + length [9%N] + length tt0) in *. clearbody p4. clear S3 P3.
  apply bind_ok in Hb. destruct Hb as (rd2 & b5 & H5 & Hb). unfold ret in Hb. apply pair_inj in Hb. destruct Hb as [Hb _]. apply Ok_inj in Hb.
  assert (Hn : n = rs_name rs2) by (apply (f_equal rs_name) in Hb; exact Hb). assert (Ht : ty = rs_type rs) by (rewrite <- ET; apply (f_equal rs_type) in Hb; exact Hb).
  assert (Hr : rd2 = rd) by (apply (f_equal rs_rdatas) in Hb; cbn [rs_rdatas] in Hb; rewrite ER in Hb; injection Hb; auto). subst ty rd2. clear Hb.
  split; [|split].
  - intros E. rewrite E in Hn. subst n. exists ls. split; [exact W|]. split; [|exact En]. apply round_trip_plain; auto. rewrite <- En. exact H1.
  - split; [|exact Ty]. intros E. unfold tt0 in H4. rewrite E, string_of_of in H4. vm_compute in H4. discriminate.
  - split; [exact D|]. split; [exists ks; split; [exact Lk|]; rewrite <- Ek; clear - Fr; induction Fr as [|a b l l' Hx F IH]; cbn [map]; constructor; [apply Hx|exact IH]|].
    unfold rdata_from_sb in H5. rewrite variant_data, D in H5. apply bind_ok in H5. destruct H5 as (vs & b6 & H5 & H6). unfold ret in H6. apply pair_inj in H6. destruct H6 as [H6 _]. apply Ok_inj in H6.
    assert (Ev : vs = rd_fields rd) by (apply (f_equal rd_fields) in H6; exact H6). subst vs. eapply Conv; [exact S4|exact P4|reflexivity|exact H5].
Qed.
Lemma record_conv : forall md x rs rd h r, ext_ok x -> ext_range x -> b64_exact x -> x_b64_enc x [] = [] -> wf_name (rs_name rs) -> (rs_ttl rs < 4294967296)%N -> wf_rdata (rs_type rs) rd ->
  rrset_header rs = Ok h -> rdata_display x rd = Ok r -> rrset_from_str md x (line_of h r) = Ok (mkRRset (rs_name rs) (rs_type rs) (rs_class rs) (rs_ttl rs) [rd]) ->
  (exists ls, wf_labels ls /\ plain_labels ls /\ rs_name rs = name_of ls) /\ (forall v, rs_class rs <> CUnknown v) /\ readable_type (rs_type rs) /\ text_rdata (rs_type rs) rd.
Proof.
  intros md x rs rd h r X Xr B B0 Wn L Wr Eh Er H. pose proof Wn as (ls & W & En).
  destruct (line_str x rs rd ls r X B0 W En L Wr Er) as (h' & Eh' & St & _). rewrite Eh in Eh'. apply Ok_inj in Eh'. subst h'.
  destruct (from_str_read md x _ _ Xr B St H) as (_ & Cl & _). cbn [rs_class] in Cl.
  destruct (record_conv0 md x rs _ rd h r X Xr B B0 Wn L Wr Eh Er H eq_refl eq_refl Cl) as (A1 & A2 & A3). auto.
Qed.
(** The same for the lines of one rrset read by [from_strs]. *)
Lemma lines_conv : forall md x rs h rds', ext_ok x -> ext_range x -> b64_exact x -> x_b64_enc x [] = [] -> wf_name (rs_name rs) -> (rs_ttl rs < 4294967296)%N ->
  Forall (wf_rdata (rs_type rs)) (rs_rdatas rs) -> rs_rdatas rs <> [] -> rrset_header rs = Ok h -> Forall2 (fun rd r => rdata_display x rd = Ok r) (rs_rdatas rs) rds' ->
  rrset_from_strs md x (map (line_of h) rds') = Ok rs -> text_rrset rs.
Proof.
  intros md x rs h rds' X Xr B B0 Wn L Wd Nn Eh F2 H.
  assert (Nl : map (line_of h) rds' <> []). { destruct F2; [congruence|discriminate]. }
  apply (from_strs_ok md x _ rs Nl) in H. destruct H as (ss & r0 & Fs & N0 & Ft & _ & Es).
  assert (Er : rs_rdatas rs = flat_map rs_rdatas ss) by (rewrite Es at 1; reflexivity). assert (Et : rs_type rs = rs_type r0) by (rewrite Es; reflexivity).
  assert (En : rs_name rs = rs_name r0) by (rewrite Es; reflexivity). assert (Ec : rs_class rs = rs_class r0) by (rewrite Es; reflexivity). assert (El : rs_ttl rs = rs_ttl r0) by (rewrite Es; reflexivity).
  clear Es Nl.
  assert (P2 : Forall2 (fun line rd => exists rs2, rrset_from_str md x line = Ok rs2 /\ rs_type rs2 = rs_type rs /\ rs_rdatas rs2 = [rd]) (map (line_of h) rds') (rs_rdatas rs)).
  { rewrite Er. clear N0 Er F2 Wd Nn. induction Fs as [|line r2 lines ss E Fs IH]; cbn [flat_map]; [constructor|]. apply Forall_cons_iff in Ft. destruct Ft as [Ft1 Ft2].
    destruct (from_str_one _ _ _ _ E) as (d & Ed). rewrite Ed. cbn [app]. constructor; [exists r2; repeat split; [exact E|congruence|exact Ed]|apply IH; exact Ft2]. }
  destruct (rs_rdatas rs) as [|rd0 rest] eqn:Ers; [congruence|]. inversion F2 as [|? t0 ? tl Et0 F2']; subst rds'. cbn [map] in *.
  inversion Fs as [|? s0 ? ss' Es0 Fs']; subst. cbn [nth_error] in N0. injection N0 as ->.
  apply Forall_cons_iff in Wd. destruct Wd as [Wd1 Wd2]. inversion P2 as [|? ? ? ? (q & Eq & _ & Eqd) P2']; subst. rewrite Es0 in Eq. apply Ok_inj in Eq. subst q.
  assert (Es0' : rrset_from_str md x (line_of h t0) = Ok (mkRRset (rs_name rs) (rs_type rs) (rs_class rs) (rs_ttl rs) [rd0])).
  { rewrite Es0. f_equal. rewrite En, Et, Ec, El, <- Eqd. destruct r0; reflexivity. }
  destruct (record_conv md x rs rd0 h t0 X Xr B B0 Wn L Wd1 Eh Et0 Es0') as (A1 & A2 & A3 & A4).
  split; [exact A1|]. split; [exact L|]. split; [exact A2|]. split; [exact A3|]. rewrite Ers. constructor; [exact A4|].
  clear - X Xr B B0 Wn L Eh A2 Wd2 F2' P2'. revert Wd2 P2'. induction F2' as [|rd r l l' E F IH]; intros Wd P; [constructor|]. cbn [map] in P. inversion P as [|? ? ? ? (q & Eq & Tq & Dq) P']; subst.
  apply Forall_cons_iff in Wd. destruct Wd as [W1 W2]. constructor; [|apply IH; auto].
  destruct (record_conv0 md x rs q rd h r X Xr B B0 Wn L W1 Eh E Eq Tq Dq A2) as (_ & _ & T). exact T.
Qed.

Lemma display_exact : forall md x rs, ext_ok x -> ext_range x -> b64_exact x -> x_b64_enc x [] = [] -> wf_name (rs_name rs) -> (rs_ttl rs < 4294967296)%N ->
  Forall (wf_rdata (rs_type rs)) (rs_rdatas rs) -> rs_rdatas rs <> [] ->
  exists lines, rrset_display x rs = Ok (flat_map (fun l => l ++ [10%N]) lines) /\ Forall (fun l => ~ In 10%N l) lines /\ length lines = length (rs_rdatas rs) /\
    (Forall2 (fun line rd => rrset_from_str md x line = Ok (mkRRset (rs_name rs) (rs_type rs) (rs_class rs) (rs_ttl rs) [rd])) lines (rs_rdatas rs) <-> text_rrset rs).
Proof.
  intros md x rs X Xr B B0 Wn L Wd Nn. destruct Wn as (ls & W & En). set (h := show_name ls ++ [9%N] ++ dec (rs_ttl rs) ++ [9%N] ++ of_string (rrclass_str (rs_class rs)) ++ [9%N] ++ of_string (rrtype_str (rs_type rs))).
  assert (Eh : rrset_header rs = Ok h) by (apply rrset_header_ok; auto).
  assert (H : forall rds, Forall (wf_rdata (rs_type rs)) rds -> exists rs', Forall2 (fun rd r => rdata_display x rd = Ok r) rds rs' /\
    forall acc, rfold (fun acc rd => let? h := rrset_header rs in let? r := rdata_display x rd in Ok (acc ++ h ++ [9%N] ++ r ++ [10%N])) rds acc = Ok (acc ++ flat_map (fun l => l ++ [10%N]) (map (line_of h) rs'))).
  { induction rds as [|rd rds IH]; intros F.
    - exists []. split; [constructor|]. intros acc. cbn [rfold map flat_map]. rewrite app_nil_r. reflexivity.
    - inversion F as [|? ? Wr F']; subst. destruct (IH F') as (rs' & F2 & A). destruct Wr as (D & ks & Lk & Fw). destruct (schema_facts _ _ ks D Lk) as (Ek & _ & _ & _ & C).
      destruct (fields_display_total x (text_schema (rd_var rd)) (rd_fields rd)) as (r & Er). { rewrite Ek. exact Fw. } { intros k d I. apply C. exact I. }
      exists (r :: rs'). split; [constructor; auto|]. intros acc. cbn [rfold]. match goal with |- rbind ?m ?k = _ => replace m with (Ok (acc ++ h ++ [9%N] ++ r ++ [10%N])) by (unfold rdata_display; rewrite Eh, Er; reflexivity) end.
      cbn [rbind]. rewrite A. cbn [map flat_map]. unfold line_of at 2. rewrite <- !app_assoc. reflexivity. }
  destruct (H _ Wd) as (rds' & F2 & A). exists (map (line_of h) rds'). split; [unfold rrset_display; rewrite A; reflexivity|]. split; [|split].
  - clear A H. revert Wd F2. generalize (rs_rdatas rs). intros l Wd F2. induction F2 as [|rd r l l' E F2 IH]; cbn [map]; constructor; inversion Wd; subst; auto.
    destruct (line_str x rs rd ls r X B0 W En L) as (h' & Eh' & _ & Q); auto. rewrite Eh in Eh'. apply Ok_inj in Eh'. subst h'. exact Q.
  - rewrite map_length. clear - F2. induction F2; cbn [length]; congruence.
  - split.
    + intros Rt. assert (P : Forall (fun rd => (exists ls, wf_labels ls /\ plain_labels ls /\ rs_name rs = name_of ls) /\ (forall v, rs_class rs <> CUnknown v) /\ readable_type (rs_type rs) /\ text_rdata (rs_type rs) rd) (rs_rdatas rs)).
      { clear A H Nn. revert Wd F2 Rt. generalize (rs_rdatas rs). intros l Wd F2. induction F2 as [|rd r l l' E F2 IH]; cbn [map]; intros Rt; constructor; inversion Wd; inversion Rt; subst; auto.
        eapply record_conv; eauto. exists ls. auto. }
      destruct (rs_rdatas rs) as [|rd0 rest] eqn:Er; [congruence|]. inversion P as [|? ? (P1 & P2 & P3 & _) _]; subst. split; [exact P1|]. split; [exact L|]. split; [exact P2|]. split; [exact P3|].
      rewrite Er. eapply Forall_impl; [|exact P]. cbn beta. intros rd (_ & _ & _ & T). exact T.
    + intros T. assert (I0 : incl (rs_rdatas rs) (rs_rdatas rs)) by apply incl_refl. revert F2 I0. generalize (rs_rdatas rs) at 1 2 4. clear A H Nn Wd. intros l F2. induction F2 as [|rd r l l' E F2 IH]; cbn [map]; intros I0; constructor.
      * destruct (record_ok x rs rd X T (I0 rd (or_introl eq_refl))) as (h' & r' & Eh' & Er' & _ & _ & Rt). rewrite Eh in Eh'. apply Ok_inj in Eh'. subst h'. rewrite E in Er'. apply Ok_inj in Er'. subst r'.
        specialize (Rt md [] [] eq_refl eq_refl). rewrite app_nil_r in Rt. exact Rt.
      * apply IH. intros q Q. apply I0. right. exact Q.
Qed.
(** The printed lines of an rrset, read together by [from_strs]. *)
Lemma display_exact_strs : forall x rs, ext_ok x -> ext_range x -> b64_exact x -> x_b64_enc x [] = [] -> wf_name (rs_name rs) -> (rs_ttl rs < 4294967296)%N ->
  Forall (wf_rdata (rs_type rs)) (rs_rdatas rs) -> rs_rdatas rs <> [] ->
  exists lines, rrset_display x rs = Ok (flat_map (fun l => l ++ [10%N]) lines) /\ Forall (fun l => ~ In 10%N l) lines /\ length lines = length (rs_rdatas rs) /\
    forall md, rrset_from_strs md x lines = Ok rs -> text_rrset rs.
Proof.
  intros x rs X Xr B B0 Wn L Wd Nn. pose proof Wn as (ls & W & En). set (h := show_name ls ++ [9%N] ++ dec (rs_ttl rs) ++ [9%N] ++ of_string (rrclass_str (rs_class rs)) ++ [9%N] ++ of_string (rrtype_str (rs_type rs))).
  assert (Eh : rrset_header rs = Ok h) by (apply rrset_header_ok; auto).
  assert (H : forall rds, Forall (wf_rdata (rs_type rs)) rds -> exists rs', Forall2 (fun rd r => rdata_display x rd = Ok r) rds rs' /\
    forall acc, rfold (fun acc rd => let? h := rrset_header rs in let? r := rdata_display x rd in Ok (acc ++ h ++ [9%N] ++ r ++ [10%N])) rds acc = Ok (acc ++ flat_map (fun l => l ++ [10%N]) (map (line_of h) rs'))).
  { induction rds as [|rd rds IH]; intros F.
    - exists []. split; [constructor|]. intros acc. cbn [rfold map flat_map]. rewrite app_nil_r. reflexivity.
    - inversion F as [|? ? Wr F']; subst. destruct (IH F') as (rs' & F2 & A). destruct Wr as (D & ks & Lk & Fw). destruct (schema_facts _ _ ks D Lk) as (Ek & _ & _ & _ & C).
      destruct (fields_display_total x (text_schema (rd_var rd)) (rd_fields rd)) as (r & Er). { rewrite Ek. exact Fw. } { intros k d I. apply C. exact I. }
      exists (r :: rs'). split; [constructor; auto|]. intros acc. cbn [rfold]. match goal with |- rbind ?m ?k = _ => replace m with (Ok (acc ++ h ++ [9%N] ++ r ++ [10%N])) by (unfold rdata_display; rewrite Eh, Er; reflexivity) end.
      cbn [rbind]. rewrite A. cbn [map flat_map]. unfold line_of at 2. rewrite <- !app_assoc. reflexivity. }
  destruct (H _ Wd) as (rds' & F2 & A). exists (map (line_of h) rds'). split; [unfold rrset_display; rewrite A; reflexivity|]. split; [|split].
  - clear A H. revert Wd F2. generalize (rs_rdatas rs). intros l Wd F2. induction F2 as [|rd r l l' E F2 IH]; cbn [map]; constructor; inversion Wd; subst; auto.
    destruct (line_str x rs rd ls r X B0 W En L) as (h' & Eh' & _ & Q); auto. rewrite Eh in Eh'. apply Ok_inj in Eh'. subst h'. exact Q.
  - rewrite map_length. clear - F2. induction F2; cbn [length]; congruence.
  - intros md. eapply lines_conv; eauto.
Qed.
Lemma text_plain : forall rs, text_rrset rs -> plain_names rs /\ no_cert rs.
Proof.
  intros rs ((ls & W & P & En) & _ & _ & [Nc _] & F). split.
  - constructor; [exists ls; auto|]. clear - F. induction F as [|rd l (_ & _ & T) F IH]; cbn [flat_map]; [constructor|]. apply Forall_app. split; [|exact IH].
    clear - T. induction T as [|v l H T IH]; cbn [flat_map]; [constructor|]. apply Forall_app. split; [|exact IH]. destruct v; cbn [field_names]; constructor; try constructor. exact H.
  - split; [exact Nc|]. intros rd I J. rewrite Forall_forall in F. destruct (F rd I) as (_ & _ & T). rewrite Forall_forall in T. destruct (T _ J) as [Q _]. apply Q. reflexivity.
Qed.
Lemma normal_exact : forall md x s rs, ext_ok x -> ext_range x -> b64_exact x -> x_b64_enc x [] = [] -> str s -> rrset_from_str md x s = Ok rs -> wf_name (rs_name rs) ->
  Forall (wf_rdata (rs_type rs)) (rs_rdatas rs) ->
  exists line, rrset_display x rs = Ok (line ++ [10%N]) /\ ~ In 10%N line /\ forall md', rrset_from_str md' x line = Ok rs <-> plain_names rs /\ no_cert rs.
Proof.
  intros md x s rs X R B B0 St E W Wd. destruct (from_str_read md x s rs R B St E) as (_ & _ & L & rd & Er & _).
  destruct (display_exact md x rs X R B B0 W L Wd) as (lines & D & N10 & Ln & _); [congruence|]. rewrite Er in Ln. destruct lines as [|line [|? ?]]; try discriminate.
  cbn [flat_map] in D. rewrite app_nil_r in D. exists line. split; [exact D|]. split; [inversion N10; auto|]. intros md'.
  destruct (display_exact md' x rs X R B B0 W L Wd) as (lines & D' & _ & Ln' & Iff); [congruence|]. rewrite Er in Ln'. destruct lines as [|line' [|? ?]]; try discriminate.
  cbn [flat_map] in D'. rewrite app_nil_r in D'. rewrite D in D'. apply Ok_inj in D'. apply app_inv_tail in D'. subst line'.
  assert (Rs : rs = mkRRset (rs_name rs) (rs_type rs) (rs_class rs) (rs_ttl rs) [rd]). { clear -Er. destruct rs as [a1 a2 a3 a4 a5]. cbn [rs_name rs_type rs_class rs_ttl rs_rdatas] in *. congruence. }
  split.
  - intros H. apply text_plain. apply Iff. rewrite Er. constructor; [|constructor]. rewrite <- Rs. exact H.
  - intros [P C]. pose proof (read_text_rrset md x s rs R B St E P C) as T. apply Iff in T. rewrite Er in T. inversion T; subst. rewrite <- Rs in *. assumption.
Qed.

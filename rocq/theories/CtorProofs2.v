(** response_builder::build: texts to a message. *)
From Verif Require Import Base NameModel RenderModel CodesModel RDataModel MsgModel TextModel CtorModel SpecName SpecBuf SpecCodes SpecMsg SpecText SpecApi SpecCtor
  BaseLemmas CodesProofs MsgProofs MsgProofs2 MsgProofs3 MsgProofs4 MsgProofs5 MsgProofs6 MsgProofs7 MsgProofs8 BuildProofs CtorProofs TextProofs6 TextProofs7 TextRange.
Open Scope list_scope.
Open Scope nat_scope.

Lemma build_app : forall a b r, build (a ++ b) r = rbind (build a r) (build b).
Proof. induction a as [|o a IH]; intros b r; cbn [app build]; [reflexivity|]. destruct (bop_call o r); cbn [rbind]; auto. Qed.
Lemma add_texts_build : forall md x s sets r r', add_texts md x s sets r = Ok r' <-> exists l, Forall2 (fun ss rs => rrset_from_strs md x ss = Ok rs) sets l /\ build (map (BAdd s) l) r = Ok r'.
Proof.
  intros md x s. unfold add_texts. induction sets as [|ss sets IH]; intros r r'; cbn [rfold].
  - split; [intros E; exists []; split; [constructor|exact E]|intros (l & F & E); inversion F; subst; exact E].
  - split.
    + intros E. apply rbind_ok in E. destruct E as (r1 & E1 & E). apply rbind_ok in E1. destruct E1 as (rs & Ers & Ea). apply IH in E. destruct E as (l & F & E).
      exists (rs :: l). split; [constructor; assumption|]. cbn [map build bop_call]. rewrite Ea. exact E.
    + intros (l & F & E). inversion F as [|? rs ? l' Ers F']; subst. rewrite Ers. cbn [rbind map build bop_call] in *. destruct (add_rrset r s rs) as [r1| | |]; cbn [rbind] in *; try discriminate. apply IH. exists l'. auto.
Qed.
Theorem build_response_program : forall md x rnd nm t an au ad udp r, build_response md x rnd nm t an au ad udp = Ok r <->
  exists n a b c r0, name_new nm = Ok n /\ Forall2 (fun ss rs => rrset_from_strs md x ss = Ok rs) an a /\ Forall2 (fun ss rs => rrset_from_strs md x ss = Ok rs) au b /\
    Forall2 (fun ss rs => rrset_from_strs md x ss = Ok rs) ad c /\ build (program a b c udp) (response_with_question rnd n t) = Ok r0 /\ r = builder_done r0.
Proof.
  intros md x rnd nm t an au ad udp r. unfold build_response, program. split.
  - intros E. apply rbind_ok in E. destruct E as (n & En & E). apply rbind_ok in E. destruct E as (r1 & E1 & E). apply rbind_ok in E. destruct E as (r2 & E2 & E). apply rbind_ok in E. destruct E as (r3 & E3 & E).
    apply rbind_ok in E. destruct E as (r4 & E4 & E). inversion E; subst r. apply add_texts_build in E1. destruct E1 as (a & Fa & Ba). apply add_texts_build in E2. destruct E2 as (b & Fb & Bb).
    apply add_texts_build in E3. destruct E3 as (c & Fc & Bc). exists n, a, b, c, (make_response r4). repeat (split; [assumption|]). split; [|reflexivity].
    rewrite build_app, Ba. cbn [rbind]. rewrite build_app, Bb. cbn [rbind]. rewrite build_app, Bc. cbn [rbind]. destruct udp as [u|]; cbn [app build bop_call]; [rewrite E4; reflexivity|inversion E4; reflexivity].
  - intros (n & a & b & c & r0 & En & Fa & Fb & Fc & B & ->). rewrite En. cbn [rbind]. rewrite build_app in B. apply rbind_ok in B. destruct B as (r1 & B1 & B).
    rewrite build_app in B. apply rbind_ok in B. destruct B as (r2 & B2 & B). rewrite build_app in B. apply rbind_ok in B. destruct B as (r3 & B3 & B).
    rewrite (proj2 (add_texts_build md x SAnswer an _ r1) (ex_intro _ a (conj Fa B1))). cbn [rbind]. rewrite (proj2 (add_texts_build md x SAuthority au _ r2) (ex_intro _ b (conj Fb B2))). cbn [rbind].
    rewrite (proj2 (add_texts_build md x SAdditional ad _ r3) (ex_intro _ c (conj Fc B3))). cbn [rbind]. destruct udp as [u|]; cbn [app build bop_call] in B; [|cbn [rbind]; inversion B; reflexivity].
    apply rbind_ok in B. destruct B as (r4 & B4 & B). rewrite B4. cbn [rbind] in *. inversion B; reflexivity.
Qed.
Lemma texts_good : forall md x s sets l, ext_range x -> texts_ok md x sets -> Forall2 (fun ss rs => rrset_from_strs md x ss = Ok rs) sets l -> Forall good_op (map (BAdd s) l).
Proof.
  intros md x s sets l X (F & Fit) F2. induction F2 as [|ss rs sets l E F2 IH]; cbn [map]; constructor.
  - inversion F as [|? ? Fs _]; subst. destruct (Fit ss rs (or_introl eq_refl) E) as (T & Nm & Sh). split; [|exact T].
    apply (from_strs_exact md x ss rs X Fs E). split; assumption.
  - apply IH; [inversion F; assumption|intros ss' rs' I; apply Fit; right; exact I].
Qed.
Lemma as_u16_lt : forall u, (as_u16 u < 65536)%N.
Proof. intros u. unfold as_u16. apply N.mod_lt. discriminate. Qed.
Theorem build_response_ok : forall md x rnd nm t an au ad udp r, ext_range x -> (rnd < 65536)%N -> str nm -> (forall n, name_new nm = Ok n -> length (n_raw n) <= 255) -> type_ok t ->
  texts_ok md x an -> texts_ok md x au -> texts_ok md x ad -> build_response md x rnd nm t an au ad udp = Ok r ->
  (blen (records (r_answer r)) < 65536)%N -> (blen (records (r_authority r)) < 65536)%N -> (blen (records (r_additional r)) < 65536)%N -> consistent r.
Proof.
  intros md x rnd nm t an au ad udp r X R Sn Nb T Ta Tb Tc E L1 L2 L3. apply build_response_program in E. destruct E as (n & a & b & c & r0 & En & Fa & Fb & Fc & B & ->).
  assert (W : wf_name n) by (eapply name_new_sized; [apply Sn|exact En|exact (Nb n En)]).
  assert (G : Forall good_op (program a b c udp)).
  { unfold program. apply Forall_app; split; [exact (texts_good md x SAnswer an a X Ta Fa)|]. apply Forall_app; split; [exact (texts_good md x SAuthority au b X Tb Fb)|]. apply Forall_app; split; [exact (texts_good md x SAdditional ad c X Tc Fc)|]. apply Forall_app; split.
    - destruct udp as [u|]; [|constructor]. constructor; [|constructor]. split; [cbn; lia|]. split; [cbn; lia|]. apply as_u16_lt.
    - constructor; [exact Logic.I|constructor]. }
  destruct (builder_consistent rnd n t _ R W T G) as (r1 & B1 & C). rewrite B in B1. inversion B1; subst r1. apply C; assumption.
Qed.
Lemma latest_none : forall A (w : bop -> option A) l i, Forall (fun o => w o = None) l -> latest w l i = i.
Proof. induction l as [|o l IH]; intros i F; cbn [latest]; auto. inversion F as [|? ? H F']; subst. rewrite H. auto. Qed.
Theorem build_response_head : forall md x rnd nm t an au ad udp r, build_response md x rnd nm t an au ad udp = Ok r -> exists n, name_new nm = Ok n /\
  r_question r = mkQuestion n t CIN /\ h_id (r_header r) = rnd /\ h_opcode (r_header r) = OQuery /\ h_rcode (r_header r) = RNoError /\
  forall f, header_is_set (r_header r) f = true <-> f = QR \/ f = RD.
Proof.
  intros md x rnd nm t an au ad udp r E. apply build_response_program in E. destruct E as (n & a & b & c & r0 & En & _ & _ & _ & B & ->). exists n. split; [exact En|].
  assert (Lf : (h_flag (r_header (response_with_question rnd n t)) < 65536)%N) by reflexivity.
  destruct (setters_last _ _ _ Lf B) as (_ & A1 & A2 & A3 & A4 & _ & A6 & _).
  assert (Q : forall (P : bop -> Prop), (forall s rs, P (BAdd s rs)) -> (forall e, P (BEdns e)) -> P BMake -> Forall P (program a b c udp)).
  { intros P P1 P2 P3. unfold program. repeat (apply Forall_app; split); try (apply Forall_forall; intros o I; apply in_map_iff in I; destruct I as (rs & <- & _); apply P1).
    - destruct udp; [constructor; [apply P2|constructor]|constructor].
    - constructor; [apply P3|constructor]. }
  rewrite latest_none in A1, A2, A3, A4 by (apply Q; reflexivity). pose proof (done_counts r0) as (E1 & _ & _ & _ & E5 & E6 & E7 & E8 & _).
  split; [rewrite E1, A4; reflexivity|]. split; [rewrite E5, A1; reflexivity|]. split; [rewrite E7, A2; reflexivity|]. split; [rewrite E8, A3; reflexivity|].
  intros f. assert (Ef : header_is_set (r_header (builder_done r0)) f = header_is_set (r_header r0) f) by (unfold header_is_set; rewrite E6; reflexivity). rewrite Ef, A6. clear - Q.
  assert (Z : forall l i, latest (w_flag f) (l ++ [BMake]) i = if same_flag QR f then true else latest (w_flag f) l i).
  { intros l i. rewrite latest_app. cbn [latest w_flag]. destruct (same_flag QR f); reflexivity. }
  unfold program. rewrite !app_assoc. rewrite Z. rewrite latest_none.
  - destruct f; vm_compute; (split; [intros H; first [discriminate H|left; reflexivity|right; reflexivity]|intros [H|H]; first [reflexivity|discriminate H]]).
  - repeat (apply Forall_app; split); try (apply Forall_forall; intros o I; apply in_map_iff in I; destruct I as (rs & <- & _); reflexivity). destruct udp; [constructor; [reflexivity|constructor]|constructor].
Qed.

(** The stand-in for the other crates respects the ranges. *)
From Verif Require Import StdNetProofs ExtInstance TextProofs TextProofs2.
Lemma rmap_all : forall A B (f : A -> res B) (Q : B -> Prop) l r, (forall a b, f a = Ok b -> Q b) -> rmap f l = Ok r -> Forall Q r.
Proof.
  induction l as [|a l IH]; intros r H E; cbn [rmap] in E; [inversion E; constructor|]. apply rbind_ok in E. destruct E as (b & E1 & E). apply rbind_ok in E. destruct E as (r' & E2 & E).
  inversion E; subst. constructor; [eapply H; exact E1|apply IH; assumption].
Qed.
Lemma b64v_lt : forall c v, b64v c = Some v -> (v < 64)%N.
Proof.
  intros c v H. unfold b64v, within in H. destruct (65 <=? c)%N eqn:A1; cbn [andb] in H.
  - destruct (N.leb_spec c 90); cbn [andb] in H; [inversion H; lia|]. destruct (97 <=? c)%N eqn:A2; cbn [andb] in H.
    + destruct (N.leb_spec c 122); cbn [andb] in H; [inversion H; lia|]. destruct (48 <=? c)%N; cbn [andb] in H; [destruct (N.leb_spec c 57); [lia|]|]; destruct (N.eqb_spec c 43); [lia| |lia|]; destruct (N.eqb_spec c 47); try lia; discriminate.
    + destruct (48 <=? c)%N; cbn [andb] in H; [destruct (N.leb_spec c 57); [lia|]|]; destruct (N.eqb_spec c 43); [lia| |lia|]; destruct (N.eqb_spec c 47); try lia; discriminate.
  - apply N.leb_gt in A1. destruct (N.leb_spec 97 c); [lia|]. cbn [andb] in H. destruct (N.leb_spec 48 c); cbn [andb] in H; [destruct (N.leb_spec c 57); [inversion H; lia|]|]; (destruct (N.eqb_spec c 43); [inversion H; lia|]); (destruct (N.eqb_spec c 47); [inversion H; lia|discriminate]).
Qed.
Lemma b64_bytes : forall n s d, length s <= n -> b64_dec s = Some d -> bytes d.
Proof.
  assert (Q1 : forall a b, (a < 64 -> b < 64 -> a * 4 + b / 16 < 256)%N) by (intros a b A B; assert (b / 16 < 4)%N by (apply N.div_lt_upper_bound; lia); lia).
  assert (Q2 : forall a b, (b < 64 -> a mod 16 * 16 + b / 4 < 256)%N) by (intros a b B; pose proof (N.mod_lt a 16 ltac:(discriminate)); assert (b / 4 < 16)%N by (apply N.div_lt_upper_bound; lia); lia).
  assert (Q3 : forall a b, (b < 64 -> a mod 4 * 64 + b < 256)%N) by (intros a b B; pose proof (N.mod_lt a 4 ltac:(discriminate)); lia).
  induction n as [|n IH]; intros s d L E.
  - destruct s; [inversion E; constructor|cbn in L; lia].
  - destruct s as [|w [|x [|y [|z r]]]]; cbn [b64_dec] in E; try discriminate; [inversion E; constructor|].
    destruct (b64v w) as [w'|] eqn:Ew; [|discriminate]. destruct (b64v x) as [x'|] eqn:Ex; [|discriminate]. apply b64v_lt in Ew, Ex.
    destruct (y =? 61)%N.
    + destruct r; [|discriminate]. destruct (_ && _); [|discriminate]. inversion E; subst. constructor; [apply Q1; assumption|constructor].
    + destruct (b64v y) as [y'|] eqn:Ey; [|discriminate]. apply b64v_lt in Ey. destruct (z =? 61)%N.
      * destruct r; [|discriminate]. destruct (_ =? _)%N; [|discriminate]. inversion E; subst. constructor; [apply Q1; assumption|constructor; [apply Q2; assumption|constructor]].
      * destruct (b64v z) as [z'|] eqn:Ez; [|discriminate]. apply b64v_lt in Ez. destruct (b64_dec r) as [d'|] eqn:Er; [|discriminate]. inversion E; subst.
        apply Forall_cons; [apply Q1; assumption|]. apply Forall_cons; [apply Q2; assumption|]. apply Forall_cons; [apply Q3; assumption|]. apply (IH r d'); [cbn [length] in L; lia|exact Er].
Qed.
Lemma std_ext_range : ext_range std_ext.
Proof.
  split; cbn [std_ext x_ip4_parse x_ip6_parse x_b64_dec].
  - exact ip4_range.
  - exact ip6_range.
  - intros s d H. eapply b64_bytes; [apply le_n|exact H].
Qed.
(** * The EDNS record *)
Definition no_opt (r : response) (s : section_type) : Prop := forall y, In y (sets (get_section r s)) -> rs_type y <> TOPT.
Lemma add_no_opt : forall r s rs r' t, built r -> wf_name (rs_name rs) -> rs_type rs <> TOPT -> add_rrset r s rs = Ok r' -> no_opt r t -> no_opt r' t.
Proof.
  intros r s rs r' t B W T E H y I. destruct B as (_ & _ & Hs). destruct (add_rrset_spec r s rs W (sec_owners _ _ (Hs s))) as (l & E' & D). rewrite E' in E. inversion E; subst r'.
  rewrite get_put in I. destruct (Nat.eqb_spec (section_index s) (section_index t)) as [Es|Es]; [|apply H; exact I]. apply index_inj in Es. subst t. cbn [sets] in I.
  destruct D as [[_ ->]|(l1 & old & l2 & El & _ & [St _] & ->)].
  - apply in_app_or in I. destruct I as [I|[<-|[]]]; [apply H; exact I|exact T].
  - assert (Ho : rs_type old <> TOPT) by (apply H; rewrite El; apply in_or_app; right; left; reflexivity).
    apply in_app_or in I. destruct I as [I|[<-|I]]; [apply H; rewrite El; apply in_or_app; left; exact I|exact Ho|apply H; rewrite El; apply in_or_app; right; right; exact I].
Qed.
Lemma adds_no_opt : forall ops r r', Forall (fun o => match o with BAdd _ rs => rs_type rs <> TOPT | _ => False end) ops -> Forall good_op ops -> built r -> build ops r = Ok r' ->
  no_opt r SAdditional -> built r' /\ no_opt r' SAdditional.
Proof.
  induction ops as [|o ops IH]; intros r r' F G B E H; cbn [build] in E; [inversion E; subst; auto|]. inversion F as [|? ? Fo F']; subst. inversion G as [|? ? Go G']; subst. destruct o; try contradiction.
  apply rbind_ok in E. destruct E as (r1 & E1 & E2). destruct (good_step _ r Go B) as (r1' & E1' & B1). rewrite E1 in E1'. inversion E1'; subst r1'.
  apply (IH r1 r' F' G' B1 E2). cbn [bop_call] in E1. destruct Go as [(W & _) _]. intros y I. exact (add_no_opt _ _ _ _ SAdditional B W Fo E1 H y I).
Qed.
Theorem build_response_edns : forall md x rnd nm t an au ad udp r, ext_range x -> (rnd < 65536)%N -> str nm -> (forall n, name_new nm = Ok n -> length (n_raw n) <= 255) -> type_ok t ->
  texts_ok md x an -> texts_ok md x au -> texts_ok md x ad -> build_response md x rnd nm t an au ad udp = Ok r ->
  get_edns r = Ok (match udp with Some u => Some (mkEdns 0 0 (as_u16 u) false None) | None => None end).
Proof.
  intros md x rnd nm t an au ad udp r X R Sn Nb T Ta Tb Tc E. apply build_response_program in E. destruct E as (n & a & b & c & r0 & En & Fa & Fb & Fc & B & ->).
  assert (W : wf_name n) by (eapply name_new_sized; [apply Sn|exact En|exact (Nb n En)]).
  pose proof (texts_good md x SAnswer an a X Ta Fa) as Ga. pose proof (texts_good md x SAuthority au b X Tb Fb) as Gb. pose proof (texts_good md x SAdditional ad c X Tc Fc) as Gc.
  unfold program in B. rewrite !app_assoc in B. rewrite <- (app_assoc _ _ [BMake]) in B. rewrite build_app in B. apply rbind_ok in B. destruct B as (r1 & B1 & B).
  rewrite <- app_assoc in B1.
  assert (G1 : Forall good_op (map (BAdd SAnswer) a ++ map (BAdd SAuthority) b ++ map (BAdd SAdditional) c)) by (apply Forall_app; split; [exact Ga|apply Forall_app; split; [exact Gb|exact Gc]]).
  assert (F1 : Forall (fun o => match o with BAdd _ rs => rs_type rs <> TOPT | _ => False end) (map (BAdd SAnswer) a ++ map (BAdd SAuthority) b ++ map (BAdd SAdditional) c)).
  { apply Forall_forall. intros o I. rewrite Forall_forall in G1. specialize (G1 o I). rewrite !in_app_iff, !in_map_iff in I. destruct I as [(rs & <- & _)|[(rs & <- & _)|(rs & <- & _)]]; apply G1. }
  destruct (adds_no_opt _ _ r1 F1 G1 (with_question_built rnd n t R W T) B1) as [Bt No]; [intros y []|].
  assert (Ge : forall r2, get_edns (builder_done r2) = get_edns r2) by reflexivity. rewrite Ge.
  destruct udp as [u|]; cbn [app] in B.
  - eapply (edns_visible r1 (mkEdns 0 0 (as_u16 u) false None) [BMake] r0); [destruct Bt as (_ & _ & Hs); exact (sec_owners _ _ (Hs SAdditional))| |reflexivity|exact No|constructor; [exact Logic.I|constructor]|exact B].
    split; [cbn; lia|]. split; [cbn; lia|]. apply as_u16_lt.
  - cbn [build bop_call rbind] in B. inversion B; subst r0. unfold get_edns. cbn [make_response set_rflag map_header r_additional]. unfold no_opt in No. cbn [get_section] in No.
    destruct (r_additional r1) as [l|]; [|reflexivity]. destruct (rev l) as [|y l'] eqn:El; [reflexivity|].
    assert (Iy : In y l) by (apply in_rev; rewrite El; left; reflexivity). specialize (No y Iy). destruct (rrtype_eqb (rs_type y) TOPT) eqn:Eq; [|reflexivity].
    exfalso. apply No. destruct (rs_type y); cbv in Eq; try discriminate; reflexivity.
Qed.

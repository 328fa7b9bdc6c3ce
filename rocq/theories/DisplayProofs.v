(** Proofs about the printed form of names, headers and messages (DisplayModel.v). *)
From Coq Require String.
From Verif Require Import Base BaseLemmas NameModel RenderModel CodesModel RDataModel MsgModel TextModel DisplayModel SpecName SpecBuf SpecCodes SpecMsg SpecText SpecDisplay
  NameWireProofs NameTextProofs2 CodesProofs TextProofs2 TextProofs5 TextProofs6 MsgProofs2 MsgProofs3 MsgProofs4 MsgProofs8.
Import String.StringSyntax.
Open Scope string_scope.
Open Scope list_scope.
Open Scope nat_scope.

(** * Unique reading *)
Lemma split_char : forall (c : N) a b r s, ~ In c a -> ~ In c b -> a ++ c :: r = b ++ c :: s -> a = b /\ r = s.
Proof.
  intros c. induction a as [|x a IH]; intros [|y b] r s A B E.
  - inversion E. auto.
  - cbn in E. inversion E; subst. destruct B. left. reflexivity.
  - cbn in E. inversion E; subst. destruct A. left. reflexivity.
  - cbn in E. inversion E; subst. destruct (IH b r s) as [-> ->]; auto; intro I; [apply A|apply B]; right; auto.
Qed.
Lemma dec_digits : forall n, (n < 4294967296)%N -> Forall is_dec (dec n).
Proof. intros n H. apply (dec_spec n H). Qed.
Lemma dec_no : forall n c, (n < 4294967296)%N -> ~ is_dec c -> ~ In c (dec n).
Proof. intros n c H D I. pose proof (dec_digits n H) as F. rewrite Forall_forall in F. apply D, F, I. Qed.
Lemma dec_inj : forall n m, (n < 4294967296)%N -> (m < 4294967296)%N -> dec n = dec m -> n = m.
Proof. intros n m H K E. rewrite <- (proj2 (dec_spec n H)), <- (proj2 (dec_spec m K)). congruence. Qed.
Lemma dec_split : forall n m c r s, (n < 65536)%N -> (m < 65536)%N -> ~ is_dec c -> dec n ++ c :: r = dec m ++ c :: s -> n = m /\ r = s.
Proof.
  intros n m c r s H K D E. apply split_char in E; [|apply dec_no; auto; lia|apply dec_no; auto; lia]. destruct E as [E ->].
  split; auto. apply dec_inj; auto; lia.
Qed.

(** * Names *)
Definition digs (c : N) : N * N * N := (c / 100, c / 10 mod 10, c mod 10)%N.
Lemma digs_inj : forall a b, digs a = digs b -> (a < 256)%N -> (b < 256)%N -> a = b.
Proof.
  intros a b E A B. unfold digs in E. injection E as E1 E2 E3.
  rewrite (N.div_mod' a 10), (N.div_mod' b 10), E3. f_equal. f_equal.
  rewrite (N.div_mod' (a / 10) 10), (N.div_mod' (b / 10) 10), E2. f_equal. f_equal. rewrite !N.div_div by discriminate. exact E1.
Qed.
Lemma digs_small : forall c, (c < 256)%N -> let '(x, y, z) := digs c in (x < 10 /\ y < 10 /\ z < 10)%N.
Proof.
  intros c H. unfold digs. split; [|split; apply N.mod_lt; discriminate]. apply N.div_lt_upper_bound; [discriminate|]. lia.
Qed.
Lemma special_not_digit : forall c, special c = true -> (c < 48 \/ 58 <= c)%N.
Proof. intros c H. unfold special in H. apply existsb_exists in H. destruct H as (k & I & E). apply N.eqb_eq in E. subst k. cbn in I. intuition lia. Qed.
Lemma show_char_inj : forall a b r s, (a < 256)%N -> (b < 256)%N -> show_char a ++ r = show_char b ++ s -> a = b /\ r = s.
Proof.
  intros a b r s A B E. pose proof (digs_small a A) as Da. pose proof (digs_small b B) as Db. unfold digs in Da, Db.
  unfold show_char in E. pose proof (special_not_digit a) as Sa. pose proof (special_not_digit b) as Sb.
  assert (S92 : special 92 = true) by reflexivity. unfold digit in E. pose proof (digs_inj a b) as Inj. unfold digs in Inj.
  revert Da Db E Inj. generalize (a / 100)%N, (a / 10 mod 10)%N, (a mod 10)%N, (b / 100)%N, (b / 10 mod 10)%N, (b mod 10)%N. intros a1 a2 a3 b1 b2 b3 Da Db E Inj.
  assert (Qa : special a = false -> a <> 92%N) by (intros X ->; discriminate). assert (Qb : special b = false -> b <> 92%N) by (intros X ->; discriminate).
  destruct (special a) eqn:Ea, (special b) eqn:Eb.
  - cbn [app] in E. inversion E. auto.
  - specialize (Sa eq_refl). specialize (Qb eq_refl). destruct (printable b); cbn [app] in E; injection E; intros; exfalso; [congruence|lia].
  - specialize (Sb eq_refl). specialize (Qa eq_refl). destruct (printable a); cbn [app] in E; injection E; intros; exfalso; [congruence|lia].
  - specialize (Qa eq_refl). specialize (Qb eq_refl). destruct (printable a), (printable b); cbn [app] in E; injection E; intros; try (exfalso; congruence); [split; assumption|].
    split; [|assumption]. apply Inj; auto. repeat f_equal; lia.
Qed.
Lemma show_char_head : forall a, (a < 256)%N -> exists c t, show_char a = c :: t /\ c <> 46%N.
Proof.
  intros a A. unfold show_char. destruct (special a) eqn:Es; [do 2 eexists; split; [reflexivity|discriminate]|].
  destruct (printable a); do 2 eexists; (split; [reflexivity|]); [|discriminate]. intros ->. discriminate.
Qed.
Lemma show_label_inj : forall a b r s, bytes a -> bytes b -> show_label a ++ 46%N :: r = show_label b ++ 46%N :: s -> a = b /\ r = s.
Proof.
  induction a as [|x a IH]; intros [|y b] r s A B E.
  - inversion E. auto.
  - exfalso. inversion B; subst. destruct (show_char_head y) as (c & t & Ec & Nc); auto. cbn [show_label flat_map] in E. unfold show_label in E. cbn [flat_map] in E. rewrite Ec in E. cbn in E. inversion E; congruence.
  - exfalso. inversion A; subst. destruct (show_char_head x) as (c & t & Ec & Nc); auto. unfold show_label in E. cbn [flat_map] in E. rewrite Ec in E. cbn in E. inversion E; congruence.
  - inversion A; inversion B; subst. unfold show_label in E. cbn [flat_map] in E. rewrite <- !app_assoc in E. apply show_char_inj in E; auto. destruct E as [-> E].
    destruct (IH b r s) as [-> ->]; auto.
Qed.
Lemma show_labels_inj : forall a b, Forall bytes a -> Forall bytes b -> flat_map (fun l => show_label l ++ [46%N]) a = flat_map (fun l => show_label l ++ [46%N]) b -> a = b.
Proof.
  induction a as [|x a IH]; intros [|y b] A B E; auto.
  - exfalso. cbn in E. destruct (show_label y); discriminate.
  - exfalso. cbn in E. destruct (show_label x); discriminate.
  - inversion A; inversion B; subst. cbn [flat_map] in E. rewrite <- !app_assoc in E. cbn [app] in E. apply show_label_inj in E; auto. destruct E as [-> E]. f_equal. auto.
Qed.
Lemma wf_bytes : forall ls, wf_labels ls -> Forall bytes ls.
Proof. intros ls [W _]. eapply Forall_impl; [|exact W]. intros l H. apply H. Qed.
Lemma show_name_inj : forall a b, wf_labels a -> wf_labels b -> show_name a = show_name b -> a = b.
Proof.
  intros a b A B E.
  assert (K : forall l ls, wf_labels (l :: ls) -> show_name (l :: ls) <> [46%N]).
  { intros l ls W X. pose proof (wf_bytes _ W) as Bl. inversion Bl as [|? ? B1 _]; subst. destruct W as [W _]. inversion W as [|? ? (L & _) _]; subst.
    unfold show_name in X. cbn [flat_map] in X. destruct l as [|c l]; [cbn in L; lia|]. inversion B1; subst.
    destruct (show_char_head c) as (h & t & Ec & Nc); auto. unfold show_label in X. cbn [flat_map] in X. rewrite Ec in X. cbn in X. inversion X. congruence. }
  destruct a as [|x a], b as [|y b]; auto; [exfalso; apply (K _ _ B); symmetry; exact E|exfalso; apply (K _ _ A); exact E|].
  apply show_labels_inj; auto using wf_bytes.
Qed.
Lemma name_display_inj : forall a b s, wf_name a -> wf_name b -> name_display a = Ok s -> name_display b = Ok s -> a = b.
Proof.
  intros a b s (x & X & ->) (y & Y & ->) E1 E2. rewrite name_display_spec in E1, E2 by auto. injection E1 as E1. injection E2 as E2.
  f_equal. apply show_name_inj; congruence.
Qed.

(** * Headers *)
Lemma flags_text_inj : forall a b r s, flat_map (fun f => 32%N :: of_string (hflag_str f)) a ++ 59%N :: r = flat_map (fun f => 32%N :: of_string (hflag_str f)) b ++ 59%N :: s -> a = b /\ r = s.
Proof.
  induction a as [|x a IH]; intros [|y b] r s E.
  - inversion E. auto.
  - exfalso. cbn [flat_map app] in E. inversion E.
  - exfalso. cbn [flat_map app] in E. inversion E.
  - cbn [flat_map] in E. rewrite <- !app_assoc in E.
    assert (x = y /\ flat_map (fun f => 32%N :: of_string (hflag_str f)) a ++ 59%N :: r = flat_map (fun f => 32%N :: of_string (hflag_str f)) b ++ 59%N :: s) as [-> E'].
    { revert E. generalize (flat_map (fun f => 32%N :: of_string (hflag_str f)) a ++ 59%N :: r), (flat_map (fun f => 32%N :: of_string (hflag_str f)) b ++ 59%N :: s). intros u v E.
      destruct x, y; vm_compute in E; inversion E; auto. }
    destruct (IH b r s E') as [-> ->]. auto.
Qed.
Lemma mnemonic_no_comma : forall o c, ~ In 44%N (of_string (opcode_str o)) /\ ~ In 44%N (of_string (rcode_str c)).
Proof. intros o c. split; [destruct o|destruct c]; vm_compute; intuition discriminate. Qed.
Lemma opcode_text_inj : forall a b, of_string (opcode_str a) = of_string (opcode_str b) -> a = b.
Proof. intros a b. destruct a, b; intros E; try reflexivity; vm_compute in E; discriminate. Qed.
Lemma rcode_text_inj : forall a b, of_string (rcode_str a) = of_string (rcode_str b) -> a = b.
Proof. intros a b. destruct a, b; intros E; try reflexivity; vm_compute in E; discriminate. Qed.
Lemma setted_inj : forall h g, header_ok h -> header_ok g -> hf_setted (h_flag h) = hf_setted (h_flag g) -> h_flag h = h_flag g.
Proof.
  intros h g [_ H] [_ G] E. apply N.bits_inj. intro i.
  assert (K : forall f, hf_is_set (h_flag h) f = hf_is_set (h_flag g) f).
  { intro f. apply Bool.eq_true_iff_eq. rewrite <- (proj1 (setted_spec (h_flag h) f)), <- (proj1 (setted_spec (h_flag g) f)), E. reflexivity. }
  apply Bool.eq_true_iff_eq. split; intro T.
  - destruct (H i T) as (f & ->). rewrite <- hf_is_set_bit, <- K, hf_is_set_bit. exact T.
  - destruct (G i T) as (f & ->). rewrite <- hf_is_set_bit, K, hf_is_set_bit. exact T.
Qed.
Lemma app_strip : forall (p a b : list N), p ++ a = p ++ b -> a = b.
Proof. intros. eapply app_inv_head; eauto. Qed.
Lemma cons_strip : forall (c : N) a b, c :: a = c :: b -> a = b.
Proof. intros c a b E. injection E. auto. Qed.
Lemma header_text_inj : forall h g r s, header_ok h -> header_ok g -> header_display h ++ r = header_display g ++ s -> h = g /\ r = s.
Proof.
  intros h g r s H G E. unfold header_display in E. rewrite <- !app_assoc in E.
  apply app_strip in E.
  change (of_string ", status: ") with (44%N :: of_string " status: ") in E. cbn [app] in E.
  apply split_char in E; try apply (mnemonic_no_comma _ RNoError). destruct E as [E1 E]. apply opcode_text_inj in E1.
  change (of_string ", id: ") with (44%N :: of_string " id: ") in E. apply app_strip in E. cbn [app] in E.
  apply split_char in E; try apply (mnemonic_no_comma OQuery _). destruct E as [E2 E]. apply rcode_text_inj in E2.
  apply app_strip in E. pose proof H as [(I1 & I2 & I3 & I4 & I5) _]. pose proof G as [(J1 & J2 & J3 & J4 & J5) _].
  assert (D10 : ~ is_dec 10) by (unfold is_dec; lia). assert (D44 : ~ is_dec 44) by (unfold is_dec; lia).
  cbn [app] in E. apply dec_split in E; auto. destruct E as [E3 E]. apply app_strip in E.
  change (of_string "; ") with (59%N :: [32%N]) in E. cbn [app] in E. apply flags_text_inj in E. destruct E as [E4 E]. apply setted_inj in E4; auto.
  apply cons_strip in E.
  change (of_string ", ") with (44%N :: [32%N]) in E. apply app_strip in E. cbn [app] in E.
  apply dec_split in E; auto. destruct E as [E5 E]. apply cons_strip in E. apply app_strip in E. apply dec_split in E; auto. destruct E as [E6 E].
  apply cons_strip in E. apply app_strip in E. apply dec_split in E; auto. destruct E as [E7 E]. apply cons_strip in E. apply app_strip in E. apply dec_split in E; auto. destruct E as [E8 E].
  apply cons_strip in E. split; auto. destruct h, g; cbn in *; congruence.
Qed.
Lemma header_display_inj : forall h g, header_ok h -> header_ok g -> header_display h = header_display g -> h = g.
Proof. intros h g H G E. apply (header_text_inj h g [] []); auto. rewrite !app_nil_r. exact E. Qed.

(** * Questions and EDNS *)
Lemma question_display_ok : forall q ls, wf_labels ls -> q_name q = name_of ls ->
  question_display q = Ok (show_name ls ++ 32%N :: of_string (rrclass_str (q_class q)) ++ 32%N :: of_string (rrtype_str (q_type q))).
Proof. intros q ls W E. unfold question_display. rewrite E, name_display_spec by auto. reflexivity. Qed.
Lemma show_name_no : forall ls c, wf_labels ls -> (c <= 32 \/ 127 <= c)%N -> ~ In c (show_name ls).
Proof. intros ls c W C I. pose proof (show_name_ascii ls W) as F. rewrite Forall_forall in F. specialize (F c I). lia. Qed.
Lemma class_str_no : forall c k, (k <= 32)%N -> ~ In k (of_string (rrclass_str c)).
Proof.
  intros c k K I. assert (F : Forall (fun b => 32 < b)%N (of_string (rrclass_str c))) by (destruct c; vm_compute; repeat constructor). rewrite Forall_forall in F. specialize (F k I). lia.
Qed.
Lemma type_str_no : forall c k, (k <= 32)%N -> ~ In k (of_string (rrtype_str c)).
Proof.
  intros c k K I. assert (F : Forall (fun b => 32 < b)%N (of_string (rrtype_str c))) by (destruct c; vm_compute; repeat constructor). rewrite Forall_forall in F. specialize (F k I). lia.
Qed.
Lemma class_str_inj : forall a b, (forall v, a <> CUnknown v) -> (forall v, b <> CUnknown v) -> of_string (rrclass_str a) = of_string (rrclass_str b) -> a = b.
Proof. intros a b A B E. destruct a, b; try reflexivity; try (exfalso; eapply A; reflexivity); try (exfalso; eapply B; reflexivity); vm_compute in E; discriminate. Qed.
Lemma type_str_inj : forall a b, readable_type a -> readable_type b -> of_string (rrtype_str a) = of_string (rrtype_str b) -> a = b.
Proof.
  intros a b [A1 A2] [B1 B2] E. destruct a, b; try reflexivity; try (exfalso; eapply A2; reflexivity); try (exfalso; eapply B2; reflexivity); try congruence; vm_compute in E; discriminate.
Qed.
Lemma question_text_inj : forall p q s t u v, text_question p -> text_question q -> question_display p = Ok s -> question_display q = Ok t ->
  s ++ 10%N :: u = t ++ 10%N :: v -> p = q /\ u = v.
Proof.
  intros p q s t u v ((a & Wa & Ea) & Ca & Ta) ((b & Wb & Eb) & Cb & Tb) S1 T1 E. rewrite (question_display_ok p a) in S1 by auto. rewrite (question_display_ok q b) in T1 by auto.
  injection S1 as S1. injection T1 as T1. subst s t.
  assert (X : forall c, (c <= 32)%N -> c <> 32%N -> forall ls z, wf_labels ls -> ~ In c (show_name ls ++ 32%N :: of_string (rrclass_str (q_class z)) ++ 32%N :: of_string (rrtype_str (q_type z)))).
  { intros c C N ls z W I. apply in_app_or in I. destruct I as [I|[I|I]]; [eapply show_name_no; eauto; lia|congruence|]. apply in_app_or in I. destruct I as [I|[I|I]]; [eapply class_str_no; eauto|congruence|eapply type_str_no; eauto]. }
  apply split_char in E; try (apply X; auto; lia). destruct E as [E ->]. split; auto.
  apply split_char in E; try (apply show_name_no; auto; lia). destruct E as [E1 E]. apply show_name_inj in E1; auto.
  apply split_char in E; try (apply class_str_no; lia). destruct E as [E2 E3]. apply class_str_inj in E2; auto. apply type_str_inj in E3; auto.
  destruct p, q; cbn in *. congruence.
Qed.
Lemma edns_display_inj : forall a b, (e_version a < 256 /\ e_udp a < 65536)%N -> (e_version b < 256 /\ e_udp b < 65536)%N -> edns_display a = edns_display b ->
  e_version a = e_version b /\ e_do a = e_do b /\ e_udp a = e_udp b.
Proof.
  intros a b [A1 A2] [B1 B2] E. unfold edns_display in E. apply app_strip in E. assert (D44 : ~ is_dec 44) by (unfold is_dec; lia).
  change (of_string ", ") with (44%N :: [32%N]) in E. cbn [app] in E. apply dec_split in E; auto; try lia. destruct E as [E1 E]. apply cons_strip in E. split; auto.
  pose proof (dec_inj (e_udp a) (e_udp b)) as Inj. revert E Inj. generalize (dec (e_udp a)), (dec (e_udp b)). intros u v E Inj.
  destruct (e_do a), (e_do b); try (vm_compute in E; discriminate); (split; auto).
  - apply app_strip in E. apply app_strip in E. apply Inj; auto; lia.
  - cbn [app] in E. apply app_strip in E. apply Inj; auto; lia.
Qed.

(** * Sections *)
Lemma rrset_ok_wf : forall rs, rrset_ok rs -> wf_name (rs_name rs) /\ Forall (wf_rdata (rs_type rs)) (rs_rdatas rs).
Proof. intros rs (A & _ & _ & _ & B & _). split; auto. eapply Forall_impl; [|exact B]. intros d H. apply H. Qed.
Lemma section_display_total : forall x s, (forall l, s = Some l -> Forall rrset_ok l) -> exists t, section_display x s = Ok t.
Proof.
  intros x [l|] H; [|exists []; reflexivity]. specialize (H l eq_refl). cbn [section_display]. generalize (@nil N). induction l as [|rs l IH]; intros acc; cbn [rfold]; [eauto|].
  inversion H; subst. destruct (rrtype_eqb (rs_type rs) TOPT); cbn [rbind]; [apply IH; auto|].
  destruct (rrset_ok_wf rs) as [A B]; auto. destruct (rrset_display_total x rs A B) as (t & ->). cbn [rbind]. apply IH; auto.
Qed.
Lemma section_ok_rrsets : forall b c s l, section_ok b c s -> s = Some l -> Forall rrset_ok l.
Proof. intros b c s l [_ H] ->. apply H. Qed.
Lemma get_edns_total : forall r, exists e, get_edns r = Ok e.
Proof.
  intros r. unfold get_edns. destruct (r_additional r) as [l|]; [|eauto]. destruct (rev l) as [|rs l']; [eauto|]. destruct (rrtype_eqb (rs_type rs) TOPT) eqn:E; [|eauto].
  unfold edns_from_rrset. rewrite E. cbn [assert_r rbind]. eauto.
Qed.
Lemma titled_total : forall x b n c title s eol, section_ok b n s -> exists t, titled x c title s eol = Ok t.
Proof.
  intros x b n c title s eol H. unfold titled. destruct (0 <? c)%N; [|eauto]. destruct (section_display_total x s) as (t & ->); [intros; eapply section_ok_rrsets; eauto|]. cbn [rbind]. eauto.
Qed.
Lemma question_display_total : forall q, question_ok q -> exists t, question_display q = Ok t.
Proof. intros q ((ls & W & E) & _). rewrite (question_display_ok q ls); eauto. Qed.
Lemma response_display_total : forall x r, consistent r -> exists s, response_display x r = Ok s.
Proof.
  intros x r (_ & _ & Q & A & B & C). unfold response_display. destruct (get_edns_total r) as (e & ->). cbn [rbind].
  destruct (question_display_total _ Q) as (q & ->). cbn [rbind].
  destruct (titled_total x _ _ (h_an (r_header r)) ";; ANSWER SECTION:" _ [10%N] A) as (a & ->). cbn [rbind].
  destruct (titled_total x _ _ (h_ns (r_header r)) ";; AUTHORITY SECTION:" _ [10%N] B) as (b & ->). cbn [rbind].
  destruct (titled_total x _ _ (h_ar (r_header r)) ";; ADDITIONAL SECTION:" _ [] C) as (c & ->). cbn [rbind]. eauto.
Qed.
Lemma decoded_display_total : forall x w r, bytes w -> response_from_wire w = Ok r -> exists s, response_display x r = Ok s.
Proof. intros x w r B H. destruct (response_from_wire_sound w r B H) as (an & ns & ar & _ & _ & C & _). apply response_display_total; auto. Qed.
Lemma request_display_total : forall r, question_ok (rq_question r) -> exists s, request_display r = Ok s.
Proof. intros r Q. unfold request_display. destruct (question_display_total _ Q) as (q & ->). cbn [rbind]. eauto. Qed.
Lemma decoded_request_display_total : forall w r, bytes w -> request_from_wire w = Ok r -> exists s, request_display r = Ok s.
Proof. intros w r B H. destruct (request_decoded_ok w r B H) as (_ & (_ & _ & _ & Q) & _). apply request_display_total; auto. Qed.
Lemma notify_display_total : forall x n, wf_name (q_name (nq_question n)) -> (forall rs, nq_soa n = Some rs -> rrset_ok rs) -> exists s, notify_display x n = Ok s.
Proof.
  intros x n (ls & W & E) H. unfold notify_display. rewrite E, name_display_spec by auto. cbn [rbind]. destruct (nq_soa n) as [rs|]; [|eexists; reflexivity].
  destruct (rrset_ok_wf rs) as [A B]; auto. destruct (rrset_display_total x rs A B) as (t & ->). cbn [rbind]. eexists. reflexivity.
Qed.

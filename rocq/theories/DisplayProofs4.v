(** Proof of the exact form of C73: when two messages print the same. *)
From Coq Require String.
From Verif Require Import Base BaseLemmas NameModel RenderModel CodesModel RDataModel MsgModel TextModel DisplayModel SpecName SpecBuf SpecCodes SpecMsg SpecText SpecDisplay
  CodesProofs TextProofs5 MsgProofs2 MsgProofs3 MsgProofs4 DisplayProofs DisplayProofs2.
Import String.StringSyntax.
Open Scope string_scope.
Open Scope list_scope.
Open Scope nat_scope.

(** the text is that of the records, one by one *)
Definition rr_text (x : ext) (y : rr) : res (list N) :=
  rrset_display x (mkRRset (rr_owner y) (rr_type y) (rr_class y) (rr_ttl y) (match rr_data y with Some d => [d] | None => [] end)).
Definition add_text (x : ext) (acc : list N) (y : rr) : res (list N) := let? t := rr_text x y in Ok (acc ++ t).
Lemma rfold_ext : forall A B (f g : B -> A -> res B) l acc, (forall b a, f b a = g b a) -> rfold f l acc = rfold g l acc.
Proof. intros A B f g l. induction l as [|a l IH]; intros acc E; cbn [rfold]; [reflexivity|]. rewrite E. destruct (g acc a) as [b| | |]; cbn [rbind]; auto. Qed.
Lemma display_acc : forall x rs h l acc, rrset_header rs = h ->
  rfold (fun acc rd => let? h := rrset_header rs in let? r := rdata_display x rd in Ok (acc ++ h ++ [9%N] ++ r ++ [10%N])) l acc =
  rfold (fun acc rd => let? t := (let? h := h in let? r := rdata_display x rd in Ok ([] ++ h ++ [9%N] ++ r ++ [10%N])) in Ok (acc ++ t)) l acc.
Proof. intros x rs h l acc E. apply rfold_ext. intros b a. rewrite E. destruct h as [h| | |]; cbn [rbind]; auto. destruct (rdata_display x a) as [r| | |]; cbn [rbind]; auto. Qed.
Lemma rfold_out : forall A (f : A -> res (list N)) l acc, rfold (fun acc a => let? t := f a in Ok (acc ++ t)) l acc = (let? t := rfold (fun acc a => let? t := f a in Ok (acc ++ t)) l [] in Ok (acc ++ t)).
Proof.
  intros A f l. induction l as [|a l IH]; intros acc; cbn [rfold]; [cbn; rewrite app_nil_r; reflexivity|]. destruct (f a) as [t| | |]; cbn [rbind]; auto. rewrite IH. rewrite (IH ([] ++ t)).
  destruct (rfold _ l []) as [u| | |]; cbn [rbind]; auto. cbn [app]. rewrite app_assoc. reflexivity.
Qed.
Lemma rfold_app : forall A B (f : B -> A -> res B) l m acc, rfold f (l ++ m) acc = (let? b := rfold f l acc in rfold f m b).
Proof. intros A B f l. induction l as [|a l IH]; intros m acc; cbn [rfold app]; [reflexivity|]. destruct (f acc a) as [b| | |]; cbn [rbind]; auto. Qed.
Lemma rfold_map : forall A B C (f : B -> C -> res B) (g : A -> C) l acc, rfold f (map g l) acc = rfold (fun acc a => f acc (g a)) l acc.
Proof. intros A B C f g l. induction l as [|a l IH]; intros acc; cbn [rfold map]; [reflexivity|]. destruct (f acc (g a)) as [b| | |]; cbn [rbind]; auto. Qed.
Lemma records_text : forall x rs acc, rfold (add_text x) (rrs_of rs) acc = (let? t := rrset_display x rs in Ok (acc ++ t)).
Proof.
  intros x rs acc. unfold rrset_display. rewrite (display_acc x rs _ _ _ eq_refl). rewrite <- rfold_out. unfold rrs_of. destruct (rs_rdatas rs) as [|d l] eqn:E.
  - cbn [rfold]. unfold add_text, rr_text, rrset_display. cbn. rewrite app_nil_r. reflexivity.
  - rewrite rfold_map. apply rfold_ext. intros b a. unfold add_text, rr_text, rrset_display. cbn [rr_data rr_owner rr_type rr_class rr_ttl rs_rdatas rfold].
    change (rrset_header (mkRRset (rs_name rs) (rs_type rs) (rs_class rs) (rs_ttl rs) [a])) with (rrset_header rs).
    destruct (rrset_header rs) as [h| | |]; cbn [rbind]; auto. destruct (rdata_display x a) as [r| | |]; cbn [rbind]; auto.
Qed.
Lemma section_by_records : forall x s, section_display x s = rfold (add_text x) (printed_records s) [].
Proof.
  intros x [l|]; [|reflexivity]. unfold section_display, printed_records. cbn [records]. generalize (@nil N). induction l as [|rs l IH]; intros acc; [reflexivity|]. cbn [rfold flat_map]. rewrite filter_app, rfold_app.
  destruct (rrtype_eqb (rs_type rs) TOPT) eqn:E.
  - cbn [rbind]. rewrite (filter_none _ _ (rrs_of rs)); [|intros y Y; apply rrs_of_type in Y; rewrite Y, E; reflexivity]. cbn [rfold rbind]. apply IH.
  - rewrite (filter_all _ _ (rrs_of rs)); [|intros y Y; apply rrs_of_type in Y; rewrite Y, E; reflexivity]. rewrite records_text. destruct (rrset_display x rs) as [t| | |]; cbn [rbind]; auto.
Qed.
Lemma same_content_display : forall x r r', same_text_content r r' -> response_display x r = response_display x r'.
Proof.
  intros x r r' (Hh & Hq & A & B & C & E). unfold response_display, titled. rewrite !section_by_records, A, B, C, Hh, Hq.
  destruct (get_edns r) as [e| | |], (get_edns r') as [e'| | |]; cbn [rbind] in *; try discriminate E; auto. apply Ok_inj in E.
  destruct e as [e|], e' as [e'|]; cbn [option_map] in E; try discriminate E; [|reflexivity].
  assert (X : edns_display e = edns_display e'). { unfold edns_shown in E. injection E as E1 E2 E3. unfold edns_display. rewrite E1, E2, E3. reflexivity. }
  rewrite X. reflexivity.
Qed.

(** and conversely *)
Lemma edns_text_inj : forall a b u v, (e_version a < 256 /\ e_udp a < 65536)%N -> (e_version b < 256 /\ e_udp b < 65536)%N -> edns_display a ++ 59%N :: u = edns_display b ++ 59%N :: v -> edns_shown a = edns_shown b /\ u = v.
Proof.
  intros a b p q [A1 A2] [B1 B2] E. unfold edns_display in E. rewrite <- !app_assoc in E. apply app_strip in E. assert (D44 : ~ is_dec 44) by (unfold is_dec; lia). assert (D59 : ~ is_dec 59) by (unfold is_dec; lia).
  change (of_string ", ") with (44%N :: [32%N]) in E. cbn [app] in E. apply dec_split in E; auto; try lia. destruct E as [E1 E]. apply cons_strip in E. unfold edns_shown.
  pose proof (fun r s => dec_split (e_udp a) (e_udp b) 59 r s) as Inj. 
  destruct (e_do a), (e_do b).
  - apply app_strip in E. apply app_strip in E. apply dec_split in E; auto; try lia. destruct E as [E2 E]. rewrite E1, E2. split; [reflexivity|]. congruence.
  - exfalso. revert E. generalize (dec (e_udp a)), (dec (e_udp b)). intros x y E. vm_compute in E. discriminate.
  - exfalso. revert E. generalize (dec (e_udp a)), (dec (e_udp b)). intros x y E. vm_compute in E. discriminate.
  - cbn [app] in E. apply app_strip in E. apply dec_split in E; auto; try lia. destruct E as [E2 E]. rewrite E1, E2. split; [reflexivity|]. congruence.
Qed.
Lemma edns_in_range : forall r e, consistent r -> get_edns r = Ok (Some e) -> (e_version e < 256 /\ e_udp e < 65536)%N.
Proof.
  intros r e (_ & _ & _ & _ & _ & C) G. unfold get_edns in G. destruct (r_additional r) as [l|] eqn:EL; [|apply Ok_inj in G; discriminate]. destruct (rev l) as [|rs l'] eqn:ER; [apply Ok_inj in G; discriminate|].
  destruct (rrtype_eqb (rs_type rs) TOPT) eqn:ET; [|apply Ok_inj in G; discriminate]. unfold edns_from_rrset, assert_r in G. rewrite ET in G. cbn [rbind] in G. apply Ok_inj in G.
  assert (G' : e = mkEdns (as_u8 (N.shiftr (N.land (rs_ttl rs) 16711680) 16)) (as_u8 (N.shiftr (rs_ttl rs) 24)) (rrclass_u16 (rs_class rs)) (negb (N.land (rs_ttl rs) 32768 =? 0)%N) None) by congruence. clear G. subst e. cbn [e_version e_udp].
  split; [unfold as_u8; apply N.mod_lt; discriminate|]. destruct C as [_ (_ & F & _)]. assert (I : In rs l) by (apply in_rev; rewrite ER; left; reflexivity).
  rewrite Forall_forall in F. destruct (F rs I) as (_ & _ & CO & _). apply CO.
Qed.
Lemma section_print_inj : forall x c s s' title eol t t' u v, (c = blen (records s))%N -> (c = blen (records s'))%N ->
  section_text x title s (10%N :: eol) t -> section_text x title s' (10%N :: eol) t' -> t ++ u = t' ++ v -> printed_records s = printed_records s' /\ u = v.
Proof.
  intros x c s s' title eol t t' u v K K' [A1 A2] [B1 B2] E.
  assert (L : records s = [] <-> records s' = []).
  { rewrite K in K'. unfold blen in K'. destruct (records s), (records s'); cbn in K'; split; intro; try congruence; lia. }
  destruct (records s) eqn:Es.
  - rewrite A1, B1 in E by (auto; apply L; auto). cbn in E. split; auto. unfold printed_records. rewrite Es, (proj1 L eq_refl). reflexivity.
  - destruct A2 as (ta & Ra & ->); [discriminate|]. destruct B2 as (tb & Rb & ->). { intros Z. apply L in Z. discriminate. }
    rewrite <- !app_assoc in E. apply app_strip in E. apply app_strip in E. cbn [app] in E. apply (record_lines_inj x s s') in E; eauto. destruct E as [E1 E2].
    apply cons_strip in E2. apply app_strip in E2. auto.
Qed.
Lemma section_print_inj_end : forall x c s s' title t, (c = blen (records s))%N -> (c = blen (records s'))%N ->
  section_text x title s [] t -> section_text x title s' [] t -> printed_records s = printed_records s'.
Proof.
  intros x c s s' title t K K' [A1 A2] [B1 B2].
  assert (L : records s = [] <-> records s' = []).
  { rewrite K in K'. unfold blen in K'. destruct (records s), (records s'); cbn in K'; split; intro; try congruence; lia. }
  destruct (records s) eqn:Es.
  - unfold printed_records. rewrite Es, (proj1 L eq_refl). reflexivity.
  - destruct A2 as (ta & Ra & ->); [discriminate|]. destruct B2 as (tb & Rb & E). { intros Z. apply L in Z. discriminate. }
    apply app_strip in E. apply app_strip in E. apply (record_lines_inj x s s') in E; eauto. apply E.
Qed.
Lemma display_content : forall x r r' s, ext_ok x -> consistent r -> consistent r' -> text_response r -> text_response r' ->
  response_display x r = Ok s -> response_display x r' = Ok s -> same_text_content r r'.
Proof.
  intros x r r' s X K K' (Q & T1 & T2 & T3) (Q' & T1' & T2' & T3') E E'.
  destruct (response_display_text x r X K T1 T2 T3) as (e & q & an & ns & ar & Ee & Eq & S1 & S2 & S3 & D).
  destruct (response_display_text x r' X K' T1' T2' T3') as (e' & q' & an' & ns' & ar' & Ee' & Eq' & S1' & S2' & S3' & D').
  pose proof K as (H & _ & _ & A & B & C). pose proof K' as (H' & _ & _ & A' & B' & C').
  rewrite E in D. rewrite E' in D'. rewrite D in D'. apply Ok_inj in D'. clear D E E'. apply header_text_inj in D'; auto. destruct D' as [Hh D]. apply app_strip in D.
  assert (G : option_map edns_shown e = option_map edns_shown e' /\ of_string ";; QUESTION SECTION:" ++ [10%N] ++ q ++ [10; 10]%N ++ an ++ ns ++ ar = of_string ";; QUESTION SECTION:" ++ [10%N] ++ q' ++ [10; 10]%N ++ an' ++ ns' ++ ar').
  { destruct e as [e|], e' as [e'|]; cbn [edns_part option_map] in *.
    - rewrite <- !app_assoc in D. apply app_strip in D. apply app_strip in D. change (of_string ";; QUESTION SECTION:") with (59%N :: of_string "; QUESTION SECTION:") in *. cbn [app] in D.
      apply edns_text_inj in D; [|exact (edns_in_range r e K Ee)|exact (edns_in_range r' e' K' Ee')]. destruct D as [D1 D2]. rewrite D1. split; [reflexivity|]. exact (f_equal (cons 59%N) D2).
    - exfalso. rewrite <- !app_assoc in D. change (of_string ";; OPT PSEUDOSECTION:") with (of_string ";; " ++ 79%N :: of_string "PT PSEUDOSECTION:") in D. change (of_string ";; QUESTION SECTION:") with (of_string ";; " ++ 81%N :: of_string "UESTION SECTION:") in D.
      rewrite <- !app_assoc in D. rewrite ?app_nil_l in D. apply app_strip in D. cbn [app] in D. discriminate D.
    - exfalso. rewrite <- !app_assoc in D. change (of_string ";; OPT PSEUDOSECTION:") with (of_string ";; " ++ 79%N :: of_string "PT PSEUDOSECTION:") in D. change (of_string ";; QUESTION SECTION:") with (of_string ";; " ++ 81%N :: of_string "UESTION SECTION:") in D.
      rewrite <- !app_assoc in D. rewrite ?app_nil_l in D. apply app_strip in D. cbn [app] in D. discriminate D.
    - split; [reflexivity|exact D]. }
  clear D. destruct G as [Ge D].
  apply app_strip in D. apply app_strip in D. cbn [app] in D. apply (question_text_inj (r_question r) (r_question r')) in D; auto. destruct D as [Hq D].
  apply cons_strip in D. rewrite <- Hh in A', B', C'.
  eapply (section_print_inj x _ (r_answer r) (r_answer r')) in D; [|apply A|apply A'|exact S1|exact S1']. destruct D as [Ha D].
  eapply (section_print_inj x _ (r_authority r) (r_authority r')) in D; [|apply B|apply B'|exact S2|exact S2']. destruct D as [Hb D]. subst ar'.
  pose proof (section_print_inj_end x _ (r_additional r) (r_additional r') _ _ (proj1 C) (proj1 C') S3 S3') as Hc.
  unfold same_text_content. rewrite Ee, Ee'. cbn [rbind]. rewrite Ge. split; [exact Hh|]. split; [exact Hq|]. split; [exact Ha|]. split; [exact Hb|]. split; [exact Hc|reflexivity].
Qed.
Theorem display_exact : forall x r r' s, ext_ok x -> consistent r -> consistent r' -> text_response r -> text_response r' -> response_display x r = Ok s ->
  (response_display x r' = Ok s <-> same_text_content r r').
Proof.
  intros x r r' s X K K' T T' E. split; intros H; [eapply display_content; eauto|]. rewrite <- E. symmetry. apply same_content_display. exact H.
Qed.

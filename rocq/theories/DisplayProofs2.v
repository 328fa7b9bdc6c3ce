(** Proofs about the printed form of whole messages: what it contains and that nothing is lost. *)
From Coq Require String.
From Verif Require Import Base BaseLemmas NameModel RenderModel CodesModel RDataModel MsgModel TextModel DisplayModel SpecName SpecBuf SpecCodes SpecMsg SpecText SpecDisplay
  CodesProofs TextProofs5 MsgProofs2 MsgProofs3 MsgProofs4 DisplayProofs.
Import String.StringSyntax.
Open Scope string_scope.
Open Scope list_scope.
Open Scope nat_scope.

Definition reads_back (x : ext) (line : list N) (y : rr) : Prop := ~ In 10%N line /\ exists d, rr_data y = Some d /\
  forall md, rrset_from_str md x line = Ok (mkRRset (rr_owner y) (rr_type y) (rr_class y) (rr_ttl y) [d]).
Lemma rrs_of_some : forall rs, rs_rdatas rs <> [] -> rrs_of rs = map (fun d => mkRR (rs_name rs) (rs_type rs) (rs_class rs) (rs_ttl rs) (Some d)) (rs_rdatas rs).
Proof. intros rs H. unfold rrs_of. destruct (rs_rdatas rs); [congruence|reflexivity]. Qed.
Lemma rrs_of_type : forall rs y, In y (rrs_of rs) -> rr_type y = rs_type rs.
Proof.
  intros rs y. unfold rrs_of. destruct (rs_rdatas rs) as [|d l]; [intros [<-|[]]; reflexivity|]. rewrite in_map_iff. intros (z & <- & _). reflexivity.
Qed.
Lemma filter_all : forall A (f : A -> bool) l, (forall y, In y l -> f y = true) -> filter f l = l.
Proof. induction l as [|a l IH]; intros H; cbn; auto. rewrite H by (left; auto). f_equal. apply IH. intros y Y. apply H. right. auto. Qed.
Lemma filter_none : forall A (f : A -> bool) l, (forall y, In y l -> f y = false) -> filter f l = [].
Proof. induction l as [|a l IH]; intros H; cbn; auto. rewrite H by (left; auto). apply IH. intros y Y. apply H. right. auto. Qed.
Lemma section_lines : forall x l acc, ext_ok x -> Forall rrset_ok l -> (forall rs, In rs l -> rs_type rs <> TOPT -> text_rrset rs) ->
  exists lines, rfold (fun acc rs => if rrtype_eqb (rs_type rs) TOPT then Ok acc else let? t := rrset_display x rs in Ok (acc ++ t)) l acc = Ok (acc ++ flat_map (fun z => z ++ [10%N]) lines) /\
    Forall2 (reads_back x) lines (filter (fun y => negb (rrtype_eqb (rr_type y) TOPT)) (flat_map rrs_of l)).
Proof.
  intros x l acc X. revert acc. induction l as [|rs l IH]; intros acc F T.
  - exists []. cbn. rewrite app_nil_r. auto.
  - inversion F as [|? ? K F']; subst. cbn [rfold flat_map]. rewrite filter_app. destruct (rrtype_eqb (rs_type rs) TOPT) eqn:E.
    + cbn [rbind]. destruct (IH acc F') as (lines & A & B); [intros; apply T; auto; right; auto|]. exists lines. split; auto.
      rewrite (filter_none _ _ (rrs_of rs)); [exact B|]. intros y Y. apply rrs_of_type in Y. rewrite Y, E. reflexivity.
    + assert (N : rs_type rs <> TOPT). { intros Z. rewrite Z in E. discriminate. }
      destruct (rrset_display_lines x rs X (T rs (or_introl eq_refl) N)) as (ls & D & G). rewrite D. cbn [rbind].
      destruct (IH (acc ++ flat_map (fun z => z ++ [10%N]) ls) F') as (lines & A & B); [intros; apply T; auto; right; auto|].
      exists (ls ++ lines). rewrite A. split; [rewrite flat_map_app, app_assoc; reflexivity|]. apply Forall2_app; [|exact B].
      rewrite filter_all. 2:{ intros y Y. apply rrs_of_type in Y. rewrite Y, E. reflexivity. }
      assert (M : rs_rdatas rs <> []). { intros Z. apply N. apply K. exact Z. }
      rewrite rrs_of_some by auto. clear -G. induction G as [|line d ls ds (_ & A & B) G IH]; cbn [map]; constructor; auto.
      split; auto. exists d. split; auto. intros md. specialize (B md [] [] eq_refl eq_refl). rewrite app_nil_r in B. exact B.
Qed.
Lemma section_record_lines : forall x b c s, ext_ok x -> section_ok b c s -> text_section s -> exists t, section_display x s = Ok t /\ record_lines x s t.
Proof.
  intros x b c s X K T. destruct s as [l|].
  - destruct (section_lines x l [] X) as (lines & A & B); [eapply section_ok_rrsets; eauto|intros; eapply T; eauto|].
    exists (flat_map (fun z => z ++ [10%N]) lines). split; [exact A|]. exists lines. split; auto.
  - exists []. split; [reflexivity|]. exists []. split; [reflexivity|constructor].
Qed.
Lemma blen_pos : forall A (l : list A), (0 <? blen l)%N = match l with [] => false | _ => true end.
Proof. intros A [|a l]; [reflexivity|]. unfold blen. apply N.ltb_lt. cbn [length]. lia. Qed.
Lemma titled_text : forall x b c s title eol, ext_ok x -> section_ok b c s -> text_section s -> exists t, titled x c title s eol = Ok t /\ section_text x title s eol t.
Proof.
  intros x b c s title eol X K T. destruct (section_record_lines x b c s X K T) as (t & D & R). unfold titled, section_text. rewrite (proj1 K), blen_pos.
  destruct (records s) eqn:E.
  - exists []. split; [reflexivity|]. split; congruence.
  - rewrite D. cbn [rbind]. exists (of_string title ++ [10%N] ++ t ++ eol). split; [reflexivity|]. split; [congruence|]. intros _. exists t. auto.
Qed.
Definition edns_part (e : option edns) : list N := match e with Some e => of_string ";; OPT PSEUDOSECTION:" ++ [10%N] ++ edns_display e | None => [] end.
Lemma response_display_text : forall x r, ext_ok x -> consistent r -> text_section (r_answer r) -> text_section (r_authority r) -> text_section (r_additional r) ->
  exists e q an ns ar, get_edns r = Ok e /\ question_display (r_question r) = Ok q /\
    section_text x ";; ANSWER SECTION:" (r_answer r) [10%N] an /\ section_text x ";; AUTHORITY SECTION:" (r_authority r) [10%N] ns /\
    section_text x ";; ADDITIONAL SECTION:" (r_additional r) [] ar /\
    response_display x r = Ok (header_display (r_header r) ++ [10%N] ++ edns_part e ++ of_string ";; QUESTION SECTION:" ++ [10%N] ++ q ++ [10; 10]%N ++ an ++ ns ++ ar).
Proof.
  intros x r X (_ & _ & Q & A & B & C) TA TB TC. unfold response_display. destruct (get_edns_total r) as (e & E). destruct (question_display_total _ Q) as (q & Eq).
  destruct (titled_text x _ _ _ ";; ANSWER SECTION:" [10%N] X A TA) as (an & E1 & S1).
  destruct (titled_text x _ _ _ ";; AUTHORITY SECTION:" [10%N] X B TB) as (ns & E2 & S2).
  destruct (titled_text x _ _ _ ";; ADDITIONAL SECTION:" [] X C TC) as (ar & E3 & S3).
  exists e, q, an, ns, ar. repeat (split; [assumption|]). rewrite E, Eq, E1, E2, E3. cbn [rbind]. reflexivity.
Qed.

(** * Nothing is lost *)
Lemma empty_line : forall x rs, rrset_from_str Release x [] <> Ok rs.
Proof. intros x rs H. vm_compute in H. discriminate. Qed.
Lemma reads_inj : forall x l a b, reads_back x l a -> reads_back x l b -> a = b.
Proof.
  intros x l a b (_ & d & D & A) (_ & e & E & B). specialize (A Release). specialize (B Release). rewrite A in B. injection B as B1 B2 B3 B4 B5. destruct a, b; cbn in *. congruence.
Qed.
Lemma reads_nonempty : forall x l a, reads_back x l a -> l <> [].
Proof. intros x l a (_ & d & _ & A) ->. eapply empty_line. apply (A Release). Qed.
Lemma lines_inj : forall x la a, Forall2 (reads_back x) la a -> forall lb b u v, Forall2 (reads_back x) lb b ->
  (u = [] \/ exists u', u = 10%N :: u') -> (v = [] \/ exists v', v = 10%N :: v') ->
  flat_map (fun z => z ++ [10%N]) la ++ u = flat_map (fun z => z ++ [10%N]) lb ++ v -> a = b /\ u = v.
Proof.
  intros x la a H. induction H as [|l y la a R H IH]; intros lb b u v G U V E.
  - inversion G as [|l2 y2 lb' b' R2 G']; subst; [auto|]. exfalso. cbn [flat_map app] in E. rewrite <- !app_assoc in E. pose proof (reads_nonempty _ _ _ R2). destruct l2 as [|c l2]; [congruence|].
    destruct R2 as [N _]. destruct U as [->|[u' ->]]; cbn [app] in E; [discriminate|]. apply N. left. congruence.
  - inversion G as [|l2 y2 lb' b' R2 G']; subst.
    + exfalso. cbn [flat_map app] in E. rewrite <- !app_assoc in E. pose proof (reads_nonempty _ _ _ R). destruct l as [|c l]; [congruence|].
      destruct R as [N _]. destruct V as [->|[v' ->]]; cbn [app] in E; [discriminate|]. apply N. left. congruence.
    + cbn [flat_map] in E. rewrite <- !app_assoc in E. cbn [app] in E. apply split_char in E; [|apply R|apply R2]. destruct E as [-> E].
      destruct (IH lb' b' u v G' U V E) as [-> ->]. split; auto. f_equal. eapply reads_inj; eauto.
Qed.
Lemma record_lines_inj : forall x s s' t t' u v, record_lines x s t -> record_lines x s' t' -> (u = [] \/ exists u', u = 10%N :: u') -> (v = [] \/ exists v', v = 10%N :: v') ->
  t ++ u = t' ++ v -> printed_records s = printed_records s' /\ u = v.
Proof. intros x s s' t t' u v (la & -> & A) (lb & -> & B) U V E. eapply lines_inj; eauto. Qed.
Lemma rrset_ok_set_like : forall l, Forall rrset_ok l -> Forall set_like l.
Proof. intros l F. eapply Forall_impl; [|exact F]. intros rs (W & _ & _ & _ & _ & _ & O). split; auto. Qed.
Lemma sections_eq : forall b c s s', section_ok b c s -> section_ok b c s' -> records s = records s' -> s = s'.
Proof.
  assert (K : forall b c s, section_ok b c s -> s = group (records s)).
  { intros b c [l|] [_ H]; [|reflexivity]. destruct H as (N & F & R & _). symmetry. apply (group_flat l N (rrset_ok_set_like l F) R). }
  intros b c s s' A B E. rewrite (K _ _ _ A), (K _ _ _ B), E. reflexivity.
Qed.
Lemma printed_all : forall r s, no_opt r -> incl (records s) (all_records r) -> printed_records s = records s.
Proof.
  intros r s N I. apply filter_all. intros y Y. apply negb_true_iff. destruct (rrtype_eqb (rr_type y) TOPT) eqn:E; auto.
  exfalso. apply (N y (I y Y)). destruct (rr_type y); try discriminate. reflexivity.
Qed.
Lemma section_text_inj : forall x b c s s' title eol t t' u v, section_ok b c s -> section_ok b c s' -> printed_records s = records s -> printed_records s' = records s' ->
  section_text x title s (10%N :: eol) t -> section_text x title s' (10%N :: eol) t' -> t ++ u = t' ++ v -> s = s' /\ u = v.
Proof.
  intros x b c s s' title eol t t' u v K K' P P' [A1 A2] [B1 B2] E.
  assert (L : records s = [] <-> records s' = []).
  { destruct K as [K _], K' as [K' _]. rewrite K in K'. unfold blen in K'. destruct (records s), (records s'); cbn in K'; split; intro; try congruence; lia. }
  destruct (records s) eqn:Es.
  - rewrite A1, B1 in E by (auto; apply L; auto). cbn in E. split; auto. eapply sections_eq; eauto. rewrite Es. symmetry. apply L. reflexivity.
  - destruct A2 as (ta & Ra & ->); [discriminate|]. destruct B2 as (tb & Rb & ->). { intros Z. apply L in Z. discriminate. }
    rewrite <- !app_assoc in E. apply app_strip in E. apply app_strip in E. cbn [app] in E. apply (record_lines_inj x s s') in E; eauto. destruct E as [E1 E2].
    rewrite P, P' in E1. apply cons_strip in E2. apply app_strip in E2. split; auto. eapply sections_eq; eauto. congruence.
Qed.
Lemma section_text_inj_end : forall x b c s s' title t, section_ok b c s -> section_ok b c s' -> printed_records s = records s -> printed_records s' = records s' ->
  section_text x title s [] t -> section_text x title s' [] t -> s = s'.
Proof.
  intros x b c s s' title t K K' P P' [A1 A2] [B1 B2].
  assert (L : records s = [] <-> records s' = []).
  { destruct K as [K _], K' as [K' _]. rewrite K in K'. unfold blen in K'. destruct (records s), (records s'); cbn in K'; split; intro; try congruence; lia. }
  destruct (records s) eqn:Es.
  - eapply sections_eq; eauto. rewrite Es. symmetry. apply L. reflexivity.
  - destruct A2 as (ta & Ra & ->); [discriminate|]. destruct B2 as (tb & Rb & E). { intros Z. apply L in Z. discriminate. }
    apply app_strip in E. apply app_strip in E. apply (record_lines_inj x s s') in E; eauto. destruct E as [E1 _].
    rewrite P, P' in E1. eapply sections_eq; eauto. congruence.
Qed.
Lemma no_opt_edns : forall r e, no_opt r -> get_edns r = Ok e -> e = None.
Proof.
  intros r e N H. unfold get_edns in H. destruct (r_additional r) as [l|] eqn:E; [|congruence]. destruct (rev l) as [|rs l'] eqn:R; [congruence|].
  destruct (rrtype_eqb (rs_type rs) TOPT) eqn:T; [|congruence]. exfalso.
  assert (I : In rs l) by (apply in_rev; rewrite R; left; reflexivity).
  assert (Z : exists y, In y (rrs_of rs)). { unfold rrs_of. destruct (rs_rdatas rs); eexists; left; reflexivity. }
  destruct Z as (y & Y). apply (N y).
  - unfold all_records. rewrite !in_app_iff. right. right. rewrite E. cbn [records]. apply in_flat_map. exists rs. auto.
  - rewrite (rrs_of_type rs y Y). destruct (rs_type rs); try discriminate. reflexivity.
Qed.
Lemma response_display_inj : forall x r r' s, ext_ok x -> consistent r -> consistent r' -> text_response r -> text_response r' -> no_opt r -> no_opt r' ->
  response_display x r = Ok s -> response_display x r' = Ok s -> r = r'.
Proof.
  intros x r r' s X K K' (Q & T1 & T2 & T3) (Q' & T1' & T2' & T3') N N' E E'.
  destruct (response_display_text x r X K T1 T2 T3) as (e & q & an & ns & ar & Ee & Eq & S1 & S2 & S3 & D).
  destruct (response_display_text x r' X K' T1' T2' T3') as (e' & q' & an' & ns' & ar' & Ee' & Eq' & S1' & S2' & S3' & D').
  pose proof K as (H & _ & _ & A & B & C). pose proof K' as (H' & _ & _ & A' & B' & C').
  rewrite (no_opt_edns r e N Ee) in D. rewrite (no_opt_edns r' e' N' Ee') in D'.
  rewrite E in D. rewrite E' in D'. rewrite D in D'. apply Ok_inj in D'. clear D E E' Ee Ee'. apply header_text_inj in D'; auto. destruct D' as [Hh D]. apply app_strip in D. cbn [edns_part] in D.
  apply app_strip in D. apply app_strip in D. apply app_strip in D. cbn [app] in D. apply (question_text_inj (r_question r) (r_question r')) in D; auto. destruct D as [Hq D].
  apply cons_strip in D. rewrite <- Hh in A', B', C'.
  assert (I : forall z, incl (records (r_answer z)) (all_records z) /\ incl (records (r_authority z)) (all_records z) /\ incl (records (r_additional z)) (all_records z)).
  { intros z. unfold all_records. repeat split; intros y Y; rewrite !in_app_iff; auto. }
  destruct (I r) as (I1 & I2 & I3). destruct (I r') as (J1 & J2 & J3).
  pose proof (printed_all r _ N I1). pose proof (printed_all r _ N I2). pose proof (printed_all r _ N I3).
  pose proof (printed_all r' _ N' J1). pose proof (printed_all r' _ N' J2). pose proof (printed_all r' _ N' J3).
  eapply (section_text_inj x _ _ (r_answer r) (r_answer r')) in D; eauto. destruct D as [Ha D]. eapply (section_text_inj x _ _ (r_authority r) (r_authority r')) in D; eauto. destruct D as [Hb D]. subst ar'.
  assert (Hc : r_additional r = r_additional r') by (eapply section_text_inj_end; eauto).
  clear -Hh Hq Ha Hb Hc. destruct r as [h1 q1 a1 b1 c1], r' as [h2 q2 a2 b2 c2]; cbn in Hh, Hq, Ha, Hb, Hc; subst; reflexivity.
Qed.
Lemma request_display_inj : forall r r' s, header_ok (rq_header r) -> header_ok (rq_header r') -> text_question (rq_question r) -> text_question (rq_question r') ->
  request_display r = Ok s -> request_display r' = Ok s -> r = r'.
Proof.
  intros r r' s H H' Q Q' E E'. unfold request_display in E, E'. destruct (question_display (rq_question r)) as [q| | |] eqn:Eq; try discriminate. destruct (question_display (rq_question r')) as [q'| | |] eqn:Eq'; try discriminate.
  cbn [rbind] in E, E'. apply Ok_inj in E. apply Ok_inj in E'. rewrite <- E' in E. apply header_text_inj in E; auto. destruct E as [Hh E]. apply app_strip in E. apply app_strip in E. apply app_strip in E. cbn [app] in E.
  apply (question_text_inj (rq_question r) (rq_question r')) in E; auto. destruct E as [Hq _]. destruct r as [h1 q1], r' as [h2 q2]. cbn in Hh, Hq. subst. reflexivity.
Qed.

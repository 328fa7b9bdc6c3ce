(** Proofs for C112: a message rebuilt from its own printed text. *)
From Coq Require String.
From Verif Require Import Base BaseLemmas NameModel RenderModel CodesModel RDataModel MsgModel TextModel DisplayModel CtorModel SpecName SpecBuf SpecCodes SpecMsg SpecText SpecDisplay
  SpecCtor SpecNormal SpecShown SpecRebuild CodesProofs TextProofs4 TextProofs5 TextProofs6 TextProofs7 TextProofs8 MsgProofs2 MsgProofs3 MsgProofs4 DisplayProofs DisplayProofs2 BuildProofs CtorProofs CtorProofs2 ShownProofs.
From Verif Require BitLemmas DisplayProofs3.
Import String.StringSyntax.
Open Scope string_scope.
Open Scope list_scope.
Open Scope nat_scope.

Lemma text_block : forall x rs, ext_ok x -> text_rrset rs -> rs_rdatas rs <> [] -> rs_type rs <> TOPT ->
  exists lines, rrset_display x rs = Ok (flat_map (fun l => l ++ [10%N]) lines) /\ Forall (fun l => ~ In 10%N l) lines /\ forall md, rrset_from_strs md x lines = Ok rs.
Proof.
  intros x rs X T Nd NO. destruct (rrset_display_lines x rs X T) as (lines & D & F). exists lines. split; [exact D|].
  split; [clear - F; induction F as [|? ? ? ? (_ & A & _) F IH]; constructor; auto|].
  intros md. assert (Nl : lines <> []). { intros ->. inversion F. congruence. }
  apply from_strs_ok; [exact Nl|]. set (one := fun rd => mkRRset (rs_name rs) (rs_type rs) (rs_class rs) (rs_ttl rs) [rd]).
  exists (map one (rs_rdatas rs)). destruct (rs_rdatas rs) as [|d ds] eqn:Er; [congruence|].
  exists (one d). split.
  - clear - F. induction F as [|line rd lines rds (_ & _ & P) F IH]; cbn [map]; constructor; [|exact IH]. specialize (P md [] [] eq_refl eq_refl). rewrite app_nil_r in P. exact P.
  - split; [reflexivity|]. split; [apply Forall_forall; intros r I; apply in_map_iff in I; destruct I as (y & <- & _); reflexivity|]. split; [intros _; exact NO|].
    cbn [one rs_name rs_type rs_class rs_ttl]. destruct rs as [n t c l rds]. cbn [rs_name rs_type rs_class rs_ttl rs_rdatas] in *. subst rds. f_equal.
    clear. generalize (d :: ds). intros l0. induction l0 as [|a l0 IH]; cbn [map flat_map app rs_rdatas one]; [reflexivity|]. unfold one at 1. cbn [rs_rdatas app]. f_equal. exact IH.
Qed.
Definition block_of (x : ext) (lines : list (list N)) (rs : rrset) : Prop :=
  rrset_display x rs = Ok (flat_map (fun l => l ++ [10%N]) lines) /\ Forall (fun l => ~ In 10%N l) lines /\ forall md, rrset_from_strs md x lines = Ok rs.
Lemma text_blocks : forall x l, ext_ok x -> Forall text_rrset l -> Forall rrset_ok l -> (forall rs, In rs l -> rs_type rs <> TOPT) -> exists blocks, Forall2 (block_of x) blocks l.
Proof.
  intros x l X. induction l as [|rs l IH]; intros T K NO; [exists []; constructor|].
  apply Forall_cons_iff in T. apply Forall_cons_iff in K. destruct T as [T1 T2], K as [K1 K2]. destruct IH as (bs & F); auto. { intros y I. apply NO. right. exact I. }
  assert (N1 : rs_type rs <> TOPT) by (apply NO; left; reflexivity).
  destruct (text_block x rs X T1) as (ls & B); auto. { intros Z. apply N1. apply K1. exact Z. }
  exists (ls :: bs). constructor; auto.
Qed.
Lemma section_blocks : forall x blocks l acc, Forall2 (block_of x) blocks l -> (forall rs, In rs l -> rs_type rs <> TOPT) ->
  rfold (fun acc rs => if rrtype_eqb (rs_type rs) TOPT then Ok acc else let? t := rrset_display x rs in Ok (acc ++ t)) l acc = Ok (acc ++ flat_map (fun z => z ++ [10%N]) (List.concat blocks)).
Proof.
  intros x blocks l acc F. revert acc. induction F as [|ls rs bs l (D & _) F IH]; intros acc NO; cbn [rfold List.concat flat_map].
  - rewrite app_nil_r. reflexivity.
  - destruct (rrtype_eqb (rs_type rs) TOPT) eqn:Q. { exfalso. apply (NO rs (or_introl eq_refl)). destruct (rs_type rs); try discriminate. reflexivity. }
    rewrite D. cbn [rbind]. rewrite IH by (intros y I; apply NO; right; exact I). rewrite flat_map_app, app_assoc. reflexivity.
Qed.
Lemma rfold_app : forall A S (f : S -> A -> res S) a b s, rfold f (a ++ b) s = (let? s' := rfold f a s in rfold f b s').
Proof. induction a as [|y a IH]; intros b s; cbn [app rfold rbind]; [reflexivity|]. destruct (f s y); cbn [rbind]; auto. Qed.
Lemma titled_blocks : forall x b c s title eol blocks l tail, ext_ok x -> section_ok b c s -> sets s = l ++ tail -> Forall2 (block_of x) blocks l -> (forall rs, In rs l -> rs_type rs <> TOPT) ->
  (forall rs, In rs tail -> rs_type rs = TOPT) -> titled x c title s eol = Ok (block_text title s blocks eol).
Proof.
  intros x b c s title eol blocks l tail X K Es F NO O. unfold titled, block_text. rewrite (proj1 K), blen_pos.
  destruct (records s) eqn:Q; [reflexivity|]. destruct s as [ll|]; [|discriminate]. cbn [sets] in Es. subst ll. unfold section_display. rewrite rfold_app.
  rewrite (section_blocks x blocks l [] F NO). cbn [rbind app]. clear - O.
  assert (G : forall acc, rfold (fun acc rs => if rrtype_eqb (rs_type rs) TOPT then Ok acc else let? t := rrset_display x rs in Ok (acc ++ t)) tail acc = Ok acc).
  { induction tail as [|rs tl IH]; intros acc; cbn [rfold]; [reflexivity|]. rewrite (O rs (or_introl eq_refl)). cbn [rrtype_eqb rbind]. apply IH. intros y I. apply O. right. exact I. }
  rewrite G. cbn [rbind]. reflexivity.
Qed.
(** Adding distinct rrsets one by one. *)
Definition grown (r : response) (s : section_type) (l : list rrset) : response := match l with [] => r | _ => put_section r s (Some (sets (get_section r s) ++ l)) end.
Lemma add_text_block : forall md x s blocks l r, Forall2 (fun ss rs => rrset_from_strs md x ss = Ok rs) blocks l -> owners_ok (sets (get_section r s) ++ l) ->
  unique_sets (sets (get_section r s) ++ l) -> add_texts md x s blocks r = Ok (grown r s l).
Proof.
  intros md x s blocks l r F. unfold add_texts. revert r. induction F as [|ss rs bs l E F IH]; intros r Ow U; cbn [rfold grown]; [reflexivity|].
  rewrite E. cbn [rbind]. pose proof Ow as Ow0. apply Forall_app in Ow0. destruct Ow0 as [O1 O2]. apply Forall_cons_iff in O2. destruct O2 as [O2 O3].
  destruct (add_rrset_spec r s rs O2 O1) as (l' & Ea & [[N ->]|(l1 & old & l2 & Q1 & _ & Q2 & _)]).
  - rewrite Ea. cbn [rbind]. rewrite IH.
    + unfold grown. destruct l as [|r1 l]; [reflexivity|]. rewrite get_put, Nat.eqb_refl. cbn [sets]. rewrite <- app_assoc. cbn [app]. f_equal. destruct s; reflexivity.
    + rewrite get_put, Nat.eqb_refl. cbn [sets]. rewrite <- app_assoc. exact Ow.
    + rewrite get_put, Nat.eqb_refl. cbn [sets]. rewrite <- app_assoc. exact U.
  - exfalso. rewrite Q1 in U. assert (Z : length l1 = length (l1 ++ old :: l2)).
    { apply (U _ _ old rs); auto.
      - rewrite nth_error_app1 by (rewrite app_length; cbn; lia). rewrite nth_error_app2, Nat.sub_diag by lia. reflexivity.
      - rewrite nth_error_app2, Nat.sub_diag by lia. reflexivity. }
    rewrite app_length in Z. cbn in Z. lia.
Qed.
Lemma plain_wf : forall rs, text_rrset rs -> wf_name (rs_name rs).
Proof. intros rs ((ls & W & _ & E) & _). exists ls. auto. Qed.
Lemma text_owners : forall l, Forall text_rrset l -> owners_ok l.
Proof. intros l F. eapply Forall_impl; [|exact F]. exact plain_wf. Qed.
Lemma edns_owner : forall u, wf_name (rs_name (edns_to_rrset (mkEdns 0 0 u false None))).
Proof. intros u. exists []. split; [|reflexivity]. split; [constructor|]. cbn. lia. Qed.
Lemma default_header : forall h, header_ok h -> h_qd h = 1%N -> h_opcode h = OQuery -> h_rcode h = RNoError -> (forall f, header_is_set h f = true <-> f = QR \/ f = RD) ->
  forall q a b c, r_header (make_response (mkResponse (header_set_flag (header_default (h_id h)) RD true) q a b c)) = mkHeader (h_id h) (h_flag h) (h_opcode h) (h_rcode h) 1 0 0 0.
Proof.
  intros h (_ & Hb) Q Op Rc Fl q a b c. rewrite Op, Rc. assert (G : h_flag h = 33024%N); [|rewrite G; reflexivity]. apply N.bits_inj. intros i.
  destruct (N.testbit (h_flag h) i) eqn:E.
  - destruct (Hb i E) as (f & ->). rewrite <- (hf_is_set_bit (h_flag h) f) in E. apply Fl in E. destruct E as [-> | ->]; reflexivity.
  - destruct (N.testbit 33024 i) eqn:E2; [|reflexivity]. exfalso.
    assert (W : forall g, i = flag_bit g -> g = QR \/ g = RD -> False).
    { intros g -> G. apply Fl in G. unfold header_is_set in G. rewrite hf_is_set_bit in G. congruence. }
    destruct (N.eq_dec i 15) as [->|N1]; [apply (W QR); auto|]. destruct (N.eq_dec i 8) as [->|N2]; [apply (W RD); auto|].
    revert E2. clear - N1 N2. destruct (N.lt_ge_cases i 16) as [L|L].
    + assert (G : forallb (fun n => (n =? 15) || (n =? 8) || negb (N.testbit 33024 (N.of_nat n))) (seq 0 16) = true) by reflexivity.
      rewrite forallb_forall in G. specialize (G (N.to_nat i)). rewrite N2Nat.id in G. intros E. rewrite E in G.
      cbn [negb] in G. rewrite orb_false_r in G. assert (I : In (N.to_nat i) (seq 0 16)) by (apply in_seq; lia). specialize (G I). apply orb_true_iff in G.
      destruct G as [G|G]; apply Nat.eqb_eq in G; lia.
    + intros E. rewrite (BitLemmas.testbit_small 33024%N 16%N i) in E; [discriminate|reflexivity|exact L].
Qed.
Lemma grown_all : forall r0 s v l, get_section r0 s = None -> v = (match l with [] => None | _ => Some l end) -> grown r0 s l = put_section r0 s v.
Proof. intros r0 s v l E ->. unfold grown. rewrite E. cbn [sets app]. destruct l; [|reflexivity]. destruct r0 as [h q a b c], s; cbn in *; subst; reflexivity. Qed.
Lemma section_some : forall b c s, section_ok b c s -> s = match sets s with [] => None | _ => Some (sets s) end.
Proof. intros b c [l|] K; [|reflexivity]. destruct K as (_ & N & _). cbn [sets]. destruct l; [congruence|reflexivity]. Qed.
Lemma section_sets_ok : forall b c s, section_ok b c s -> Forall rrset_ok (sets s).
Proof. intros b c [l|] K; [apply K|constructor]. Qed.
Lemma rr_count_records : forall b c s, section_ok b c s -> (c < 65536)%N -> as_u16 (N.of_nat (section_rr_count s)) = c.
Proof.
  intros b c s K L. pose proof (done_counts (mkResponse (header_default 0) (mkQuestion root_name TA CIN) s None None)) as (_ & _ & _ & _ & _ & _ & _ & _ & _ & D & _).
  cbn [r_answer] in D. rewrite <- (proj1 K) in D. exact (D L).
Qed.
Lemma rebuild_blocks : forall x r size ls an au ad l, ext_ok x -> consistent r -> text_message r size -> wf_labels ls -> plain_labels ls -> q_name (r_question r) = name_of ls ->
  Forall2 (block_of x) an (sets (r_answer r)) -> Forall2 (block_of x) au (sets (r_authority r)) -> Forall2 (block_of x) ad l ->
  Forall text_rrset l -> (forall rs, In rs l -> rs_type rs <> TOPT) -> sets (r_additional r) = l ++ match size with Some u => [edns_to_rrset (mkEdns 0 0 u false None)] | None => [] end ->
  forall md, build_response md x (h_id (r_header r)) (show_name ls) (q_type (r_question r)) an au ad size = Ok r.
Proof.
  intros x r size ls an au ad l X (Hh & Hq & Qq & A & B & C) (_ & Qc & Op & Rc & Fl & Ta & Tb & Ua & Ub & Uc & NO & _ & _ & _ & Us & _) Wl Pl En Fa Fb Fc Tc NOc Ec.
    intros md. unfold build_response. rewrite (name_new_show ls Wl Pl). cbn [rbind].
    assert (G : forall bs l, Forall2 (block_of x) bs l -> Forall2 (fun ss rs => rrset_from_strs md x ss = Ok rs) bs l). { clear. intros bs l F. induction F as [|? ? ? ? (_ & _ & D) F IH]; constructor; auto. }
    set (r0 := response_with_question (h_id (r_header r)) (name_of ls) (q_type (r_question r))).
    rewrite (add_text_block md x SAnswer an _ r0 (G _ _ Fa)); [|apply text_owners; exact Ta|exact Ua]. cbn [rbind].
    rewrite (grown_all r0 SAnswer (r_answer r)); [|reflexivity|eapply section_some; exact A]. set (r1 := put_section r0 SAnswer (r_answer r)).
    rewrite (add_text_block md x SAuthority au _ r1 (G _ _ Fb)); [|apply text_owners; exact Tb|exact Ub]. cbn [rbind].
    rewrite (grown_all r1 SAuthority (r_authority r)); [|reflexivity|eapply section_some; exact B]. set (r2 := put_section r1 SAuthority (r_authority r)).
    assert (Ul : unique_sets l). { intros i j a b Na Nb S. apply (Uc i j a b); auto; rewrite Ec, nth_error_app1; auto; apply nth_error_Some; congruence. }
    rewrite (add_text_block md x SAdditional ad _ r2 (G _ _ Fc)); [|apply text_owners; exact Tc|exact Ul]. cbn [rbind].
    rewrite (grown_all r2 SAdditional (match l with [] => None | _ => Some l end) l); [|reflexivity|reflexivity]. set (r3 := put_section r2 SAdditional _).
    assert (Ed : (match size with Some u => add_edns r3 (mkEdns 0 0 (as_u16 u) false None) | None => Ok r3 end) = Ok (put_section r2 SAdditional (r_additional r))).
    { rewrite (section_some _ _ _ C), Ec. destruct size as [u|]; [|rewrite app_nil_r; reflexivity].
      assert (Eu : as_u16 u = u) by (apply N.mod_small; exact (Us u eq_refl)). rewrite Eu. unfold add_edns.
      assert (Sl : sets (get_section r3 SAdditional) = l) by (unfold r3; destruct l; reflexivity).
      destruct (add_rrset_spec r3 SAdditional (edns_to_rrset (mkEdns 0 0 u false None)) (edns_owner u)) as (l' & Ea & D). { rewrite Sl. apply text_owners. exact Tc. }
      rewrite Ea. f_equal. rewrite Sl in D. destruct D as [[_ ->]|(l1 & old & l2 & Q & _ & S & _)].
      - unfold r3. destruct l; reflexivity.
      - exfalso. apply (NOc old); [rewrite Q; apply in_elt|]. apply S. }
    rewrite Ed. cbn [rbind]. f_equal. unfold r2, r1, r0, response_with_question. cbn [put_section r_header r_question r_answer r_authority r_additional].
    pose proof (default_header (r_header r) Hh Hq Op Rc Fl (question_new (name_of ls) (q_type (r_question r))) (r_answer r) (r_authority r) (r_additional r)) as Dh.
    set (rr := mkResponse _ _ _ _ _) in *. unfold builder_done, recalculate_header. rewrite Dh. cbn [h_id h_flag h_opcode h_rcode].
    replace (r_answer (make_response rr)) with (r_answer r) by reflexivity. replace (r_authority (make_response rr)) with (r_authority r) by reflexivity.
    replace (r_additional (make_response rr)) with (r_additional r) by reflexivity. replace (r_question (make_response rr)) with (question_new (name_of ls) (q_type (r_question r))) by reflexivity.
    destruct Hh as ((_ & _ & L1 & L2 & L3) & _). rewrite (rr_count_records _ _ _ A L1), (rr_count_records _ _ _ B L2), (rr_count_records _ _ _ C L3).
    destruct r as [h q a b c]. cbn [r_header r_question r_answer r_authority r_additional] in *. f_equal; [destruct h; cbn in *; subst; reflexivity|].
    destruct q as [n t k]. cbn in *. subst. reflexivity.
Qed.
Theorem rebuild : forall x r size, ext_ok x -> consistent r -> text_message r size ->
  exists e ls an au ad, get_edns r = Ok e /\ wf_labels ls /\ plain_labels ls /\ q_name (r_question r) = name_of ls /\
    Forall (Forall (fun line => ~ In 10%N line)) (an ++ au ++ ad) /\
    response_display x r = Ok (header_lines dec (r_header r) ++ [10%N] ++ edns_lines dec e ++ of_string ";; QUESTION SECTION:" ++ [10%N] ++ question_line ls (r_question r) ++ [10; 10]%N ++
      block_text ";; ANSWER SECTION:" (r_answer r) an [10%N] ++ block_text ";; AUTHORITY SECTION:" (r_authority r) au [10%N] ++ block_text ";; ADDITIONAL SECTION:" (r_additional r) ad []) /\
    forall md, build_response md x (h_id (r_header r)) (show_name ls) (q_type (r_question r)) an au ad size = Ok r.
Proof.
  intros x r size X CC TT. pose proof CC as (Hh & Hq & Qq & A & B & C). pose proof TT as ((ls & Wl & Pl & En) & Qc & Op & Rc & Fl & Ta & Tb & Ua & Ub & Uc & NO & l & Tc & NOc & Us & Ec).
  pose proof (section_sets_ok _ _ _ A) as Ka. pose proof (section_sets_ok _ _ _ B) as Kb. pose proof (section_sets_ok _ _ _ C) as Kc. rewrite Ec in Kc. apply Forall_app in Kc. destruct Kc as [Kc _].
  destruct (text_blocks x (sets (r_answer r)) X Ta Ka) as (an & Fa). { intros rs I. apply NO. auto. }
  destruct (text_blocks x (sets (r_authority r)) X Tb Kb) as (au & Fb). { intros rs I. apply NO. auto. }
  destruct (text_blocks x l X Tc Kc NOc) as (ad & Fc).
  destruct (get_edns_total r) as (e & Ee).
  exists e, ls, an, au, ad. split; [exact Ee|]. split; [exact Wl|]. split; [exact Pl|]. split; [exact En|]. split.
  { assert (G : forall bs l, Forall2 (block_of x) bs l -> Forall (Forall (fun line => ~ In 10%N line)) bs). { clear. intros bs l F. induction F as [|? ? ? ? (_ & D & _) F IH]; constructor; auto. }
    apply Forall_app. split; [eapply G; exact Fa|]. apply Forall_app. split; eapply G; eauto. }
  split.
  - unfold response_display. rewrite Ee. cbn [rbind]. rewrite (question_display_ok _ ls Wl En). cbn [rbind].
    rewrite (titled_blocks x _ _ _ _ _ an (sets (r_answer r)) [] X A); [|rewrite app_nil_r; reflexivity|exact Fa|intros rs I; apply NO; auto|intros rs []].
    rewrite (titled_blocks x _ _ _ _ _ au (sets (r_authority r)) [] X B); [|rewrite app_nil_r; reflexivity|exact Fb|intros rs I; apply NO; auto|intros rs []].
    rewrite (titled_blocks x _ _ _ _ _ ad l _ X C Ec Fc NOc). 2:{ intros rs I. destruct size; [destruct I as [<-|[]]; reflexivity|destruct I]. }
    cbn [rbind]. rewrite DisplayProofs3.header_text. fold (edns_part e). rewrite edns_part_lines. reflexivity.
  - eapply rebuild_blocks; eauto.
Qed.
Definition good_set (rs : rrset) : Prop := text_rrset rs /\ rs_type rs <> TOPT.
Lemma merged_good : forall a b, good_set a -> good_set b -> same_set a b -> good_set (merged a b).
Proof.
  intros a b [(N & T & C & R & F) O] [(_ & _ & _ & _ & F') _] [St _]. split; [|exact O]. unfold merged. split; [exact N|]. split; [exact T|]. split; [exact C|]. split; [exact R|].
  cbn [rs_type rs_rdatas]. apply Forall_app. split; [exact F|]. rewrite St. exact F'.
Qed.
Lemma good_owners : forall l, Forall good_set l -> owners_ok l.
Proof. intros l F. eapply Forall_impl; [|exact F]. intros rs [T _]. apply plain_wf. exact T. Qed.
Lemma add_texts_good : forall md x s bs r r', ext_range x -> b64_exact x -> plain_texts md x bs -> add_texts md x s bs r = Ok r' ->
  Forall good_set (sets (get_section r s)) -> unique_sets (sets (get_section r s)) ->
  Forall good_set (sets (get_section r' s)) /\ unique_sets (sets (get_section r' s)) /\ (forall s', s' <> s -> get_section r' s' = get_section r s').
Proof.
  intros md x s bs r r' X BX. unfold add_texts. revert r. induction bs as [|ss bs IH]; intros r [St P] E G U; cbn [rfold] in E.
  - injection E; intros; subst. auto.
  - apply Forall_cons_iff in St. destruct St as [St1 St2]. destruct (rrset_from_strs md x ss) as [rs| | |] eqn:Es; cbn [rbind] in E; try discriminate.
    destruct (P ss rs (or_introl eq_refl) Es) as (P1 & P2 & P3).
    assert (Gs : good_set rs). { split; [|exact P3]. eapply read_many_text; eauto. intros ->. discriminate. }
    assert (W : wf_name (rs_name rs)) by (apply plain_wf; apply Gs).
    destruct (add_rrset_spec r s rs W (good_owners _ G)) as (l & Ea & D). rewrite Ea in E. cbn [rbind] in E.
    pose proof (add_rrset_unique r s rs (put_section r s (Some l)) W (good_owners _ G) U Ea) as U'.
    assert (Gl : Forall good_set (sets (get_section (put_section r s (Some l)) s))).
    { rewrite get_put, Nat.eqb_refl. cbn [sets]. destruct D as [[_ ->]|(l1 & old & l2 & Q & _ & S & ->)].
      - apply Forall_app. split; [exact G|]. constructor; [exact Gs|constructor].
      - rewrite Q in G. apply Forall_app in G. destruct G as [G1 G2]. apply Forall_cons_iff in G2. destruct G2 as [G2 G3]. apply Forall_app. split; [exact G1|].
        constructor; [apply merged_good; auto|exact G3]. }
    destruct (IH (put_section r s (Some l))) as (H1 & H2 & H3); auto. { split; [exact St2|]. intros ss' rs' I. apply P. right. exact I. }
    split; [exact H1|]. split; [exact H2|]. intros s' Ns. rewrite H3 by exact Ns. rewrite get_put. destruct (Nat.eqb_spec (section_index s) (section_index s')) as [Z|Z]; auto.
    apply index_inj in Z. congruence.
Qed.
Theorem text_built : forall md x rnd nm t an au ad udp r ls, ext_range x -> b64_exact x -> wf_labels ls -> plain_labels ls -> name_new nm = Ok (name_of ls) ->
  plain_texts md x an -> plain_texts md x au -> plain_texts md x ad -> (forall u, udp = Some u -> u < 65536)%N -> build_response md x rnd nm t an au ad udp = Ok r -> text_message r udp.
Proof.
  intros md x rnd nm t an au ad udp r ls X BX Wl Pl En Pa Pb Pc Us E.
  destruct (build_response_head md x rnd nm t an au ad udp r E) as (n & En' & Hq & _ & Op & Rc & Fl). rewrite En in En'. injection En' as <-.
  unfold build_response in E. rewrite En in E. cbn [rbind] in E. set (r0 := response_with_question rnd (name_of ls) t) in E.
  destruct (add_texts md x SAnswer an r0) as [r1| | |] eqn:E1; cbn [rbind] in E; try discriminate.
  destruct (add_texts md x SAuthority au r1) as [r2| | |] eqn:E2; cbn [rbind] in E; try discriminate.
  destruct (add_texts md x SAdditional ad r2) as [r3| | |] eqn:E3; cbn [rbind] in E; try discriminate.
  assert (Un : unique_sets []) by (intros [|i] [|j] a b H; discriminate).
  destruct (add_texts_good _ _ _ _ _ _ X BX Pa E1) as (G1 & U1 & O1); [constructor|exact Un|].
  destruct (add_texts_good _ _ _ _ _ _ X BX Pb E2) as (G2 & U2 & O2); [rewrite O1 by discriminate; constructor|rewrite O1 by discriminate; exact Un|].
  destruct (add_texts_good _ _ _ _ _ _ X BX Pc E3) as (G3 & U3 & O3); [rewrite O2, O1 by discriminate; constructor|rewrite O2, O1 by discriminate; exact Un|].
  assert (Ed : exists r4, (match udp with Some u => add_edns r3 (mkEdns 0 0 (as_u16 u) false None) | None => Ok r3 end) = Ok r4 /\ r_answer r4 = r_answer r3 /\ r_authority r4 = r_authority r3 /\
    unique_sets (sets (r_additional r4)) /\ sets (r_additional r4) = sets (r_additional r3) ++ match udp with Some u => [edns_to_rrset (mkEdns 0 0 u false None)] | None => [] end).
  { destruct udp as [u|].
    - assert (Eu : as_u16 u = u) by (apply N.mod_small; exact (Us u eq_refl)). rewrite Eu. unfold add_edns.
      destruct (add_rrset_spec r3 SAdditional (edns_to_rrset (mkEdns 0 0 u false None)) (edns_owner u) (good_owners _ G3)) as (l' & Ea & D).
      pose proof (add_rrset_unique _ _ _ _ (edns_owner u) (good_owners _ G3) U3 Ea) as U4. exists (put_section r3 SAdditional (Some l')). split; [exact Ea|]. split; [reflexivity|]. split; [reflexivity|].
      split; [exact U4|]. destruct D as [[_ ->]|(l1 & old & l2 & Q & _ & S & _)]; [reflexivity|]. exfalso. rewrite Q in G3. apply Forall_app in G3. destruct G3 as [_ G3]. apply Forall_cons_iff in G3.
      apply (proj2 (proj1 G3)). apply S.
    - exists r3. rewrite app_nil_r. auto. }
  destruct Ed as (r4 & Ed & A4 & B4 & U4 & C4). rewrite Ed in E. cbn [rbind] in E. injection E as E.
  assert (Sa : r_answer r = r_answer r1). { rewrite <- E. change (r_answer r4 = r_answer r1). rewrite A4. pose proof (O3 SAnswer ltac:(discriminate)) as Z3. pose proof (O2 SAnswer ltac:(discriminate)) as Z2. cbn in Z2, Z3. congruence. }
  assert (Sb : r_authority r = r_authority r2). { rewrite <- E. change (r_authority r4 = r_authority r2). rewrite B4. exact (O3 SAuthority ltac:(discriminate)). }
  assert (Sc : r_additional r = r_additional r4) by (rewrite <- E; reflexivity).
  assert (S1 : forall l, Forall good_set l -> Forall text_rrset l /\ forall rs, In rs l -> rs_type rs <> TOPT).
  { intros l F. split; [eapply Forall_impl; [|exact F]; intros rs [Z _]; exact Z|]. rewrite Forall_forall in F. intros rs I. apply (F rs I). }
  destruct (S1 _ G1) as [T1 N1]. destruct (S1 _ G2) as [T2 N2]. destruct (S1 _ G3) as [T3 N3]. cbn [get_section] in *.
  unfold text_message. rewrite Hq, Sa, Sb, Sc. cbn [q_name q_class]. split; [exists ls; auto|]. split; [reflexivity|]. split; [exact Op|]. split; [exact Rc|]. split; [exact Fl|].
  split; [exact T1|]. split; [exact T2|]. split; [exact U1|]. split; [exact U2|]. split; [exact U4|]. split; [intros rs [I|I]; auto|].
  exists (sets (r_additional r3)). auto.
Qed.

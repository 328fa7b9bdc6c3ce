(** Proofs for C112: exactly which messages are rebuilt from their own printed text. *)
From Coq Require String.
From Verif Require Import Base BaseLemmas NameModel RenderModel CodesModel RDataModel MsgModel TextModel DisplayModel CtorModel SpecName SpecBuf SpecCodes SpecMsg SpecText SpecDisplay
  SpecApi SpecCtor SpecNormal SpecShown SpecRebuild CodesProofs EscProofs2 NameTextProofs NameTextProofs2 TextProofs4 TextProofs5 TextProofs6 TextProofs7 TextProofs8 TextProofs9 MsgProofs2 MsgProofs3 MsgProofs4 DisplayProofs DisplayProofs2 BuildProofs CtorProofs CtorProofs2 ShownProofs RebuildProofs.
From Verif Require BitLemmas DisplayProofs3 NameOpsProofs.
Import String.StringSyntax.
Open Scope string_scope.
Open Scope list_scope.
Open Scope nat_scope.

Notation is_opt := (fun rs => rrtype_eqb (rs_type rs) TOPT).
Notation non_opt := (filter (fun rs => negb (rrtype_eqb (rs_type rs) TOPT))).
Lemma opt_true : forall rs, is_opt rs = true <-> rs_type rs = TOPT.
Proof. intros rs. cbn beta. destruct (rs_type rs); split; intros H; try reflexivity; first [discriminate H|vm_compute in H; discriminate H]. Qed.
Lemma opt_false : forall rs, is_opt rs = false <-> rs_type rs <> TOPT.
Proof. intros rs. cbn beta. destruct (rs_type rs); split; intros H; try reflexivity; try (vm_compute in H; discriminate H); try discriminate; exfalso; apply H; reflexivity. Qed.
Lemma non_opt_le : forall l, length (non_opt l) <= length l.
Proof. induction l as [|a l IH]; cbn [filter length]; [lia|]. destruct (negb _); cbn [length]; lia. Qed.
Lemma non_opt_all : forall l, length (non_opt l) = length l -> forall rs, In rs l -> rs_type rs <> TOPT.
Proof.
  induction l as [|a l IH]; intros E rs I; [destruct I|]. cbn [filter] in E. assert (L : length (non_opt l) <= length l) by (apply non_opt_le).
  destruct (is_opt a) eqn:O; cbn [negb length] in E; [lia|]. destruct I as [<-|I]; [apply opt_false; exact O|]. apply IH; auto.
Qed.
(** Adding one rrset, whatever its name. *)
Lemma add_shape : forall r s rs r', add_rrset r s rs = Ok r' -> (exists l, r' = put_section r s (Some l) /\ (l = sets (get_section r s) ++ [rs] \/ length l = length (sets (get_section r s)))).
Proof.
  intros r s rs r' H. unfold add_rrset in H. destruct (get_section r s) as [l|]; cbn [sets].
  - apply rbind_ok in H. destruct H as ([i|] & _ & H).
    + apply rbind_ok in H. destruct H as (old & Eo & H). apply rbind_ok in H. destruct H as (l' & El & H). apply Ok_inj in H. subst r'. exists l'. split; [reflexivity|]. right.
      unfold upd_r in El. unfold idx in Eo. destruct (nth_error l i) eqn:En; [|discriminate]. 
      match type of El with (if ?c then _ else _) = _ => destruct c eqn:Ec; [|discriminate] | _ => idtac end. apply Ok_inj in El. subst l'. apply upd_length.
    + apply Ok_inj in H. subst r'. exists (l ++ [rs]). auto.
  - apply Ok_inj in H. subst r'. exists [rs]. auto.
Qed.
Lemma texts_shape : forall md x s bs r r', add_texts md x s bs r = Ok r' ->
  length (sets (get_section r' s)) <= length (sets (get_section r s)) + length bs /\ (forall s', s' <> s -> get_section r' s' = get_section r s') /\ r_header r' = r_header r /\ r_question r' = r_question r.
Proof.
  intros md x s bs. unfold add_texts. induction bs as [|ss bs IH]; intros r r' E; cbn [rfold] in E.
  - apply Ok_inj in E. subst r'. repeat (split; auto). cbn [length]. lia.
  - apply rbind_ok in E. destruct E as (r1 & E1 & E). apply rbind_ok in E1. destruct E1 as (rs & _ & E1). destruct (IH r1 r' E) as (A & B & C & D).
    destruct (add_shape _ _ _ _ E1) as (l & -> & L). rewrite get_put, Nat.eqb_refl in A. cbn [sets] in A. cbn [length].
    assert (L1 : length l <= length (sets (get_section r s)) + 1). { destruct L as [-> | ->]; [rewrite app_length; cbn; lia|lia]. }
    split; [lia|]. split; [|split; [rewrite C; destruct r, s; reflexivity|rewrite D; destruct r, s; reflexivity]].
    intros s' Ns. rewrite B by exact Ns. rewrite get_put. destruct (Nat.eqb_spec (section_index s) (section_index s')) as [Z|Z]; auto. apply index_inj in Z. congruence.
Qed.
(** If as many rrsets came out as texts went in, nothing was merged. *)
Lemma texts_full : forall md x s bs r r', add_texts md x s bs r = Ok r' -> length (sets (get_section r' s)) = length (sets (get_section r s)) + length bs ->
  owners_ok (sets (get_section r' s)) -> unique_sets (sets (get_section r s)) ->
  exists l, Forall2 (fun ss rs => rrset_from_strs md x ss = Ok rs) bs l /\ sets (get_section r' s) = sets (get_section r s) ++ l /\ unique_sets (sets (get_section r' s)).
Proof.
  intros md x s bs. unfold add_texts. induction bs as [|ss bs IH]; intros r r' E L Ow U; cbn [rfold] in E.
  - apply Ok_inj in E. subst r'. exists []. rewrite app_nil_r. auto.
  - apply rbind_ok in E. destruct E as (r1 & E1 & E). apply rbind_ok in E1. destruct E1 as (rs & Es & E1).
    destruct (texts_shape md x s bs r1 r' E) as (A & _). pose proof E1 as E1'. destruct (add_shape _ _ _ _ E1) as (l & Er1 & Cl). subst r1.
    rewrite get_put, Nat.eqb_refl in A. cbn [sets length] in A, L.
    assert (Hl : l = sets (get_section r s) ++ [rs]). { destruct Cl as [Cl|Cl]; [exact Cl|]. lia. }
    assert (Ll : length l = length (sets (get_section r s)) + 1) by (rewrite Hl, app_length; reflexivity).
    assert (P : exists l2, Forall2 (fun ss rs => rrset_from_strs md x ss = Ok rs) bs l2 /\ sets (get_section r' s) = l ++ l2).
    { clear IH Hl Cl. assert (G : forall bs r r', rfold (fun r ss => let? rs := rrset_from_strs md x ss in add_rrset r s rs) bs r = Ok r' -> length (sets (get_section r' s)) = length (sets (get_section r s)) + length bs ->
        exists l2, Forall2 (fun ss rs => rrset_from_strs md x ss = Ok rs) bs l2 /\ sets (get_section r' s) = sets (get_section r s) ++ l2).
      { clear. induction bs as [|ss bs IH]; intros r r' E L; cbn [rfold] in E; [apply Ok_inj in E; subst r'; exists []; rewrite app_nil_r; auto|].
        apply rbind_ok in E. destruct E as (r1 & E1 & E). apply rbind_ok in E1. destruct E1 as (rs & Es & E1). destruct (texts_shape md x s bs r1 r' E) as (A & _).
        destruct (add_shape _ _ _ _ E1) as (l & -> & Cl). rewrite get_put, Nat.eqb_refl in A. cbn [sets length] in A, L.
        assert (Hl : l = sets (get_section r s) ++ [rs]). { destruct Cl as [Cl|Cl]; [exact Cl|]. lia. }
        assert (Ll : length l = length (sets (get_section r s)) + 1) by (rewrite Hl, app_length; reflexivity).
        destruct (IH _ _ E) as (l2 & F & Q). { rewrite get_put, Nat.eqb_refl. cbn [sets]. lia. }
        rewrite get_put, Nat.eqb_refl in Q. cbn [sets] in Q. exists (rs :: l2). split; [constructor; auto|]. rewrite Q, Hl, <- app_assoc. reflexivity. }
      destruct (G bs _ r' E) as (l2 & F & Q). { rewrite get_put, Nat.eqb_refl. cbn [sets]. lia. } rewrite get_put, Nat.eqb_refl in Q. exists l2. auto. }
    destruct P as (l2 & F2 & Q2).
    assert (Ol : owners_ok l). { unfold owners_ok in *. rewrite Q2 in Ow. apply Forall_app in Ow. apply Ow. }
    assert (O1 : owners_ok (sets (get_section r s)) /\ wf_name (rs_name rs)). { unfold owners_ok in *. rewrite Hl in Ol. apply Forall_app in Ol. destruct Ol as [O1 O2]. apply Forall_cons_iff in O2. split; [exact O1|apply O2]. }
    pose proof (add_rrset_unique r s rs _ (proj2 O1) (proj1 O1) U E1) as U1.
    destruct (IH _ _ E) as (l3 & F & Q & U3); [rewrite get_put, Nat.eqb_refl; cbn [sets]; lia|exact Ow|exact U1|].
    rewrite get_put, Nat.eqb_refl in Q. cbn [sets] in Q. exists (rs :: l3). split; [constructor; auto|]. split; [rewrite Q, Hl, <- app_assoc; reflexivity|exact U3].
Qed.

(** Lines without a line break are found again in the text they make. *)
Lemma lines_unique : forall a b, flat_map (fun l => l ++ [10%N]) a = flat_map (fun l => l ++ [10%N]) b -> Forall (fun l => ~ In 10%N l) a -> Forall (fun l => ~ In 10%N l) b -> a = b.
Proof.
  assert (G : forall x y p q, ~ In 10%N x -> ~ In 10%N y -> x ++ 10%N :: p = y ++ 10%N :: q -> x = y /\ p = q).
  { induction x as [|c x IH]; intros [|d y] p q Nx Ny E; cbn [app] in E.
    - injection E as ->. auto.
    - exfalso. injection E as E1 E2. apply Ny. left. auto.
    - exfalso. injection E as E1 E2. apply Nx. left. auto.
    - injection E as E1 E2. subst d. destruct (IH y p q) as [-> ->]; auto; intros I; [apply Nx|apply Ny]; right; exact I. }
  induction a as [|x a IH]; intros [|y b] E Fa Fb; cbn [flat_map] in E; auto.
  - exfalso. destruct y; discriminate.
  - exfalso. destruct x; discriminate.
  - apply Forall_cons_iff in Fa. apply Forall_cons_iff in Fb. destruct Fa as [A1 A2], Fb as [B1 B2]. rewrite <- !app_assoc in E. cbn [app] in E.
    destruct (G x y _ _ A1 B1 E) as [-> E']. f_equal. apply IH; auto.
Qed.
Lemma printed_display : forall x blocks l acc, Forall2 (fun lines rs => rrset_display x rs = Ok (flat_map (fun line => line ++ [10%N]) lines) /\ Forall (fun line => ~ In 10%N line) lines /\ length lines = length (rs_rdatas rs)) blocks (non_opt l) ->
  rfold (fun acc rs => if rrtype_eqb (rs_type rs) TOPT then Ok acc else let? t := rrset_display x rs in Ok (acc ++ t)) l acc = Ok (acc ++ flat_map (fun z => z ++ [10%N]) (List.concat blocks)).
Proof.
  intros x blocks l. revert blocks. induction l as [|rs l IH]; intros blocks acc F; cbn [rfold filter] in *.
  - inversion F; subst. cbn [List.concat flat_map]. rewrite app_nil_r. reflexivity.
  - destruct (rrtype_eqb (rs_type rs) TOPT) eqn:O; cbn [negb rbind] in *; [apply IH; exact F|]. inversion F as [|lines ? bs ? (D & _) F']; subst.
    rewrite D. cbn [rbind List.concat]. rewrite (IH bs _ F'), flat_map_app, app_assoc. reflexivity.
Qed.
Lemma printed_titled : forall x b c s title eol blocks, section_ok b c s -> printed_blocks x blocks (sets s) -> titled x c title s eol = Ok (block_text title s blocks eol).
Proof.
  intros x b c s title eol blocks K F. unfold titled, block_text. rewrite (proj1 K), blen_pos. destruct (records s) eqn:Q; [reflexivity|]. destruct s as [ll|]; [|discriminate].
  unfold section_display. rewrite (printed_display x blocks ll [] F). reflexivity.
Qed.
Lemma printed_exist : forall x l, ext_ok x -> ext_range x -> b64_exact x -> x_b64_enc x [] = [] -> Forall rrset_ok l ->
  exists blocks, printed_blocks x blocks l /\ Forall2 (fun lines rs => forall md, rrset_from_strs md x lines = Ok rs -> text_rrset rs) blocks (non_opt l) /\
    (Forall text_rrset (non_opt l) -> Forall2 (block_of x) blocks (non_opt l)).
Proof.
  intros x l X Xr B B0. unfold printed_blocks. induction l as [|rs l IH]; intros K; cbn [filter]; [exists []; repeat split; intros; constructor|].
  apply Forall_cons_iff in K. destruct K as [K1 K2]. destruct (IH K2) as (bs & F1 & F2 & F3). destruct (rrtype_eqb (rs_type rs) TOPT) eqn:O; cbn [negb]; [exists bs; auto|].
  pose proof K1 as (W & _ & _ & L & Wd & Nn & _). assert (Nd : rs_rdatas rs <> []). { intros Z. apply Nn in Z. rewrite Z in O. discriminate. }
  assert (Wd' : Forall (wf_rdata (rs_type rs)) (rs_rdatas rs)) by (eapply Forall_impl; [|exact Wd]; intros rd [Z _]; exact Z).
  destruct (display_exact_strs x rs X Xr B B0 W L Wd' Nd) as (lines & D & N10 & Ln & Cv). exists (lines :: bs).
  split; [constructor; auto|]. split; [constructor; auto|]. intros T. apply Forall_cons_iff in T. destruct T as [T1 T2]. constructor; [|apply F3; exact T2].
  destruct (text_block x rs X T1 Nd) as (lines' & D' & N10' & P). { intros Z. rewrite Z in O. discriminate. }
  assert (lines' = lines). { apply (lines_unique lines' lines); auto. rewrite D in D'. apply Ok_inj in D'. symmetry. exact D'. }
  subst lines'. split; [exact D|]. split; [exact N10|exact P].
Qed.

Lemma upd_in : forall A (l : list A) i v l', upd_r l i v = Ok l' -> In v l'.
Proof.
  intros A l i v l' H. unfold upd_r in H. destruct (Nat.ltb_spec i (length l)) as [L|L]; [|discriminate]. apply Ok_inj in H. subst l'. eapply nth_error_In. apply nth_upd_same. exact L.
Qed.
Lemma find_same_type : forall rs l i old, find_same rs l = Ok (Some i) -> idx l i = Ok old -> rs_type old = rs_type rs.
Proof.
  intros rs. induction l as [|a l IH]; intros i old H E; cbn [find_same] in H; [discriminate|]. apply rbind_ok in H. destruct H as (b & Eb & H). destruct b.
  - apply Ok_inj in H. injection H as <-. unfold idx in E. cbn [nth_error] in E. apply Ok_inj in E. subst a. unfold is_same_rrset in Eb.
    destruct (rrtype_eqb (rs_type old) (rs_type rs)) eqn:Q; [|discriminate]. revert Q. clear. destruct (rs_type old), (rs_type rs); intros H; try discriminate H; try reflexivity. apply N.eqb_eq in H. congruence.
  - apply rbind_ok in H. destruct H as (j & Ej & H). apply Ok_inj in H. destruct j as [j|]; [|discriminate]. injection H as <-. eapply IH; [exact Ej|exact E].
Qed.
Lemma Forall2_len : forall A B (P : A -> B -> Prop) a b, Forall2 P a b -> length a = length b.
Proof. intros A B P a b F. induction F; cbn [length]; congruence. Qed.
Lemma both_text : forall md x blocks l, Forall2 (fun ss rs => rrset_from_strs md x ss = Ok rs) blocks l -> Forall2 (fun lines rs => forall md, rrset_from_strs md x lines = Ok rs -> text_rrset rs) blocks l -> Forall text_rrset l.
Proof. intros md x blocks l F. induction F as [|ss rs bs l E F IH]; intros G; [constructor|]. inversion G; subst. constructor; [eauto|auto]. Qed.
Lemma non_opt_id : forall l, (forall rs, In rs l -> rs_type rs <> TOPT) -> non_opt l = l.
Proof. induction l as [|a l IH]; intros H; cbn [filter]; [reflexivity|]. rewrite (proj2 (opt_false a)) by (apply H; left; reflexivity). cbn [negb]. rewrite IH; auto. intros rs I. apply H. right. exact I. Qed.
(** A section made of the lines that were printed for it. *)
Lemma section_back : forall md x b c s blocks r r', add_texts md x s blocks r = Ok r' -> sets (get_section r s) = [] -> section_ok b c (get_section r' s) -> printed_blocks x blocks (sets (get_section r' s)) ->
  Forall2 (fun lines rs => forall md, rrset_from_strs md x lines = Ok rs -> text_rrset rs) blocks (non_opt (sets (get_section r' s))) ->
  Forall text_rrset (sets (get_section r' s)) /\ unique_sets (sets (get_section r' s)) /\ forall rs, In rs (sets (get_section r' s)) -> rs_type rs <> TOPT.
Proof.
  intros md x b c s blocks r r' E E0 K F G. destruct (texts_shape _ _ _ _ _ _ E) as (L & _). rewrite E0 in L. cbn [length] in L.
  pose proof (Forall2_len _ _ _ _ _ F) as Lf. pose proof (non_opt_le (sets (get_section r' s))) as Lo.
  assert (NO : forall rs, In rs (sets (get_section r' s)) -> rs_type rs <> TOPT) by (apply non_opt_all; lia). rewrite (non_opt_id _ NO) in *.
  assert (Un : unique_sets []) by (intros [|i] [|j] u v H; discriminate).
  destruct (texts_full _ _ _ _ _ _ E) as (l & Fl & El & U).
  - rewrite E0. cbn [length]. lia.
  - pose proof (section_sets_ok _ _ _ K) as Ks. eapply Forall_impl; [|exact Ks]. intros rs Z. apply Z.
  - rewrite E0. exact Un.
  - rewrite E0 in El. cbn [app] in El. subst l. split; [eapply both_text; eauto|]. auto.
Qed.
Theorem rebuild_exact : forall x r size, ext_ok x -> ext_range x -> b64_exact x -> x_b64_enc x [] = [] -> consistent r -> (forall u, size = Some u -> u < 65536)%N ->
  exists e ls an au ad, get_edns r = Ok e /\ wf_labels ls /\ q_name (r_question r) = name_of ls /\
    printed_blocks x an (sets (r_answer r)) /\ printed_blocks x au (sets (r_authority r)) /\ printed_blocks x ad (sets (r_additional r)) /\
    response_display x r = Ok (header_lines dec (r_header r) ++ [10%N] ++ edns_lines dec e ++ of_string ";; QUESTION SECTION:" ++ [10%N] ++ question_line ls (r_question r) ++ [10; 10]%N ++
      block_text ";; ANSWER SECTION:" (r_answer r) an [10%N] ++ block_text ";; AUTHORITY SECTION:" (r_authority r) au [10%N] ++ block_text ";; ADDITIONAL SECTION:" (r_additional r) ad []) /\
    forall md, build_response md x (h_id (r_header r)) (show_name ls) (q_type (r_question r)) an au ad size = Ok r <-> text_message r size.
Proof.
  intros x r size X Xr BX B0 C Us. pose proof C as (Hh & Hq & ((ls & Wl & En) & _) & A & B & D).
  destruct (printed_exist x _ X Xr BX B0 (section_sets_ok _ _ _ A)) as (an & Pa & Ga & Ta).
  destruct (printed_exist x _ X Xr BX B0 (section_sets_ok _ _ _ B)) as (au & Pb & Gb & Tb).
  destruct (printed_exist x _ X Xr BX B0 (section_sets_ok _ _ _ D)) as (ad & Pd & Gd & Td).
  destruct (get_edns_total r) as (e & Ee). exists e, ls, an, au, ad.
  split; [exact Ee|]. split; [exact Wl|]. split; [exact En|]. split; [exact Pa|]. split; [exact Pb|]. split; [exact Pd|]. split.
  - unfold response_display. rewrite Ee. cbn [rbind]. rewrite (question_display_ok _ ls Wl En). cbn [rbind].
    rewrite (printed_titled x _ _ _ _ _ an A Pa), (printed_titled x _ _ _ _ _ au B Pb), (printed_titled x _ _ _ _ _ ad D Pd).
    cbn [rbind]. rewrite DisplayProofs3.header_text. fold (edns_part e). rewrite edns_part_lines. reflexivity.
  - intros md. split.
    + intros E. destruct (build_response_head md x _ _ _ an au ad size r E) as (n & En' & Eq & _ & Op & Rc & Fl).
      assert (n = name_of ls) by (rewrite Eq in En; exact En). subst n.
      assert (Pl : plain_labels ls) by (apply round_trip_plain; auto).
      unfold build_response in E. rewrite En' in E. cbn [rbind] in E. set (r0 := response_with_question _ _ _) in E.
      apply rbind_ok in E. destruct E as (r1 & E1 & E). apply rbind_ok in E. destruct E as (r2 & E2 & E). apply rbind_ok in E. destruct E as (r3 & E3 & E). apply rbind_ok in E. destruct E as (r4 & E4 & E). apply Ok_inj in E.
      destruct (texts_shape _ _ _ _ _ _ E1) as (_ & O1 & _). destruct (texts_shape _ _ _ _ _ _ E2) as (_ & O2 & _). destruct (texts_shape _ _ _ _ _ _ E3) as (L3 & O3 & _).
      assert (S4 : r_answer r4 = r_answer r3 /\ r_authority r4 = r_authority r3). { destruct size as [u|]; [|apply Ok_inj in E4; subst; auto]. destruct (add_shape _ _ _ _ E4) as (l4 & -> & _). auto. }
      assert (Sa : r_answer r = r_answer r1). { rewrite <- E. change (r_answer r4 = r_answer r1). rewrite (proj1 S4). pose proof (O3 SAnswer ltac:(discriminate)) as Z3. pose proof (O2 SAnswer ltac:(discriminate)) as Z2. cbn in Z2, Z3. congruence. }
      assert (Sb : r_authority r = r_authority r2). { rewrite <- E. change (r_authority r4 = r_authority r2). rewrite (proj2 S4). exact (O3 SAuthority ltac:(discriminate)). }
      assert (Sd : r_additional r = r_additional r4) by (rewrite <- E; reflexivity).
      rewrite Sa in A, Pa, Ga. rewrite Sb in B, Pb, Gb.
      destruct (section_back md x _ _ SAnswer an r0 r1 E1 eq_refl A Pa Ga) as (Fa & Ua & Na).
      assert (Z2 : sets (get_section r1 SAuthority) = []) by (rewrite O1 by discriminate; reflexivity).
      destruct (section_back md x _ _ SAuthority au r1 r2 E2 Z2 B Pb Gb) as (Fb & Ub & Nb).
      assert (Z3 : sets (get_section r2 SAdditional) = []) by (rewrite O2, O1 by discriminate; reflexivity). rewrite Z3 in L3. cbn [length] in L3.
      cbn [get_section] in *.
      unfold text_message. rewrite Sa, Sb. split; [exists ls; auto|]. split; [rewrite Eq; reflexivity|]. split; [exact Op|]. split; [exact Rc|]. split; [exact Fl|].
      split; [exact Fa|]. split; [exact Fb|]. split; [exact Ua|]. split; [exact Ub|].
      assert (Un : unique_sets []) by (intros [|i] [|j] u v H; discriminate).
      assert (Rest : unique_sets (sets (r_additional r)) /\ exists l, Forall text_rrset l /\ (forall rs, In rs l -> rs_type rs <> TOPT) /\ (forall u, size = Some u -> u < 65536)%N /\
        sets (r_additional r) = l ++ match size with Some u => [edns_to_rrset (mkEdns 0 0 u false None)] | None => [] end).
      { pose proof (Forall2_len _ _ _ _ _ Pd) as Lp. pose proof (section_sets_ok _ _ _ D) as Ks.
        assert (Ow : owners_ok (sets (r_additional r))). { eapply Forall_impl; [|exact Ks]. intros rs Z. apply Z. }
        destruct size as [u|].
        - assert (Eu : as_u16 u = u) by (apply N.mod_small; exact (Us u eq_refl)). rewrite Eu in E4. destruct (add_shape _ _ _ _ E4) as (l4 & Er4 & Cl). cbn [get_section] in Cl.
          assert (Sl : sets (r_additional r) = l4) by (rewrite Sd, Er4; reflexivity).
          assert (In_o : In TOPT (map rs_type l4)).
          { pose proof E4 as E4'. unfold add_edns, add_rrset in E4'. cbn [get_section] in E4'. rewrite Er4 in E4'. destruct (r_additional r3) as [l3|] eqn:Q3; cbn [sets] in *.
            - destruct Cl as [Cl|Cl]; [rewrite Cl, map_app; apply in_or_app; right; left; reflexivity|].
              apply rbind_ok in E4'. destruct E4' as ([i|] & Fs & E4').
              + apply rbind_ok in E4'. destruct E4' as (old & Eo & E4'). apply rbind_ok in E4'. destruct E4' as (l' & El & E4'). apply Ok_inj in E4'. apply (f_equal r_additional) in E4'. cbn in E4'. injection E4' as ->.
                apply in_map_iff. eexists. split; [|eapply upd_in; exact El]. cbn [rs_type]. exact (find_same_type _ _ _ _ Fs Eo).
              + apply Ok_inj in E4'. apply (f_equal r_additional) in E4'. cbn in E4'. injection E4' as E4'. assert (Lz : length l4 = length l3 + 1) by (rewrite <- E4' || rewrite E4'; rewrite app_length; reflexivity). lia.
            - apply Ok_inj in E4'. apply (f_equal r_additional) in E4'. cbn in E4'. injection E4' as E4'. (rewrite <- E4' || rewrite E4'). left. reflexivity. }
          assert (Lo : length (non_opt l4) < length l4).
          { destruct (Nat.lt_ge_cases (length (non_opt l4)) (length l4)) as [Z|Z]; [exact Z|]. exfalso. pose proof (non_opt_le l4). apply in_map_iff in In_o. destruct In_o as (rs & Tr & Ir).
            apply (non_opt_all l4) with (rs := rs); auto. lia. }
          rewrite Sl in *. assert (Hl : l4 = sets (r_additional r3) ++ [edns_to_rrset (mkEdns 0 0 u false None)] /\ length (sets (r_additional r3)) = length ad).
          { destruct Cl as [Cl|Cl]; [|lia]. split; [exact Cl|]. assert (Lz : length l4 = length (sets (r_additional r3)) + 1) by (rewrite Cl, app_length; reflexivity). lia. }
          destruct Hl as [Hl Ll]. clear Cl.
          assert (Ow3 : owners_ok (sets (r_additional r3))). { unfold owners_ok in *. rewrite Hl in Ow. apply Forall_app in Ow. apply Ow. }
          destruct (texts_full md x SAdditional ad r2 r3 E3) as (l & Fl3 & El3 & U3); [cbn [get_section]; rewrite Z3; cbn [length]; lia|exact Ow3|cbn [get_section]; rewrite Z3; exact Un|].
          cbn [get_section] in El3, U3. rewrite Z3 in El3. cbn [app] in El3.
          pose proof (add_rrset_unique r3 SAdditional _ r4 (edns_owner u) Ow3 U3 E4) as U4. rewrite Er4 in U4. cbn in U4.
          split; [exact U4|]. exists (sets (r_additional r3)).
          assert (NO : forall rs, In rs (sets (r_additional r3)) -> rs_type rs <> TOPT).
          { apply non_opt_all. rewrite Hl, filter_app, app_length in Lp. cbn [filter] in Lp. change (rrtype_eqb (rs_type (edns_to_rrset (mkEdns 0 0 u false None))) TOPT) with true in Lp. cbn [negb length] in Lp. lia. }
          split; [|split; [exact NO|split; [exact Us|exact Hl]]].
          rewrite Hl, filter_app, (non_opt_id _ NO) in Gd. cbn [filter] in Gd. change (rrtype_eqb (rs_type (edns_to_rrset (mkEdns 0 0 u false None))) TOPT) with true in Gd. cbn [negb] in Gd. rewrite app_nil_r in Gd.
          eapply both_text; [|exact Gd]. rewrite El3. exact Fl3.
        - apply Ok_inj in E4. subst r4. rewrite Sd in *.
          destruct (section_back md x _ _ SAdditional ad r2 r3 E3 Z3 D Pd Gd) as (Fd & Ud & Nd). cbn [get_section] in *. split; [exact Ud|]. exists (sets (r_additional r3)). rewrite app_nil_r. auto. }
      destruct Rest as [R1 R2]. split; [exact R1|]. split; [|exact R2]. intros rs [I|I]; auto.
    + intros T. destruct (rebuild x r size X C T) as (e' & ls' & an' & au' & ad' & _ & Wl' & Pl' & En' & N10 & _ & _). clear e' an' au' ad' N10.
      assert (ls' = ls). { symmetry. eapply NameOpsProofs.name_of_inj; [apply Wl|apply Wl'|congruence]. } subst ls'.
      pose proof T as (_ & _ & _ & _ & _ & Ra & Rb & _ & _ & _ & NO & l & Rl & NOl & _ & El).
      rewrite (non_opt_id _ (fun rs I => NO rs (or_introl I))) in Ta. rewrite (non_opt_id _ (fun rs I => NO rs (or_intror I))) in Tb.
      rewrite El, filter_app, (non_opt_id _ NOl) in Td.
      assert (Z : filter (fun rs => negb (rrtype_eqb (rs_type rs) TOPT)) match size with Some u => [edns_to_rrset (mkEdns 0 0 u false None)] | None => [] end = []) by (destruct size; reflexivity).
      rewrite Z, app_nil_r in Td. eapply rebuild_blocks; eauto.
Qed.

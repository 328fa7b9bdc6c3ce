(** Label slices: views of consecutive labels. *)
From Verif Require Import Base BaseLemmas NameModel SliceModel RenderModel SpecName SpecOrd SpecScope SpecSlice SpecEsc
  NameWireProofs NameOpsProofs NameOpsProofs2 NameCmpProofs NameCmpProofs2 NameTextProofs NameTextProofs2 OrdBase OrdName OrdProofs EscProofs EscProofs2.
Open Scope list_scope.
Open Scope nat_scope.

(** The slice [s] of [fls] shows [vs]. *)
Definition view (fls : list label) (s : labelslice) (vs : list label) : Prop :=
  vs <> [] /\ sl_data s = body fls /\ sl_offsets s = obody 0 fls /\
  exists p q, fls = p ++ vs ++ q /\ sl_first s = length p /\ sl_last s + 1 = length p + length vs.
Lemma view_rep : forall fls s vs, elen fls <= 255 -> view fls s vs -> slice_rep s vs.
Proof.
  intros fls s vs L (N & D & O & p & q & E & F & G). split; auto. exists (body p), (body q), (obody 0 p), (obody (elen p + elen vs) q).
  rewrite D, O, E, !obody_app, !body_app, obody_len, body_len, Nat.add_0_l. split; [reflexivity|]. split; [reflexivity|]. split; [exact F|]. split; [exact G|].
  rewrite E, !elen_app in L. lia.
Qed.
Lemma view_seq : forall fls s, slice_of_seq (seqf fls) = Ok s -> view fls s fls.
Proof.
  intros fls s H. unfold slice_of_seq, seqf in H. cbn [ls_offsets ls_data] in H. rewrite obody_len in H. destruct fls as [|l fls]; [discriminate|].
  rewrite csub_ok in H by (cbn; lia). cbn [rbind] in H. injection H as <-. split; [discriminate|]. split; [reflexivity|]. split; [reflexivity|].
  exists [], []. rewrite app_nil_r. split; [reflexivity|]. split; [reflexivity|]. cbn. lia.
Qed.
Lemma view_name : forall ls s, slice_of_name (name_of ls) = Ok s -> view (ls ++ [[]]) s (ls ++ [[]]).
Proof.
  intros ls s H. apply view_seq. unfold slice_of_name in H. unfold slice_of_seq, seqf. cbn [ls_offsets ls_data]. rewrite obody_len, app_length. cbn [length].
  rewrite label_count_of in H. change (ls ++ [[]]) with (full ls). rewrite body_full, obody_full. exact H.
Qed.
Lemma view_strip : forall fls s vs o, view fls s vs ->
  match strip_labels vs o with
  | Some ws => exists s', sl_strip s o = Ok s' /\ view fls s' ws
  | None => sl_strip s o = Panic
  end.
Proof.
  intros fls s vs o (N & D & O & p & q & E & F & G). assert (LC : sl_label_count s = length vs). { unfold sl_label_count. destruct vs; [congruence|]. cbn [length] in *. lia. }
  destruct o as [k|k]; cbn [strip_labels sl_strip]; unfold sl_strip_left, sl_strip_right; rewrite LC; destruct (Nat.ltb_spec k (length vs)) as [K|K]; cbn [assert_r rbind]; try reflexivity.
  - eexists. split; [reflexivity|]. split; [intros X; apply (f_equal (@length _)) in X; rewrite skipn_length in X; cbn in X; lia|]. cbn [sl_data sl_offsets sl_first sl_last].
    split; [exact D|]. split; [exact O|]. exists (p ++ firstn k vs), q. rewrite !app_length, skipn_length, firstn_length_le by lia. split; [|split; lia].
    rewrite E, <- app_assoc. f_equal. rewrite app_assoc, firstn_skipn. reflexivity.
  - rewrite csub_ok by (destruct vs; [congruence|]; cbn [length] in *; lia). cbn [rbind]. eexists. split; [reflexivity|].
    split; [intros X; apply (f_equal (@length _)) in X; rewrite firstn_length_le in X by lia; cbn in X; lia|]. cbn [sl_data sl_offsets sl_first sl_last].
    split; [exact D|]. split; [exact O|]. exists p, (skipn (length vs - k) vs ++ q). rewrite firstn_length_le by lia. split; [|split; lia].
    rewrite E. f_equal. rewrite app_assoc, firstn_skipn. reflexivity.
Qed.
Lemma view_strips : forall os fls s vs, view fls s vs ->
  match strips_labels vs os with
  | Some ws => exists s', sl_strips s os = Ok s' /\ view fls s' ws
  | None => sl_strips s os = Panic
  end.
Proof.
  induction os as [|o os IH]; intros fls s vs V; cbn [strips_labels sl_strips]; [eauto|]. pose proof (view_strip _ _ _ o V) as H. destruct (strip_labels vs o) as [ws|].
  - destruct H as (s' & -> & V'). cbn [rbind]. apply IH. exact V'.
  - rewrite H. reflexivity.
Qed.

(** * Contents of a view *)
Lemma view_offs : forall fls s vs, view fls s vs -> exists p q, fls = p ++ vs ++ q /\ sl_first s = length p /\ sl_last s + 1 = length p + length vs /\ sl_offs s = Ok (obody (length (body p)) vs).
Proof.
  intros fls s vs (N & D & O & p & q & E & F & G). exists p, q. split; [exact E|]. split; [exact F|]. split; [exact G|]. unfold sl_offs. rewrite O, F, G, E, !obody_app, body_len.
  apply slice_mid; rewrite ?obody_len; lia.
Qed.
(** Display *)
Lemma shape_app : forall p q, seq_shape (p ++ q) -> seq_shape p /\ seq_shape q.
Proof.
  intros p q [L F]. rewrite body_app, app_length in L. assert (C : (Forall wf_label p \/ exists ls, Forall wf_label ls /\ p = ls ++ [[]]) /\ (Forall wf_label q \/ exists ls, Forall wf_label ls /\ q = ls ++ [[]])).
  { destruct F as [F|(ls & F & E)].
    - apply Forall_app in F. destruct F. auto.
    - destruct q as [|x q] using rev_ind.
      + rewrite app_nil_r in E. split; [right; exists ls; auto|left; constructor].
      + clear IHq. rewrite app_assoc in E. apply app_inj_tail in E. destruct E as [<- ->]. apply Forall_app in F. destruct F as [F G]. split; [left; exact F|right; exists q; auto]. }
  split; (split; [lia|]); apply C.
Qed.
Lemma view_shape : forall fls s vs, seq_shape fls -> view fls s vs -> seq_shape vs.
Proof. intros fls s vs S (_ & _ & _ & p & q & -> & _). apply shape_app in S. destruct S as [_ S]. apply shape_app in S. apply S. Qed.
Lemma disp_rel : forall ls fuel buf, Forall wf_label ls -> buf <> [] -> length ls <= fuel -> disp_loop fuel (body ls) buf = Ok (buf ++ dotted ls).
Proof.
  induction ls as [|l ls IH]; intros fuel buf W NB F.
  - destruct fuel; cbn; rewrite app_nil_r; reflexivity.
  - destruct fuel as [|fuel]; [cbn in F; lia|]. inversion W as [|? ? [L B] W']; subst. cbn [body flat_map enc_label app disp_loop].
    replace (blen l =? 0)%N with false by (symmetry; apply N.eqb_neq; unfold blen; lia). destruct buf as [|b buf]; [congruence|].
    assert (X : N.to_nat (blen l) = length l) by (unfold blen; lia). rewrite X. rewrite disp_label_spec by auto. cbn [rbind].
    change (flat_map enc_label ls) with (body ls). rewrite IH; [|auto|discriminate|cbn in F; lia]. f_equal. cbn [dotted flat_map]. change (flat_map _ ls) with (dotted ls). rewrite <- !app_assoc. reflexivity.
Qed.
Lemma join_dotted : forall l ls, join_dots (l :: ls) = show_label l ++ dotted ls.
Proof.
  intros l ls. revert l. induction ls as [|m ls IH]; intros l; [cbn; rewrite app_nil_r; reflexivity|].
  change (join_dots (l :: m :: ls)) with (show_label l ++ [46%N] ++ join_dots (m :: ls)). rewrite IH. reflexivity.
Qed.
Lemma disp_rel_top : forall ls fuel, Forall wf_label ls -> length ls <= fuel -> disp_loop fuel (body ls) [] = Ok (join_dots ls).
Proof.
  intros [|l ls] fuel W F; [destruct fuel; reflexivity|]. destruct fuel as [|fuel]; [cbn in F; lia|]. inversion W as [|? ? [L B] W']; subst. cbn [body flat_map enc_label app disp_loop].
  replace (blen l =? 0)%N with false by (symmetry; apply N.eqb_neq; unfold blen; lia).
  assert (X : N.to_nat (blen l) = length l) by (unfold blen; lia). rewrite X. rewrite disp_label_spec by auto. cbn [rbind app].
  change (flat_map enc_label ls) with (body ls). rewrite disp_rel; [rewrite join_dotted; reflexivity|auto| |cbn in F; lia].
  apply show_label_ne. destruct l; [cbn in L; lia|discriminate].
Qed.
Lemma labels_body : forall ls : list label, length ls <= length (body ls).
Proof. induction ls as [|l ls IH]; cbn [body flat_map enc_label length app]; [lia|]. rewrite app_length. unfold body in IH. lia. Qed.
Lemma rep_display : forall s vs, slice_rep s vs -> seq_shape vs -> sl_display s = Ok (show_seq vs).
Proof.
  intros s vs R [L F]. unfold sl_display. rewrite (rep_bytes _ _ R). cbn [rbind]. unfold show_seq. destruct F as [F|(ls & F & ->)].
  - rewrite disp_rel_top by (auto using labels_body). destruct (rev vs) as [|[|c l] r] eqn:E; auto. exfalso. apply (f_equal (@rev _)) in E. rewrite rev_involutive in E. cbn in E. subst vs.
    apply Forall_app in F. destruct F as [_ F]. inversion F as [|? ? [X _] _]. cbn in X. lia.
  - rewrite rev_app_distr. cbn [rev app]. rewrite rev_involutive. change (ls ++ [[]]) with (full ls) in *. rewrite body_full in *. apply disp_loop_top; [split; auto|].
    unfold enc. rewrite app_length. pose proof (labels_body ls). cbn [length]. lia.
Qed.

(** * equals *)
Lemma rep_equals : forall a b va vb cs, slice_rep a va -> slice_rep b vb -> seq_shape va -> seq_shape vb ->
  exists e, sl_equals a b cs = Ok e /\ (e = true <-> fold_case cs va = fold_case cs vb).
Proof.
  intros a b va vb cs Ra Rb Sa Sb. unfold sl_equals. rewrite (rep_len _ _ Ra), (rep_len _ _ Rb), (rep_bytes _ _ Ra), (rep_bytes _ _ Rb). cbn [rbind].
  pose proof (seq_equals_spec va vb Sa Sb) as [Q1 Q2]. unfold seq_equals, seqf in Q1, Q2. cbn [ls_data] in Q1, Q2. rewrite !body_len in Q1, Q2.
  assert (FC : fold_case cs va = fold_case cs vb <-> if cs then va = vb else same_name va vb) by (destruct cs; reflexivity).
  destruct (negb (elen va =? elen vb)); (eexists; split; [reflexivity|]); rewrite FC; destruct cs; assumption.
Qed.

(** * compare *)
Lemma nrmls_fold : forall cs ls, nrmls cs ls = fold_case cs ls.
Proof.
  intros cs ls. unfold nrmls, nrml, nrm, fold_case, lc_labels, lc_label. destruct cs; [|reflexivity].
  rewrite <- (map_id ls) at 2. apply map_ext. intros l. apply map_id.
Qed.
Lemma rep_pcmp : forall md cs a b fa fb, slice_rep a fa -> slice_rep b fb ->
  sl_compare md cs a b = pcmp md (rev (fold_case cs fa)) (rev (fold_case cs fb)) 0 (Z.of_nat (length fa) - Z.of_nat (length fb))%Z.
Proof.
  intros md cs a b fa fb Ra Rb. unfold sl_compare. rewrite (rep_label_count _ _ Ra), (rep_label_count _ _ Rb), <- !nrmls_fold.
  rewrite (cmp_loop_pcmp md cs a b fa fb Ra Rb (Nat.min (length fa) (length fb)) fa fb [] []); auto; rewrite app_nil_r; auto.
Qed.
Lemma small_fold : forall cs fls, Forall small fls -> Forall small (rev (fold_case cs fls)).
Proof. intros [] fls H; cbn [fold_case]; [apply Forall_rev; exact H|apply small_lc; exact H]. Qed.
Lemma fold_len : forall cs fls, length (fold_case cs fls) = length fls.
Proof. intros [] fls; cbn; auto. apply map_length. Qed.
Lemma prefix_len : forall a b, common_prefix a b <= length a /\ common_prefix a b <= length b.
Proof. induction a as [|x a IH]; intros [|y b]; cbn; try lia. destruct (list_eq_dec _ _ _); [|lia]. specialize (IH b). lia. Qed.
Lemma prefix_all : forall a b, common_prefix a b = length a <-> exists c, b = a ++ c.
Proof.
  induction a as [|x a IH]; intros b; cbn; [split; eauto|]. destruct b as [|y b]; [split; [discriminate|intros (c & X); discriminate]|].
  destruct (list_eq_dec N.eq_dec x y) as [->|N].
  - split; [intros [= H]; apply IH in H; destruct H as (c & ->); eauto|intros (c & [= ->]); f_equal; apply IH; eauto].
  - split; [discriminate|intros (c & [= -> _]); congruence].
Qed.
Lemma tail_common : forall cs a b, tail_of cs b a <-> common_tail cs a b = length b.
Proof.
  intros cs a b. unfold tail_of, common_tail, suffix_of. assert (Y : forall u v, common_prefix u v = common_prefix v u).
  { induction u as [|x u IH]; intros [|y v]; cbn; auto. destruct (list_eq_dec _ x y), (list_eq_dec _ y x); congruence. }
  rewrite Y, <- (fold_len cs b), <- rev_length, prefix_all. split; intros (c & H).
  - exists (rev c). rewrite H, rev_app_distr. reflexivity.
  - exists (rev c). apply (f_equal (@rev _)) in H. rewrite rev_involutive, rev_app_distr, rev_involutive in H. exact H.
Qed.
Lemma tail_both : forall cs a b, fold_case cs a = fold_case cs b <-> common_tail cs a b = length a /\ common_tail cs a b = length b.
Proof.
  intros cs a b. split.
  - intros H. assert (L : length a = length b) by (rewrite <- (fold_len cs a), <- (fold_len cs b), H; reflexivity). assert (T : tail_of cs b a) by (exists []; rewrite H; reflexivity).
    apply tail_common in T. lia.
  - intros [H1 H2]. assert (T : tail_of cs b a) by (apply tail_common; exact H2). destruct T as (p & E). assert (length p = 0). { apply (f_equal (@length _)) in E. rewrite app_length, !fold_len in E. lia. }
    destruct p; [exact E|discriminate].
Qed.
Lemma tail_sym : forall cs a b, common_tail cs a b = common_tail cs b a.
Proof.
  intros cs a b. unfold common_tail. generalize (rev (fold_case cs a)) (rev (fold_case cs b)). induction l as [|x u IH]; intros [|y v]; cbn; auto.
  destruct (list_eq_dec _ x y), (list_eq_dec _ y x); congruence.
Qed.
Lemma rep_compare : forall md cs a b va vb, slice_rep a va -> slice_rep b vb -> seq_shape va -> seq_shape vb ->
  match slice_order md cs va vb with
  | Ok c => exists r, sl_compare md cs a b = Ok r /\ (cr_order r ?= 0)%Z = c /\ N.to_nat (cr_common r) = common_tail cs va vb /\
      (cr_relation r = Equal <-> fold_case cs va = fold_case cs vb) /\
      (cr_relation r = SubDomain <-> tail_of cs vb va /\ fold_case cs va <> fold_case cs vb) /\
      (cr_relation r = SuperDomain <-> tail_of cs va vb /\ fold_case cs va <> fold_case cs vb) /\
      (cr_relation r = CommonAncestor <-> ~ tail_of cs vb va /\ ~ tail_of cs va vb /\ 0 < common_tail cs va vb) /\
      (cr_relation r = NoRelation <-> common_tail cs va vb = 0)
  | _ => sl_compare md cs a b = Panic
  end.
Proof.
  intros md cs a b va vb Ra Rb Sa Sb.
  pose proof (shape_count _ Sa) as Ca. pose proof (shape_count _ Sb) as Cb.
  assert (Na : va <> []) by apply Ra. assert (Nb : vb <> []) by apply Rb. assert (0 < length va) by (destruct va; [congruence|cbn; lia]). assert (0 < length vb) by (destruct vb; [congruence|cbn; lia]).
  pose proof (small_fold cs _ (shape_small _ Sa)) as Fa. pose proof (small_fold cs _ (shape_small _ Sb)) as Fb.
  pose proof (pcmp_exact md (rev (fold_case cs va)) (rev (fold_case cs vb)) 0 (Z.of_nat (length va) - Z.of_nat (length vb))%Z Fa Fb ltac:(rewrite !rev_length, !fold_len; reflexivity) ltac:(lia)) as P.
  rewrite <- (rep_pcmp md cs a b va vb Ra Rb) in P.
  assert (D : sl_compare md cs a b <> Panic -> sl_compare md cs a b = sl_compare Release cs a b).
  { intros NP. destruct md; [|reflexivity]. rewrite !(rep_pcmp _ cs a b va vb Ra Rb) in *. rewrite (pcmp_debug _ _ 0 _ Fa Fb) in *. destruct (clash_labels _ _) as [[x y]|]; [|reflexivity]. destruct (overflows (x, y)); [congruence|reflexivity]. }
  assert (Oa : Forall label_ok va) by (apply shape_small; exact Sa). assert (Ob : Forall label_ok vb) by (apply shape_small; exact Sb).
  destruct (sl_compare_spec Release cs a b va vb Ra Rb Oa Ob (or_introl eq_refl) Ca Cb) as (r0 & R0 & R1 & R2 & _).
  assert (K : forall r c, sl_compare md cs a b = Ok r -> (cr_order r ?= 0)%Z = c -> exists r, sl_compare md cs a b = Ok r /\ (cr_order r ?= 0)%Z = c /\ N.to_nat (cr_common r) = common_tail cs va vb /\
      (cr_relation r = Equal <-> fold_case cs va = fold_case cs vb) /\
      (cr_relation r = SubDomain <-> tail_of cs vb va /\ fold_case cs va <> fold_case cs vb) /\
      (cr_relation r = SuperDomain <-> tail_of cs va vb /\ fold_case cs va <> fold_case cs vb) /\
      (cr_relation r = CommonAncestor <-> ~ tail_of cs vb va /\ ~ tail_of cs va vb /\ 0 < common_tail cs va vb) /\
      (cr_relation r = NoRelation <-> common_tail cs va vb = 0)).
  { intros r c E O. exists r. split; [exact E|]. split; [exact O|]. assert (r = r0). { rewrite D, R0 in E by (rewrite E; discriminate). injection E as ->. reflexivity. } subst r0.
    rewrite !nrmls_fold in R1, R2. change (common_prefix _ _) with (common_tail cs va vb) in R1, R2. split; [rewrite R1; lia|]. rewrite R2, tail_both, !tail_common, (tail_sym cs vb va).
    unfold rel_spec. pose proof (prefix_len (rev (fold_case cs va)) (rev (fold_case cs vb))) as [X Y]. change (common_prefix _ _) with (common_tail cs va vb) in X, Y.
    destruct (Nat.eqb_spec (common_tail cs va vb) (length va)), (Nat.eqb_spec (common_tail cs va vb) (length vb)); cbn [andb]; try destruct (Nat.eqb_spec (common_tail cs va vb) 0);
      repeat split; intros; try discriminate; try lia. }
  unfold slice_order. destruct (clash_labels _ _) as [[x y]|].
  - destruct (overflows (x, y)) eqn:O; cbn [andb] in P.
    + destruct md; [exact P|]. destruct P as (r & E & _ & C). exact (K r _ E C).
    + destruct P as (r & E & _ & C). exact (K r _ E C).
  - destruct P as (r & E & C). exact (K r _ E C).
Qed.

(** * Together *)
Lemma source_view : forall fls s, slice_source fls s -> view fls s fls.
Proof. intros fls s [H|(ls & -> & H)]; [apply view_seq; exact H|apply view_name; exact H]. Qed.
Theorem slice_views : forall fls s0 os, seq_shape fls -> slice_source fls s0 ->
  match strips_labels fls os with
  | None => sl_strips s0 os = Panic
  | Some vs => exists s p q, sl_strips s0 os = Ok s /\ fls = p ++ vs ++ q /\ sl_first_label s = length p /\ sl_last_label s = length p + length vs - 1 /\
      sl_label_count s = length vs /\ sl_len s = Ok (length (body vs)) /\ sl_is_empty s = Ok false /\ sl_bytes s = Ok (body vs) /\
      sl_offs s = Ok (obody (length (body p)) vs) /\ sl_display s = Ok (show_seq vs)
  end.
Proof.
  intros fls s0 os S H. pose proof (view_strips os _ _ _ (source_view _ _ H)) as V. destruct (strips_labels fls os) as [vs|]; [|exact V]. destruct V as (s & E & V).
  destruct (view_offs _ _ _ V) as (p & q & E1 & E2 & E3 & E4). exists s, p, q. assert (R : slice_rep s vs) by (eapply view_rep; [|exact V]; rewrite <- body_len; apply S).
  assert (N : vs <> []) by apply R. assert (0 < length vs) by (destruct vs; [congruence|cbn; lia]).
  split; [exact E|]. split; [exact E1|]. split; [exact E2|]. split; [unfold sl_last_label; lia|]. split; [apply rep_label_count; exact R|].
  split; [rewrite (rep_len _ _ R), body_len; reflexivity|]. split; [unfold sl_is_empty; rewrite (rep_len _ _ R); cbn [rbind]; f_equal; apply Nat.eqb_neq; pose proof (labels_body vs); rewrite <- body_len; lia|].
  split; [apply rep_bytes; exact R|]. split; [exact E4|]. apply rep_display; [exact R|]. eapply view_shape; eauto.
Qed.
Lemma strips_rep : forall fls s0 os s, seq_shape fls -> slice_source fls s0 -> sl_strips s0 os = Ok s ->
  exists vs, strips_labels fls os = Some vs /\ slice_rep s vs /\ seq_shape vs.
Proof.
  intros fls s0 os s S H E. pose proof (view_strips os _ _ _ (source_view _ _ H)) as V. destruct (strips_labels fls os) as [vs|]; [|congruence]. destruct V as (s' & E' & V). assert (s' = s) by congruence. subst.
  exists vs. split; [reflexivity|]. split; [eapply view_rep; [|exact V]; rewrite <- body_len; apply S|eapply view_shape; eauto].
Qed.
Theorem slice_equals : forall fa a0 oa a fb b0 ob b cs, seq_shape fa -> slice_source fa a0 -> sl_strips a0 oa = Ok a -> seq_shape fb -> slice_source fb b0 -> sl_strips b0 ob = Ok b ->
  exists va vb e, strips_labels fa oa = Some va /\ strips_labels fb ob = Some vb /\ sl_equals a b cs = Ok e /\ (e = true <-> fold_case cs va = fold_case cs vb).
Proof.
  intros fa a0 oa a fb b0 ob b cs Sa Ha Ea Sb Hb Eb. destruct (strips_rep _ _ _ _ Sa Ha Ea) as (va & A1 & A2 & A3). destruct (strips_rep _ _ _ _ Sb Hb Eb) as (vb & B1 & B2 & B3).
  destruct (rep_equals a b va vb cs A2 B2 A3 B3) as (e & E1 & E2). exists va, vb, e. auto.
Qed.
Theorem slice_compare : forall md cs fa a0 oa a fb b0 ob b, seq_shape fa -> slice_source fa a0 -> sl_strips a0 oa = Ok a -> seq_shape fb -> slice_source fb b0 -> sl_strips b0 ob = Ok b ->
  exists va vb, strips_labels fa oa = Some va /\ strips_labels fb ob = Some vb /\
  match slice_order md cs va vb with
  | Ok c => exists r, sl_compare md cs a b = Ok r /\ (cr_order r ?= 0)%Z = c /\ N.to_nat (cr_common r) = common_tail cs va vb /\
      (cr_relation r = Equal <-> fold_case cs va = fold_case cs vb) /\
      (cr_relation r = SubDomain <-> tail_of cs vb va /\ fold_case cs va <> fold_case cs vb) /\
      (cr_relation r = SuperDomain <-> tail_of cs va vb /\ fold_case cs va <> fold_case cs vb) /\
      (cr_relation r = CommonAncestor <-> ~ tail_of cs vb va /\ ~ tail_of cs va vb /\ 0 < common_tail cs va vb) /\
      (cr_relation r = NoRelation <-> common_tail cs va vb = 0)
  | _ => sl_compare md cs a b = Panic
  end.
Proof.
  intros md cs fa a0 oa a fb b0 ob b Sa Ha Ea Sb Hb Eb. destruct (strips_rep _ _ _ _ Sa Ha Ea) as (va & A1 & A2 & A3). destruct (strips_rep _ _ _ _ Sb Hb Eb) as (vb & B1 & B2 & B3).
  exists va, vb. split; [exact A1|]. split; [exact B1|]. apply rep_compare; assumption.
Qed.
(** On ASCII octets nothing overflows, so both builds answer, and by the canonical order. *)
Lemma slice_order_ascii : forall md cs va vb, ascii_labels va -> ascii_labels vb -> slice_order md cs va vb = Ok (lex_labels (rev (fold_case cs va)) (rev (fold_case cs vb))).
Proof.
  intros md cs va vb A B. unfold slice_order.
  assert (AF : forall v, ascii_labels v -> Forall (Forall (fun c => c < 128)%N) (rev (fold_case cs v))).
  { intros v Av. apply Forall_rev. destruct cs; [exact Av|]. cbn [fold_case]. unfold lc_labels. apply Forall_map. eapply Forall_impl; [|exact Av]. intros l Hl. unfold lc_label. apply Forall_map. eapply Forall_impl; [|exact Hl].
    intros c Hc. cbn in *. unfold lc. destruct (N.leb_spec 65 c), (N.leb_spec c 90); cbn [andb]; lia. }
  pose proof (AF _ A) as A'. pose proof (AF _ B) as B'. revert A' B'. generalize (rev (fold_case cs va)) (rev (fold_case cs vb)). clear. intros u v Fu Fv.
  destruct (clash_labels u v) as [[x y]|] eqn:C; [|reflexivity].
  assert (K : (x < 128)%N /\ (y < 128)%N /\ lex_labels u v = (x ?= y)%N).
  { revert v Fu Fv C. induction u as [|a u IH]; intros [|b v] Fu Fv C; try discriminate. inversion Fu as [|? ? Fa Fu']; subst. inversion Fv as [|? ? Fb Fv']; subst. cbn [clash_labels lex_labels] in *.
    assert (Q : match clash_octets a b with Some (p, q) => (p < 128)%N /\ (q < 128)%N /\ p <> q /\ lex_bytes a b = (p ?= q)%N | None => length a = length b -> lex_bytes a b = Eq end).
    { clear -Fa Fb. revert b Fb. induction Fa as [|p a Hp Fa IH]; intros b Fb; destruct b as [|q b]; cbn; auto; try discriminate. inversion Fb as [|? ? Hq Fb']; subst. destruct (N.eqb_spec p q).
      - subst. rewrite N.compare_refl. specialize (IH b Fb'). destruct (clash_octets a b) as [[? ?]|]; auto.
      - split; [exact Hp|]. split; [exact Hq|]. split; [assumption|]. destruct (N.compare_spec p q); [congruence|reflexivity|reflexivity]. }
    destruct (clash_octets a b) as [[p q]|].
    - injection C as <- <-. destruct Q as (Q1 & Q2 & Q3 & Q4). rewrite Q4. split; [exact Q1|]. split; [exact Q2|]. destruct (N.compare_spec p q); congruence.
    - destruct (Nat.eqb_spec (length a) (length b)) as [El|]; [|discriminate]. rewrite (Q El). apply IH; auto. }
  destruct K as (Kx & Ky & K). rewrite K.
  assert (Sx : signed x = Z.of_N x) by (unfold signed; apply N.ltb_lt in Kx; rewrite Kx; reflexivity). assert (Sy : signed y = Z.of_N y) by (unfold signed; apply N.ltb_lt in Ky; rewrite Ky; reflexivity).
  replace (overflows (x, y)) with false; [rewrite Sx, Sy, N2Z.inj_compare; reflexivity|]. symmetry. unfold overflows. cbn [fst snd]. rewrite Sx, Sy. apply negb_false_iff, andb_true_iff. split; apply Z.leb_le; lia.
Qed.
Lemma slice_exists : (forall fls, fls <> [] -> exists s, slice_of_seq (seqf fls) = Ok s /\ slice_source fls s) /\
  (forall ls, exists s, slice_of_name (name_of ls) = Ok s /\ slice_source (ls ++ [[]]) s).
Proof.
  split.
  - intros fls N. unfold slice_of_seq, seqf. cbn [ls_offsets ls_data]. rewrite obody_len, csub_ok by (destruct fls; [congruence|cbn; lia]). cbn [rbind]. eexists. split; [reflexivity|].
    left. unfold slice_of_seq, seqf. cbn [ls_offsets ls_data]. rewrite obody_len, csub_ok by (destruct fls; [congruence|cbn; lia]). reflexivity.
  - intros ls. assert (E : exists s, slice_of_name (name_of ls) = Ok s). { unfold slice_of_name. rewrite label_count_of, csub_ok by lia. eexists. reflexivity. }
    destruct E as (s & E). exists s. split; [exact E|]. right. eauto.
Qed.
Lemma common_tail_spec : forall cs a b, exists x y s, fold_case cs a = x ++ s /\ fold_case cs b = y ++ s /\ common_tail cs a b = length s /\
  forall x' y' s', fold_case cs a = x' ++ s' -> fold_case cs b = y' ++ s' -> length s' <= length s.
Proof.
  intros cs a b. unfold common_tail.
  assert (K : forall u v, exists s x y, u = s ++ x /\ v = s ++ y /\ common_prefix u v = length s /\ forall s' x' y', u = s' ++ x' -> v = s' ++ y' -> length s' <= length s).
  { induction u as [|p u IH]; intros v.
    - exists [], [], v. repeat split. intros s' x' y' H _. destruct s'; [cbn; lia|discriminate].
    - destruct v as [|q v]; [exists [], (p :: u), []; repeat split; intros s' x' y' _ H; destruct s'; [cbn; lia|discriminate]|].
      cbn [common_prefix]. destruct (list_eq_dec N.eq_dec p q) as [->|N].
      + destruct (IH v) as (s & x & y & -> & -> & C & M). exists (q :: s), x, y. repeat split; [cbn; congruence|]. intros s' x' y' H1 H2. destruct s' as [|w s']; [cbn; lia|]. injection H1 as _ H1. injection H2 as _ H2. cbn. pose proof (M _ _ _ H1 H2). lia.
      + exists [], (p :: u), (q :: v). repeat split. intros s' x' y' H1 H2. destruct s' as [|w s']; [cbn; lia|]. injection H1 as -> _. injection H2 as -> _. congruence. }
  destruct (K (rev (fold_case cs a)) (rev (fold_case cs b))) as (s & x & y & E1 & E2 & C & M). exists (rev x), (rev y), (rev s).
  split; [rewrite <- rev_app_distr, <- E1, rev_involutive; reflexivity|]. split; [rewrite <- rev_app_distr, <- E2, rev_involutive; reflexivity|]. split; [rewrite C, rev_length; reflexivity|].
  intros x' y' s' H1 H2. rewrite rev_length, <- (rev_length s'). apply (M _ (rev x') (rev y')); rewrite <- rev_app_distr; [rewrite H1|rewrite H2]; reflexivity.
Qed.

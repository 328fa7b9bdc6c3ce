From Verif Require Import Base BaseLemmas NameModel SpecName SpecApi NameWireProofs NameOpsProofs NameOpsProofs2 NameCmpProofs NameCmpProofs2 NameTextProofs SpecEsc EscProofs NameTextProofs2.

Lemma shape_eq : forall fls, seq_shape fls <-> elen fls <= 255 /\ (Forall wf_label fls \/ exists ls, Forall wf_label ls /\ fls = full ls).
Proof. reflexivity. Qed.
Lemma full_app_inv : forall ls a b, full ls = a ++ b -> b <> [] -> exists c, ls = a ++ c /\ b = full c.
Proof.
  intros ls a b E NB. destruct (@exists_last _ b NB) as (c & x & ->). exists c. unfold full in *.
  rewrite app_assoc in E. apply app_inj_tail in E. destruct E as [-> <-]. auto.
Qed.
Lemma shape_sub : forall a b c, seq_shape (a ++ b ++ c) -> seq_shape b.
Proof.
  intros a b c. rewrite !shape_eq. intros [L S0]. split.
  - rewrite !elen_app in L. lia.
  - destruct S0 as [F|(ls & F & E)].
    + left. rewrite !Forall_app in F. tauto.
    + destruct (list_eq_dec (list_eq_dec N.eq_dec) (b ++ c) []) as [Z|NZ].
      * apply app_eq_nil in Z. destruct Z as [-> _]. left. constructor.
      * symmetry in E. destruct (full_app_inv _ _ _ E NZ) as (d & -> & E2).
        apply Forall_app in F. destruct F as [_ F].
        destruct c as [|x c].
        -- rewrite app_nil_r in E2. right. eauto.
        -- symmetry in E2. destruct (full_app_inv _ _ _ E2) as (g & -> & _); [discriminate|]. apply Forall_app in F. left. tauto.
Qed.
Lemma shape_cut : forall a b c, seq_shape (a ++ b ++ c) -> seq_shape (a ++ c).
Proof.
  intros a b c. rewrite !shape_eq. intros [L S0]. split.
  - rewrite !elen_app in *. lia.
  - destruct S0 as [F|(ls & F & E)].
    + left. rewrite !Forall_app in *. tauto.
    + destruct c as [|x c].
      * rewrite !app_nil_r in *.
        destruct (list_eq_dec (list_eq_dec N.eq_dec) b []) as [->|NZ].
        -- rewrite app_nil_r in E. subst. right. eauto.
        -- symmetry in E. destruct (full_app_inv _ _ _ E NZ) as (d & -> & _). apply Forall_app in F. left. tauto.
      * rewrite app_assoc in E. symmetry in E. destruct (full_app_inv _ _ _ E) as (d & -> & E2); [discriminate|]. rewrite E2.
        right. exists (a ++ d). rewrite !Forall_app in *. split; [tauto|]. unfold full. rewrite app_assoc. reflexivity.
Qed.
Lemma cut3 : forall (l : list label) i k, l = firstn i l ++ firstn k (skipn i l) ++ skipn (i + k) l.
Proof.
  intros. rewrite <- (firstn_skipn i l) at 1. f_equal. rewrite <- (firstn_skipn k (skipn i l)) at 1. f_equal.
  revert l. induction i as [|i IH]; intros [|x l]; auto; simpl; try (destruct k; reflexivity); try apply IH.
Qed.
Lemma wf_seq_split : forall s i k x y, wf_seq s -> seq_split s i k = Ok (x, y) -> wf_seq x /\ wf_seq y.
Proof.
  intros s i k x y (fls & -> & SH) E. rewrite seq_split_spec in E by apply SH.
  destruct ((i <? length fls) && (0 <? k)); [|discriminate]. okinj E. subst. rewrite (cut3 fls i k) in SH. split.
  - eexists. split; [reflexivity|]. eapply shape_sub; eauto.
  - eexists. split; [reflexivity|]. eapply shape_cut; eauto.
Qed.
Lemma wf_seq_of_name : forall a i j s, wf_name a -> into_label_sequence a i j = Ok s -> wf_seq s.
Proof.
  intros a i j s (ls & W & ->) E. rewrite into_label_sequence_spec in E by auto.
  destruct (_ && _); [|discriminate]. okinj E. subst. eexists. split; [reflexivity|].
  apply (shape_sub (firstn i (full ls)) _ (skipn (i + (j - i + 1)) (full ls))). rewrite <- cut3.
  destruct W as [W1 W2]. apply shape_eq. split; [rewrite elen_full; rewrite wire_elen in W2; lia|]. right. eauto.
Qed.

Lemma abs_false_rel : forall fls, seq_shape fls -> is_absolute (seqf fls) = Ok false -> rel_piece fls.
Proof.
  intros fls SH0 A. rewrite shape_eq in SH0. destruct SH0 as [L SH]. destruct SH as [F|(ls & F & ->)].
  2:{ rewrite is_absolute_full in A. discriminate. }
  split; auto. split.
  - intros ->. discriminate.
  - intros i l x E Z. subst. revert A. unfold is_absolute, seqf; cbn [ls_data].
    rewrite body_app. simpl (body [_]). rewrite app_nil_r.
    replace (body i ++ blen (l ++ [0%N]) :: l ++ [0%N]) with ((body i ++ blen (l ++ [0%N]) :: l) ++ [0%N]) by (rewrite <- app_assoc; reflexivity).
    rewrite app_length, csub_ok by (simpl; lia). cbn [rbind]. simpl (length [0%N]). rewrite idx_app_mid by lia. cbn [rbind]. discriminate.
Qed.

Lemma full_abs : forall s, wf_seq s -> honest s -> is_absolute s = Ok true -> exists ls, Forall wf_label ls /\ elen ls + 1 <= 255 /\ s = seqf (full ls).
Proof.
  intros s (fls & -> & SH0) H A. rewrite shape_eq in SH0. destruct SH0 as [L SH]. destruct SH as [F|(ls & F & ->)].
  - destruct (H A) as (ls & E). rewrite seq_of_seqf in E. exfalso.
    assert (H0 : body fls = body (full ls)) by (unfold seqf in E; congruence). rewrite body_full in H0.
    (* bodies of root-free and rooted label lists differ *)
    clear -F H0. revert ls H0. induction F as [|l fls W F IH]; intros ls E.
    + destruct ls; discriminate.
    + destruct W as [W _]. destruct ls as [|k ls].
      * unfold enc in E. simpl in E. injection E as E _. unfold blen in E. lia.
      * unfold enc in E. simpl in E. injection E as E1 E2. unfold blen in E1. apply Nat2N.inj in E1.
        rewrite <- app_assoc in E2. destruct (app_eq_len _ _ _ _ _ E1 E2) as [_ E3]. eapply IH. exact E3.
  - exists ls. rewrite elen_full in L. auto.
Qed.

Lemma fold_shape : forall ss len cnt mid last l c,
  (forall x, In x ss -> wf_seq x) ->
  seq_fold ss mid last len cnt = Ok (false, true, l, c) ->
  mid = false /\ last = true /\
  (ss = [] \/ exists ms e, ss = map seqf ms ++ [e] /\ Forall rel_piece ms /\ is_absolute e = Ok true).
Proof.
  induction ss as [|s ss IH]; intros len cnt mid last l c WS E; cbn [seq_fold] in E.
  - okinj E. subst. auto.
  - destruct (is_absolute s) as [a| | |] eqn:A; try discriminate. cbn [rbind] in E.
    destruct ss as [|s2 ss].
    + cbn [seq_fold] in E. okinj E. subst. destruct a; [|discriminate]. subst. split; auto. split; auto. right. exists [], s. auto.
    + apply IH in E; [|intros; apply WS; simpl in *; auto]. destruct E as (E1 & E2 & [E3|(ms & e & E3 & F & AE)]); [discriminate|].
      destruct a; [discriminate|]. split; auto. split; auto. right.
      destruct (WS s (or_introl eq_refl)) as (fls & -> & SH).
      exists (fls :: ms), e. rewrite E3. split; [reflexivity|]. split; auto. constructor; auto. apply abs_false_rel; auto.
Qed.
Lemma wf_seq_concat : forall s ss n, wf_seq s -> (forall x, In x ss -> wf_seq x) ->
  honest s -> (forall x, In x ss -> honest x) -> (ss <> [] \/ is_absolute s = Ok true) ->
  seq_concat_all s ss = Ok n -> wf_name n.
Proof.
  intros s ss n W WS H HS NE E. pose proof E as E0. unfold seq_concat_all in E.
  destruct (is_absolute s) as [a| | |] eqn:A; try discriminate. cbn [rbind] in E. destruct a.
  - destruct ss; [|discriminate]. destruct (full_abs s W H A) as (ls & F & L & ->). rewrite seq_concat_all_self in E0. okinj E0.
    subst. exists ls. split; auto. split; auto. rewrite wire_elen. auto.
  - destruct NE as [NE|NE]; [|discriminate].
    destruct (seq_fold ss false true (length (ls_data s)) (length (ls_offsets s))) as [[[[mid last] l] c]| | |] eqn:FO; try discriminate. cbn [rbind] in E.
    destruct mid; [discriminate|]. destruct last; [|discriminate].
    destruct (fold_shape _ _ _ _ _ _ _ WS FO) as (_ & _ & [->|(ms & e & -> & F & AE)]); [congruence|].
    assert (IE : In e (map seqf ms ++ [e])) by (apply in_or_app; right; left; reflexivity).
    destruct (full_abs e (WS e IE) (HS e IE) AE) as (ls & FL & L & ->).
    destruct W as (m & -> & SH). pose proof (abs_false_rel m SH A) as RP.
    rewrite seq_concat_all_spec in E0 by auto.
    destruct (_ <=? 255) eqn:Q; [|discriminate]. bl. okinj E0. subst. eexists. split; [|reflexivity].
    split; auto. apply Forall_app. split; [apply RP|]. apply Forall_app. split; auto. apply Forall_concat.
    eapply Forall_impl; [|exact F]. intros x (X & _); auto.
Qed.

(** ** LabelSequence::from_str on plain text *)
Lemma split_dots_bytes : forall s, bytes s -> Forall bytes (split_dots s).
Proof.
  induction 1 as [|c s B F IH]; simpl; [repeat constructor|]. destruct (c =? 46)%N; [constructor; auto; constructor|].
  destruct (split_dots s); [repeat constructor; auto|]. inversion IH; subst. constructor; auto. constructor; auto.
Qed.
Lemma dle_incl : forall ls x, In x (drop_last_empty ls) -> In x ls.
Proof.
  intros ls x. unfold drop_last_empty. destruct (rev ls) as [|[|c h] r] eqn:E; auto.
  intros I. apply in_rev in I. apply in_rev. rewrite E. right. auto.
Qed.
Lemma dle_bytes : forall s, bytes s -> Forall bytes (drop_last_empty (split_dots s)).
Proof.
  intros s B. apply Forall_forall. intros x I. apply dle_incl in I. pose proof (split_dots_bytes s B) as F.
  rewrite Forall_forall in F. auto.
Qed.
Lemma legalb_wf : forall ls, Forall bytes ls -> legalb ls = true -> wf_labels ls.
Proof.
  intros ls B L. unfold legalb in L. bl. split; auto. apply okl_spec in H. rewrite Forall_forall in *.
  intros x I. split; auto.
Qed.
Lemma string_parse_nil : forall ab, string_parse [] ab = Err. Proof. reflexivity. Qed.
Lemma eout_ok : forall X (f : list N * list N -> res X) t ab r, bytes t -> plain_end t ->
  rbind (eout ab [] (pieces_reading (split_dots t)) (ends_escaped (split_dots t))) f = Ok r ->
  exists L, wf_labels L /\ rbind (Ok (if ab then (enc L, offs_from 0 L) else (body L, obody 0 L))) f = Ok r.
Proof.
  intros X f t ab r B NB E. unfold eout in E. destruct (pieces_reading (split_dots t)) as [L|] eqn:P; [|discriminate].
  rewrite app_nil_l in E. destruct (ends_escaped (split_dots t)) eqn:O.
  { exfalso. destruct (ends_escaped_text t O) as (q & ->). apply (NB q). reflexivity. }
  rewrite andb_false_r, orb_false_r in E. fold (legalb L) in E. destruct (legalb L) eqn:G; [|discriminate].
  exists L. split; auto. apply legalb_wf; auto. apply (pieces_bytes (split_dots t)); auto. apply split_dots_bytes; auto.
Qed.
Lemma wf_seq_from_str : forall t s, bytes t -> plain_end t -> seq_from_str t = Ok s -> wf_seq s.
Proof.
  intros t s B NB E. unfold seq_from_str in E.
  destruct (list_eq_dec N.eq_dec t [46%N]) as [->|N1].
  { vm_compute in E. injection E as <-. exists (full []). split; [reflexivity|]. split; [vm_compute; lia|]. right. exists []. auto. }
  destruct (list_eq_dec N.eq_dec t [64%N]) as [->|N2].
  { vm_compute in E. injection E as <-. exists (full []). split; [reflexivity|]. split; [vm_compute; lia|]. right. exists []. auto. }
  destruct (list_eq_dec N.eq_dec t []) as [->|N3]; [discriminate|].
  rewrite parse_esc in E by (auto; split; auto). destruct (eout_ok _ _ _ _ _ B NB E) as (L & [L1 L2] & E'). clear E. rename E' into E.
  rewrite wire_elen in L2.
  destruct (false || ends_dot t); cbn [rbind] in E; okinj E; subst.
  - eexists (full _). split; [|apply shape_eq; split; [|right; eexists; split; [eassumption|reflexivity]]]; [|rewrite elen_full; lia].
    unfold seqf. rewrite body_full, obody_full. reflexivity.
  - eexists. split; [reflexivity|]. apply shape_eq. split; [lia|auto].
Qed.
Lemma wf_name_new : forall s n, bytes s -> plain_end s -> name_new s = Ok n -> wf_name n.
Proof.
  intros s n B NB E. unfold name_new in E.
  destruct (list_eq_dec N.eq_dec s [46%N]) as [->|N1].
  { vm_compute in E. injection E as <-. exists []. split; [split; [constructor|vm_compute; lia]|reflexivity]. }
  destruct (list_eq_dec N.eq_dec s [64%N]) as [->|N2].
  { vm_compute in E. injection E as <-. exists []. split; [split; [constructor|vm_compute; lia]|reflexivity]. }
  destruct (list_eq_dec N.eq_dec s []) as [->|N3]; [discriminate|].
  rewrite parse_esc in E by (auto; split; auto). destruct (eout_ok _ _ _ _ _ B NB E) as (L & W & E'). clear E. rename E' into E.
  cbn [orb rbind] in E. okinj E. subst. eexists. split; [eassumption|reflexivity].
Qed.

Lemma wf_sub : forall a b c, wf_labels (a ++ b ++ c) -> wf_labels b.
Proof.
  intros a b c [F L]. rewrite !Forall_app in F. rewrite wire_elen, !elen_app in L. split; [tauto|]. rewrite wire_elen. lia.
Qed.
Lemma wf_skipn : forall k ls, wf_labels ls -> wf_labels (skipn k ls).
Proof. intros. apply (wf_sub (firstn k ls) _ []). rewrite app_nil_r, firstn_skipn. auto. Qed.
Lemma wf_firstn : forall k ls, wf_labels ls -> wf_labels (firstn k ls).
Proof. intros. apply (wf_sub [] _ (skipn k ls)). simpl. rewrite firstn_skipn. auto. Qed.
Lemma wf_rev : forall ls, wf_labels ls -> wf_labels (rev ls).
Proof.
  intros ls [F L]. split; [apply Forall_rev; auto|]. rewrite wire_elen in *.
  assert (E : elen (rev ls) = elen ls) by (clear; induction ls; simpl; auto; rewrite elen_app, !elen_cons, IHls; unfold elen; simpl; lia).
  lia.
Qed.
Lemma lc_byte : forall c, byte c -> byte (lc c).
Proof. intros c H. unfold lc, byte in *. destruct (_ && _)%N eqn:E; bl; lia. Qed.
Lemma wf_lc : forall ls, wf_labels ls -> wf_labels (lc_labels ls).
Proof.
  intros ls [F L]. split.
  - unfold lc_labels. apply Forall_map. eapply Forall_impl; [|exact F]. intros l [A B]. unfold lc_label. split; [rewrite map_length; auto|].
    unfold bytes. apply Forall_map. eapply Forall_impl; [|exact B]. intros c; apply lc_byte.
  - rewrite wire_elen in *. assert (E : elen (lc_labels ls) = elen ls); [|lia].
    clear. induction ls as [|l ls IH]; auto. unfold lc_labels in *. simpl map. rewrite !elen_cons, IH. unfold lc_label. rewrite map_length. reflexivity.
Qed.
Lemma names_map : forall ss, (forall s, In s ss -> wf_name s) -> exists lss, Forall wf_labels lss /\ ss = map name_of lss.
Proof.
  induction ss as [|s ss IH]; intros H; [exists []; auto|]. destruct IH as (lss & F & ->); [intros; apply H; right; auto|].
  destruct (H s (or_introl eq_refl)) as (ls & W & ->). exists (ls :: lss). auto.
Qed.
Lemma wf_label_bytes : forall ls, Forall wf_label ls -> Forall bytes ls.
Proof. intros. eapply Forall_impl; [|eassumption]. intros l []; auto. Qed.

Scheme api_name_ind2 := Induction for api_name Sort Prop with api_seq_ind2 := Induction for api_seq Sort Prop.
Lemma api_wf : (forall n, api_name n -> wf_name n).
Proof.
  apply (api_name_ind2 (fun n _ => wf_name n) (fun s _ => wf_seq s)).
  - exists []. split; [split; [constructor|vm_compute; lia]|reflexivity].
  - intros. eapply wf_name_new; eauto.
  - intros w p n b B L E. destruct (from_wire_spec w p B L) as [(ls & e & W & LE & _ & E2)|(_ & p' & _ & E2)]; rewrite E2 in E; [|discriminate].
    okinj E. subst. exists ls. split; auto. split; auto. eapply wname_wf_label; eauto.
  - intros a ss n _ (la & WA & ->) AS IH E. destruct (names_map ss IH) as (lss & F & ->).
    destruct lss as [|s lss]; [rewrite concat_all_nil_panics in E by auto; discriminate|].
    rewrite concat_all_spec in E by auto. destruct (_ <=? 255) eqn:Q; [|discriminate]. bl. okinj E. subst.
    eexists. split; [|reflexivity]. split; auto. apply Forall_app. split; [apply WA|]. apply Forall_concat.
    eapply Forall_impl; [|exact F]. intros ? []; auto.
  - intros a n _ (la & WA & ->) E. rewrite reverse_spec in E by auto. okinj E. subst. eexists. split; [apply wf_rev; eauto|reflexivity].
  - intros a i k n _ (la & WA & ->) E. rewrite split_spec in E by auto. destruct (_ <=? _); [|discriminate]. okinj E. subst.
    eexists. split; [|reflexivity]. apply wf_firstn, wf_skipn; auto.
  - intros md a k n _ (la & WA & ->) E. rewrite parent_spec in E by auto. destruct (_ <=? _); [|destruct (_ =? _); [discriminate|destruct md; discriminate]]. okinj E. subst.
    eexists. split; [|reflexivity]. apply wf_skipn; auto.
  - intros a k n _ (la & WA & ->) E. rewrite strip_left_spec in E by auto. destruct (_ <=? _); [|discriminate]. okinj E. subst.
    eexists. split; [|reflexivity]. apply wf_skipn; auto.
  - intros a k n _ (la & WA & ->) E. rewrite strip_right_spec in E by auto. destruct (_ <=? _); [|discriminate]. okinj E. subst.
    eexists. split; [|reflexivity]. apply wf_firstn; auto.
  - intros a k n _ (la & WA & ->) E. rewrite into_ancestor_spec in E by auto. destruct (_ <=? _); [|discriminate]. okinj E. subst.
    eexists. split; [|reflexivity]. apply wf_skipn; auto.
  - intros a k n _ (la & WA & ->) E. rewrite into_child_spec in E by auto. destruct (_ <=? _); [|discriminate]. okinj E. subst.
    eexists. split; [|reflexivity]. apply wf_firstn; auto.
  - intros a n _ (la & WA & ->) E. rewrite as_lowercase_spec in E. okinj E. subst. eexists. split; [|reflexivity]. apply wf_lc; auto.
  - intros s ss n _ WS AS IH H HS NE E. eapply wf_seq_concat; eauto.
  - intros a i j s _ W E. eapply wf_seq_of_name; eauto.
  - intros. eapply wf_seq_from_str; eauto.
  - intros s i k x y _ W E. destruct (wf_seq_split s i k x y W E); auto.
  - intros s i k x y _ W E. destruct (wf_seq_split s i k x y W E); auto.
Qed.
Lemma api_name_ok : forall n, api_name n -> exists ls,
  n = name_of ls /\ Forall wf_label ls /\ length (n_raw n) <= 255 /\ length (n_offsets n) <= 128.
Proof.
  intros n H. destruct (api_wf n H) as (ls & [F L] & ->). exists ls. split; auto. split; auto.
  split; [exact L|]. change (length (offs_from 0 ls) <= 128). rewrite offs_len. rewrite wire_elen in L.
  assert (2 * length ls <= elen ls). { clear L H. induction F as [|l ls [A _] F IH]; [vm_compute; lia|]. rewrite elen_cons. simpl. lia. }
  lia.
Qed.

(** ** LabelSequence::concat_all: errors, and no panic *)
Lemma is_absolute_ok : forall fls, fls <> [] -> exists b, is_absolute (seqf fls) = Ok b.
Proof.
  intros fls NE. unfold is_absolute, seqf; cbn [ls_data].
  assert (1 <= length (body fls)). { destruct fls; [congruence|]. simpl. lia. }
  rewrite csub_ok by lia. cbn [rbind].
  destruct (nth_error (body fls) (length (body fls) - 1)) eqn:E.
  - unfold idx. rewrite E. cbn [rbind]. eauto.
  - apply nth_error_None in E. lia.
Qed.
Lemma seq_fold_total : forall ss mid last len cnt, Forall (fun f => f <> []) ss ->
  exists m l, seq_fold (map seqf ss) mid last len cnt = Ok (m, l, len + elen (List.concat ss), cnt + length (List.concat ss)) /\
   (mid = true -> m = true) /\ (last = false -> l = false) /\
   (forall a x b, ss = a ++ x :: b -> b <> [] -> is_absolute (seqf x) = Ok true -> m = true) /\
   (forall a x, ss = a ++ [x] -> is_absolute (seqf x) = Ok false -> l = false).
Proof.
  induction ss as [|s ss IH]; intros mid last len cnt F; simpl map; cbn [seq_fold].
  - exists mid, last. simpl List.concat. rewrite !Nat.add_0_r. repeat split; auto.
    + intros a x b E. destruct a; discriminate.
    + intros a x E. destruct a; discriminate.
  - inversion F as [|? ? NE F']; subst. destruct (is_absolute_ok s NE) as (b & A). rewrite A. cbn [rbind].
    destruct ss as [|s2 ss].
    + cbn [map seq_fold]. eexists mid, _. split.
      { simpl List.concat. rewrite app_nil_r. unfold seqf; cbn [ls_data ls_offsets]. rewrite body_len, obody_len. reflexivity. }
      repeat split; auto.
      * intros ->. destruct b; auto.
      * intros a x c E NC _. destruct a as [|? [|]]; simpl in E; [|discriminate|discriminate]. injection E as <- <-. congruence.
      * intros a x E AX. destruct a as [|? [|]]; simpl in E; [|discriminate|discriminate]. injection E as <-. rewrite AX in A. injection A as <-. reflexivity.
    + cbn [map]. change (seqf s2 :: map seqf ss) with (map seqf (s2 :: ss)).
      destruct (IH (if b then true else mid) last (len + length (ls_data (seqf s))) (cnt + length (ls_offsets (seqf s))) F') as (m & l & E & P1 & P2 & P3 & P4).
      exists m, l. split.
      { rewrite E. cbn [List.concat]. rewrite (elen_app s), (app_length s). unfold seqf; cbn [ls_data ls_offsets]. rewrite body_len, obody_len. f_equal. f_equal; [f_equal|]; simpl List.concat; lia. }
      repeat split; auto.
      * intros ->. apply P1. destruct b; auto.
      * intros a x c EQ NC AX. destruct a as [|y a]; simpl in EQ; injection EQ as -> EQ.
        -- rewrite AX in A. injection A as <-. apply P1. reflexivity.
        -- eapply P3; eauto.
      * intros a x EQ AX. destruct a as [|y a]; simpl in EQ; injection EQ as -> EQ; [discriminate|]. eapply P4; eauto.
Qed.
Lemma map_seqf : forall ss, (forall x, In x ss -> wf_seq x /\ ls_data x <> []) ->
  exists fs, ss = map seqf fs /\ Forall (fun f => f <> []) fs.
Proof.
  induction ss as [|s ss IH]; intros H; [exists []; auto|].
  destruct IH as (fs & -> & F); [intros; apply H; right; auto|].
  destruct (H s (or_introl eq_refl)) as ((f & -> & _) & NE). exists (f :: fs). split; auto. constructor; auto. intros ->. apply NE. reflexivity.
Qed.
Lemma seq_concat_all_safe : forall s ss, (forall x, In x (s :: ss) -> wf_seq x /\ ls_data x <> []) -> safe (seq_concat_all s ss).
Proof.
  intros s ss H. destruct (map_seqf (s :: ss) H) as (fs & E & F). destruct fs as [|f fs]; [discriminate|]. simpl in E. injection E as -> ->.
  inversion F as [|? ? NF F']; subst. unfold seq_concat_all. destruct (is_absolute_ok f NF) as (b & ->). cbn [rbind]. destruct b.
  { destruct (map seqf fs); split; discriminate. }
  destruct (seq_fold_total fs false true (length (ls_data (seqf f))) (length (ls_offsets (seqf f))) F') as (m & l & -> & _). cbn [rbind].
  unfold ensure_r. destruct (negb m && l); [|split; discriminate]. cbn [rbind].
  destruct (_ <=? MAX_WIRE_LEN) eqn:Q; [|split; discriminate]. cbn [rbind]. unfold MAX_WIRE_LEN in Q. bl.
  destruct (_ <=? MAX_LABEL_COUNT); [|split; discriminate]. cbn [rbind].
  rewrite flat_map_seqf. unfold seqf in *; cbn [ls_data ls_offsets] in *. rewrite <- body_app, obody_len. rewrite body_len in Q.
  pose proof (rebuild_offsets_spec (f ++ List.concat fs) []) as RB. cbn [length app Nat.add] in RB. rewrite app_length in RB.
  rewrite RB by (rewrite elen_app; lia). cbn [rbind]. split; discriminate.
Qed.
Lemma seq_concat_all_err : forall s ss, (forall x, In x (s :: ss) -> wf_seq x /\ ls_data x <> []) ->
  (is_absolute s = Ok true /\ ss <> []) \/
  (exists a x b, ss = a ++ x :: b /\ b <> [] /\ is_absolute x = Ok true) \/
  (exists a x, ss = a ++ [x] /\ is_absolute x = Ok false) ->
  seq_concat_all s ss = Err.
Proof.
  intros s ss H V. destruct (map_seqf (s :: ss) H) as (fs & E & F). destruct fs as [|f fs]; [discriminate|]. simpl in E. injection E as -> ->.
  inversion F as [|? ? NF F']; subst. unfold seq_concat_all.
  destruct V as [[A NE]|V].
  { rewrite A. cbn [rbind]. destruct (map seqf fs); congruence. }
  destruct (is_absolute_ok f NF) as (b & ->). cbn [rbind]. destruct b.
  { destruct (map seqf fs) eqn:M; [|reflexivity]. destruct V as [(a & x & b & E & _)|(a & x & E & _)]; destruct a; discriminate. }
  destruct (seq_fold_total fs false true (length (ls_data (seqf f))) (length (ls_offsets (seqf f))) F') as (m & l & -> & _ & _ & P3 & P4). cbn [rbind].
  assert (X : negb m && l = false).
  { destruct V as [(a & x & b & E & NB & A)|(a & x & E & A)].
    - apply map_eq_app in E. destruct E as (fa & fb & -> & <- & E). destruct fb as [|y fb]; [discriminate|]. simpl in E. injection E as <- <-.
      rewrite (P3 fa y fb eq_refl); auto. intros ->. apply NB. reflexivity.
    - apply map_eq_app in E. destruct E as (fa & fb & -> & <- & E). destruct fb as [|y fb]; [discriminate|]. simpl in E. injection E as <- E.
      destruct fb; [|discriminate]. rewrite (P4 fa y eq_refl); auto. apply andb_false_r. }
  rewrite X. reflexivity.
Qed.

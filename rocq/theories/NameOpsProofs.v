(** Refinement of the name operations to operations on label lists. *)
From Verif Require Import Base BaseLemmas NameModel SpecName NameWireProofs.

Definition elen (ls : list label) : nat := length (body ls).
Lemma elen_nil : elen [] = 0. Proof. reflexivity. Qed.
Lemma elen_cons : forall l ls, elen (l :: ls) = 1 + length l + elen ls.
Proof. intros. unfold elen, body. simpl. rewrite app_length. lia. Qed.
Lemma elen_app : forall a b, elen (a ++ b) = elen a + elen b.
Proof. induction a; intros; simpl app; rewrite ?elen_cons, ?elen_nil, ?IHa; lia. Qed.
Lemma wire_elen : forall ls, wire_len ls = elen ls + 1.
Proof. intros. unfold wire_len, enc, elen. rewrite app_length. reflexivity. Qed.
Lemma body_app : forall a b, body (a ++ b) = body a ++ body b.
Proof. intros. unfold body. apply flat_map_app. Qed.
Lemma body_len : forall ls, length (body ls) = elen ls. Proof. reflexivity. Qed.
Lemma enc_app : forall a b, enc (a ++ b) = body a ++ enc b.
Proof. intros. unfold enc. rewrite body_app, app_assoc. reflexivity. Qed.
Lemma enc_len : forall ls, length (enc ls) = elen ls + 1.
Proof. intros. apply wire_elen. Qed.
Lemma obody_len : forall ls p, length (obody p ls) = length ls.
Proof. induction ls; simpl; intros; auto. Qed.
Lemma obody_app : forall a b p, obody p (a ++ b) = obody p a ++ obody (p + elen a) b.
Proof.
  induction a; simpl; intros; rewrite ?elen_nil, ?elen_cons, ?Nat.add_0_r; auto.
  rewrite IHa. f_equal. f_equal. f_equal. lia.
Qed.
Lemma offs_app : forall a b p, offs_from p (a ++ b) = obody p a ++ offs_from (p + elen a) b.
Proof.
  intros. unfold offs_from. rewrite obody_app, <- app_assoc. f_equal. f_equal. f_equal. f_equal.
  rewrite !body_len, elen_app. lia.
Qed.
Lemma offs_len : forall ls p, length (offs_from p ls) = length ls + 1.
Proof. intros. unfold offs_from. rewrite app_length, obody_len. reflexivity. Qed.
Lemma offs_hd : forall ls p, exists tl, offs_from p ls = N.of_nat p :: tl /\ length tl = length ls.
Proof.
  destruct ls; intros.
  - exists []. unfold offs_from. simpl. rewrite Nat.add_0_r. auto.
  - exists (offs_from (p + 1 + length l) ls). rewrite obody_snoc. split; auto. rewrite offs_len. simpl. lia.
Qed.
Lemma obody_sub : forall ls k p, rmap (fun o => u8_sub o (N.of_nat k)) (obody (k + p) ls) = Ok (obody p ls).
Proof.
  induction ls; simpl; intros; auto.
  rewrite u8_sub_ok by lia. simpl.
  replace (k + p + 1 + length a) with (k + (p + 1 + length a)) by lia.
  rewrite IHls. simpl. f_equal. f_equal. lia.
Qed.
Lemma offs_sub : forall ls k p, rmap (fun o => u8_sub o (N.of_nat k)) (offs_from (k + p) ls) = Ok (offs_from p ls).
Proof.
  intros. unfold offs_from. apply rmap_app; [apply obody_sub|].
  simpl. rewrite u8_sub_ok by lia. simpl. f_equal. f_equal. lia.
Qed.
Lemma offs_sub0 : forall ls k, rmap (fun o => u8_sub o (N.of_nat k)) (offs_from k ls) = Ok (offs_from 0 ls).
Proof. intros. rewrite <- (offs_sub ls k 0). rewrite Nat.add_0_r. reflexivity. Qed.
Lemma obody_sub0 : forall ls k, rmap (fun o => u8_sub o (N.of_nat k)) (obody k ls) = Ok (obody 0 ls).
Proof. intros. rewrite <- (obody_sub ls k 0). rewrite Nat.add_0_r. reflexivity. Qed.
Lemma obody_add : forall ls k p, k + p + elen ls < 256 ->
  rmap (fun o => u8_add o (N.of_nat k)) (obody p ls) = Ok (obody (k + p) ls).
Proof.
  induction ls; simpl; intros; auto. rewrite elen_cons in H.
  rewrite u8_add_ok by lia. simpl. rewrite IHls by lia. simpl. f_equal. f_equal; [lia|]. f_equal. lia.
Qed.
Lemma offs_add : forall ls k p, k + p + elen ls < 256 ->
  rmap (fun o => u8_add o (N.of_nat k)) (offs_from p ls) = Ok (offs_from (k + p) ls).
Proof.
  intros. unfold offs_from. apply rmap_app; [apply obody_add; auto|].
  simpl. rewrite body_len. rewrite u8_add_ok by lia. simpl. f_equal. f_equal. lia.
Qed.

(** consequences of well-formedness *)
Lemma wf_elen : forall ls, wf_labels ls -> elen ls <= 254.
Proof. intros ls [_ H]. rewrite wire_elen in H. lia. Qed.
Lemma wf_count : forall ls, Forall wf_label ls -> 2 * length ls <= elen ls.
Proof. induction 1; simpl length; rewrite ?elen_nil, ?elen_cons; auto. destruct H. lia. Qed.
Lemma wf_count127 : forall ls, wf_labels ls -> length ls <= 127.
Proof. intros. pose proof (wf_elen _ H). destruct H. apply wf_count in H. lia. Qed.
Lemma wf_app : forall a b, wf_labels (a ++ b) -> wf_labels a /\ wf_labels b.
Proof.
  intros a b [H L]. apply Forall_app in H. destruct H. rewrite wire_elen, elen_app in L.
  split; split; auto; rewrite wire_elen; lia.
Qed.
Lemma wf_firstn : forall k ls, wf_labels ls -> wf_labels (firstn k ls).
Proof. intros. rewrite <- (firstn_skipn k ls) in H. apply wf_app in H. tauto. Qed.
Lemma wf_skipn : forall k ls, wf_labels ls -> wf_labels (skipn k ls).
Proof. intros. rewrite <- (firstn_skipn k ls) in H. apply wf_app in H. tauto. Qed.
Lemma elen_rev : forall ls, elen (rev ls) = elen ls.
Proof. induction ls; simpl; auto. rewrite elen_app, !elen_cons, IHls, elen_nil. lia. Qed.
Lemma wf_rev : forall ls, wf_labels ls -> wf_labels (rev ls).
Proof.
  intros ls [H L]. split; [apply Forall_rev; auto|]. rewrite wire_elen, elen_rev, <- wire_elen. auto.
Qed.
Lemma lc_labels_elen : forall ls, elen (lc_labels ls) = elen ls.
Proof.
  induction ls; simpl; auto. rewrite !elen_cons, IHls. unfold lc_label. rewrite map_length. auto.
Qed.
Lemma lc_byte : forall c, byte c -> byte (lc c).
Proof. unfold byte, lc. intros. destruct ((65 <=? c) && (c <=? 90))%N eqn:E; bl; lia. Qed.
Lemma wf_lc : forall ls, wf_labels ls -> wf_labels (lc_labels ls).
Proof.
  intros ls [H L]. split.
  - unfold lc_labels. rewrite Forall_map. eapply Forall_impl; [|exact H].
    intros a [A B]. unfold lc_label. split; [rewrite map_length; auto|].
    unfold bytes. rewrite Forall_map. eapply Forall_impl; [|exact B]. intros; apply lc_byte; auto.
  - rewrite wire_elen, lc_labels_elen, <- wire_elen. auto.
Qed.
Lemma lc_labels_len : forall ls, length (lc_labels ls) = length ls.
Proof. intros. unfold lc_labels. apply map_length. Qed.

Lemma name_len_of : forall ls, name_len (name_of ls) = elen ls + 1.
Proof. intros. unfold name_len, name_of. simpl. apply enc_len. Qed.
Lemma label_count_of : forall ls, label_count (name_of ls) = length ls + 1.
Proof. intros. unfold label_count, name_of. simpl. apply offs_len. Qed.

Lemma enc_inj : forall a b, Forall wf_label a -> Forall wf_label b -> enc a = enc b -> a = b.
Proof.
  induction a; destruct b; intros; auto.
  - unfold enc in H1. simpl in H1. inversion H1. apply Forall_inv in H0. destruct H0. unfold blen in *. lia.
  - unfold enc in H1. simpl in H1. inversion H1. apply Forall_inv in H. destruct H. unfold blen in *. lia.
  - pose proof (Forall_inv_tail H). pose proof (Forall_inv_tail H0).
    unfold enc, body in H1. simpl in H1. rewrite <- !app_assoc in H1.
    assert (H4 : a ++ flat_map enc_label a0 ++ [0%N] = l ++ flat_map enc_label b ++ [0%N]) by congruence.
    assert (H5 : blen a = blen l) by congruence.
    assert (LL : length a = length l) by (unfold blen in *; lia).
    assert (G : forall (x y u v : list N), length x = length y -> x ++ u = y ++ v -> x = y /\ u = v).
    { clear. induction x; destruct y; simpl; intros; try lia; auto.
      inversion H0. destruct (IHx y u v) as [P Q]; auto. subst. auto. }
    destruct (G _ _ _ _ LL H4) as [P Q]. subst. f_equal. apply IHa; auto.
Qed.
Lemma name_of_inj : forall a b, Forall wf_label a -> Forall wf_label b -> name_of a = name_of b -> a = b.
Proof. intros. unfold name_of in H1. inversion H1. apply enc_inj; auto. Qed.

(** ** split and friends *)
Ltac simplb := cbn [n_raw n_offsets ls_data ls_offsets sl_data sl_offsets sl_first sl_last rbind].
Ltac nlen := unfold name_len, label_count; simplb; rewrite ?name_len_of, ?label_count_of, ?app_length, ?elen_app, ?enc_len, ?offs_len, ?obody_len, ?body_len; simpl length; try lia.

Lemma split_tail : forall a b k, length b < k -> wf_labels (a ++ b) ->
  split (name_of (a ++ b)) (length a) k = Ok (name_of b).
Proof.
  intros a b k H W. unfold split. rewrite label_count_of, app_length.
  unfold ensure_r. ift. cbn [rbind].
  assert (X : (if length a + length b + 1 <? length a + k then length a + length b + 1 - length a else k) = length b + 1).
  { destruct (length a + length b + 1 <? length a + k) eqn:E; bl; lia. }
  rewrite X. clear X.
  replace (length a + (length b + 1) =? length a + length b + 1) with true by (symmetry; apply Nat.eqb_eq; lia).
  unfold name_of. simplb. rewrite enc_app, offs_app.
  destruct (offs_hd b (0 + elen a)) as (tl & T1 & T2).
  rewrite T1 at 1. rewrite idx_app_mid by (rewrite obody_len; auto). simplb.
  rewrite slice_suf by (nlen). simplb.
  rewrite T1 at 1. unfold idx at 1. simpl nth_error. simplb.
  change (0 + elen a) with (elen a).
  rewrite slice_suf; [|rewrite body_len; lia|nlen].
  simplb. rewrite firstn_all2 by (rewrite offs_len; lia). rewrite skipn_all2 by (rewrite offs_len; lia).
  rewrite offs_sub0. simplb. rewrite app_nil_r. reflexivity.
Qed.

Lemma split_mid : forall a b c, wf_labels (a ++ b ++ c) ->
  split (name_of (a ++ b ++ c)) (length a) (length b) = Ok (name_of b).
Proof.
  intros a b c W. unfold split. rewrite label_count_of, !app_length.
  unfold ensure_r. ift. cbn [rbind]. iff_.
  replace (length a + length b =? length a + (length b + length c) + 1) with false by (symmetry; apply Nat.eqb_neq; lia).
  unfold name_of. simplb.
  destruct (offs_hd c (0 + elen a + elen b)) as (tl & T1 & T2).
  assert (O : offs_from 0 (a ++ b ++ c) = obody 0 a ++ (obody (0 + elen a) b ++ [N.of_nat (0 + elen a + elen b)]) ++ tl).
  { rewrite offs_app, offs_app, T1. rewrite <- app_assoc. reflexivity. }
  rewrite O.
  rewrite slice_mid by (nlen). simplb.
  change (obody (0 + elen a) b ++ [N.of_nat (0 + elen a + elen b)]) with (offs_from (0 + elen a) b).
  destruct (offs_hd b (0 + elen a)) as (tl2 & T3 & T4).
  rewrite T3 at 1. unfold idx at 1. simpl nth_error. simplb.
  unfold offs_from at 1. rewrite idx_app_mid by (rewrite obody_len; auto). simplb.
  rewrite enc_app, enc_app. rewrite slice_mid; [|nlen|nlen]. simplb.
  rewrite T3 at 1. simpl app at 1. rewrite idx_app_mid by (rewrite obody_len; auto). simplb.
  rewrite firstn_all2 by (rewrite offs_len; lia). rewrite skipn_all2 by (rewrite offs_len; lia).
  change (0 + elen a) with (elen a).
  rewrite offs_sub0. simplb. rewrite app_nil_r. reflexivity.
Qed.

(** Closed form for all arguments. *)
Lemma split_spec : forall ls i k, wf_labels ls ->
  split (name_of ls) i k =
  if i <=? length ls then Ok (name_of (firstn k (skipn i ls))) else Err.
Proof.
  intros. destruct (i <=? length ls) eqn:E; bl.
  - destruct (le_lt_dec k (length (skipn i ls))).
    + pose proof (split_mid (firstn i ls) (firstn k (skipn i ls)) (skipn k (skipn i ls))) as P.
      rewrite !firstn_skipn in P. specialize (P H).
      rewrite firstn_length_le in P by auto. rewrite firstn_length_le in P by auto. exact P.
    + pose proof (split_tail (firstn i ls) (skipn i ls) k l) as P.
      rewrite !firstn_skipn in P. specialize (P H). rewrite firstn_length_le in P by auto.
      rewrite P. rewrite firstn_all2 by lia. reflexivity.
  - unfold split. rewrite label_count_of. unfold ensure_r. iff_. reflexivity.
Qed.

Lemma parent_spec : forall md ls lvl, wf_labels ls ->
  parent md (name_of ls) lvl =
  if lvl <=? length ls then Ok (name_of (skipn lvl ls))
  else if lvl =? length ls + 1 then Err else match md with Debug => Panic | Release => Err end.
Proof.
  intros. unfold parent. rewrite label_count_of. destruct (lvl <=? length ls) eqn:E; bl.
  - ift. rewrite split_spec by auto. ift.
    rewrite firstn_all2; auto. rewrite skipn_length. lia.
  - destruct (lvl =? length ls + 1) eqn:E2; bl.
    + ift. rewrite split_spec by auto. iff_. reflexivity.
    + iff_. reflexivity.
Qed.

Lemma strip_left_spec : forall ls k, wf_labels ls ->
  strip_left (name_of ls) k = if k <=? length ls then Ok (name_of (skipn k ls)) else Panic.
Proof.
  intros. unfold strip_left. rewrite label_count_of. unfold assert_r.
  destruct (k <=? length ls) eqn:E; bl; [ift|iff_; reflexivity]. cbn [rbind].
  destruct (k =? 0) eqn:E0; bl; [subst; reflexivity|].
  assert (La : length (firstn k ls) = k) by (apply firstn_length_le; auto).
  assert (Y : ls = firstn k ls ++ skipn k ls) by (rewrite firstn_skipn; auto).
  set (a := firstn k ls) in *. set (b := skipn k ls) in *. clearbody a b. subst ls.
  unfold name_of. simplb. rewrite enc_app, offs_app.
  destruct (offs_hd b (0 + elen a)) as (tl & T1 & T2).
  rewrite slice_suf by (nlen). simplb.
  rewrite T1 at 1. rewrite idx_app_mid by (rewrite obody_len; auto). simplb.
  change (0 + elen a) with (elen a).
  rewrite offs_sub0. simplb.
  rewrite slice_suf; [reflexivity|nlen|nlen].
Qed.
Lemma into_ancestor_spec : forall ls k, wf_labels ls ->
  into_ancestor (name_of ls) k = if k <=? length ls then Ok (name_of (skipn k ls)) else Panic.
Proof.
  intros. unfold into_ancestor. rewrite label_count_of. unfold assert_r.
  destruct (k <=? length ls) eqn:E; bl; [ift|iff_; reflexivity]. cbn [rbind].
  destruct (k =? 0) eqn:E0; bl; [subst; reflexivity|].
  assert (La : length (firstn k ls) = k) by (apply firstn_length_le; auto).
  assert (Y : ls = firstn k ls ++ skipn k ls) by (rewrite firstn_skipn; auto).
  set (a := firstn k ls) in *. set (b := skipn k ls) in *. clearbody a b. subst ls.
  unfold name_of. simplb. rewrite enc_app, offs_app.
  destruct (offs_hd b (0 + elen a)) as (tl & T1 & T2).
  rewrite T1 at 1. rewrite idx_app_mid by (rewrite obody_len; auto). simplb.
  rewrite slice_suf by (nlen). simplb.
  change (0 + elen a) with (elen a).
  rewrite offs_sub0. simplb.
  rewrite slice_suf; [reflexivity|nlen|nlen].
Qed.

Lemma cut_end : forall a l b, upd_r (firstn (elen a + 1) (enc (a ++ l :: b))) (elen a) 0%N = Ok (enc a).
Proof.
  intros. rewrite enc_app. rewrite firstn_app. rewrite body_len.
  replace (elen a + 1 - elen a) with 1 by lia. rewrite firstn_all2 by (rewrite body_len; lia).
  unfold enc at 1. simpl. rewrite upd_r_app_mid by auto. reflexivity.
Qed.

Lemma strip_right_spec : forall ls k, wf_labels ls ->
  strip_right (name_of ls) k = if k <=? length ls then Ok (name_of (firstn (length ls - k) ls)) else Panic.
Proof.
  intros. unfold strip_right. rewrite label_count_of. unfold assert_r.
  destruct (k <=? length ls) eqn:E; bl; [ift|iff_; reflexivity]. cbn [rbind].
  destruct (k =? 0) eqn:E0; bl; [subst; rewrite Nat.sub_0_r, firstn_all; reflexivity|].
  rewrite csub_ok by lia. simplb.
  replace (length ls + 1 - k - 1) with (length ls - k) by lia.
  set (m := length ls - k).
  assert (Lm : m < length ls) by (unfold m; lia).
  assert (X : exists l b, skipn m ls = l :: b).
  { destruct (skipn m ls) eqn:S; eauto. pose proof (skipn_length m ls). rewrite S in H0. simpl in H0. lia. }
  destruct X as (l & b & X).
  assert (Y : ls = firstn m ls ++ l :: b) by (rewrite <- X, firstn_skipn; auto).
  set (a := firstn m ls) in *.
  assert (La : length a = m) by (apply firstn_length_le; lia).
  unfold name_of. simplb. rewrite Y. rewrite offs_app.
  rewrite obody_snoc. rewrite idx_app_mid by (rewrite obody_len; auto). simplb.
  unfold slice at 1. simpl (0 <=? _). rewrite Nat.sub_0_r, skipn_O.
  replace (N.to_nat (N.of_nat (0 + elen a)) + 1) with (elen a + 1) by lia.
  rewrite enc_len at 1. rewrite elen_app, elen_cons.
  replace (elen a + 1 <=? elen a + (1 + length l + elen b) + 1) with true by (symmetry; apply Nat.leb_le; lia).
  cbn [andb rbind].
  replace (N.to_nat (N.of_nat (0 + elen a))) with (elen a) by lia.
  rewrite cut_end. simplb.
  replace (obody 0 a ++ N.of_nat (0 + elen a) :: offs_from (0 + elen a + 1 + length l) b)
    with (offs_from 0 a ++ offs_from (0 + elen a + 1 + length l) b).
  2:{ unfold offs_from at 1. rewrite <- app_assoc. reflexivity. }
  rewrite slice_pre by (nlen). reflexivity.
Qed.
Lemma into_child_spec : forall ls k, wf_labels ls ->
  into_child (name_of ls) k = if k <=? length ls then Ok (name_of (firstn (length ls - k) ls)) else Panic.
Proof.
  intros. rewrite <- strip_right_spec by auto. unfold into_child, strip_right.
  destruct (label_count (name_of ls) - k) eqn:D.
  { unfold assert_r. rewrite label_count_of in *. iff_. reflexivity. }
  unfold assert_r. destruct (k <? label_count (name_of ls)) eqn:EK; [|reflexivity]. cbn [rbind].
  destruct (k =? 0); auto. rewrite csub_ok by lia. unfold name_of; simplb. replace (S n - 1) with n by lia.
  destruct (idx (offs_from 0 ls) n) eqn:E; simplb; auto.
  apply idx_ok_inv in E. destruct E as [E E'].
  assert (N.to_nat a + 1 <= length (enc ls)).
  { rewrite enc_len. rewrite offs_len in E'.
    assert (G : forall ls p i a, nth_error (offs_from p ls) i = Some a -> N.to_nat a <= p + elen ls).
    { clear. induction ls; intros.
      - unfold offs_from in H. simpl in H. destruct i; simpl in H; [inj H|destruct i; discriminate].
        subst. rewrite elen_nil. lia.
      - rewrite obody_snoc in H. destruct i; simpl in H.
        + inj H. subst. lia.
        + apply IHls in H. rewrite elen_cons. lia. }
    apply G in E. lia. }
  unfold slice. rewrite !skipn_O, !Nat.sub_0_r.
  replace (N.to_nat a + 1 <=? length (enc ls)) with true by (symmetry; apply Nat.leb_le; auto).
  replace (n + 1 <=? length (offs_from 0 ls)) with true by (symmetry; apply Nat.leb_le; lia).
  cbn [andb Nat.leb rbind]. destruct (upd_r _ _ _); cbn [rbind]; auto.
  replace (n + 1) with (S n) by lia. reflexivity.
Qed.

(** Label slices and comparison. *)
From Verif Require Import Base BaseLemmas NameModel SpecName NameWireProofs NameOpsProofs NameOpsProofs2.

(** Labels including the root label (an empty one). *)
Definition full (ls : list label) : list label := ls ++ [[]].
Lemma body_full : forall ls, body (full ls) = enc ls.
Proof. intros. unfold full. rewrite body_app. reflexivity. Qed.
Lemma obody_full : forall ls p, obody p (full ls) = offs_from p ls.
Proof. intros. unfold full, offs_from. rewrite obody_app. reflexivity. Qed.
Lemma full_len : forall ls, length (full ls) = length ls + 1.
Proof. intros. unfold full. rewrite app_length. reflexivity. Qed.
Lemma elen_full : forall ls, elen (full ls) = elen ls + 1.
Proof. intros. unfold full. rewrite elen_app. reflexivity. Qed.
Lemma name_of_full : forall ls, name_of ls = mkName (body (full ls)) (obody 0 (full ls)).
Proof. intros. rewrite body_full, obody_full. reflexivity. Qed.

(** A slice shows the labels [fls] (root label as []). *)
Definition slice_rep (s : labelslice) (fls : list label) : Prop :=
  fls <> [] /\ exists pre post opre opost,
    sl_data s = pre ++ body fls ++ post /\
    sl_offsets s = opre ++ obody (length pre) fls ++ opost /\
    sl_first s = length opre /\ sl_last s + 1 = length opre + length fls /\
    length pre + elen fls <= 255.

Lemma slice_of_name_rep : forall ls, wf_labels ls ->
  exists s, slice_of_name (name_of ls) = Ok s /\ slice_rep s (full ls) /\ sl_first s = 0 /\ sl_last s = length ls.
Proof.
  intros. unfold slice_of_name. rewrite label_count_of, csub_ok by lia. eexists. split; [reflexivity|].
  split; [|split; simpl; auto; lia].
  split; [unfold full; destruct ls; discriminate|].
  exists [], [], [], []. simpl. rewrite body_full, obody_full, !app_nil_r, full_len. repeat split; auto; try lia.
  rewrite elen_full. apply wf_elen in H. lia.
Qed.

Lemma rep_label_count : forall s fls, slice_rep s fls -> sl_label_count s = length fls.
Proof.
  intros s fls [N (pre & post & opre & opost & D & O & F & L & B)]. unfold sl_label_count.
  assert (length fls <> 0) by (destruct fls; simpl; congruence). lia.
Qed.

Lemma rep_len : forall s fls, slice_rep s fls -> sl_len s = Ok (elen fls).
Proof.
  intros s fls [N (pre & post & opre & opost & D & O & F & L & B)].
  destruct (@exists_last _ fls N) as (i & l & ->).
  unfold sl_len. rewrite O, F, D.
  rewrite app_length in L. simpl in L.
  rewrite obody_app. rewrite <- app_assoc. rewrite elen_app, elen_cons, elen_nil in B.
  simpl (obody _ [l]). rewrite app_assoc. simpl app.
  rewrite idx_app_mid by (rewrite app_length, obody_len; lia). cbn [rbind].
  assert (X : idx ((opre ++ obody (length pre) i) ++ N.of_nat (length pre + elen i) :: opost) (length opre) = Ok (N.of_nat (length pre))).
  { rewrite <- app_assoc. destruct i.
    - simpl. rewrite idx_app_mid by auto. rewrite elen_nil, Nat.add_0_r. reflexivity.
    - simpl obody. simpl app. rewrite idx_app_mid by auto. reflexivity. }
  rewrite X. cbn [rbind]. rewrite body_app. simpl (body [l]). rewrite app_nil_r.
  rewrite <- app_assoc. rewrite (app_assoc pre). simpl app.
  rewrite idx_app_mid by (rewrite app_length, body_len; lia). cbn [rbind].
  unfold blen. rewrite u8_add_ok by lia. cbn [rbind]. rewrite u8_sub_ok by lia. cbn [rbind].
  rewrite u8_add_ok by lia. cbn [rbind]. f_equal. rewrite elen_app, elen_cons, elen_nil. lia.
Qed.
Lemma rep_first : forall s fls, slice_rep s fls -> exists pre post,
  sl_data s = pre ++ body fls ++ post /\ idx (sl_offsets s) (sl_first s) = Ok (N.of_nat (length pre)).
Proof.
  intros s fls [N (pre & post & opre & opost & D & O & F & L & B)].
  exists pre, post. split; auto. rewrite O, F. destruct fls; [congruence|].
  simpl obody. simpl app. apply idx_app_mid. auto.
Qed.
Lemma rep_bytes : forall s fls, slice_rep s fls -> sl_bytes s = Ok (body fls).
Proof.
  intros s fls R. unfold sl_bytes. rewrite (rep_len _ _ R).
  destruct (rep_first _ _ R) as (pre & post & D & I). rewrite I. cbn [rbind]. rewrite D.
  rewrite slice_mid; auto; rewrite ?body_len; lia.
Qed.
Lemma rep_strip_left : forall s fls k, slice_rep s fls -> k < length fls ->
  exists s', sl_strip_left s k = Ok s' /\ slice_rep s' (skipn k fls).
Proof.
  intros s fls k R K. unfold sl_strip_left. rewrite (rep_label_count _ _ R). unfold assert_r. ift.
  cbn [rbind]. eexists. split; [reflexivity|].
  destruct R as [N (pre & post & opre & opost & D & O & F & L & B)].
  split. { intros E. pose proof (skipn_length k fls). rewrite E in H. simpl in H. lia. }
  exists (pre ++ body (firstn k fls)), post, (opre ++ obody (length pre) (firstn k fls)), opost. simplb.
  assert (LF : length (firstn k fls) = k) by (apply firstn_length_le; lia).
  assert (E1 : elen fls = elen (firstn k fls) + elen (skipn k fls)) by (rewrite <- elen_app, firstn_skipn; auto).
  repeat split.
  - rewrite <- app_assoc. rewrite D. f_equal. rewrite app_assoc. rewrite <- body_app, firstn_skipn. auto.
  - rewrite <- app_assoc. rewrite O. f_equal. rewrite app_assoc. f_equal. rewrite app_length, body_len.
    rewrite <- obody_app, firstn_skipn. auto.
  - rewrite app_length, obody_len. lia.
  - rewrite app_length, obody_len, skipn_length. lia.
  - rewrite app_length, body_len. lia.
Qed.
Lemma rep_strip_right : forall s fls k, slice_rep s fls -> k < length fls ->
  exists s', sl_strip_right s k = Ok s' /\ slice_rep s' (firstn (length fls - k) fls).
Proof.
  intros s fls k R K. unfold sl_strip_right. rewrite (rep_label_count _ _ R). unfold assert_r. ift.
  cbn [rbind].
  destruct R as [N (pre & post & opre & opost & D & O & F & L & B)].
  rewrite csub_ok by lia. cbn [rbind].
  eexists. split; [reflexivity|].
  set (m := length fls - k).
  assert (LF : length (firstn m fls) = m) by (apply firstn_length_le; lia).
  split. { intros E. rewrite E in LF. simpl in LF. lia. }
  exists pre, (body (skipn m fls) ++ post), opre, (obody (length pre + elen (firstn m fls)) (skipn m fls) ++ opost). simplb.
  assert (E1 : elen fls = elen (firstn m fls) + elen (skipn m fls)) by (rewrite <- elen_app, firstn_skipn; auto).
  repeat split.
  - rewrite D. f_equal. rewrite app_assoc. rewrite <- body_app, firstn_skipn. auto.
  - rewrite O. f_equal. rewrite app_assoc. f_equal.
    rewrite <- obody_app, firstn_skipn. auto.
  - auto.
  - lia.
  - lia.
Qed.

(** ** comparison of two labels *)
Definition nrm (cs : bool) (c : N) : N := if cs then c else lc c.
Definition nrml (cs : bool) (l : label) : label := map (nrm cs) l.
Fixpoint cmp_bytes (md : mode) (x y : list N) : res (option Z) :=
  match x, y with
  | a :: x', b :: y' =>
      let? d := i8_diff md a b in
      if negb (d =? 0)%Z then Ok (Some d) else cmp_bytes md x' y'
  | _, _ => Ok None
  end.
Lemma cmp_label_bytes : forall md cs x y p1 p2 t1 t2,
  cmp_label md cs (p1 ++ x ++ t1) (p2 ++ y ++ t2) (length p1) (length p2) (Nat.min (length x) (length y))
  = cmp_bytes md (nrml cs x) (nrml cs y).
Proof.
  intros md cs. induction x; destruct y; intros; try reflexivity.
  cbn [length Nat.min cmp_label]. simpl app. rewrite !idx_app_mid by auto. cbn [rbind].
  simpl nrml. cbn [cmp_bytes]. unfold nrm at 1 2.
  change lower_case with lc. destruct (i8_diff _ _ _); cbn [rbind]; auto.
  destruct (negb _); auto.
  replace (p1 ++ a :: x ++ t1) with ((p1 ++ [a]) ++ x ++ t1) by (rewrite <- app_assoc; reflexivity).
  replace (p2 ++ n :: y ++ t2) with ((p2 ++ [n]) ++ y ++ t2) by (rewrite <- app_assoc; reflexivity).
  replace (length p1 + 1) with (length (p1 ++ [a])) by (rewrite app_length; reflexivity).
  replace (length p2 + 1) with (length (p2 ++ [n])) by (rewrite app_length; reflexivity).
  apply IHx.
Qed.

Lemma as_i8_small : forall a, (a < 128)%N -> as_i8 a = Z.of_N a.
Proof.
  intros. unfold as_i8. rewrite N.mod_small by lia.
  replace (Z.of_N a <? 128)%Z with true; auto. symmetry. apply Z.ltb_lt. lia.
Qed.
Lemma i8_diff_ascii : forall md a b, (a < 128)%N -> (b < 128)%N -> i8_diff md a b = Ok (Z.of_N a - Z.of_N b)%Z.
Proof.
  intros. unfold i8_diff. rewrite !as_i8_small by auto.
  replace ((-128 <=? Z.of_N a - Z.of_N b) && (Z.of_N a - Z.of_N b <=? 127))%Z with true; auto.
  symmetry. rewrite andb_true_iff, !Z.leb_le. lia.
Qed.
Lemma as_i8_cases : forall a, byte a -> as_i8 a = Z.of_N a \/ (as_i8 a = Z.of_N a - 256)%Z.
Proof.
  intros. unfold as_i8. rewrite N.mod_small by auto. destruct (Z.of_N a <? 128)%Z; auto.
Qed.
Lemma i8_diff_release : forall a b, byte a -> byte b ->
  exists d, i8_diff Release a b = Ok d /\ (d = 0%Z <-> a = b).
Proof.
  intros. unfold i8_diff.
  destruct (as_i8_cases a H) as [A|A], (as_i8_cases b H0) as [B|B]; unfold byte in *.
  all: destruct ((-128 <=? as_i8 a - as_i8 b) && (as_i8 a - as_i8 b <=? 127))%Z eqn:E; eexists; (split; [reflexivity|]).
  all: rewrite A, B in *.
  all: try (split; intros; [|subst; rewrite ?Z.sub_diag]; bl; lia).
  all: unfold wrap_i8.
  all: match goal with |- context [(?d mod 256)%Z] =>
     pose proof (Z.mod_pos_bound d 256 ltac:(lia)); pose proof (Z.div_mod d 256 ltac:(lia)); set (m := (d mod 256)%Z) in *; set (q := (d / 256)%Z) in * end.
  all: destruct (m <? 128)%Z eqn:M; bl; split; intros; try lia.
Qed.
Lemma i8_diff_debug : forall a b, byte a -> byte b -> i8_diff Debug a b = Panic \/ i8_diff Debug a b = i8_diff Release a b.
Proof. intros. unfold i8_diff. destruct (_ && _); auto. Qed.

(** arithmetic is safe: wrapping build, or ASCII bytes *)
Definition ascii (l : list N) : Prop := Forall (fun c => c < 128)%N l.

Lemma cmp_bytes_ok : forall md x y, bytes x -> bytes y -> (md = Release \/ (ascii x /\ ascii y)) ->
  exists r, cmp_bytes md x y = Ok r /\
    (length x = length y -> (r = None <-> x = y)) /\ (x = y -> r = None) /\
    (forall d, r = Some d -> d <> 0%Z) /\
    (ascii x -> ascii y -> lex_bytes x y = match r with Some d => (d ?= 0)%Z | None => Nat.compare (length x) (length y) end).
Proof.
  intros md. induction x as [|a x IH]; destruct y as [|b y]; intros Bx By S; cbn [cmp_bytes].
  1-3: exists None; split; [reflexivity|]; split; [simpl; intros; split; intros; auto; discriminate|];
       split; [auto|]; split; [discriminate|reflexivity].
  inversion Bx as [|? ? Ba Bx']; subst. inversion By as [|? ? Bb By']; subst.
  assert (D : exists d, i8_diff md a b = Ok d /\ (d = 0%Z <-> a = b) /\ ((a < 128)%N -> (b < 128)%N -> d = (Z.of_N a - Z.of_N b)%Z)).
  { destruct md.
    - destruct S as [S|[S1 S2]]; [discriminate|]. apply Forall_inv in S1, S2.
      rewrite i8_diff_ascii by auto. eexists. split; [reflexivity|]. split; auto. lia.
    - destruct (i8_diff_release a b Ba Bb) as (d & E & I). exists d. split; auto. split; auto.
      intros. rewrite i8_diff_ascii in E by auto. congruence. }
  destruct D as (d & -> & D0 & DA). cbn [rbind].
  destruct (d =? 0)%Z eqn:E; bl; cbn [negb].
  - assert (a = b) by tauto. subst b.
    destruct (IH y) as (r & R & R1 & R2 & R3 & R4); auto.
    { destruct S as [S|[S1 S2]]; auto. right. split; [apply (Forall_inv_tail S1)|apply (Forall_inv_tail S2)]. }
    exists r. split; auto. split; [|split; [|split]]; auto.
    + simpl. intros L. rewrite R1 by lia. split; congruence.
    + intros. apply R2. congruence.
    + intros A1 A2. simpl. rewrite N.compare_refl. rewrite R4; auto; [apply (Forall_inv_tail A1)|apply (Forall_inv_tail A2)].
  - exists (Some d). split; auto. split; [|split; [|split]].
    + intros. split; [discriminate|]. intros X. exfalso. apply E. apply D0. congruence.
    + intros X. exfalso. apply E. apply D0. congruence.
    + intros d' X. inversion X. subst. auto.
    + intros A1 A2. simpl. apply Forall_inv in A1, A2. rewrite DA by auto.
      destruct (N.compare_spec a b).
      * exfalso. tauto.
      * symmetry. apply Z.compare_lt_iff. lia.
      * symmetry. apply Z.compare_gt_iff. lia.
Qed.

(** ** comparison of label lists, read from the right *)
Definition rel_spec (la lb common : nat) : relation :=
  if (common =? la) && (common =? lb) then Equal
  else if common =? la then SuperDomain
  else if common =? lb then SubDomain
  else if common =? 0 then NoRelation else CommonAncestor.

Definition nrmls (cs : bool) (ls : list label) := map (nrml cs) ls.

Definition label_ok (l : label) : Prop := length l <= 63 /\ bytes l.
Lemma nrm_byte : forall cs c, byte c -> byte (nrm cs c).
Proof. unfold nrm. intros [] c H; auto. apply lc_byte; auto. Qed.
Lemma nrml_bytes : forall cs l, bytes l -> bytes (nrml cs l).
Proof. intros. unfold bytes, nrml. rewrite Forall_map. eapply Forall_impl; [|exact H]. apply nrm_byte. Qed.
Lemma nrm_ascii : forall cs l, ascii l -> ascii (nrml cs l).
Proof.
  intros. unfold ascii, nrml. rewrite Forall_map. eapply Forall_impl; [|exact H].
  unfold nrm, lc. intros a. destruct cs; auto. destruct ((65 <=? a) && (a <=? 90))%N eqn:E; bl; lia.
Qed.

Lemma rep_label : forall s fls pa x sa, slice_rep s fls -> fls = pa ++ x :: sa ->
  exists d1 d2, sl_data s = d1 ++ enc_label x ++ d2 /\
    idx (sl_offsets s) (length pa + sl_first s) = Ok (N.of_nat (length d1)).
Proof.
  intros s fls pa x sa [N (pre & post & opre & opost & D & O & F & L & B)] ->.
  exists (pre ++ body pa), (body sa ++ post). split.
  - rewrite D. rewrite body_app. simpl (body (x :: sa)). rewrite <- !app_assoc. simpl. rewrite <- !app_assoc. reflexivity.
  - rewrite O, obody_app. simpl obody. rewrite <- app_assoc. rewrite app_assoc. simpl app.
    rewrite idx_app_mid by (rewrite app_length, obody_len; lia). rewrite app_length, body_len. reflexivity.
Qed.

Lemma wrap_i8_small : forall z, (-128 <= z <= 127)%Z -> wrap_i8 z = z.
Proof.
  intros. unfold wrap_i8.
  pose proof (Z.mod_pos_bound z 256 ltac:(lia)). pose proof (Z.div_mod z 256 ltac:(lia)).
  destruct (z mod 256 <? 128)%Z eqn:E; bl; lia.
Qed.

Definition safe_cmp (md : mode) (fa fb : list label) : Prop :=
  md = Release \/ (Forall ascii fa /\ Forall ascii fb).

Lemma cmp_loop_spec : forall md cs a b fa fb, slice_rep a fa -> slice_rep b fb ->
  Forall label_ok fa -> Forall label_ok fb -> safe_cmp md fa fb ->
  length fa <= 128 -> length fb <= 128 ->
  forall l pa pb sa sb n,
  fa = pa ++ sa -> fb = pb ++ sb -> l = Nat.min (length pa) (length pb) ->
  n = length sa -> n = length sb ->
  exists r, cmp_loop md cs a b l (length pa) (length pb) n (Z.of_nat (length fa) - Z.of_nat (length fb))%Z = Ok r /\
    let c := n + common_prefix (rev (nrmls cs pa)) (rev (nrmls cs pb)) in
    cr_common r = N.of_nat c /\ cr_relation r = rel_spec (length fa) (length fb) c /\
    (Forall ascii fa -> Forall ascii fb ->
       (cr_order r ?= 0)%Z = lex_labels (rev (nrmls cs pa)) (rev (nrmls cs pb))).
Proof.
  intros md cs a b fa fb Ra Rb Oa Ob S La Lb.
  assert (La1 : 1 <= length fa) by (destruct Ra as [X _]; destruct fa; simpl; [congruence|lia]).
  assert (Lb1 : 1 <= length fb) by (destruct Rb as [X _]; destruct fb; simpl; [congruence|lia]).
  induction l; intros pa pb sa sb n Ea Eb El En1 En2.
  - cbn [cmp_loop]. eexists. split; [reflexivity|]. cbn [cr_common cr_relation cr_order].
    assert (length fa = length pa + n) by (rewrite Ea, app_length; lia).
    assert (length fb = length pb + n) by (rewrite Eb, app_length; lia).
    rewrite wrap_i8_small by lia.
    destruct pa as [|x pa]; [|destruct pb as [|y pb]; [|simpl in El; lia]].
    + assert (common_prefix (rev (nrmls cs [])) (rev (nrmls cs pb)) = 0) as -> by reflexivity.
      rewrite Nat.add_0_r. rewrite as_u8_small by lia.
      split; auto. simpl in H. split.
      * unfold rel_spec. rewrite H. rewrite Nat.eqb_refl. simpl.
        destruct pb as [|y pb].
        -- simpl in H0. rewrite H0, Nat.eqb_refl. rewrite Z.sub_diag. reflexivity.
        -- replace (n =? length fb) with false by (symmetry; apply Nat.eqb_neq; simpl in H0; lia).
           replace (Z.of_nat n - Z.of_nat (length fb) <? 0)%Z with true; auto. symmetry; apply Z.ltb_lt; simpl in H0; lia.
      * intros _ _. simpl. destruct pb as [|y pb].
        -- simpl in *. apply Z.compare_eq_iff. lia.
        -- simpl. destruct (rev (nrmls cs pb) ++ [nrml cs y]) eqn:E; [destruct (rev (nrmls cs pb)); discriminate|].
           apply Z.compare_lt_iff. simpl in H0. lia.
    + assert (common_prefix (rev (nrmls cs (x :: pa))) (rev (nrmls cs [])) = 0) as -> by (destruct (rev (nrmls cs (x :: pa))); reflexivity).
      rewrite Nat.add_0_r. rewrite as_u8_small by lia.
      split; auto. simpl in H, H0. split.
      * unfold rel_spec. replace (n =? length fa) with false by (symmetry; apply Nat.eqb_neq; lia).
        replace (n =? length fb) with true by (symmetry; apply Nat.eqb_eq; lia). simpl.
        replace (Z.of_nat (length fa) - Z.of_nat (length fb) <? 0)%Z with false by (symmetry; apply Z.ltb_ge; lia).
        replace (0 <? Z.of_nat (length fa) - Z.of_nat (length fb))%Z with true by (symmetry; apply Z.ltb_lt; lia). auto.
      * intros _ _. simpl. destruct (rev (nrmls cs pa) ++ [nrml cs x]) eqn:E; [destruct (rev (nrmls cs pa)); discriminate|].
        apply Z.compare_gt_iff. lia.
  - assert (NEa : pa <> []) by (destruct pa; simpl in El; try discriminate).
    assert (NEb : pb <> []) by (destruct pb; simpl in El; try discriminate; rewrite Nat.min_0_r in El; discriminate).
    destruct (@exists_last _ pa NEa) as (pa' & x & ->). destruct (@exists_last _ pb NEb) as (pb' & y & ->).
    rewrite !app_length in *. simpl length in *.
    assert (El' : l = Nat.min (length pa') (length pb')) by lia.
    cbn [cmp_loop]. rewrite !csub_ok by lia. cbn [rbind].
    replace (length pa' + 1 - 1) with (length pa') by lia. replace (length pb' + 1 - 1) with (length pb') by lia.
    rewrite <- app_assoc in Ea, Eb. simpl app in Ea, Eb.
    destruct (rep_label a fa pa' x sa Ra Ea) as (d1 & d2 & Da & Ia).
    destruct (rep_label b fb pb' y sb Rb Eb) as (e1 & e2 & Db & Ib).
    rewrite Ia, Ib. cbn [rbind]. rewrite !Nat2N.id. rewrite Da, Db.
    unfold enc_label. simpl app. rewrite !idx_app_mid by auto. cbn [rbind].
    replace (d1 ++ blen x :: x ++ d2) with ((d1 ++ [blen x]) ++ x ++ d2) by (rewrite <- app_assoc; reflexivity).
    replace (e1 ++ blen y :: y ++ e2) with ((e1 ++ [blen y]) ++ y ++ e2) by (rewrite <- app_assoc; reflexivity).
    replace (length d1 + 1) with (length (d1 ++ [blen x])) by (rewrite app_length; reflexivity).
    replace (length e1 + 1) with (length (e1 ++ [blen y])) by (rewrite app_length; reflexivity).
    replace (N.to_nat (blen x)) with (length x) by (unfold blen; lia).
    replace (N.to_nat (blen y)) with (length y) by (unfold blen; lia).
    rewrite cmp_label_bytes.
    assert (Xok : label_ok x /\ label_ok y /\ (md = Release \/ (ascii x /\ ascii y))).
    { rewrite Ea in Oa. rewrite Eb in Ob. apply Forall_app in Oa, Ob. destruct Oa as [_ Oa]. destruct Ob as [_ Ob].
      apply Forall_inv in Oa, Ob. split; auto. split; auto.
      destruct S as [S|[S1 S2]]; auto. right. rewrite Ea in S1. rewrite Eb in S2.
      apply Forall_app in S1, S2. destruct S1 as [_ S1]. destruct S2 as [_ S2]. apply Forall_inv in S1, S2. auto. }
    destruct Xok as ((Lx & Bx) & (Ly & By) & SS).
    destruct (cmp_bytes_ok md (nrml cs x) (nrml cs y)) as (r & Rr & R1 & R2 & R3 & R4).
    { apply nrml_bytes; auto. } { apply nrml_bytes; auto. }
    { destruct SS as [|[]]; auto. right; split; apply nrm_ascii; auto. }
    rewrite Rr. cbn [rbind].
    assert (Ln : length (nrml cs x) = length x /\ length (nrml cs y) = length y) by (unfold nrml; rewrite !map_length; auto).
    destruct Ln as [Lnx Lny].
    unfold nrmls. rewrite !map_app, !rev_app_distr. simpl rev. simpl app.
    assert (LF : length fa = length pa' + 1 + n) by (rewrite Ea, app_length; simpl; lia).
    assert (LG : length fb = length pb' + 1 + n) by (rewrite Eb, app_length; simpl; lia).
    assert (ASC : Forall ascii fa -> Forall ascii fb -> ascii (nrml cs x) /\ ascii (nrml cs y)).
    { intros A1 A2. rewrite Ea in A1. rewrite Eb in A2. apply Forall_app in A1, A2. destruct A1 as [_ A1]. destruct A2 as [_ A2].
      apply Forall_inv in A1, A2. split; apply nrm_ascii; auto. }
    destruct r as [d|].
    + assert (NE : nrml cs x <> nrml cs y) by (intros X; apply R2 in X; discriminate).
      eexists. split; [reflexivity|]. cbn [cr_common cr_relation cr_order common_prefix].
      destruct (list_eq_dec N.eq_dec (nrml cs x) (nrml cs y)); [contradiction|].
      rewrite Nat.add_0_r. rewrite as_u8_small by lia. split; auto. split.
      * unfold rel_spec, rel_of. rewrite LF, LG.
        replace (n =? length pa' + 1 + n) with false by (symmetry; apply Nat.eqb_neq; lia).
        replace (n =? length pb' + 1 + n) with false by (symmetry; apply Nat.eqb_neq; lia). simpl. reflexivity.
      * intros A1 A2. cbn [lex_labels]. destruct (ASC A1 A2) as [B1 B2]. rewrite (R4 B1 B2).
        destruct (d ?= 0)%Z eqn:E; auto. apply Z.compare_eq_iff in E. exfalso. eapply R3; eauto.
    + destruct (Z.of_N (blen x) - Z.of_N (blen y) =? 0)%Z eqn:E; bl; cbn [negb].
      * assert (length x = length y) by (unfold blen in E; lia).
        assert (EQ : nrml cs x = nrml cs y) by (apply R1; auto; congruence).
        destruct (IHl pa' pb' (x :: sa) (y :: sb) (n + 1)) as (r & Q & Q1 & Q2 & Q3); auto; try (simpl; lia).
        exists r. split; auto. cbn [common_prefix].
        destruct (list_eq_dec N.eq_dec (nrml cs x) (nrml cs y)); [|contradiction].
        unfold nrmls in *. cbn zeta in *.
        match goal with |- context [n + Datatypes.S ?q] => replace (n + Datatypes.S q) with (n + 1 + q) by (clear; lia) | |- _ => idtac end.
        split; auto. split; auto. intros A1 A2. cbn [lex_labels]. destruct (ASC A1 A2) as [B1 B2]. rewrite (R4 B1 B2).
        rewrite Lnx, Lny, H. rewrite Nat.compare_refl. auto.
      * assert (NL : length x <> length y) by (unfold blen in E; lia).
        assert (NE : nrml cs x <> nrml cs y) by (intros X; apply (f_equal (@length N)) in X; lia).
        eexists. split; [reflexivity|]. cbn [cr_common cr_relation cr_order common_prefix].
        destruct (list_eq_dec N.eq_dec (nrml cs x) (nrml cs y)); [contradiction|].
        rewrite Nat.add_0_r. rewrite as_u8_small by lia. split; auto. split.
        -- unfold rel_spec, rel_of. rewrite LF, LG.
           replace (n =? length pa' + 1 + n) with false by (symmetry; apply Nat.eqb_neq; lia).
           replace (n =? length pb' + 1 + n) with false by (symmetry; apply Nat.eqb_neq; lia). simpl. reflexivity.
        -- intros A1 A2. cbn [lex_labels]. destruct (ASC A1 A2) as [B1 B2]. rewrite (R4 B1 B2).
           rewrite wrap_i8_small by (unfold blen; lia). unfold blen. rewrite Lnx, Lny.
           destruct (Nat.compare_spec (length x) (length y)).
           ++ lia.
           ++ apply Z.compare_lt_iff. lia.
           ++ apply Z.compare_gt_iff. lia.
Qed.

Lemma sl_compare_spec : forall md cs a b fa fb, slice_rep a fa -> slice_rep b fb ->
  Forall label_ok fa -> Forall label_ok fb -> safe_cmp md fa fb ->
  length fa <= 128 -> length fb <= 128 ->
  exists r, sl_compare md cs a b = Ok r /\
    let c := common_prefix (rev (nrmls cs fa)) (rev (nrmls cs fb)) in
    cr_common r = N.of_nat c /\ cr_relation r = rel_spec (length fa) (length fb) c /\
    (Forall ascii fa -> Forall ascii fb ->
       (cr_order r ?= 0)%Z = lex_labels (rev (nrmls cs fa)) (rev (nrmls cs fb))).
Proof.
  intros. unfold sl_compare. rewrite (rep_label_count _ _ H), (rep_label_count _ _ H0).
  destruct (cmp_loop_spec md cs a b fa fb H H0 H1 H2 H3 H4 H5 (Nat.min (length fa) (length fb)) fa fb [] [] 0) as (r & R & P);
    auto using app_nil_r; try (rewrite app_nil_r; auto).
  exists r. split; auto.
Qed.

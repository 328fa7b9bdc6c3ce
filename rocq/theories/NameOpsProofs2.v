From Verif Require Import Base BaseLemmas NameModel SpecName NameWireProofs NameOpsProofs.

(** ** reverse *)
(** the loop only uses offsets below its current position, so state it with that bound *)
Lemma reverse_loop_spec : forall k ls raw offs n, k <= length ls -> n + elen (firstn k ls) <= 255 ->
  reverse_loop (name_of ls) k raw offs n =
  Ok (raw ++ body (rev (firstn k ls)), offs ++ obody n (rev (firstn k ls)), n + elen (firstn k ls)).
Proof.
  induction k; intros.
  - simpl. rewrite !app_nil_r. rewrite elen_nil. rewrite Nat.add_0_r. reflexivity.
  - assert (X : exists l b, skipn k ls = l :: b).
    { destruct (skipn k ls) eqn:S; eauto. pose proof (skipn_length k ls). rewrite S in H1. simpl in H1. lia. }
    destruct X as (l & b & X).
    assert (Y : ls = firstn k ls ++ l :: b) by (rewrite <- X, firstn_skipn; auto).
    assert (La : length (firstn k ls) = k) by (apply firstn_length_le; lia).
    assert (F : firstn (S k) ls = firstn k ls ++ [l]).
    { rewrite Y at 1. rewrite firstn_app, La. replace (S k - k) with 1 by lia.
      rewrite firstn_all2 by lia. reflexivity. }
    rewrite F in *. rewrite rev_app_distr. simpl rev.
    cbn [reverse_loop].
    specialize (IHk ls).
    set (a := firstn k ls) in *. clearbody a. clear F X.
    set (R := reverse_loop (name_of ls) k) in *.
    unfold name_of. simplb. rewrite Y.
    rewrite offs_app, obody_snoc.
    rewrite idx_app_mid by (rewrite obody_len; auto). simplb.
    destruct (offs_hd b (0 + elen a + 1 + length l)) as (tl & T1 & T2). rewrite T1.
    replace (obody 0 a ++ N.of_nat (0 + elen a) :: N.of_nat (0 + elen a + 1 + length l) :: tl) with
      ((obody 0 a ++ [N.of_nat (0 + elen a)]) ++ N.of_nat (0 + elen a + 1 + length l) :: tl)
      by (rewrite <- app_assoc; reflexivity).
    rewrite idx_app_mid by (rewrite app_length, obody_len; simpl; lia). simplb.
    rewrite enc_app. change (l :: b) with ([l] ++ b). rewrite enc_app.
    assert (E1 : length (body [l]) = 1 + length l) by (rewrite body_len, elen_cons, elen_nil; lia).
    rewrite elen_app, elen_cons, elen_nil in H0.
    rewrite slice_mid; [|nlen|rewrite E1; nlen]. simplb.
    replace (N.to_nat (N.of_nat (0 + elen a + 1 + length l)) - N.to_nat (N.of_nat (0 + elen a))) with (1 + length l) by lia.
    rewrite as_u8_small by lia.
    rewrite IHk by lia.
    rewrite elen_app, elen_cons, elen_nil.
    change (body (l :: rev a)) with (body ([l] ++ rev a)). rewrite body_app.
    rewrite <- !app_assoc. simpl. f_equal. f_equal; [|lia]. f_equal. f_equal. f_equal. f_equal. lia.
Qed.
Lemma reverse_spec : forall ls, wf_labels ls -> reverse (name_of ls) = Ok (name_of (rev ls)).
Proof.
  intros. unfold reverse. rewrite label_count_of.
  destruct (length ls + 1 =? 1) eqn:E; bl.
  - destruct ls; [reflexivity|simpl in E; lia].
  - rewrite csub_ok by lia. cbn [rbind].
    pose proof (wf_count127 _ H). pose proof (wf_elen _ H).
    ift. replace (length ls + 1 - 2 + 1) with (length ls) by lia.
    rewrite reverse_loop_spec; rewrite ?firstn_all; try lia.
    cbn [rbind]. simpl. rewrite as_u8_small by lia.
    unfold name_of, enc, offs_from. rewrite body_len, elen_rev. reflexivity.
Qed.

(** ** concat *)
Definition cat (a : list label) (ss : list (list label)) : list label := a ++ List.concat ss.
Lemma fold_len : forall ss a, rfold (fun a s => let? k := csub (name_len s) 1 in Ok (a + k)) (map name_of ss) a
  = Ok (a + elen (List.concat ss)).
Proof.
  induction ss; intros; simpl map; simpl List.concat; cbn [rfold].
  - rewrite elen_nil, Nat.add_0_r. auto.
  - rewrite name_len_of, csub_ok by lia. cbn [rbind]. rewrite IHss, elen_app. f_equal. lia.
Qed.
Lemma fold_cnt : forall ss a, rfold (fun a s => let? k := csub (label_count s) 1 in Ok (a + k)) (map name_of ss) a
  = Ok (a + length (List.concat ss)).
Proof.
  induction ss; intros; simpl map; simpl List.concat; cbn [rfold].
  - simpl. rewrite Nat.add_0_r. auto.
  - rewrite label_count_of, csub_ok by lia. cbn [rbind]. rewrite IHss, app_length. f_equal. lia.
Qed.
Lemma fold_raw : forall ss raw, rfold (fun raw s =>
                let? k := csub (name_len s) 1 in
                let? piece := slice (n_raw s) 0 k in Ok (raw ++ piece)) (map name_of ss) raw
  = Ok (raw ++ body (List.concat ss)).
Proof.
  induction ss; intros; simpl map; simpl List.concat; cbn [rfold].
  - simpl. rewrite app_nil_r. auto.
  - rewrite name_len_of, csub_ok by lia. cbn [rbind]. unfold name_of at 1. simplb.
    unfold enc. rewrite slice_pre by (rewrite body_len; lia). simplb.
    rewrite IHss, body_app, app_assoc. reflexivity.
Qed.
Lemma fold_offs : forall ss a, elen (a ++ List.concat ss) <= 254 ->
  rfold (fun '(offsets, copied_len) s =>
        let? i := csub copied_len 1 in
        let? last_offset := idx offsets i in
        let? tail := slice (n_offsets s) 1 (label_count s) in
        let? tail := rmap (fun v => u8_add v last_offset) tail in
        let? k := csub (copied_len + label_count s) 1 in
        Ok (offsets ++ tail, k)) (map name_of ss) (offs_from 0 a, length a + 1)
  = Ok (offs_from 0 (a ++ List.concat ss), length (a ++ List.concat ss) + 1).
Proof.
  induction ss as [|s ss IH]; intros; simpl map; simpl List.concat in *; cbn [rfold].
  - rewrite app_nil_r. reflexivity.
  - rewrite label_count_of, csub_ok by lia. cbn [rbind].
    unfold offs_from at 1. rewrite idx_app_mid by (rewrite obody_len; lia). cbn [rbind].
    rewrite !elen_app in H.
    destruct (offs_hd s 0) as (tl & T1 & T2).
    unfold name_of at 1. simplb. rewrite T1 at 1.
    change (N.of_nat 0 :: tl) with ([N.of_nat 0] ++ tl). rewrite slice_suf; [|reflexivity|rewrite app_length; simpl; lia].
    cbn [rbind].
    assert (A : rmap (fun v => u8_add v (N.of_nat (0 + elen a))) (offs_from 0 s) = Ok (offs_from (0 + elen a + 0) s)) by (apply offs_add; lia).
    rewrite T1 in A. cbn [rmap rbind] in A. rewrite u8_add_ok in A by lia. cbn [rbind] in A.
    rewrite body_len.
    destruct (rmap (fun v : N => u8_add v (N.of_nat (0 + elen a))) tl) as [tl'| | |] eqn:TL; cbn [rbind] in A; try discriminate.
    cbn [rbind]. rewrite csub_ok by lia. cbn [rbind].
    assert (O : offs_from 0 a ++ tl' = offs_from 0 (a ++ s)).
    { rewrite offs_app. unfold offs_from at 1. rewrite <- app_assoc. f_equal. simpl app.
      rewrite Nat.add_0_r in A. rewrite body_len.
      assert (A2 : offs_from (0 + elen a) s = (N.of_nat 0 + N.of_nat (0 + elen a))%N :: tl') by congruence.
      rewrite A2. f_equal. }
    rewrite O.
    replace (length a + 1 + (length s + 1) - 1) with (length (a ++ s) + 1) by (rewrite app_length; lia).
    rewrite IH by (rewrite !elen_app; lia). rewrite <- app_assoc. reflexivity.
Qed.
Lemma concat_all_spec : forall a s ss, wf_labels a -> Forall wf_labels (s :: ss) ->
  concat_all (name_of a) (map name_of (s :: ss)) =
  if wire_len (a ++ List.concat (s :: ss)) <=? 255 then Ok (name_of (a ++ List.concat (s :: ss))) else Err.
Proof.
  intros a s ss Wa Ws. unfold concat_all.
  rewrite fold_len, name_len_of. cbn [rbind]. rewrite fold_cnt, label_count_of. cbn [rbind].
  rewrite wire_elen, elen_app.
  unfold ensure_r, MAX_WIRE_LEN, MAX_LABEL_COUNT.
  set (ts := List.concat (s :: ss)) in *.
  replace (elen a + 1 + elen ts <=? 255) with (elen a + elen ts + 1 <=? 255) by (f_equal; lia).
  destruct (elen a + elen ts + 1 <=? 255) eqn:E; bl; [|reflexivity]. cbn [rbind].
  assert (Wt : Forall wf_label ts).
  { unfold ts. apply Forall_concat. eapply Forall_impl; [|exact Ws]. intros x []; auto. }
  assert (C1 := wf_count _ Wt). assert (C2 := wf_count _ (proj1 Wa)).
  ift. cbn [rbind]. rewrite csub_ok by lia. cbn [rbind].
  unfold name_of at 1. simplb. unfold enc at 1. rewrite slice_pre by (rewrite body_len; lia). cbn [rbind].
  rewrite map_length, csub_ok by (simpl; lia). cbn [rbind].
  destruct (@exists_last _ (s :: ss)) as (init & lst & EL); [discriminate|].
  unfold ts in *. rewrite EL in *. rewrite app_length. simpl length. replace (length init + 1 - 1) with (length init) by lia.
  rewrite map_app. rewrite slice_pre by (rewrite map_length; auto). cbn [rbind].
  rewrite fold_raw. cbn [rbind map].
  rewrite idx_app_mid by (rewrite map_length; auto). cbn [rbind].
  change (map name_of init ++ [name_of lst]) with (map name_of init ++ map name_of [lst]).
  rewrite <- map_app.
  unfold name_of at 3. simplb.
  change (n_offsets (name_of a)) with (offs_from 0 a).   rewrite fold_offs by (rewrite elen_app; lia). cbn [rbind].
  f_equal. unfold name_of. f_equal. simplb.
  rewrite concat_app. simpl List.concat. rewrite app_nil_r. rewrite !enc_app, app_assoc. reflexivity.
Qed.
Lemma concat_all_nil_panics : forall a, wf_labels a -> concat_all (name_of a) [] = Panic.
Proof.
  intros. unfold concat_all. cbn [rfold rbind]. rewrite name_len_of, label_count_of.
  pose proof (wf_elen _ H). pose proof (wf_count127 _ H).
  unfold ensure_r, MAX_WIRE_LEN, MAX_LABEL_COUNT. ift. cbn [rbind]. ift. cbn [rbind].
  rewrite csub_ok by lia. cbn [rbind]. unfold name_of; simplb. unfold enc. rewrite slice_pre by (rewrite body_len; lia).
  reflexivity.
Qed.

(** ** as_lowercase *)
Lemma lower_case_lc : forall c, lower_case c = lc c. Proof. reflexivity. Qed.
Lemma lower_label_spec : forall l pre post,
  lower_label (pre ++ l ++ post) (length pre) (length l) = Ok (pre ++ lc_label l ++ post, length pre + length l).
Proof.
  induction l; intros.
  - simpl. rewrite Nat.add_0_r. reflexivity.
  - cbn [lower_label length]. simpl app. rewrite idx_app_mid by auto. cbn [rbind].
    rewrite upd_app_mid by auto. rewrite lower_case_lc.
    replace (pre ++ lc a :: l ++ post) with ((pre ++ [lc a]) ++ l ++ post) by (rewrite <- app_assoc; reflexivity).
    replace (length pre + 1) with (length (pre ++ [lc a])) by (rewrite app_length; reflexivity).
    rewrite IHl. rewrite <- app_assoc. rewrite app_length. simpl. f_equal. f_equal. lia.
Qed.
Lemma lower_loop_spec : forall ls pre,
  lower_loop (pre ++ enc ls) (length pre) (length ls + 1) = Ok (pre ++ enc (lc_labels ls)).
Proof.
  induction ls as [|l ls IH]; intros; cbn [length Nat.add lower_loop].
  - change (enc []) with [0%N]. rewrite idx_app_mid by auto. reflexivity.
  - replace (enc (l :: ls)) with (blen l :: l ++ enc ls) by (unfold enc; simpl; rewrite <- app_assoc; reflexivity).
    rewrite idx_app_mid by auto. cbn [rbind].
    replace (pre ++ blen l :: l ++ enc ls) with ((pre ++ [blen l]) ++ l ++ enc ls) by (rewrite <- app_assoc; reflexivity).
    replace (length pre + 1) with (length (pre ++ [blen l])) by (rewrite app_length; reflexivity).
    replace (N.to_nat (blen l)) with (length l) by (unfold blen; lia).
    rewrite lower_label_spec. cbn [rbind].
    rewrite app_assoc.
    replace (length (pre ++ [blen l]) + length l) with (length ((pre ++ [blen l]) ++ lc_label l)) by (rewrite !app_length; unfold lc_label; rewrite map_length; lia).
    rewrite IH. f_equal. rewrite <- !app_assoc. f_equal. simpl.
    unfold enc. simpl. unfold blen, lc_label. rewrite map_length. rewrite <- app_assoc. reflexivity.
Qed.
Lemma lc_obody : forall ls p, obody p (lc_labels ls) = obody p ls.
Proof. induction ls; simpl; intros; auto. rewrite IHls. unfold lc_label. rewrite map_length. auto. Qed.
Lemma lc_offs : forall ls p, offs_from p (lc_labels ls) = offs_from p ls.
Proof. intros. unfold offs_from. rewrite lc_obody, !body_len, lc_labels_elen. reflexivity. Qed.
Lemma as_lowercase_spec : forall ls, as_lowercase (name_of ls) = Ok (name_of (lc_labels ls)).
Proof.
  intros. unfold as_lowercase. rewrite label_count_of. unfold name_of. simplb.
  pose proof (lower_loop_spec ls []). simpl in H. rewrite H. cbn [rbind]. rewrite lc_offs. reflexivity.
Qed.

(** ** equality and hash *)
Lemma eq_label_spec : forall la pa pb lb ta tb, length la = length lb -> length pa = length pb ->
  eq_label (pa ++ la ++ ta) (pb ++ lb ++ tb) (length pa) (length la) =
  Ok (if list_eq_dec N.eq_dec (lc_label la) (lc_label lb) then Some (length pa + length la) else None).
Proof.
  induction la; destruct lb; intros; try discriminate.
  - simpl. rewrite Nat.add_0_r. reflexivity.
  - cbn [length eq_label]. simpl app. rewrite idx_app_mid by auto. rewrite idx_app_mid by auto. cbn [rbind].
    change lower_case with lc in *. destruct (lc a =? lc n)%N eqn:E; bl.
    + cbn [negb]. 
      replace (pa ++ a :: la ++ ta) with ((pa ++ [a]) ++ la ++ ta) by (rewrite <- app_assoc; reflexivity).
      replace (pb ++ n :: lb ++ tb) with ((pb ++ [n]) ++ lb ++ tb) by (rewrite <- app_assoc; reflexivity).
      replace (length pa + 1) with (length (pa ++ [a])) by (rewrite app_length; reflexivity).
      rewrite IHla; [|simpl in H; lia|rewrite !app_length; simpl; lia].
      f_equal. rewrite app_length. simpl (length [a]).
      destruct (list_eq_dec N.eq_dec (lc_label la) (lc_label lb)), (list_eq_dec N.eq_dec (lc_label (a :: la)) (lc_label (n :: lb))); auto.
      * f_equal. lia.
      * exfalso. apply n0. simpl. congruence.
      * exfalso. apply n0. simpl in e. congruence.
    + cbn [negb]. f_equal. destruct (list_eq_dec N.eq_dec (lc_label (a :: la)) (lc_label (n :: lb))); auto.
      exfalso. simpl in e. congruence.
Qed.
Definition same_nameb (a b : list label) : bool :=
  if list_eq_dec (list_eq_dec N.eq_dec) (lc_labels a) (lc_labels b) then true else false.
Lemma same_nameb_true : forall a b, same_nameb a b = true <-> same_name a b.
Proof. intros. unfold same_nameb, same_name. destruct (list_eq_dec _ _ _); split; auto; discriminate. Qed.
Lemma enc_cons : forall l ls, enc (l :: ls) = blen l :: l ++ enc ls.
Proof. intros. unfold enc. simpl. rewrite <- app_assoc. reflexivity. Qed.
Lemma eq_loop_spec : forall a b pa pb, Forall wf_label a -> Forall wf_label b -> length a = length b -> length pa = length pb ->
  eq_loop (pa ++ enc a) (pb ++ enc b) (length pa) (length a + 1) = Ok (same_nameb a b).
Proof.
  induction a as [|la a IH]; destruct b as [|lb b]; intros pa pb Wa Wb L P; try discriminate.
  - cbn [length Nat.add eq_loop]. change (enc []) with [0%N]. rewrite !idx_app_mid by auto. reflexivity.
  - cbn [length Nat.add eq_loop]. rewrite !enc_cons. rewrite !idx_app_mid by auto. cbn [rbind].
    destruct (blen la =? blen lb)%N eqn:E; bl; cbn [negb].
    + assert (length la = length lb) by (unfold blen in E; lia).
      replace (pa ++ blen la :: la ++ enc a) with ((pa ++ [blen la]) ++ la ++ enc a) by (rewrite <- app_assoc; reflexivity).
      replace (pb ++ blen lb :: lb ++ enc b) with ((pb ++ [blen lb]) ++ lb ++ enc b) by (rewrite <- app_assoc; reflexivity).
      replace (length pa + 1) with (length (pa ++ [blen la])) by (rewrite app_length; reflexivity).
      replace (N.to_nat (blen la)) with (length la) by (unfold blen; lia).
      rewrite eq_label_spec; [|auto|rewrite !app_length; simpl; lia]. cbn [rbind].
      destruct (list_eq_dec N.eq_dec (lc_label la) (lc_label lb)).
      * rewrite !app_assoc.
        replace (length (pa ++ [blen la]) + length la) with (length ((pa ++ [blen la]) ++ la)) by (rewrite !app_length; lia).
        rewrite IH; [|apply (Forall_inv_tail Wa)|apply (Forall_inv_tail Wb)|simpl in L; lia|rewrite !app_length; simpl; lia].
        f_equal. apply eq_iff_eq_true. rewrite !same_nameb_true. unfold same_name. simpl. split; intros; congruence.
      * f_equal. symmetry. apply not_true_iff_false. rewrite same_nameb_true. unfold same_name. simpl. congruence.
    + f_equal. symmetry. apply not_true_iff_false. rewrite same_nameb_true. unfold same_name. simpl. intros X.
      assert (H : lc_label la = lc_label lb) by congruence. apply (f_equal (@length N)) in H.
      unfold lc_label in H. rewrite !map_length in H. unfold blen in E. lia.
Qed.
Lemma name_eq_spec : forall a b, wf_labels a -> wf_labels b -> name_eq (name_of a) (name_of b) = Ok (same_nameb a b).
Proof.
  intros. unfold name_eq. rewrite !name_len_of, !label_count_of.
  destruct (_ || _) eqn:E.
  - f_equal. symmetry. apply not_true_iff_false. rewrite same_nameb_true. unfold same_name. intros e.
    pose proof (f_equal elen e). rewrite !lc_labels_elen in H1.
    pose proof (f_equal (@length _) e). rewrite !lc_labels_len in H2. rewrite H1, H2 in E.
    rewrite !Nat.eqb_refl in E. discriminate.
  - bl. unfold name_of. simplb. apply (eq_loop_spec a b [] []); auto; try (destruct H, H0; auto; fail). lia.
Qed.

Lemma lc_small : forall c, (c <= 63)%N -> lc c = c.
Proof. unfold lc. intros. destruct ((65 <=? c) && (c <=? 90))%N eqn:E; bl; lia. Qed.
Lemma hash_bytes_enc : forall ls, Forall wf_label ls -> map lower_case (enc ls) = enc (lc_labels ls).
Proof.
  induction 1; auto. simpl lc_labels. rewrite !enc_cons. simpl map. f_equal.
  - rewrite lower_case_lc. unfold lc_label, blen. rewrite map_length. apply lc_small. destruct H. lia.
  - rewrite map_app. f_equal. auto.
Qed.
Lemma hash_spec : forall a b, wf_labels a -> wf_labels b ->
  (name_hash_bytes (name_of a) = name_hash_bytes (name_of b) <-> same_name a b).
Proof.
  intros a b Wa Wb. unfold name_hash_bytes, name_of. simplb.
  rewrite !hash_bytes_enc by (destruct Wa, Wb; auto). unfold same_name. split; intros.
  - apply enc_inj in H; [exact H|apply (proj1 (wf_lc a Wa))|apply (proj1 (wf_lc b Wb))].
  - rewrite H. auto.
Qed.

(** ** small predicates *)
Lemma is_wildcard_spec : forall ls, wf_labels ls ->
  is_wildcard (name_of ls) = Ok (match ls with l :: _ => if list_eq_dec N.eq_dec l [42%N] then true else false | [] => false end).
Proof.
  intros. unfold is_wildcard. rewrite name_len_of, label_count_of.
  destruct ls as [|l ls].
  - simpl. reflexivity.
  - rewrite elen_cons. destruct H as [H L]. apply Forall_inv in H. destruct H as [H _].
    simpl length. iff_.
    unfold name_of; simplb. rewrite obody_snoc. destruct (offs_hd ls (0 + 1 + length l)) as (tl & T1 & _). rewrite T1.
    unfold idx at 1. cbn [nth_error]. cbn [rbind].
    destruct (N.of_nat (0 + 1 + length l) =? 2)%N eqn:E; bl; cbn [negb].
    + destruct l as [|c l]; [simpl in *; lia|]. destruct l; [|simpl in *; lia].
      rewrite enc_cons. simpl app. change (idx (blen [c] :: c :: enc ls) 0) with (Ok 1%N).
      change (idx (blen [c] :: c :: enc ls) 1) with (Ok c). cbn [rbind]. f_equal.
      change (1 =? 1)%N with true. cbn [andb].
      destruct (c =? 42)%N eqn:E2; bl; destruct (list_eq_dec N.eq_dec [c] [42%N]) as [e|ne]; auto; exfalso; [apply ne; subst; auto | apply E2; inversion e; auto].
    + f_equal. destruct (list_eq_dec N.eq_dec l [42%N]); auto. subst. simpl in E. congruence.
Qed.
Lemma is_root_spec : forall ls, wf_labels ls -> is_root (name_of ls) = (match ls with [] => true | _ => false end).
Proof.
  intros. unfold is_root. rewrite name_len_of. destruct ls; [reflexivity|].
  rewrite elen_cons. replace (1 + length l + elen ls + 1 =? 1) with false; [reflexivity|].
  symmetry. apply Nat.eqb_neq. lia.
Qed.

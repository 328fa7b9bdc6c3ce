From Verif Require Import Base BaseLemmas NameModel RenderModel SpecName SpecBuf UsizeModel SpecUsize BufProofs NameOpsProofs NameCmpProofs2.

Lemma machine_big : forall W, machine W -> (W / 2 + 512 < W)%N /\ (1024 <= W)%N /\ (512 < W / 2)%N.
Proof. intros W [ -> | [ -> | -> ] ]; vm_compute; repeat split; try discriminate. Qed.

Lemma uadd_fit : forall W md a b, usize W (a + b) -> uadd W md a b = Ok (a + b).
Proof. intros W md a b H. unfold usize in H. unfold uadd. rewrite Nat2N.inj_add in H. apply N.ltb_lt in H. rewrite H. reflexivity. Qed.
Lemma uadd_over : forall W md a b, ~ usize W (a + b) -> uadd W md a b = match md with Debug => Panic | Release => Ok (N.to_nat (N.of_nat a + N.of_nat b - W)) end.
Proof.
  intros W md a b H. unfold usize in H. unfold uadd. rewrite Nat2N.inj_add in H.
  replace (N.of_nat a + N.of_nat b <? W)%N with false by (symmetry; apply N.ltb_ge; lia). reflexivity.
Qed.
Lemma mem_plus : forall W n k, machine W -> in_memory W n -> k <= 300 -> usize W (n + k).
Proof. intros W n k M H K. destruct (machine_big W M) as (A & B & _). unfold in_memory, usize in *. generalize dependent (W / 2)%N. intros. lia. Qed.
Lemma mem_le : forall W n m, in_memory W n -> m <= n -> in_memory W m.
Proof. unfold in_memory. intros. generalize dependent (W / 2)%N. intros. lia. Qed.
Lemma mem_two : forall W n m, machine W -> in_memory W n -> in_memory W m -> usize W (n + m).
Proof. intros W n m M A B. unfold in_memory, usize in *. destruct M as [ -> | [ -> | -> ] ]; change (2 ^ 16 / 2)%N with 32768%N in *; change (2 ^ 32 / 2)%N with 2147483648%N in *;
  change (2 ^ 64 / 2)%N with 9223372036854775808%N in *; change (2 ^ 16)%N with 65536%N; change (2 ^ 32)%N with 4294967296%N; change (2 ^ 64)%N with 18446744073709551616%N; lia. Qed.

(** ** reads *)
Lemma u_read_same : forall W md o w p, machine W -> in_memory W (length w) -> p <= length w -> rop_fits W p o ->
  u_read_call W md o (mkIn w p) = read_call o (mkIn w p).
Proof.
  intros W md o w p M L P F.
  assert (PM : in_memory W p) by (eapply mem_le; eauto).
  assert (U : forall k, k <= 300 -> uadd W md p k = Ok (p + k)) by (intros; apply uadd_fit, mem_plus; auto).
  destruct o; cbn [u_read_call read_call].
  - unfold bind, u_read_u8, read_u8, ib_len; cbn [ib_data ib_pos]. destruct (Nat.ltb_spec p (length w)); [|reflexivity].
    destruct (nth_lt _ w p ltac:(lia)) as [a E]. rewrite (idx_nth _ _ _ _ E). cbn [rbind]. rewrite U by lia. reflexivity.
  - unfold bind, u_read_u16, read_u16, ib_len; cbn [ib_data ib_pos]. rewrite !U by lia. cbn [rbind].
    destruct (Nat.ltb_spec (p + 1) (length w)); [|reflexivity].
    destruct (nth_lt _ w p ltac:(lia)) as [a E]. destruct (nth_lt _ w (p + 1) ltac:(lia)) as [b E1].
    rewrite (idx_nth _ _ _ _ E), (idx_nth _ _ _ _ E1). reflexivity.
  - unfold bind, u_read_u32, read_u32, ib_len; cbn [ib_data ib_pos]. rewrite !U by lia. cbn [rbind].
    destruct (Nat.ltb_spec (p + 3) (length w)); [|reflexivity].
    destruct (nth_lt _ w p ltac:(lia)) as [a E]. destruct (nth_lt _ w (p + 1) ltac:(lia)) as [b E1].
    destruct (nth_lt _ w (p + 2) ltac:(lia)) as [c E2]. destruct (nth_lt _ w (p + 3) ltac:(lia)) as [d E3].
    rewrite (idx_nth _ _ _ _ E), (idx_nth _ _ _ _ E1), (idx_nth _ _ _ _ E2), (idx_nth _ _ _ _ E3). reflexivity.
  - cbn [rop_fits] in F. unfold bind, u_read_bytes, read_bytes, ib_len; cbn [ib_data ib_pos]. rewrite !(uadd_fit _ _ _ _ F). cbn [rbind].
    destruct (Nat.leb_spec (p + n) (length w)); [|reflexivity].
    unfold slice. ift. reflexivity.
  - reflexivity.
Qed.
Lemma u_read_exact : forall W md o w p, machine W -> bytes w -> in_memory W (length w) -> p <= length w -> rop_fits W p o ->
  u_read_call W md o (mkIn w p) = match read_spec w p o with Some (v, p') => (Ok v, mkIn w p') | None => (Err, mkIn w p) end.
Proof. intros. rewrite u_read_same by auto. apply read_call_spec; auto. Qed.
Lemma over_lt : forall W a b, usize W b -> ~ usize W (a + b) -> N.to_nat (N.of_nat a + N.of_nat b - W) < a.
Proof. unfold usize. intros. rewrite Nat2N.inj_add in H0. lia. Qed.
Lemma u_read_over : forall W md n w p, p <= length w -> usize W n -> ~ usize W (p + n) ->
  u_read_call W md (RBytes n) (mkIn w p) = (Panic, mkIn w p).
Proof.
  intros W md n w p P U F. cbn [u_read_call]. unfold bind, u_read_bytes, ib_len; cbn [ib_data ib_pos]. rewrite (uadd_over _ _ _ _ F).
  destruct md; cbn [rbind]; [reflexivity|]. pose proof (over_lt _ _ _ U F) as X.
  destruct (Nat.leb_spec (N.to_nat (N.of_nat p + N.of_nat n - W)) (length w)); [|lia]. unfold slice.
  replace (p <=? N.to_nat (N.of_nat p + N.of_nat n - W)) with false by (symmetry; apply Nat.leb_gt; lia). reflexivity.
Qed.

(** ** writes *)
Lemma u_store_same : forall W md vs d pos k, usize W (pos + k + length vs) -> u_store W md d pos k vs = store d (pos + k) vs.
Proof.
  induction vs as [|v vs IH]; intros d pos k U; [reflexivity|]. cbn [u_store store]. cbn [length] in U.
  replace (if k =? 0 then Ok pos else uadd W md pos k) with (Ok (pos + k)).
  2:{ destruct (Nat.eqb_spec k 0); [subst; f_equal; lia|]. rewrite uadd_fit; [reflexivity|]. unfold usize in *. lia. }
  cbn [rbind]. destruct (upd_r d (pos + k) v); cbn [rbind]; try reflexivity. rewrite IH; [f_equal; lia|]. unfold usize in *. lia.
Qed.
Lemma be16_length : forall d, length (be16 d) = 2. Proof. reflexivity. Qed.
Lemma be32_length : forall d, length (be32 d) = 4. Proof. reflexivity. Qed.
Lemma ob_do_append : forall vs b, ob_do (fun b => let? dat := store (ob_data b) (ob_len b) vs in Ok (mkOut dat (ob_len b + length vs))) b = ob_append vs b.
Proof. intros. unfold ob_do, ob_append. destruct (store _ _ _); reflexivity. Qed.
Lemma u_num_same : forall W md vs b, machine W -> in_memory W (ob_capacity b) -> ob_len b <= ob_capacity b -> length vs <= 4 ->
  u_write_num W md (length vs) vs b = if ob_len b + length vs <=? ob_capacity b then ob_append vs b else (Err, b).
Proof.
  intros W md vs b M C L K. assert (LM : in_memory W (ob_len b)) by (eapply mem_le; eauto).
  unfold u_write_num. unfold ob_do at 1. rewrite uadd_fit by (apply mem_plus; auto; lia). cbn [rbind].
  destruct (ob_len b + length vs <=? ob_capacity b); [|reflexivity].
  rewrite u_store_same by (rewrite Nat.add_0_r; apply mem_plus; auto; lia). rewrite Nat.add_0_r. unfold ob_append. destruct (store _ _ _); reflexivity.
Qed.
Lemma u_write_same : forall W md o b, machine W -> in_memory W (ob_capacity b) -> ob_len b <= ob_capacity b -> wop_usize W o -> wop_fits W (ob_len b) o ->
  u_write_call W md o b = write_call o b.
Proof.
  intros W md o b M C L U F. assert (LM : in_memory W (ob_len b)) by (eapply mem_le; eauto).
  destruct o; cbn [u_write_call write_call]; try reflexivity.
  - unfold u_write_u8, ob_write_u8. unfold ob_do. destruct (ob_len b <? ob_capacity b); [|reflexivity].
    rewrite u_store_same by (rewrite Nat.add_0_r; apply mem_plus; auto; cbn [length]; lia). rewrite Nat.add_0_r.
    rewrite uadd_fit by (apply mem_plus; auto; lia). unfold ob_append. destruct (store _ _ _); reflexivity.
  - unfold u_write_u16. rewrite <- (be16_length d) at 1. rewrite u_num_same by (auto; rewrite be16_length; lia). reflexivity.
  - unfold u_write_u32. rewrite <- (be32_length d) at 1. rewrite u_num_same by (auto; rewrite be32_length; lia). reflexivity.
  - cbn [wop_usize] in U. assert (X : usize W (ob_len b + length l)) by (apply mem_two; auto).
    unfold u_write_bytes, ob_write_bytes, ob_do. rewrite !(uadd_fit _ _ _ _ X). cbn [rbind].
    destruct (Nat.leb_spec (ob_len b + length l) (ob_capacity b)) as [Y|Y]; [|reflexivity].
    unfold slice. unfold ob_capacity in Y. ift. cbn [rbind]. unfold ob_append. destruct (store _ _ _); reflexivity.
  - cbn [wop_fits] in F. unfold u_skip, ob_skip, ob_do. rewrite !(uadd_fit _ _ _ _ F). cbn [rbind]. destruct (_ <? _); reflexivity.
  - cbn [wop_fits] in F. unfold u_write_u16_at, ob_write_u16_at, ob_do. rewrite !(uadd_fit _ _ _ _ F). cbn [rbind]. destruct (_ <=? _); [|reflexivity].
    rewrite u_store_same by (rewrite Nat.add_0_r; exact F). rewrite Nat.add_0_r. unfold ob_store. destruct (store _ _ _); reflexivity.
Qed.
Lemma u_write_exact : forall W md o b, machine W -> wop_ok o -> wop_usize W o -> in_memory W (ob_capacity b) -> ob_len b <= ob_capacity b -> wop_fits W (ob_len b) o ->
  exists (ok : bool) b', u_write_call W md o b = ((if ok then Ok tt else Err), b') /\
    write_spec (ob_capacity b) (ob_bytes b) o ok (ob_bytes b') /\ ob_capacity b' = ob_capacity b /\ ob_len b' <= ob_capacity b'.
Proof. intros. rewrite u_write_same by auto. apply write_call_spec; auto. Qed.
Lemma firstn_le_firstn : forall {A} (l : list A) a b, a <= b -> firstn a (firstn b l) = firstn a l.
Proof. intros. rewrite firstn_firstn. f_equal. lia. Qed.
Lemma u_skip_over : forall W n b, ob_len b <= ob_capacity b -> usize W n -> ~ usize W (ob_len b + n) ->
  u_write_call W Debug (WSkip n) b = (Panic, b) /\
  exists b' k, u_write_call W Release (WSkip n) b = (Ok tt, b') /\ N.of_nat k = (N.of_nat (ob_len b) + N.of_nat n - W)%N /\ k < ob_len b /\
    ob_bytes b' = firstn k (ob_bytes b) /\ ob_capacity b' = ob_capacity b.
Proof.
  intros W n b L U F. pose proof (over_lt _ _ _ U F) as X. cbn [u_write_call]. unfold u_skip, ob_do. rewrite !(uadd_over _ _ _ _ F). cbn [rbind]. split; [reflexivity|].
  destruct (Nat.ltb_spec (N.to_nat (N.of_nat (ob_len b) + N.of_nat n - W)) (ob_capacity b)); [|lia].
  do 2 eexists. split; [reflexivity|]. split; [apply N2Nat.id|]. split; [exact X|]. split; [|reflexivity].
  unfold ob_bytes. cbn [ob_data ob_len]. rewrite firstn_le_firstn by lia. reflexivity.
Qed.
Lemma u_at16_over : forall W p d b, machine W -> in_memory W (ob_capacity b) -> usize W p -> ~ usize W (p + 2) ->
  u_write_call W Debug (WAt16 p d) b = (Panic, b) /\
  u_write_call W Release (WAt16 p d) b = ((if (ob_len b =? 0) && (N.of_nat p + 1 =? W)%N then Err else Panic), b).
Proof.
  intros W p d b M C U F. cbn [u_write_call]. unfold u_write_u16_at, ob_do. rewrite !(uadd_over _ _ _ _ F). cbn [rbind]. split; [reflexivity|].
  assert (Y : length (ob_data b) <= p). { destruct (machine_big W M) as (A & _). unfold in_memory, usize, ob_capacity in *. generalize dependent (W / 2)%N. intros. lia. }
  unfold usize in *.
  assert (Z : u_store W Release (ob_data b) p 0 (be16 d) = Panic). { unfold be16. cbn [u_store Nat.eqb rbind]. unfold upd_r. replace (p <? length (ob_data b)) with false by (symmetry; apply Nat.ltb_ge; lia). reflexivity. }
  rewrite Z. cbn [rbind].
  destruct (Nat.leb_spec (N.to_nat (N.of_nat p + N.of_nat 2 - W)) (ob_len b)) as [G|G].
  - destruct (Nat.eqb_spec (ob_len b) 0); [|reflexivity]. destruct (N.eqb_spec (N.of_nat p + 1) W); [lia|reflexivity].
  - destruct (Nat.eqb_spec (ob_len b) 0); [|lia]. destruct (N.eqb_spec (N.of_nat p + 1) W); [reflexivity|lia].
Qed.

(** ** names *)
Lemma rbind_ok : forall {A B} (m : res A) (k : A -> res B) r, rbind m k = Ok r -> exists a, m = Ok a /\ k a = Ok r.
Proof. intros A B [a| | |] k r H; try discriminate. eauto. Qed.
Lemma rmap_subm : forall md c l r, rmap (fun o => u8_sub o c) l = Ok r -> rmap (fun o => u8_subm md o c) l = Ok r.
Proof.
  induction l as [|x l IH]; intros r H; cbn [rmap] in *; [exact H|].
  apply rbind_ok in H. destruct H as (y & E & H). apply rbind_ok in H. destruct H as (ys & E2 & H).
  unfold u8_sub in E. unfold u8_subm at 1. destruct (c <=? x)%N; [|discriminate]. rewrite E. cbn [rbind]. rewrite (IH _ E2). exact H.
Qed.
Lemma obody_bound : forall ls p o, In o (obody p ls) -> N.to_nat o <= p + length (body ls).
Proof.
  induction ls as [|l ls IH]; intros p o H; [destruct H|]. cbn [obody] in H.
  assert (B : length (body (l :: ls)) = 1 + length l + length (body ls)) by (unfold body; cbn [flat_map]; rewrite app_length; reflexivity).
  destruct H as [H|H]; [subst o; lia|]. apply IH in H. lia.
Qed.
Lemma count_body : forall ls, length ls <= length (body ls).
Proof.
  induction ls as [|l ls IH]; [auto|]. assert (B : length (body (l :: ls)) = 1 + length l + length (body ls)) by (unfold body; cbn [flat_map]; rewrite app_length; reflexivity).
  cbn [length]. lia.
Qed.
Lemma offs_bound : forall ls o, wf_labels ls -> In o (offs_from 0 ls) -> N.to_nat o <= 254.
Proof.
  intros ls o [_ Wl] H. unfold wire_len, enc in Wl. rewrite app_length in Wl. cbn [length] in Wl. unfold offs_from in H. apply in_app_or in H.
  destruct H as [H|[<-|[]]]; [apply obody_bound in H; lia|rewrite Nat2N.id; lia].
Qed.
Lemma cap_small : forall W n, machine W -> n <= 300 -> vec_cap W n = Ok tt.
Proof. intros W n M L. destruct (machine_big W M) as (_ & _ & A). unfold vec_cap. generalize dependent (W / 2)%N. intros. replace (N.of_nat n <? n0)%N with true by (symmetry; apply N.ltb_lt; lia). reflexivity. Qed.
Lemma small_usize : forall W n, machine W -> n <= 600 -> usize W n.
Proof. intros W n M L. destruct (machine_big W M) as (_ & A & _). unfold usize. lia. Qed.
Ltac rb H a E := apply rbind_ok in H; destruct H as (a & E & H).
Lemma slice_in : forall {A} (l : list A) a b r x, slice l a b = Ok r -> In x r -> In x l.
Proof.
  intros A l a b r x H I. unfold slice in H. destruct (_ && _); [|discriminate]. injection H as <-.
  rewrite <- (firstn_skipn a l). apply in_or_app. right. rewrite <- (firstn_skipn (b - a) (skipn a l)). apply in_or_app. left. exact I.
Qed.
Lemma idx_in : forall {A} (l : list A) i x, idx l i = Ok x -> In x l.
Proof. intros A l i x H. unfold idx in H. destruct (nth_error l i) eqn:E; [|discriminate]. injection H as <-. eapply nth_error_In; eauto. Qed.
Lemma u_split_same : forall W md ls i k, machine W -> wf_labels ls -> usize W (i + k) -> u_split W md (name_of ls) i k = split (name_of ls) i k.
Proof.
  intros W md ls i k M WL F.
  assert (LC : label_count (name_of ls) <= 256).
  { rewrite label_count_of. destruct WL as [W1 W2]. unfold wire_len, enc in W2. rewrite app_length in W2. cbn [length] in W2.
    pose proof (count_body ls). lia. }
  assert (NL : name_len (name_of ls) <= 255) by (destruct WL as [_ W2]; exact W2).
  pose proof (split_spec ls i k WL) as S. unfold split in *. unfold u_split.
  destruct (Nat.ltb_spec i (label_count (name_of ls))) as [Hi|Hi]; [|reflexivity]. cbn [ensure_r rbind] in *.
  rewrite label_count_of in Hi. replace (i <=? length ls) with true in S by (symmetry; apply Nat.leb_le; lia).
  rewrite (uadd_fit _ _ _ _ F). cbn [rbind]. rewrite <- label_count_of in Hi.
  set (max := label_count (name_of ls)) in *. set (lc := if max <? i + k then max - i else k) in *.
  assert (E1 : (if max <? i + k then usub W md max i else Ok k) = Ok lc). { unfold lc. destruct (max <? i + k); [|reflexivity]. unfold usub. replace (i <=? max) with true by (symmetry; apply Nat.leb_le; lia). reflexivity. }
  assert (LL : i + lc <= max). { unfold lc. destruct (Nat.ltb_spec max (i + k)); lia. }
  rewrite E1. cbn [rbind]. rewrite !(uadd_fit _ _ i lc) by (apply small_usize; auto; lia). cbn [rbind].
  rewrite !(uadd_fit _ _ lc 1) by (apply small_usize; auto; lia). rewrite (uadd_fit _ _ (i + lc) 1) by (apply small_usize; auto; lia). cbn [rbind].
  rewrite (cap_small W lc), (cap_small W (lc + 1)) by (auto; lia). cbn [rbind].
  set (r := name_of (firstn k (skipn i ls))) in *. clearbody r. clear E1.
  destruct (i + lc =? max).
  - rb S fo E1. rb S osx E2. rb S spx E3. rb S rawx E4. rb S hdl E5. rewrite E1, E2. cbn [rbind]. rewrite E3. cbn [rbind].
    assert (SP : N.to_nat spx <= 254) by (eapply offs_bound; [exact WL|]; eapply slice_in; [exact E2|]; eapply idx_in; eauto).
    assert (SL : N.to_nat spx <= name_len (name_of ls)). { unfold slice in E4. destruct (N.to_nat spx <=? name_len (name_of ls)) eqn:Q; [apply Nat.leb_le in Q; exact Q|discriminate]. }
    unfold usub. replace (N.to_nat spx <=? name_len (name_of ls)) with true by (symmetry; apply Nat.leb_le; exact SL). cbn [rbind]. rewrite cap_small by (auto; lia). cbn [rbind].
    rewrite E4. cbn [rbind]. rewrite (rmap_subm md _ _ _ E5), E5. reflexivity.
  - rb S osx E2. rb S o0 E3. rb S o1 E4. rb S rawx E5. rb S fo E6. rb S hdl E7. rewrite E2. cbn [rbind]. rewrite E3, E4. cbn [rbind].
    assert (O1 : N.to_nat o1 <= 254) by (eapply offs_bound; [exact WL|]; eapply slice_in; [exact E2|]; eapply idx_in; eauto).
    assert (OO : N.to_nat o0 <= N.to_nat o1). { unfold slice in E5. destruct (N.to_nat o0 <=? N.to_nat o1) eqn:Q; [apply Nat.leb_le in Q; exact Q|discriminate]. }
    unfold u8_subm at 1. replace (o0 <=? o1)%N with true by (symmetry; apply N.leb_le; lia). cbn [rbind].
    unfold u8_addm. replace (o1 - o0 + 1 <? 256)%N with true by (symmetry; apply N.ltb_lt; lia). cbn [rbind]. rewrite cap_small by (auto; lia). cbn [rbind].
    rewrite E5, E6. cbn [rbind]. rewrite (rmap_subm md _ _ _ E7), E7. reflexivity.
Qed.
Lemma u_split_exact : forall W md ls i k, machine W -> wf_labels ls -> usize W (i + k) ->
  u_split W md (name_of ls) i k = if i <=? length ls then Ok (name_of (firstn k (skipn i ls))) else Err.
Proof. intros. rewrite u_split_same by auto. apply split_spec; auto. Qed.
Lemma u_split_over : forall W md ls i k, machine W -> wf_labels ls -> usize W i -> usize W k -> ~ usize W (i + k) ->
  u_split W md (name_of ls) i k = if i <=? length ls then Panic else Err.
Proof.
  intros W md ls i k M WL Ui Uk F. unfold u_split. rewrite label_count_of.
  destruct (Nat.leb_spec i (length ls)) as [Hi|Hi].
  2:{ replace (i <? length ls + 1) with false by (symmetry; apply Nat.ltb_ge; lia). reflexivity. }
  replace (i <? length ls + 1) with true by (symmetry; apply Nat.ltb_lt; lia). cbn [ensure_r rbind].
  rewrite (uadd_over _ _ _ _ F). destruct md; [reflexivity|]. cbn [rbind].
  assert (LC : length ls <= 255).
  { destruct WL as [W1 W2]. unfold wire_len, enc in W2. rewrite app_length in W2. cbn [length] in W2.
    pose proof (count_body ls). lia. }
  pose proof (over_lt _ _ _ Uk F) as X.
  replace (length ls + 1 <? N.to_nat (N.of_nat i + N.of_nat k - W)) with false by (symmetry; apply Nat.ltb_ge; lia). cbn [rbind].
  rewrite (uadd_over _ _ _ _ F). cbn [rbind].
  replace (N.to_nat (N.of_nat i + N.of_nat k - W) =? length ls + 1) with false by (symmetry; apply Nat.eqb_neq; lia).
  destruct (machine_big W M) as (A & B & C).
  assert (KB : (W - 256 <= N.of_nat k)%N) by (unfold usize in *; lia).
  (* capacity of the offsets vector: more than isize::MAX unless k + 1 wraps to 0 *)
  destruct (N.ltb_spec (N.of_nat k + N.of_nat 1) W) as [Y|Y].
  - rewrite uadd_fit by (unfold usize; rewrite Nat2N.inj_add; exact Y). cbn [rbind]. unfold vec_cap.
    replace (N.of_nat (k + 1) <? W / 2)%N with false; [reflexivity|]. symmetry. apply N.ltb_ge. generalize dependent (W / 2)%N. intros. lia.
  - assert (KW : N.of_nat k = (W - 1)%N) by (unfold usize in *; lia).
    rewrite uadd_over by (unfold usize; rewrite Nat2N.inj_add; lia). cbn [rbind].
    replace (N.to_nat (N.of_nat k + N.of_nat 1 - W)) with 0 by lia. rewrite cap_small by (auto; lia). cbn [rbind].
    assert (I1 : 1 <= i) by (unfold usize in *; lia).
    replace (N.to_nat (N.of_nat i + N.of_nat k - W)) with (i - 1) by lia.
    rewrite uadd_fit by (apply small_usize; auto; lia). cbn [rbind]. replace (i - 1 + 1) with i by lia.
    unfold slice. destruct (_ && _); [|reflexivity]. cbn [rbind]. rewrite Nat.sub_diag. cbn [firstn]. unfold idx. rewrite (proj2 (nth_error_None _ _)) by (cbn [length]; lia). reflexivity.
Qed.
Lemma u_parent_exact : forall W md ls lvl, machine W -> wf_labels ls -> usize W lvl ->
  u_parent W md (name_of ls) lvl =
  if lvl <=? length ls then Ok (name_of (skipn lvl ls))
  else if lvl =? length ls + 1 then Err else match md with Debug => Panic | Release => Err end.
Proof.
  intros W md ls lvl M WL U. unfold u_parent, usub. rewrite label_count_of.
  assert (LC : length ls <= 255).
  { destruct WL as [W1 W2]. unfold wire_len, enc in W2. rewrite app_length in W2. cbn [length] in W2.
    pose proof (count_body ls). lia. }
  destruct (Nat.leb_spec lvl (length ls)) as [H|H].
  - replace (lvl <=? length ls + 1) with true by (symmetry; apply Nat.leb_le; lia). cbn [rbind].
    rewrite u_split_exact by (auto; apply small_usize; auto; lia). replace (lvl <=? length ls) with true by (symmetry; apply Nat.leb_le; lia).
    rewrite firstn_all2; [reflexivity|]. rewrite skipn_length. lia.
  - destruct (Nat.eqb_spec lvl (length ls + 1)) as [E|E].
    + subst. rewrite Nat.leb_refl. cbn [rbind]. rewrite u_split_exact by (auto; apply small_usize; auto; lia).
      replace (length ls + 1 <=? length ls) with false by (symmetry; apply Nat.leb_gt; lia). reflexivity.
    + replace (lvl <=? length ls + 1) with false by (symmetry; apply Nat.leb_gt; lia). destruct md; [reflexivity|]. cbn [rbind].
      unfold u_split. rewrite label_count_of. replace (lvl <? length ls + 1) with false by (symmetry; apply Nat.ltb_ge; lia). reflexivity.
Qed.

(** ** label sequences *)
Lemma shape_count : forall fls, length (body fls) <= 255 -> length fls <= 255.
Proof.
  intros fls H. pose proof (count_body fls). lia.
Qed.
Lemma u8_addm_ok : forall md a b c, u8_add a b = Ok c -> u8_addm md a b = Ok c.
Proof. intros md a b c H. unfold u8_add in H. unfold u8_addm. destruct (_ <? _)%N; [exact H|discriminate]. Qed.
Lemma u8_subm_ok : forall md a b c, u8_sub a b = Ok c -> u8_subm md a b = Ok c.
Proof. intros md a b c H. unfold u8_sub in H. unfold u8_subm. destruct (_ <=? _)%N; [exact H|discriminate]. Qed.
Lemma u_seq_split_same : forall W md fls i k, machine W -> length (body fls) <= 255 -> usize W (i + k) -> u_seq_split W md (seqf fls) i k = seq_split (seqf fls) i k.
Proof.
  intros W md fls i k M L F. pose proof (shape_count fls L) as LC.
  pose proof (seq_split_spec fls i k L) as S. unfold seq_split in *. unfold u_seq_split.
  assert (LO : length (ls_offsets (seqf fls)) = length fls) by (unfold seqf; cbn [ls_offsets]; apply obody_len).
  rewrite LO in *.
  destruct ((i <? length fls) && (0 <? k)) eqn:C; [|reflexivity]. apply andb_true_iff in C. destruct C as [C1 C2]. apply Nat.ltb_lt in C1, C2. cbn [ensure_r rbind] in *.
  rewrite (uadd_fit _ _ _ _ F). cbn [rbind].
  set (max := length fls) in *. set (lc := if max <? i + k then max - i else k) in *.
  assert (E1 : (if max <? i + k then usub W md max i else Ok k) = Ok lc). { unfold lc. destruct (max <? i + k); [|reflexivity]. unfold usub. replace (i <=? max) with true by (symmetry; apply Nat.leb_le; lia). reflexivity. }
  assert (LL : i + lc <= max /\ 1 <= lc). { unfold lc. destruct (Nat.ltb_spec max (i + k)); lia. }
  rewrite E1. cbn [rbind]. rewrite (uadd_fit _ _ i lc) by (apply small_usize; auto; lia). cbn [rbind].
  set (R := (seqf (firstn k (skipn i fls)), seqf (firstn i fls ++ skipn (i + k) fls))) in *. clearbody R. clear E1.
  rb S ll X1. unfold usub. unfold csub in *. destruct (1 <=? i + lc); [|discriminate]. apply Ok_inj in X1. subst ll. cbn [rbind].
  rb S ol X2. rb S rl X3. rb S lastl X4. rb S dl X5. rb S osx X6. rb S dof X7. rb S datax X8. rb S offsx X9.
  rewrite X2. cbn [rbind]. rewrite X3. cbn [rbind]. rewrite X4, (u8_addm_ok md _ _ _ X4). cbn [rbind]. rewrite X5, (u8_addm_ok md _ _ _ X5). cbn [rbind].
  rewrite X6. cbn [rbind]. rewrite X7, (u8_subm_ok md _ _ _ X7). cbn [rbind]. rewrite X8. cbn [rbind].
  rewrite uadd_fit by (apply small_usize; auto; lia). cbn [rbind]. rewrite X9. cbn [rbind].
  destruct (i =? 0).
  - rb S so X10. rewrite X10, (rmap_subm md _ _ _ X10). reflexivity.
  - rb S tlx X10. rb S cur X11. rb S of2 X12. rewrite X10, (rmap_subm md _ _ _ X10). cbn [rbind]. rewrite X11. cbn [rbind]. rewrite X12, (rmap_subm md _ _ _ X12). reflexivity.
Qed.
Lemma nth_obody : forall fls p j, j < length fls -> nth_error (obody p fls) j = Some (N.of_nat (p + elen (firstn j fls))).
Proof.
  induction fls as [|l fls IH]; intros p j H; [cbn in H; lia|]. destruct j as [|j]; cbn [obody nth_error firstn].
  - rewrite elen_nil, Nat.add_0_r. reflexivity.
  - rewrite IH by (cbn in H; lia). rewrite elen_cons. do 2 f_equal. lia.
Qed.
Lemma u_seq_split_over : forall W md fls i k, machine W -> length (body fls) <= 255 -> usize W i -> usize W k -> ~ usize W (i + k) ->
  u_seq_split W md (seqf fls) i k = if i <? length fls then Panic else Err.
Proof.
  intros W md fls i k M L Ui Uk F. pose proof (shape_count fls L) as LC. unfold u_seq_split.
  assert (LO : length (ls_offsets (seqf fls)) = length fls) by (unfold seqf; cbn [ls_offsets]; apply obody_len). rewrite LO.
  destruct (Nat.ltb_spec i (length fls)) as [Hi|Hi]; [|reflexivity].
  assert (K : 0 < k) by (unfold usize in *; lia). replace (0 <? k) with true by (symmetry; apply Nat.ltb_lt; exact K). cbn [andb ensure_r rbind].
  rewrite (uadd_over _ _ _ _ F). destruct md; [reflexivity|]. cbn [rbind]. pose proof (over_lt _ _ _ Uk F) as X.
  set (s := N.to_nat (N.of_nat i + N.of_nat k - W)) in *.
  replace (length fls <? s) with false by (symmetry; apply Nat.ltb_ge; lia). cbn [rbind]. rewrite (uadd_over _ _ _ _ F). fold s. cbn [rbind].
  destruct (machine_big W M) as (_ & B & _). unfold usub. clearbody s.
  destruct s as [|s].
  - cbn [Nat.leb rbind]. unfold idx at 1. rewrite (proj2 (nth_error_None _ _)); [reflexivity|]. rewrite LO. lia.
  - cbn [Nat.leb rbind]. replace (S s - 1) with s by lia.
    destruct (nth_error fls s) as [l|] eqn:El; [|apply nth_error_None in El; lia].
    destruct (nth_error_split _ _ El) as (a & c & Ef & La).
    unfold idx at 1. unfold seqf at 1; cbn [ls_offsets]. rewrite nth_obody by lia. cbn [rbind]. rewrite Nat.add_0_l, Nat2N.id.
    assert (Fa : firstn s fls = a). { rewrite Ef, firstn_app, <- La, Nat.sub_diag, firstn_all. cbn [firstn]. apply app_nil_r. }
    rewrite Fa. unfold seqf at 1; cbn [ls_data].
    assert (Ba : body fls = body a ++ blen l :: l ++ body c). { rewrite Ef, body_app. unfold body at 2. cbn [flat_map]. reflexivity. }
    rewrite Ba at 1. rewrite idx_app_mid by reflexivity. cbn [rbind].
    assert (Le : elen a + 1 + length l <= 255). { assert (length (body fls) = elen a + (1 + length l + length (body c))) by (rewrite Ba, app_length; cbn [length]; rewrite app_length; unfold elen; lia). lia. }
    unfold u8_addm. replace (blen l + 1 <? 256)%N with true by (symmetry; apply N.ltb_lt; unfold blen; lia). cbn [rbind].
    replace (N.of_nat (elen a) + (blen l + 1) <? 256)%N with true by (symmetry; apply N.ltb_lt; unfold blen; lia). cbn [rbind].
    unfold idx at 1. unfold seqf at 1; cbn [ls_offsets]. rewrite nth_obody by lia. cbn [rbind]. rewrite Nat.add_0_l.
    assert (Os : elen a + 1 + length l < elen (firstn i fls)).
    { rewrite Ef, firstn_app. rewrite firstn_all2 by lia. rewrite elen_app. destruct (i - length a) as [|[|n]] eqn:Q; [lia|lia|].
      destruct c as [|c0 c]; [rewrite Ef, app_length in Hi; cbn in Hi; lia|]. cbn [firstn]. rewrite !elen_cons. lia. }
    unfold u8_subm at 1. replace (N.of_nat (elen (firstn i fls)) <=? N.of_nat (elen a) + (blen l + 1))%N with false by (symmetry; apply N.leb_gt; unfold blen; lia). cbn [rbind].
    rewrite Nat2N.id. unfold slice at 1.
    replace (elen (firstn i fls) <=? N.to_nat (N.of_nat (elen a) + (blen l + 1))) with false by (symmetry; apply Nat.leb_gt; unfold blen; lia). reflexivity.
Qed.
Lemma u_seq_split_exact : forall W md fls i k, machine W -> length (body fls) <= 255 -> usize W (i + k) ->
  u_seq_split W md (seqf fls) i k =
  if (i <? length fls) && (0 <? k) then Ok (seqf (firstn k (skipn i fls)), seqf (firstn i fls ++ skipn (i + k) fls)) else Err.
Proof. intros. rewrite u_seq_split_same by auto. apply seq_split_spec. assumption. Qed.
Lemma u_parent_same : forall W md ls lvl, machine W -> wf_labels ls -> usize W lvl -> u_parent W md (name_of ls) lvl = parent md (name_of ls) lvl.
Proof. intros. rewrite u_parent_exact, parent_spec by auto. reflexivity. Qed.

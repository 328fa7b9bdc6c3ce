(** Proof of C102: the number of passes of the search loop. *)
From Coq Require Import ZArith Lia.
From Verif Require Import Base BaseLemmas NameModel TreeModel SpecName SpecOrd SpecScope SpecTree SpecHist SpecTreeWork OrdBase TreeProofs PermTac TreeProofs2 TreeProofs3 TreeProofs4 TreePure TreePure2 TreeProofs5 TreeProofs6 TreeProofs7 TreeProofs8 TreeProofs9 TreeProofs10 TreeProofs11 TreeProofs12 TreeProofs13 TreeProofs14 TreeProofs15 TreeProofs16 TreeProofs17.
From Verif Require Import NameOpsProofs NameCmpProofs NameApiProofs.
Open Scope list_scope.
Open Scope nat_scope.

Lemma cmp_loop_sub : forall md a b l l1 l2 nl ld r, cmp_loop md false a b l l1 l2 nl ld = Ok r -> cr_relation r = SubDomain ->
  (0 < ld)%Z /\ cr_common r = as_u8 (N.of_nat (nl + l)).
Proof.
  intros md a b. induction l as [|l IH]; intros l1 l2 nl ld r H R; cbn [cmp_loop] in H.
  - assert (r = mkCmp (wrap_i8 ld) (as_u8 (N.of_nat nl)) (if (ld <? 0)%Z then SuperDomain else if (0 <? ld)%Z then SubDomain else Equal)) by congruence.
    subst r. cbn [cr_relation cr_common] in *. rewrite Nat.add_0_r. split; [|reflexivity].
    destruct (ld <? 0)%Z; [discriminate|]. destruct (0 <? ld)%Z eqn:E; [apply Z.ltb_lt; exact E|discriminate].
  - unfold rbind in H. destruct (csub l1 1) as [l1'| | |]; try discriminate. destruct (csub l2 1) as [l2'| | |]; try discriminate.
    destruct (idx (sl_offsets a) _) as [o1| | |]; try discriminate. destruct (idx (sl_offsets b) _) as [o2| | |]; try discriminate. cbv zeta in H.
    destruct (idx (sl_data a) _) as [c1| | |]; try discriminate. destruct (idx (sl_data b) _) as [c2| | |]; try discriminate.
    destruct (cmp_label _ _ _ _ _ _ _) as [[c|]| | |]; try discriminate.
    + exfalso. assert (r = mkCmp c (as_u8 (N.of_nat nl)) (rel_of nl)) by congruence. subst r. cbn [cr_relation] in R. unfold rel_of in R. destruct (nl =? 0); discriminate.
    + destruct (negb _).
      * exfalso. injection H as <-. cbn [cr_relation] in R. unfold rel_of in R. destruct (nl =? 0); discriminate.
      * destruct (IH _ _ _ _ _ H R) as [A B]. split; [exact A|]. rewrite B. do 2 f_equal. lia.
Qed.
Lemma compare_sub : forall md a b r, sl_compare md false a b = Ok r -> cr_relation r = SubDomain -> sl_label_count b < 256 ->
  N.to_nat (cr_common r) = sl_label_count b.
Proof.
  intros md a b r H R L. unfold sl_compare in H. destruct (cmp_loop_sub _ _ _ _ _ _ _ _ _ H R) as [A ->]. replace (0 + Nat.min _ _) with (sl_label_count b) by lia.
  unfold as_u8. rewrite N.mod_small by lia. lia.
Qed.
Lemma strip_count : forall s k s', sl_strip_right s k = Ok s' -> sl_label_count s' + k = sl_label_count s /\ 1 <= sl_label_count s'.
Proof.
  intros s k s' H. unfold sl_strip_right, rbind, assert_r in H. destruct (k <? sl_label_count s) eqn:E; [|discriminate]. apply Nat.ltb_lt in E.
  unfold csub in H. destruct (k <=? sl_last s) eqn:F; [|discriminate]. apply Nat.leb_le in F. injection H as <-. unfold sl_label_count in *. cbn [sl_first sl_last]. lia.
Qed.

Section T.
Context {V : Type}.
Notation tree := (tree V). Notation dtree := (dtree V).
Definition inmem (s : dtree) (L : list (ptr * node V)) : Prop := Forall (fun pn => 0 < fst pn /\ dt_heap s (fst pn) = Some (snd pn)) L.
Lemma inmem_deref : forall s p n L, inmem s ((p, n) :: L) -> is_null p = false /\ deref p s = (Ok n, s).
Proof.
  intros s p n L H. inversion H as [|? ? [A B] _]; subst. cbn [fst snd] in *. assert (X : is_null p = false) by (apply Nat.eqb_neq; unfold null; lia).
  split; [exact X|]. unfold deref. rewrite X, B. reflexivity.
Qed.
Lemma inmem_app : forall s L1 L2, inmem s (L1 ++ L2) <-> inmem s L1 /\ inmem s L2.
Proof. intros. apply Forall_app. Qed.

(** reading does not change the tree *)
Definition ro {A} (m : MT V A) : Prop := forall s, snd (m s) = s.
Lemma ro_ret : forall A (a : A), ro (ret a). Proof. intros A a s. reflexivity. Qed.
Lemma ro_lift : forall A (a : res A), ro (lift a). Proof. intros A a s. reflexivity. Qed.
Lemma ro_bind : forall A B (m : MT V A) (g : A -> MT V B), ro m -> (forall a, ro (g a)) -> ro (bind m g).
Proof. intros A B m g H G s. unfold bind. specialize (H s). destruct (m s) as [[a| | |] s1]; cbn [snd] in *; subst; try reflexivity. apply G. Qed.
Lemma ro_deref : forall p, ro (deref p). Proof. intros p s. reflexivity. Qed.
Lemma ro_get_name : forall p, ro (get_name (V := V) p). Proof. intros p. unfold get_name. apply ro_bind; [apply ro_deref|intros; apply ro_ret]. Qed.
Lemma ro_names : forall todo c j, ro (chain_names (V := V) c j todo).
Proof.
  induction todo as [|n IH]; intros c j; cbn [chain_names]; [apply ro_ret|].
  apply ro_bind; [apply ro_lift|intros k]. apply ro_bind; [apply ro_lift|intros p]. apply ro_bind; [apply ro_get_name|intros nm]. apply ro_bind; [apply IH|intros rest; apply ro_ret].
Qed.
Lemma ro_abs : forall c nm, ro (get_absolute_name (V := V) c nm).
Proof. intros c nm. unfold get_absolute_name. destruct (ch_level c =? 0); [apply ro_lift|]. apply ro_bind; [apply ro_names|intros; apply ro_lift]. Qed.

Lemma bind_same : forall A B (m : MT V A) (g g' : A -> MT V B) s, ro m -> (forall a, fst (m s) = Ok a -> g a s = g' a s) -> bind m g s = bind m g' s.
Proof. intros A B m g g' s R H. unfold bind. specialize (R s). destruct (m s) as [[a| | |] s1]; cbn [snd fst] in *; subst; try reflexivity. apply H. reflexivity. Qed.

(** every level of [d] has height at most [H], and its names have less than 256 labels *)
Definition lowly (H : nat) : list label -> tree -> Prop := lvl (fun _ u => height u <= H /\ Forall (fun i => 1 <= length (i_labels i) < 256) (map fst (elems u))).
Lemma slice_seq_count : forall (ls : list label) cs, slice_of_seq (seqf ls) = Ok cs -> sl_label_count cs = length ls.
Proof.
  intros ls cs H. unfold slice_of_seq, seqf, rbind in H. cbn [ls_offsets ls_data] in H. rewrite obody_len in H. unfold csub in H. destruct (1 <=? length ls) eqn:E; [|discriminate]. apply Nat.leb_le in E.
  injection H as <-. unfold sl_label_count. cbn [sl_first sl_last]. lia.
Qed.
Definition enough (H m : nat) (u : tree) (fuel : nat) : Prop := count u <= fuel \/ height u + (m - 1) * H <= fuel.
Lemma enough_0 : forall H m c l i d r, ~ enough H m (T c l i d r) 0.
Proof. intros H m c l i d r [X|X]; cbn [count height] in X; [lia|]. remember ((m - 1) * H) as z. lia. Qed.
Lemma enough_l : forall H m c l i d r k, enough H m (T c l i d r) (S k) -> enough H m l k.
Proof. intros H m c l i d r k [X|X]; cbn [count height] in X; [left; lia|right]. remember ((m - 1) * H) as z. lia. Qed.
Lemma enough_r : forall H m c l i d r k, enough H m (T c l i d r) (S k) -> enough H m r k.
Proof. intros H m c l i d r k [X|X]; cbn [count height] in X; [left; lia|right]. remember ((m - 1) * H) as z. lia. Qed.
Lemma enough_d : forall H m m' c l i d r k, enough H m (T c l i d r) (S k) -> height d <= H -> 1 <= m' < m -> enough H m' d k.
Proof.
  intros H m m' c l i d r k [X|X] HD M; cbn [count height] in X; [left; lia|right].
  assert (height d + (m' - 1) * H <= (m - 1) * H). { transitivity ((1 + (m' - 1)) * H); [lia|]. apply Nat.mul_le_mono_r. lia. }
  remember ((m - 1) * H) as z. lia.
Qed.
Lemma find_loop_passes : forall P md (cb : option (callback P)) H s fuel fuel' (u : tree) suf par rt res ts ch (p : P), inmem s (cells par rt u) ->
  Forall (fun i => 1 <= length (i_labels i) < 256) (map fst (elems u)) -> (forall i d, In (i, d) (elems u) -> lowly H (i_labels i ++ suf) d) ->
  enough H (sl_label_count ts) u fuel -> enough H (sl_label_count ts) u fuel' ->
  find_loop md fuel cb (pt u) res ts ch p s = find_loop md fuel' cb (pt u) res ts ch p s.
Proof.
  intros P md cb H s. induction fuel as [|k IH]; intros fuel' u suf par rt res ts ch p M LB LW F F'.
  - destruct u as [|c l i d r]; [destruct fuel'; reflexivity|destruct (enough_0 _ _ _ _ _ _ _ F)].
  - destruct u as [|c l i d r]; [destruct fuel'; reflexivity|]. destruct fuel' as [|k']; [destruct (enough_0 _ _ _ _ _ _ _ F')|].
    cbn [cells] in M. destruct (inmem_deref _ _ _ _ M) as [NZ DR]. inversion M as [|? ? _ M']; subst. apply inmem_app in M'. destruct M' as [ML M']. apply inmem_app in M'. destruct M' as [MD MR].
    cbn [elems] in LB, LW. rewrite map_app in LB. apply Forall_app in LB. destruct LB as [LBL LB]. cbn [map fst] in LB. inversion LB as [|? ? LI LBR]; subst.
    cbn [find_loop pt]. rewrite NZ.
    apply bind_same; [apply ro_get_name|]. intros nm EN. unfold get_name, bind in EN. rewrite DR in EN. cbn [fst] in EN. injection EN as <-. cbn [cell nd_name].
    apply bind_same; [apply ro_lift|]. intros cs EC. cbn [lift fst] in EC. apply bind_same; [apply ro_lift|]. intros cr ER. cbn [lift fst] in ER. cbv zeta.
    destruct (cr_relation cr) eqn:RE; try reflexivity.
    + (* SubDomain *) apply bind_same; [unfold is_callback_enabled; apply ro_bind; [apply ro_deref|intros; apply ro_ret]|]. intros en _.
      apply bind_same.
      { destruct en; [|apply ro_ret]. destruct cb as [f|]; [|apply ro_ret]. apply ro_bind; [apply ro_get_name|intros nm]. apply ro_bind; [apply ro_abs|intros ab; apply ro_ret]. }
      intros [stop p1] _. destruct stop; [reflexivity|]. apply bind_same; [apply ro_lift|]. intros ch1 _. apply bind_same; [apply ro_lift|]. intros t' ET. cbn [lift fst] in ET.
      apply bind_same; [unfold get_down; apply ro_bind; [apply ro_deref|intros; apply ro_ret]|]. intros d' ED. unfold get_down, bind in ED. rewrite DR in ED. cbn [fst] in ED. injection ED as <-. cbn [cell nd_down].
      assert (LD : lowly H (i_labels i ++ suf) d) by (apply LW, in_elt). inversion LD as [? ? [HD LBD] LWD]; subst.
      rewrite (compare_sub _ _ _ _ ER RE) in ET by (rewrite (slice_seq_count _ _ EC); lia). rewrite (slice_seq_count _ _ EC) in ET. destruct (strip_count _ _ _ ET) as [C1 C2].
      assert (MM : 1 <= sl_label_count t' < sl_label_count ts) by lia.
      eapply (IH k' d); [exact MD|exact LBD|exact LWD|eapply enough_d; eauto|eapply enough_d; eauto].
    + (* NoRelation *) assert (RL : ro (if (cr_order cr <? 0)%Z then get_left (V := V) (i_ptr i) else get_right (i_ptr i))).
      { destruct (cr_order cr <? 0)%Z; [unfold get_left|unfold get_right]; apply ro_bind; try apply ro_deref; intros; apply ro_ret. }
      apply bind_same; [exact RL|]. intros nx EX. destruct (cr_order cr <? 0)%Z; [unfold get_left, bind in EX|unfold get_right, bind in EX]; rewrite DR in EX; cbn [fst] in EX; injection EX as <-; cbn [cell nd_left nd_right].
      * eapply (IH k' l); [exact ML|exact LBL| |eapply enough_l; eauto|eapply enough_l; eauto]. intros j dj I. apply LW. apply in_or_app. auto.
      * eapply (IH k' r); [exact MR|exact LBR| |eapply enough_r; eauto|eapply enough_r; eauto]. intros j dj I. apply LW. apply in_or_app. right. right. exact I.
Qed.

Lemma elems_count : forall u : tree, length (elems u) <= count u /\ forall i d, In (i, d) (elems u) -> count d <= count u.
Proof.
  induction u as [|c l [IL1 IL2] i d [ID1 ID2] r [IR1 IR2]]; cbn [elems count]; [split; [apply le_n|intros ? ? []]|]. rewrite app_length. cbn [length]. split; [lia|].
  intros j dj I. apply in_app_or in I. destruct I as [I|[I|I]]; [specialize (IL2 _ _ I); lia|injection I as <- <-; lia|specialize (IR2 _ _ I); lia].
Qed.
Lemma elems_body_len : forall ls : list label, length ls <= elen ls.
Proof. induction ls as [|l ls IH]; [apply le_n|]. rewrite elen_cons. cbn [length]. lia. Qed.
Lemma lowly_of : forall {SC : scope} n suf (u : tree), lvl (level_ok false) suf u -> count u <= n -> lowly (2 * Nat.log2 (S n)) suf u.
Proof.
  intros SC n suf u L. induction L as [suf u (RB & CB & NO & _) _ IH]. intros C. destruct (elems_count u) as [EC ED]. constructor.
  - split.
    + pose proof (level_height u RB CB) as X. pose proof (Nat.log2_le_mono (S (length (elems u))) (S n) ltac:(lia)). lia.
    + eapply Forall_impl; [|exact NO]. intros i (N & ls & [W1 W2] & EQ). split; [destruct (i_labels i); [congruence|cbn; lia]|].
      apply (f_equal (@length _)) in EQ. rewrite !app_length in EQ. cbn [length] in EQ. pose proof (elems_body_len ls). pose proof (wire_elen ls). lia.
  - intros i d I. apply IH; auto. specialize (ED _ _ I). lia.
Qed.
Definition quick (md : mode) (ls : list label) (s : dtree) : Prop := forall P ch (cb : option (callback P)) (p : P) k, S (length ls) * (2 * Nat.log2 (S (dt_len s))) <= k ->
  find_node_ext_within k md (name_of ls) ch cb p s = find_node_ext md (name_of ls) ch cb p s.
Theorem find_passes : forall md md' (ops : list (op V)) s ls, any_names ops -> reached md ops s -> wf_labels ls -> quick md' ls s.
Proof.
  intros md md' ops s ls W R WL P ch cb p k K. apply reached_release in R. pose proof (any_ok _ W) as OK.
  assert (G : @wp V quiet _ (history Release ops) tree_new (fun _ s => exists t n x, @good V quiet false s t n x /\ True)).
  { apply (@reached_good V quiet false Release (fun _ _ _ _ _ => True) ops sound_false OK); auto. }
  apply quiet_total in G. destruct G as ([] & s' & R' & t & n & x & (H & TO & C & _) & _).
  assert (s' = s) by (unfold reached in *; congruence). subst s'. pose proof (shape_inv _ _ _ _ H) as [SR SH].
  rewrite (inv_len _ _ _ _ _ H) in K. pose proof (lowly_of n [] t TO C) as LW.
  destruct (slice_of_name_rep ls WL) as (ts & ET & _ & F0 & L0). unfold find_node_ext_within, find_node_ext, bind. rewrite ET. cbn [lift].
  rewrite SR. inversion LW as [? ? [HT LB] LD]; subst.
  assert (CN : sl_label_count ts = S (length ls)) by (unfold sl_label_count; lia).
  assert (CT : count t <= dt_next s).
  { assert (NX : dt_next s = x) by (destruct H as (_ & _ & _ & H); exact H). rewrite NX.
    destruct (St_len _ _ _ _ _ H) as [Y|[Y _]]; unfold whole in Y; cbn [kcells app] in Y; [rewrite cells_count in Y; lia|]. destruct t; [cbn; lia|discriminate]. }
  eapply (find_loop_passes P md' cb _ s k (S (dt_next s)) t []); [|exact LB|exact LD| |left; lia].
  - destruct SH as [_ SH]. eapply Forall_impl; [|exact SH]. intros pn [[A _] B]. auto.
  - right. rewrite CN. remember (2 * Nat.log2 (S n)) as z. replace (S (length ls) - 1) with (length ls) by lia. cbn [Nat.mul] in K. lia.
Qed.
Lemma history_app_run : forall md (l1 l2 : list (op V)) s s', history md l1 s = (Ok tt, s') -> history md (l1 ++ l2) s = history md l2 s'.
Proof.
  intros md. induction l1 as [|o l1 IH]; intros l2 s s' H; cbn [app history] in *; [injection H as <-; reflexivity|]. unfold bind in *.
  destruct (do_op md o s) as [[[]| | |] s0]; try discriminate. apply IH. exact H.
Qed.
(** the unbounded search never runs forever *)
Theorem find_ends : forall md (ops : list (op V)) s ls, any_names ops -> reached md ops s -> wf_labels ls -> fst (find md (name_of ls) s) <> Hang.
Proof.
  intros md ops s ls W R WL HG.
  assert (W' : any_names (ops ++ [OFind (V := V) ls])) by (apply Forall_app; split; [exact W|constructor; [exact WL|constructor]]).
  assert (X : fst (history md (ops ++ [OFind ls]) tree_new) = Hang).
  { rewrite history_app_run with (s' := s) by exact R. cbn [history do_op]. unfold bind. destruct (find md (name_of ls) s) as [[a| | |] s1]; cbn [fst] in *; try discriminate. reflexivity. }
  destruct (any_safe _ W') as [(s1 & R1) D]. destruct md.
  - destruct D as [D|(s2 & D & _)]; [congruence|unfold reached in D; rewrite D in X; discriminate].
  - unfold reached in R1. rewrite R1 in X. discriminate.
Qed.

End T.

(** A panic of the debug build is the overflow check of the label comparison. *)
From Verif Require Import Base BaseLemmas NameModel TreeModel SpecName SpecTree SpecHist SpecOrd SpecTrap TreeProofs TreeProofs13 TreeProofs14 TreeProofs15 TreeProofs17 TreeProofs19.
Open Scope list_scope.
Open Scope nat_scope.

(** [m] with [Err] renamed to [Panic] is [d]; unless it is [Err], [m] is [r]. *)
Definition ren {A} (m : res A) : res A := match m with Err => Panic | _ => m end.
Definition noerr {A} (m : res A) : Prop := m <> Err.
Definition rtr {A} (t d r : res A) : Prop := d = ren t /\ (t = Err \/ t = r).
Lemma rtr_refl : forall A (m : res A), noerr m -> rtr m m m.
Proof. intros A m N. split; [|right; reflexivity]. destruct m; try reflexivity. congruence. Qed.
Lemma rtr_bind : forall A B (t d r : res A) (gt gd gr : A -> res B), rtr t d r -> (forall a, rtr (gt a) (gd a) (gr a)) -> rtr (rbind t gt) (rbind d gd) (rbind r gr).
Proof. intros A B t d r gt gd gr [-> [ -> | -> ]] H; [split; [reflexivity|left; reflexivity]|]. destruct r; cbn [rbind ren]; [apply H|split; auto..]. Qed.
Lemma idx_noerr : forall A (l : list A) i, noerr (idx l i).
Proof. intros. unfold idx, noerr. destruct (nth_error l i); discriminate. Qed.
Lemma csub_noerr : forall a b, noerr (csub a b).
Proof. intros. unfold csub, noerr. destruct (_ <=? _); discriminate. Qed.
Lemma rtr_diff : forall a b, rtr (i8_diff_trap a b) (i8_diff Debug a b) (i8_diff Release a b).
Proof. intros. unfold i8_diff_trap, i8_diff. cbv zeta. destruct (_ && _)%bool; split; auto. Qed.
Lemma rtr_label : forall cs d1 d2 n p1 p2, rtr (cmp_label_trap cs d1 d2 p1 p2 n) (cmp_label Debug cs d1 d2 p1 p2 n) (cmp_label Release cs d1 d2 p1 p2 n).
Proof.
  induction n as [|n IH]; intros p1 p2; cbn [cmp_label cmp_label_trap]; [apply rtr_refl; discriminate|].
  apply rtr_bind; [apply rtr_refl, idx_noerr|intros a]. apply rtr_bind; [apply rtr_refl, idx_noerr|intros b]. apply rtr_bind; [apply rtr_diff|intros c]. destruct (negb _); [apply rtr_refl; discriminate|apply IH].
Qed.
Lemma rtr_loop : forall cs a b l l1 l2 n d, rtr (cmp_loop_trap cs a b l l1 l2 n d) (cmp_loop Debug cs a b l l1 l2 n d) (cmp_loop Release cs a b l l1 l2 n d).
Proof.
  induction l as [|l IH]; intros l1 l2 n d; cbn [cmp_loop cmp_loop_trap]; [apply rtr_refl; discriminate|].
  do 6 (apply rtr_bind; [apply rtr_refl; first [apply idx_noerr|apply csub_noerr]|intros ?]). apply rtr_bind; [apply rtr_label|intros [z|]]; [apply rtr_refl; discriminate|]. destruct (negb _); [apply rtr_refl; discriminate|apply IH].
Qed.
Lemma rtr_compare : forall cs a b, rtr (sl_compare_trap cs a b) (sl_compare Debug cs a b) (sl_compare Release cs a b).
Proof. intros. unfold sl_compare, sl_compare_trap. cbv zeta. apply rtr_loop. Qed.

Section A.
Context {V : Type}.
Definition mtr {A} (t d r : MT V A) : Prop := forall s, (fst (t s) = Err /\ d s = (Panic, snd (t s))) \/ (t s = d s /\ t s = r s).
Lemma mtr_refl : forall A (m : MT V A), mtr m m m.
Proof. intros A m s. right. split; reflexivity. Qed.
Lemma mtr_bind : forall A B (t d r : MT V A) (gt gd gr : A -> MT V B), mtr t d r -> (forall a, mtr (gt a) (gd a) (gr a)) -> mtr (bind t gt) (bind d gd) (bind r gr).
Proof.
  intros A B t d r gt gd gr HM HG s. unfold bind. destruct (HM s) as [[H1 H2]|[H1 H2]].
  - left. rewrite H2. destruct (t s) as [x s1]. cbn [fst snd] in *. subst x. split; reflexivity.
  - rewrite <- H1, <- H2. destruct (t s) as [[a| | |] s1]; [apply HG|right; split; reflexivity..].
Qed.
Lemma mtr_lift : forall A (t d r : res A), rtr t d r -> mtr (lift t) (lift d) (lift r).
Proof. intros A t d r [-> [ -> | -> ]] s; [left; split; reflexivity|]. destruct r; [right; split; reflexivity|left; split; reflexivity|right; split; reflexivity|right; split; reflexivity]. Qed.
Lemma mtr_iloop : forall fuel v par up cur o ts, mtr (insert_loop_trap fuel v par up cur o ts) (insert_loop Debug fuel v par up cur o ts) (insert_loop Release fuel v par up cur o ts).
Proof.
  induction fuel as [|fuel IH]; intros v par up cur o ts; cbn [insert_loop insert_loop_trap]; destruct (is_null cur); try apply mtr_refl.
  apply mtr_bind; [apply mtr_refl|intros nm]. apply mtr_bind; [apply mtr_refl|intros c]. apply mtr_bind; [apply mtr_lift; apply rtr_compare|intros cr].
  destruct (cr_relation cr); try apply mtr_refl; repeat (apply mtr_bind; [apply mtr_refl|intros ?]); apply IH.
Qed.
Lemma mtr_insert : forall nm v, mtr (insert_trap nm v) (insert Debug nm v) (insert Release nm v).
Proof.
  intros nm v s. unfold insert, insert_trap. match goal with |- _ \/ (bind ?t ?gt s = bind ?d ?gd s /\ _ = bind ?r ?gr s) => assert (X : mtr (bind t gt) (bind d gd) (bind r gr)); [|apply X] end.
  apply mtr_bind; [apply mtr_refl|intros ts]. apply mtr_bind; [apply mtr_iloop|intros r]. apply mtr_refl.
Qed.
Definition drop3 (x : find_result * chain * unit) : find_result * chain := let '(r, c, _) := x in (r, c).
Definition dropped (m : MT V (find_result * chain * unit)) : MT V (find_result * chain) := let! x := m in ret (drop3 x).
Lemma drop_bind : forall B (m : MT V B) g, forall s, dropped (bind m g) s = bind m (fun b => dropped (g b)) s.
Proof. intros B m g s. unfold dropped, bind. destruct (m s) as [[a| | |] s1]; reflexivity. Qed.
Lemma mtr_ext : forall A (t d r d' r' : MT V A), mtr t d r -> (forall s, d' s = d s) -> (forall s, r' s = r s) -> mtr t d' r'.
Proof. intros A t d r d' r' H E1 E2 s. rewrite E1, E2. apply H. Qed.
Lemma mtr_floop : forall fuel p r ts ch, mtr (find_loop_trap fuel p r ts ch) (dropped (find_loop Debug fuel None p r ts ch tt)) (dropped (find_loop Release fuel None p r ts ch tt)).
Proof.
  induction fuel as [|fuel IH]; intros p r ts ch; cbn [find_loop find_loop_trap]; destruct (is_null p); try (intros s; right; split; reflexivity).
  eapply mtr_ext; [|apply drop_bind|apply drop_bind]. apply mtr_bind; [apply mtr_refl|intros nm].
  eapply mtr_ext; [|apply drop_bind|apply drop_bind]. apply mtr_bind; [apply mtr_refl|intros c].
  eapply mtr_ext; [|apply drop_bind|apply drop_bind]. apply mtr_bind; [apply mtr_lift; apply rtr_compare|intros cr]. cbv zeta.
  destruct (cr_relation cr); try (intros s; right; split; reflexivity).
  - eapply mtr_ext; [|apply drop_bind|apply drop_bind]. apply mtr_bind; [apply mtr_refl|intros en].
    assert (EN : forall md s, dropped (let! (stop, param) := match en with true | _ => ret (false, tt) end in if stop : bool then ret (mkFR p PartialMatch, mkChain (ch_level ch) (ch_nodes ch) p cr, param) else
       let! ch0 := lift (chain_push (mkChain (ch_level ch) (ch_nodes ch) p cr) p) in let! t' := lift (sl_strip_right ts (N.to_nat (cr_common cr))) in let! d := get_down p in find_loop md fuel None d (mkFR p PartialMatch) t' ch0 param) s =
       dropped (let! ch0 := lift (chain_push (mkChain (ch_level ch) (ch_nodes ch) p cr) p) in let! t' := lift (sl_strip_right ts (N.to_nat (cr_common cr))) in let! d := get_down p in find_loop md fuel None d (mkFR p PartialMatch) t' ch0 tt) s).
    { intros md s. destruct en; reflexivity. }
    eapply mtr_ext; [|exact (EN Debug)|exact (EN Release)]. clear EN.
    eapply mtr_ext; [|apply drop_bind|apply drop_bind]. apply mtr_bind; [apply mtr_refl|intros c1].
    eapply mtr_ext; [|apply drop_bind|apply drop_bind]. apply mtr_bind; [apply mtr_refl|intros t1].
    eapply mtr_ext; [|apply drop_bind|apply drop_bind]. apply mtr_bind; [apply mtr_refl|intros d1]. apply IH.
  - intros s. unfold dropped, bind. destruct (lift (chain_push _ _) s) as [[a| | |] s1]; right; split; reflexivity.
  - eapply mtr_ext; [|apply drop_bind|apply drop_bind]. apply mtr_bind; [apply mtr_refl|intros nx]. apply IH.
Qed.
Lemma find_dropped : forall md nm s, find (V := V) md nm s = (let! ts := lift (slice_of_name nm) in let! (r, _) := dropped (find_loop md (S (dt_next s)) None (dt_root s) fr_new ts chain_new tt) in ret r) s.
Proof.
  intros md nm s. unfold find, find_node, find_node_ext, dropped, drop3, bind. destruct (lift (slice_of_name nm) s) as [[ts| | |] s1]; try reflexivity. destruct (find_loop _ _ _ _ _ _ _ _ _) as [[[[r c] u]| | |] s2]; reflexivity.
Qed.
Lemma mtr_find : forall nm, mtr (find_trap nm) (find Debug nm) (find Release nm).
Proof.
  intros nm s. rewrite !find_dropped. unfold find_trap. match goal with |- _ \/ (bind ?t ?gt s = bind ?d ?gd s /\ _ = bind ?r ?gr s) => assert (X : mtr (bind t gt) (bind d gd) (bind r gr)); [|apply X] end.
  apply mtr_bind; [apply mtr_refl|intros ts]. apply mtr_bind; [apply mtr_floop|intros [r c]]. apply mtr_refl.
Qed.
Lemma mtr_op : forall o, mtr (do_op_trap o) (do_op Debug o) (do_op Release o).
Proof.
  intros [ls v|ls|ls|ls|ls v|ls b|ls b|]; cbn [do_op do_op_trap]; unfold on_exact, on_exact_trap, remove, remove_trap; try apply mtr_refl.
  - apply mtr_bind; [apply mtr_insert|intros ?; apply mtr_refl].
  - apply mtr_bind; [apply mtr_find|intros ?; apply mtr_refl].
  - apply mtr_bind; [|intros ?; apply mtr_refl]. apply mtr_bind; [apply mtr_find|intros ?; apply mtr_refl].
  - apply mtr_bind; [apply mtr_find|intros ?; apply mtr_refl].
  - apply mtr_bind; [apply mtr_find|intros ?; apply mtr_refl].
  - apply mtr_bind; [apply mtr_find|intros ?; apply mtr_refl].
  - apply mtr_bind; [apply mtr_find|intros ?; apply mtr_refl].
Qed.
Lemma mtr_history : forall ops, mtr (history_trap ops) (history Debug ops) (history Release ops).
Proof. induction ops as [|o ops IH]; cbn [history history_trap]; [apply mtr_refl|]. apply mtr_bind; [apply mtr_op|intros _; exact IH]. Qed.

(** Either the debug build completes, or it stops in the overflow check: the same program with that check ending in [Err] never panics. *)
Theorem trap_only : forall ops : list (op V), any_names ops ->
  (exists s, history_trap ops tree_new = (Ok tt, s) /\ reached Debug ops s /\ reached Release ops s) \/
  (exists s, history_trap ops tree_new = (Err, s) /\ history Debug ops tree_new = (Panic, s)).
Proof.
  intros ops W. destruct (any_safe ops W) as [(s & R) _]. unfold reached in *. destruct (mtr_history ops tree_new) as [[H1 H2]|[H1 H2]].
  - right. exists (snd (history_trap ops tree_new)). split; [rewrite <- H1; apply surjective_pairing|exact H2].
  - left. exists s. rewrite <- H1, H2. auto.
Qed.

(** ... and that takes two labels in use whose first different octets overflow. *)
Definition overflowb (ops : list (op V)) : bool :=
  existsb (fun x => existsb (fun y => match clash_octets x y with Some p => overflows p | None => false end) (labels_used ops)) (labels_used ops).
Lemma overflowb_spec : forall ops, overflowb ops = true <-> overflowing ops.
Proof.
  intros ops. unfold overflowb, overflowing. rewrite existsb_exists. split.
  - intros (x & Ix & H). apply existsb_exists in H. destruct H as (y & Iy & H). destruct (clash_octets x y) as [p|] eqn:C; [|discriminate]. exists x, y, p. auto.
  - intros (x & y & p & Ix & Iy & C & O). exists x. split; [exact Ix|]. apply existsb_exists. exists y. split; [exact Iy|]. rewrite C. exact O.
Qed.
Theorem calm_builds : forall ops : list (op V), any_names ops -> ~ overflowing ops -> history Debug ops tree_new = history Release ops tree_new.
Proof.
  intros ops W N. apply (builds_agree (fun l => In l (labels_used ops))).
  - intros x y p Ix Iy C. destruct (overflows p) eqn:O; [|reflexivity]. exfalso. apply N. exists x, y, p. auto.
  - unfold any_names in W. rewrite Forall_forall in *. intros o I. split; [apply W; exact I|]. apply Forall_forall. intros l Il. unfold labels_used. apply in_flat_map. exists o. split; [exact I|]. unfold lc_labels. apply in_map. exact Il.
Qed.
Theorem panic_overflow : forall ops : list (op V), any_names ops -> fst (history Debug ops tree_new) = Panic -> overflowing ops.
Proof.
  intros ops W P. destruct (overflowb ops) eqn:O; [apply overflowb_spec; exact O|]. exfalso. rewrite calm_builds in P; [|exact W|intros X; apply overflowb_spec in X; congruence].
  destruct (any_safe ops W) as [(s & R) _]. unfold reached in R. rewrite R in P. discriminate.
Qed.
End A.

(** The debug build does what the release build does, or panics (overflow check in the label comparison). *)
From Verif Require Import Base BaseLemmas NameModel TreeModel SpecName SpecOrd SpecScope OrdBase SpecTree SpecHist TreeProofs TreeProofs13 TreeProofs14 TreeProofs15.
Open Scope list_scope.
Open Scope nat_scope.

Definition rle {A} (m m' : res A) : Prop := m = Panic \/ m = m'.
Lemma rle_refl : forall A (m : res A), rle m m. Proof. right. reflexivity. Qed.
Lemma rle_bind : forall A B (m m' : res A) (g g' : A -> res B), rle m m' -> (forall a, rle (g a) (g' a)) -> rle (rbind m g) (rbind m' g').
Proof. intros A B m m' g g' [->| ->] HG; [left; reflexivity|]. destruct m'; cbn [rbind]; auto; right; reflexivity. Qed.
Lemma rle_diff : forall a b, rle (i8_diff Debug a b) (i8_diff Release a b).
Proof. intros. unfold i8_diff. cbv zeta. destruct (_ && _)%bool; [right; reflexivity|left; reflexivity]. Qed.
Lemma rle_label : forall cs d1 d2 n p1 p2, rle (cmp_label Debug cs d1 d2 p1 p2 n) (cmp_label Release cs d1 d2 p1 p2 n).
Proof.
  induction n as [|n IH]; intros p1 p2; cbn [cmp_label]; [apply rle_refl|].
  apply rle_bind; [apply rle_refl|intros a]. apply rle_bind; [apply rle_refl|intros b]. apply rle_bind; [apply rle_diff|intros c]. destruct (negb _); [apply rle_refl|apply IH].
Qed.
Lemma rle_loop : forall cs a b l l1 l2 n d, rle (cmp_loop Debug cs a b l l1 l2 n d) (cmp_loop Release cs a b l l1 l2 n d).
Proof.
  induction l as [|l IH]; intros l1 l2 n d; cbn [cmp_loop]; [apply rle_refl|].
  do 6 (apply rle_bind; [apply rle_refl|intros ?]). apply rle_bind; [apply rle_label|intros [z|]]; [apply rle_refl|]. destruct (negb _); [apply rle_refl|apply IH].
Qed.
Lemma rle_compare : forall cs a b, rle (sl_compare Debug cs a b) (sl_compare Release cs a b).
Proof. intros. unfold sl_compare. do 2 (first [apply rle_loop | apply rle_bind; [apply rle_refl|intros ?] | cbv zeta]). all: try apply rle_loop. Qed.

Section A.
Context {V : Type}.
Definition mle {A} (m m' : MT V A) : Prop := forall s, fst (m s) = Panic \/ m s = m' s.
Lemma mle_refl : forall A (m : MT V A), mle m m. Proof. intros A m s. right. reflexivity. Qed.
Lemma mle_bind : forall A B (m m' : MT V A) (g g' : A -> MT V B), mle m m' -> (forall a, mle (g a) (g' a)) -> mle (bind m g) (bind m' g').
Proof.
  intros A B m m' g g' HM HG s. unfold bind. destruct (HM s) as [H|H].
  - destruct (m s) as [r s1]. cbn in H. subst r. left. reflexivity.
  - rewrite H. destruct (m' s) as [[a| | |] s1]; auto. apply HG.
Qed.
Lemma mle_lift : forall A (m m' : res A), rle m m' -> mle (lift (S := dtree V) m) (lift m').
Proof. intros A m m' [->| ->] s; [left; reflexivity|right; reflexivity]. Qed.
Lemma mle_iloop : forall fuel v par up cur o ts, mle (insert_loop Debug fuel v par up cur o ts) (insert_loop Release fuel v par up cur o ts).
Proof.
  induction fuel as [|fuel IH]; intros v par up cur o ts; cbn [insert_loop]; destruct (is_null cur); try apply mle_refl.
  apply mle_bind; [apply mle_refl|intros nm]. apply mle_bind; [apply mle_refl|intros c]. apply mle_bind; [apply mle_lift; apply rle_compare|intros cr].
  destruct (cr_relation cr); try apply mle_refl; repeat (apply mle_bind; [apply mle_refl|intros ?]); apply IH.
Qed.
Lemma mle_insert : forall nm v, mle (insert Debug nm v) (insert Release nm v).
Proof.
  intros nm v s. unfold insert. match goal with |- _ \/ bind ?m ?g s = bind ?m' ?g' s => assert (X : mle (bind m g) (bind m' g')); [|apply X] end.
  apply mle_bind; [apply mle_refl|intros ts]. apply mle_bind; [apply mle_iloop|intros r]. apply mle_refl.
Qed.
Lemma mle_floop : forall P fuel (cb : option (callback P)) p r ts ch (pa : P), mle (find_loop Debug fuel cb p r ts ch pa) (find_loop Release fuel cb p r ts ch pa).
Proof.
  induction fuel as [|fuel IH]; intros cb p r ts ch pa; cbn [find_loop]; destruct (is_null p); try apply mle_refl.
  apply mle_bind; [apply mle_refl|intros nm]. apply mle_bind; [apply mle_refl|intros c]. apply mle_bind; [apply mle_lift; apply rle_compare|intros cr]. cbv zeta.
  destruct (cr_relation cr); try apply mle_refl.
  - apply mle_bind; [apply mle_refl|intros en]. apply mle_bind; [apply mle_refl|intros [st p']]. destruct st; [apply mle_refl|]. repeat (apply mle_bind; [apply mle_refl|intros ?]); apply IH.
  - apply mle_bind; [apply mle_refl|intros nx]. apply IH.
Qed.
Lemma mle_find_ext : forall P nm ch (cb : option (callback P)) (pa : P), mle (find_node_ext Debug nm ch cb pa) (find_node_ext Release nm ch cb pa).
Proof.
  intros P nm ch cb pa s. unfold find_node_ext. match goal with |- _ \/ bind ?m ?g s = bind ?m' ?g' s => assert (X : mle (bind m g) (bind m' g')); [|apply X] end.
  apply mle_bind; [apply mle_refl|intros ts]. apply mle_floop.
Qed.
Lemma mle_find : forall nm, mle (find Debug nm) (find Release nm).
Proof. intros nm. unfold find, find_node. apply mle_bind; [|intros ?; apply mle_refl]. apply mle_bind; [apply mle_find_ext|intros ?; apply mle_refl]. Qed.
Lemma mle_op : forall o, mle (do_op Debug o) (do_op Release o).
Proof.
  intros [ls v|ls|ls|ls|ls v|ls b|ls b|]; cbn [do_op]; unfold on_exact, remove; try apply mle_refl.
  - apply mle_bind; [apply mle_insert|intros ?; apply mle_refl].
  - apply mle_bind; [apply mle_find|intros ?; apply mle_refl].
  - apply mle_bind; [|intros ?; apply mle_refl]. apply mle_bind; [apply mle_find|intros ?; apply mle_refl].
  - apply mle_bind; [apply mle_find|intros ?; apply mle_refl].
  - apply mle_bind; [apply mle_find|intros ?; apply mle_refl].
  - apply mle_bind; [apply mle_find|intros ?; apply mle_refl].
  - apply mle_bind; [apply mle_find|intros ?; apply mle_refl].
Qed.
Lemma mle_history : forall ops, mle (history Debug ops) (history Release ops).
Proof. induction ops as [|o ops IH]; cbn [history]; [apply mle_refl|]. apply mle_bind; [apply mle_op|intros _; exact IH]. Qed.
Theorem debug_or_panic : forall ops : list (op V), fst (history Debug ops tree_new) = Panic \/ history Debug ops tree_new = history Release ops tree_new.
Proof. intros ops. apply mle_history. Qed.
Theorem reached_release : forall md (ops : list (op V)) s, reached md ops s -> reached Release ops s.
Proof. intros [|] ops s R; [|exact R]. unfold reached in *. destruct (debug_or_panic ops) as [H|H]; [rewrite R in H; discriminate|congruence]. Qed.

(** every history that did not panic, any names *)
Lemma any_ok : forall ops : list (op V), any_names ops -> Forall (@op_ok V quiet false) ops.
Proof. intros ops H. eapply Forall_impl; [|exact H]. intros o W. split; [exact W|discriminate]. Qed.
Lemma sound_false : @sound_build quiet false Release.
Proof. split; [reflexivity|discriminate]. Qed.
Theorem reached_any : forall md (ops : list (op V)) s, any_names ops -> reached md ops s -> exists t, shape s t /\
  lvl (fun _ u => (exists n, rb u n) /\ col u = Black /\ height u <= 2 * Nat.log2 (S (length (elems u)))) [] t /\ count t <= dt_len s /\ (Forall (fun o => ~ is_clear o) ops -> dt_len s = count t).
Proof.
  intros md ops s W R. apply reached_release in R. pose proof (any_ok _ W) as OK.
  assert (G : @wp V quiet _ (history Release ops) tree_new (fun _ s => exists t n x, @good V quiet false s t n x /\ (Forall (fun o => ~ is_clear o) ops -> n = count t))).
  { apply (@reached_good V quiet false Release (fun pre s t n x => Forall (fun o => ~ is_clear o) pre -> n = count t) ops sound_false OK); [reflexivity|].
    intros o pre s0 t n x s' t' n' x' I IH (_ & _ & _ & CO & _) NC. apply Forall_app in NC. destruct NC as [NC1 NC2]. inversion NC2; subst. specialize (IH NC1). destruct CO as [CO _]; [assumption|]. lia. }
  apply quiet_total in G. destruct G as ([] & s' & R' & t & n & x & (H & TO & C & _) & LN).
  assert (s' = s) by (unfold reached in *; congruence). subst s'. exists t. split; [eapply shape_inv; eauto|]. rewrite (inv_len _ _ _ _ _ H). split; [|split; auto].
  eapply lvl_mono; [|exact TO]. intros suf u (A & B & _). split; [exact A|]. split; [exact B|]. apply level_height; auto.
Qed.
(** what clear does to the length: exactly *)
Lemma history_app : forall md (l1 l2 : list (op V)) s s', history md (l1 ++ l2) s = (Ok tt, s') -> exists s1, history md l1 s = (Ok tt, s1) /\ history md l2 s1 = (Ok tt, s').
Proof.
  induction l1 as [|o l1 IH]; intros l2 s s' H; cbn [app history] in *; [exists s; split; [reflexivity|exact H]|]. unfold bind in *.
  destruct (do_op md o s) as [[[]| | |] s0]; try discriminate. apply IH. exact H.
Qed.
Theorem len_after_clear : forall md (ops1 ops2 : list (op V)) s1 s, any_names (ops1 ++ OClear :: ops2) -> reached md ops1 s1 -> reached md (ops1 ++ OClear :: ops2) s ->
  Forall (fun o => ~ is_clear o) ops2 -> exists t, shape s t /\ dt_len s = dt_len s1 + count t.
Proof.
  intros md ops1 ops2 s1 s W R1 R NC. apply reached_release in R1. apply reached_release in R. pose proof (any_ok _ W) as OK. apply Forall_app in OK. destruct OK as [OK1 OK]. apply Forall_cons_iff in OK. destruct OK as [_ OK2].
  unfold reached in R. apply history_app in R. destruct R as (s1' & R1' & R). assert (s1' = s1) by (unfold reached in R1; congruence). subst s1'.
  assert (G1 : @wp V quiet _ (history Release ops1) tree_new (fun _ s => exists t n x, @good V quiet false s t n x /\ True)).
  { apply (@reached_good V quiet false Release (fun _ _ _ _ _ => True) ops1 sound_false OK1); auto. }
  apply quiet_total in G1. destruct G1 as ([] & s1' & R1'' & t1 & n1 & x1 & G1 & _). assert (s1' = s1) by congruence. subst s1'.
  cbn [history do_op] in R. unfold bind in R. pose proof (@wp_clear V quiet false s1 t1 n1 x1 G1) as Wc. apply quiet_total in Wc. destruct Wc as ([] & s2 & Rc & Gc). rewrite Rc in R.
  destruct Gc as (Gc & _).
  assert (G2 : @wp V quiet _ (history Release ops2) s2 (fun _ s => exists t n x, @good V quiet false s t n x /\ (Forall (fun o => ~ is_clear o) ([] ++ ops2) -> n = n1 + count t))).
  { apply (@wp_history V quiet false Release (fun pre s t n x => Forall (fun o => ~ is_clear o) pre -> n = n1 + count t) [] ops2 s2 E n1 x1 sound_false OK2 Gc); [intros _; cbn [count]; lia|].
    intros o pre s0 t n x s' t' n' x' I IH (_ & _ & _ & CO & _) NC0. apply Forall_app in NC0. destruct NC0 as [NC1 NC2]. inversion NC2; subst. specialize (IH NC1). destruct CO as [CO _]; [assumption|]. lia. }
  apply quiet_total in G2. destruct G2 as ([] & s' & R' & t & n & x & (H & _) & LN). assert (s' = s) by congruence. subst s'.
  exists t. split; [eapply shape_inv; eauto|]. rewrite (inv_len _ _ _ _ _ H). destruct G1 as (H1 & _). rewrite (inv_len _ _ _ _ _ H1). apply LN. exact NC.
Qed.
Theorem any_safe : forall ops : list (op V), any_names ops -> (exists s, reached Release ops s) /\ (fst (history Debug ops tree_new) = Panic \/ exists s, reached Debug ops s /\ reached Release ops s).
Proof.
  intros ops W. destruct (quiet_total _ _ _ _ (@history_safe V quiet false Release ops sound_false (any_ok _ W))) as ([] & s & R & _). split; [eauto|]. destruct (debug_or_panic ops) as [H|H]; [auto|]. right. exists s. split; [|exact R]. unfold reached in *. congruence.
Qed.
End A.

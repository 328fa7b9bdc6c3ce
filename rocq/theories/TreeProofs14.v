(** Histories of calls. *)
From Coq Require Import Permutation Sorted.
From Verif Require Import Base BaseLemmas NameModel TreeModel SpecName SpecOrd SpecScope OrdBase SpecTree SpecHist NameCmpProofs2 TreeProofs PermTac TreeProofs2 TreeProofs3 TreeProofs4
  TreePure TreePure2 TreeProofs5 TreeProofs6 TreeProofs7 TreeProofs8 TreeProofs9 TreeProofs10 TreeProofs11 TreeProofs12 TreeProofs13.
Open Scope list_scope.
Open Scope nat_scope.

Section A.
Context {V : Type} {SC : scope}.
Notation node := (node V). Notation dtree := (dtree V). Notation info := (info V). Notation tree := (tree V). Notation entry := (entry V).
Notation frame := (@frame V). Notation ctx := (@ctx V). Notation op := (op V).
Implicit Types (s : dtree) (t : tree) (i : info) (k kl kr : ctx) (f : frame).

Definition op_eff t t' (o : op) : Prop :=
  match o with
  | OInsert ls v => exists p old, ins_spec t t' (labels_of ls) v p old
  | OFind _ => t' = t
  | ORemove ls => exists old, remove_spec t t' (labels_of ls) old
  | ODelete ls => ((exists e, has t (labels_of ls) e) /\ rem_spec t t' (labels_of ls)) \/ ((forall e, ~ has t (labels_of ls) e) /\ t' = t)
  | OSetValue ls v => set_spec t t' (labels_of ls) (fun e => mkEnt (e_ptr e) v (e_cb e) (e_wild e))
  | OSetCallback ls b => set_spec t t' (labels_of ls) (fun e => mkEnt (e_ptr e) (e_value e) b (e_wild e))
  | OSetWildcard ls b => set_spec t t' (labels_of ls) (fun e => mkEnt (e_ptr e) (e_value e) (e_cb e) b)
  | OClear => t' = E
  end.
Lemma wp_do_op : forall asc md o s t n x, sound_build asc md -> op_ok asc o -> good asc s t n x ->
  wp (do_op md o) s (fun _ s' => exists t' n' x', good asc s' t' n' x' /\ (~ is_clear o -> n' + count t = n + count t' /\ (x <= x' /\ (~ is_remove o -> n' + x = n + x'))) /\ (asc = true -> op_eff t t' o)).
Proof.
  intros asc md o s t n x SM [W AS] G. pose proof G as (H & TO & CN & X0). destruct o as [ls v|ls|ls|ls|ls v|ls b|ls b|]; cbn [op_name do_op op_eff is_clear is_remove] in *.
  - apply wp_bind. eapply wp_mono; [eapply wp_insert; eauto|]. intros [p old] s' (t' & n' & x' & H' & TO' & CO & LE & SP). apply wp_ret. exists t', n', x'. split; [split; [exact H'|split; [exact TO'|split; lia]]|]. split; [intros _; lia|]. intros Y. exists p, old. apply SP. exact Y.
  - apply wp_bind. eapply wp_mono; [eapply wp_find; eauto|]. intros r s' (-> & _). apply wp_ret. exists t, n, x. split; [exact G|]. split; [lia|]. auto.
  - apply wp_bind. eapply wp_mono; [eapply wp_remove; eauto|]. intros old s' (t' & n' & G' & CO & SP). apply wp_ret. exists t', n', x. split; [exact G'|]. split; [intros _; split; [exact CO|split; [lia|tauto]]|]. intros Y. exists old. apply SP. exact Y.
  - eapply wp_on_exact; [exact W|exact AS|exact SM|exact G| |].
    + intros N. exists t, n, x. split; [exact G|]. split; [lia|]. intros Y. right. split; [exact (N Y)|reflexivity].
    + intros k c l i d r -> EQ HI. eapply wp_mono; [eapply wp_remove_node; eauto|]. intros old s' (-> & t' & n' & H' & TO' & CO & RS). exists t', n', x. split; [split; [exact H'|split; [exact TO'|split; [lia|exact X0]]]|]. split; [intros _; split; [exact CO|split; [lia|tauto]]|].
      intros Y. left. change (labels_of ls) with (qof ls). rewrite <- (EQ Y). split; [exists (ent i); apply has_here|apply RS; exact Y].
  - eapply wp_on_exact; [exact W|exact AS|exact SM|exact G| |].
    + intros N. exists t, n, x. split; [exact G|]. split; [lia|]. intros Y. apply set_same. exact (N Y).
    + intros k c l i d r -> EQ HI. eapply wp_setv; [exact HI|]. intros s' H'. exists (plug k (T c l (setv i v) d r)), n, x. split; [eapply good_set; eauto|]. split; [intros _; rewrite (count_set k c l i d r (setv i v)); lia|].
      intros Y. change (labels_of ls) with (qof ls). rewrite <- (EQ Y). rewrite Y in TO. apply set_has; auto.
  - eapply wp_on_exact; [exact W|exact AS|exact SM|exact G| |].
    + intros N. exists t, n, x. split; [exact G|]. split; [lia|]. intros Y. apply set_same. exact (N Y).
    + intros k c l i d r -> EQ HI. set (i' := mkI (i_ptr i) (i_labels i) (i_value i) b (i_wild i)). eapply (wp_store_i s k c l i d r n x i'); [exact HI|reflexivity|reflexivity| |].
      { intros L j rt lp rp pp dp Q' HS HN HQ. eapply wp_set_callback; [exact HS|exact HN|]. exact HQ. }
      intros s' H'. exists (plug k (T c l i' d r)), n, x. split; [eapply good_set; eauto|]. split; [intros _; rewrite (count_set k c l i d r i'); lia|].
      intros Y. change (labels_of ls) with (qof ls). rewrite <- (EQ Y). rewrite Y in TO. apply set_has; auto.
  - eapply wp_on_exact; [exact W|exact AS|exact SM|exact G| |].
    + intros N. exists t, n, x. split; [exact G|]. split; [lia|]. intros Y. apply set_same. exact (N Y).
    + intros k c l i d r -> EQ HI. set (i' := mkI (i_ptr i) (i_labels i) (i_value i) (i_cb i) b). eapply (wp_store_i s k c l i d r n x i'); [exact HI|reflexivity|reflexivity| |].
      { intros L j rt lp rp pp dp Q' HS HN HQ. eapply wp_set_wildcard; [exact HS|exact HN|]. exact HQ. }
      intros s' H'. exists (plug k (T c l i' d r)), n, x. split; [eapply good_set; eauto|]. split; [intros _; rewrite (count_set k c l i d r i'); lia|].
      intros Y. change (labels_of ls) with (qof ls). rewrite <- (EQ Y). rewrite Y in TO. apply set_has; auto.
  - eapply wp_mono; [eapply wp_clear; exact G|]. intros [] s' (G' & _). exists E, n, x. split; [exact G'|]. split; [tauto|]. auto.
Qed.

(** any property of states and pictures kept by every call holds after any history *)
Definition step_rel asc md (o : op) s t n x s' t' n' x' : Prop :=
  good asc s t n x /\ good asc s' t' n' x' /\ do_op md o s = (Ok tt, s') /\
  (~ is_clear o -> n' + count t = n + count t' /\ (x <= x' /\ (~ is_remove o -> n' + x = n + x'))) /\ (asc = true -> op_eff t t' o).
Lemma wp_history : forall asc md (P : list op -> dtree -> tree -> nat -> nat -> Prop) ops0 ops s t n x, sound_build asc md -> Forall (op_ok asc) ops -> good asc s t n x -> P ops0 s t n x ->
  (forall o pre s t n x s' t' n' x', In o ops -> P pre s t n x -> step_rel asc md o s t n x s' t' n' x' -> P (pre ++ [o]) s' t' n' x') ->
  wp (history md ops) s (fun _ s' => exists t' n' x', good asc s' t' n' x' /\ P (ops0 ++ ops) s' t' n' x').
Proof.
  intros asc md P ops0 ops. revert ops0. induction ops as [|o ops IH]; intros ops0 s t n x SM OK G P0 ST; cbn [history].
  - apply wp_ret. rewrite app_nil_r. eauto 6.
  - inversion OK as [|? ? O1 O2]; subst. apply wp_bind. destruct (wp_do_op asc md o s t n x SM O1 G) as [([] & s' & E1 & t' & n' & x' & G' & CO & EF)|PN]; [|right; exact PN].
    left. exists tt, s'. split; [exact E1|].
    replace (ops0 ++ o :: ops) with ((ops0 ++ [o]) ++ ops) by (rewrite <- app_assoc; reflexivity). eapply IH; eauto.
    + eapply ST; [left; reflexivity|exact P0|]. unfold step_rel. auto.
    + intros o' pre s1 t1 n1 x1 s2 t2 n2 x2 I. apply ST. right. exact I.
Qed.
Lemma reached_good : forall asc md (P : list op -> dtree -> tree -> nat -> nat -> Prop) ops, sound_build asc md -> Forall (op_ok asc) ops -> P [] tree_new E 0 1 ->
  (forall o pre s t n x s' t' n' x', In o ops -> P pre s t n x -> step_rel asc md o s t n x s' t' n' x' -> P (pre ++ [o]) s' t' n' x') ->
  wp (history md ops) tree_new (fun _ s => exists t n x, good asc s t n x /\ P ops s t n x).
Proof. intros asc md P ops SM OK P0 ST. exact (wp_history asc md P [] ops tree_new E 0 1 SM OK (good_new asc) P0 ST). Qed.

(** * The map *)
Definition rel t (m : list label -> option V) : Prop := (forall q e, has t q e -> e_value e = m q) /\ (forall q v, m q = Some v -> exists e, has t q e).
Lemma same_true : forall a b, same_labels a b = true <-> a = b.
Proof. intros a b. unfold same_labels. destruct (list_eq_dec (list_eq_dec N.eq_dec) a b); split; congruence. Qed.
Lemma put_eq : forall (m : list label -> option V) q v, put m q v q = v.
Proof. intros. unfold put. rewrite (proj2 (same_true q q)); reflexivity. Qed.
Lemma put_ne : forall (m : list label -> option V) q v q', q' <> q -> put m q v q' = m q'.
Proof. intros. unfold put. destruct (same_labels q' q) eqn:E0; auto. apply same_true in E0. congruence. Qed.
Lemma rel_set : forall t t' q m (g : entry -> entry), set_spec t t' q g -> (forall e, e_value (g e) = e_value e) -> rel t m -> rel t' m.
Proof.
  intros t t' q m g S1 GV [A B]. split.
  - intros q' e' HA. apply S1 in HA. destruct HA as [[_ HA]|[-> (e & HA & ->)]]; [auto|]. rewrite GV. auto.
  - intros q' v E0. destruct (B _ _ E0) as (e & HA). destruct (list_eq_dec (list_eq_dec N.eq_dec) q' q) as [->|N]; [exists (g e)|exists e]; apply S1; [right|left]; eauto.
Qed.
Lemma rel_step : forall t t' o m, tree_ok true t -> map_op o -> op_eff t t' o -> rel t m -> rel t' (apply_ops [o] m).
Proof.
  intros t t' o m TO MO EF R. pose proof R as [A B]. destruct o as [ls v|ls|ls|ls|ls v|ls b|ls b|]; cbn [map_op op_eff apply_ops] in *; try contradiction.
  - destruct EF as (p & old & X & X1 & X2). set (q := labels_of ls) in *.
    assert (HV : forall q' e, (has t q' e \/ exists a px, X = Some (a, px) /\ q' = a /\ e = mkEnt px None false false) -> e_value e = m q').
    { intros q' e [HA|(a & px & -> & -> & ->)]; [auto|]. cbn [e_value]. destruct (m a) as [w|] eqn:M; auto. destruct (X1 _ _ eq_refl) as (_ & _ & N & _). destruct (B _ _ M) as (e & HA). exfalso. exact (N _ HA). }
    destruct X2 as [(e & _ & _ & _ & X2)|(NH & _ & _ & X2)]; split.
    + intros q' e' HA. apply X2 in HA. destruct HA as [[N HA]|[-> ->]]; [rewrite put_ne by exact N; auto|rewrite put_eq; reflexivity].
    + intros q' w E0. destruct (list_eq_dec (list_eq_dec N.eq_dec) q' q) as [->|N]; [eexists; apply X2; right; split; reflexivity|]. rewrite put_ne in E0 by exact N. destruct (B _ _ E0) as (e1 & HA). exists e1. apply X2. left. auto.
    + intros q' e' HA. apply X2 in HA. destruct HA as [HA|[-> ->]]; [|rewrite put_eq; reflexivity]. destruct (list_eq_dec (list_eq_dec N.eq_dec) q' q) as [->|N]; [|rewrite put_ne by exact N; auto].
      exfalso. exact (NH _ HA).
    + intros q' w E0. destruct (list_eq_dec (list_eq_dec N.eq_dec) q' q) as [->|N]; [eexists; apply X2; right; split; reflexivity|]. rewrite put_ne in E0 by exact N. destruct (B _ _ E0) as (e1 & HA). exists e1. apply X2. left. auto.
  - subst t'. exact R.
  - set (q := labels_of ls) in *. destruct EF as [[_ RS]|[N ->]]; split.
    + intros q' e' HA. apply RS in HA. destruct HA as (e & HA & _ & [[N ->]|[-> ->]]); [rewrite put_ne by exact N; auto|rewrite put_eq; reflexivity].
    + intros q' w E0. destruct (list_eq_dec (list_eq_dec N.eq_dec) q' q) as [->|N]; [rewrite put_eq in E0; discriminate|]. rewrite put_ne in E0 by exact N. destruct (B _ _ E0) as (e & HA). exists e. apply RS. exists e. split; [exact HA|]. split; [|left; auto].
      intros [_ PR]. destruct (PR _ _ HA) as [_ [Y|Y]]; [exists []; rewrite app_nil_r; reflexivity|contradiction|]. rewrite (A _ _ HA) in Y. congruence.
    + intros q' e' HA. destruct (list_eq_dec (list_eq_dec N.eq_dec) q' q) as [->|Ne]; [exfalso; exact (N _ HA)|]. rewrite put_ne by exact Ne. auto.
    + intros q' w E0. destruct (list_eq_dec (list_eq_dec N.eq_dec) q' q) as [->|Ne]; [rewrite put_eq in E0; discriminate|]. rewrite put_ne in E0 by exact Ne. eauto.
  - eapply rel_set; [exact EF|reflexivity|exact R].
  - eapply rel_set; [exact EF|reflexivity|exact R].
  - subst t'. split; [|discriminate]. intros q e (j & HA & _). inversion HA; contradiction.
Qed.
Lemma apply_app : forall (a b : list op) m, apply_ops (a ++ b) m = apply_ops b (apply_ops a m).
Proof. induction a as [|o a IH]; intros b m; [reflexivity|]. destruct o; cbn [app apply_ops]; apply IH. Qed.
Lemma rel_E : rel E (fun _ => None).
Proof. split; [|discriminate]. intros q e (j & HA & _). inversion HA; contradiction. Qed.

(** * Labels that end in NUL *)
Definition clean t : Prop := forall q e, has t q e -> Forall no_nul_end q.
Lemma lc_nul : forall l, no_nul_end (lc_label l) <-> no_nul_end l.
Proof.
  intros l. unfold no_nul_end. split; intros H l' EQ.
  - subst l. apply (H (lc_label l')). unfold lc_label. rewrite map_app. reflexivity.
  - destruct (list_eq_dec N.eq_dec l []) as [->|N]; [destruct l'; discriminate|]. destruct (exists_last N) as (l0 & z & ->). unfold lc_label in EQ. rewrite map_app in EQ. cbn [map] in EQ. apply app_inj_tail in EQ. destruct EQ as [_ EQ].
    unfold lc in EQ. destruct ((65 <=? z) && (z <=? 90))%N eqn:C; [lia|]. subst z. exact (H _ eq_refl).
Qed.
Lemma clean_name : forall ls, Forall no_nul_end ls -> Forall no_nul_end (labels_of ls).
Proof.
  intros ls H. unfold labels_of. apply Forall_rev. unfold lc_labels. apply Forall_map. apply Forall_app. split; [|constructor; [|constructor]].
  - eapply Forall_impl; [|exact H]. intros l Hl. apply lc_nul. exact Hl.
  - intros l' EQ. destruct l'; discriminate.
Qed.
Lemma clean_set : forall t t' q (g : entry -> entry), set_spec t t' q g -> clean t -> clean t'.
Proof. intros t t' q g S1 C q' e' HA. apply S1 in HA. destruct HA as [[_ HA]|[-> (e & HA & _)]]; eauto. Qed.
Lemma clean_rem : forall t t' q, rem_spec t t' q -> clean t -> clean t'.
Proof. intros t t' q S1 C q' e' HA. apply S1 in HA. destruct HA as (e & HA & _). eauto. Qed.
Lemma clean_step : forall t t' o, Forall no_nul_end (op_name o) -> op_eff t t' o -> clean t -> clean t'.
Proof.
  intros t t' o NN EF C. destruct o as [ls v|ls|ls|ls|ls v|ls b|ls b|]; cbn [op_name op_eff] in *.
  - apply clean_name in NN. destruct EF as (p & old & X & X1 & X2). set (q := labels_of ls) in *.
    assert (HC : forall q' e, (has t q' e \/ exists a px, X = Some (a, px) /\ q' = a /\ e = mkEnt px None false false) -> Forall no_nul_end q').
    { intros q' e [HA|(a & px & -> & -> & ->)]; [eauto|]. destruct (X1 _ _ eq_refl) as (_ & (z & EQ) & _). rewrite EQ in NN. apply Forall_app in NN. apply NN. }
    destruct X2 as [(e & _ & _ & _ & X2)|(_ & _ & _ & X2)]; intros q' e' HA; apply X2 in HA.
    + destruct HA as [[_ HA]|[-> _]]; eauto.
    + destruct HA as [HA|[-> _]]; eauto.
  - subst. exact C.
  - destruct EF as (old & [(a & z & e & _ & _ & _ & _ & RS)|(_ & _ & RS)]); [eapply clean_rem; eauto|]. intros q e HA. apply RS in HA. eauto.
  - destruct EF as [[_ RS]|[_ ->]]; [eapply clean_rem; eauto|exact C].
  - eapply clean_set; eauto.
  - eapply clean_set; eauto.
  - eapply clean_set; eauto.
  - subst. intros q e (j & HA & _). inversion HA; contradiction.
Qed.
Lemma labs_has : forall t x, In x (labs t) -> exists q e, has t q e /\ In (lc_label x) q.
Proof.
  assert (K : forall i x, In x (i_labels i) -> In (lc_label x) (key i)). { intros i x I. unfold key. apply -> in_rev. unfold lc_labels. apply in_map. exact I. }
  assert (M : forall (t1 t2 : tree) q e, incl (elems t1) (elems t2) -> has t1 q e -> has t2 q e).
  { intros t1 t2 q e I (j & A & EJ). exists j. split; auto. apply at_inv in A. destruct A as (i' & d' & I' & A). apply at_inv. exists i', d'. auto. }
  induction t as [|c l IHl i d IHd r IHr]; intros x I; cbn [labs] in I; [inversion I|]. rewrite !in_app_iff in I. destruct I as [I|[I|[I|I]]].
  - exists (key i), (ent i). split; [exists i; split; auto; eapply at_here; cbn [elems]; apply in_or_app; cbn; auto|auto].
  - destruct (IHl _ I) as (q & e & A & B). exists q, e. split; auto. eapply M; [|exact A]. cbn [elems]. intros z Z. apply in_or_app. auto.
  - destruct (IHd _ I) as (q & e & (j & A & EJ) & B). exists (key i ++ q), e. split; [exists j; split; auto; eapply at_down; [|exact A]; cbn [elems]; apply in_or_app; cbn; auto|]. apply in_or_app. auto.
  - destruct (IHr _ I) as (q & e & A & B). exists q, e. split; auto. eapply M; [|exact A]. cbn [elems]. intros z Z. apply in_or_app. cbn. auto.
Qed.
Lemma clean_labs : forall t, clean t -> Forall no_nul_end (labs t).
Proof. intros t C. apply Forall_forall. intros x I. destruct (labs_has _ _ I) as (q & e & A & B). specialize (C _ _ A). rewrite Forall_forall in C. apply lc_nul. auto. Qed.
End A.

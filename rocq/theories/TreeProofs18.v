(** Node handles and flags. *)
From Coq Require Import Permutation Sorted.
From Verif Require Import Base BaseLemmas NameModel TreeModel SpecName SpecOrd SpecScope OrdBase SpecTree SpecHist SpecHist2 NameCmpProofs2 TreeProofs PermTac TreeProofs2 TreeProofs3 TreeProofs4
  TreePure TreePure2 TreeProofs5 TreeProofs6 TreeProofs7 TreeProofs8 TreeProofs9 TreeProofs10 TreeProofs11 TreeProofs12 TreeProofs13 TreeProofs14 TreeProofs15.
Open Scope list_scope.
Open Scope nat_scope.

Section A.
Context {V : Type} {SC : scope}.
Notation node := (node V). Notation dtree := (dtree V). Notation info := (info V). Notation tree := (tree V). Notation entry := (entry V).
Notation op := (op V).
Implicit Types (s : dtree) (t : tree) (i : info).

Lemma at_cell : forall t q i, at_ t q i -> forall par rt, exists c rt' l r p d, In (i_ptr i, cell c rt' i l r p d) (cells par rt t).
Proof.
  induction 1 as [t i d I|t i d q j I A IH]; intros par rt; revert par rt.
  - induction t as [|c l IHl i0 d0 _ r IHr]; intros par rt; cbn [elems] in I; [inversion I|]. apply in_app_or in I. cbn [In] in I. cbn [cells]. destruct I as [I|[I|I]].
    + destruct (IHl I (i_ptr i0) false) as (c' & a1 & a2 & a3 & a4 & a5 & X). exists c', a1, a2, a3, a4, a5. right. apply in_or_app. auto.
    + inversion I; subst. do 6 eexists. left. reflexivity.
    + destruct (IHr I (i_ptr i0) false) as (c' & a1 & a2 & a3 & a4 & a5 & X). exists c', a1, a2, a3, a4, a5. right. apply in_or_app. right. apply in_or_app. auto.
  - induction t as [|c l IHl i0 d0 _ r IHr]; intros par rt; cbn [elems] in I; [inversion I|]. apply in_app_or in I. cbn [In] in I. cbn [cells]. destruct I as [I|[I|I]].
    + destruct (IHl I (i_ptr i0) false) as (c' & a1 & a2 & a3 & a4 & a5 & X). exists c', a1, a2, a3, a4, a5. right. apply in_or_app. auto.
    + inversion I; subst. destruct (IH (i_ptr i) true) as (c' & a1 & a2 & a3 & a4 & a5 & X). exists c', a1, a2, a3, a4, a5. right. apply in_or_app. right. apply in_or_app. auto.
    + destruct (IHr I (i_ptr i0) false) as (c' & a1 & a2 & a3 & a4 & a5 & X). exists c', a1, a2, a3, a4, a5. right. apply in_or_app. right. apply in_or_app. auto.
Qed.
Lemma read_all : forall s t n x e q, inv s [] t n x -> has t q e ->
  get_value (e_ptr e) s = (Ok (e_value e), s) /\ is_callback_enabled (e_ptr e) s = (Ok (e_cb e), s) /\ is_wildcard_node (e_ptr e) s = (Ok (e_wild e), s).
Proof.
  intros s t n x e q H (i & A & <-). destruct H as ((_ & F) & _). rewrite Forall_forall in F.
  destruct (at_cell _ _ _ A null true) as (c & rt & l & r & p & d & I). destruct (F (i_ptr i, cell c rt i l r p d)) as [[P1 _] P2].
  { unfold whole. cbn [kcells app kpar krt]. exact I. }
  cbn [fst snd] in *. cbn [ent e_ptr e_value e_cb e_wild]. unfold get_value, is_callback_enabled, is_wildcard_node, bind, deref, is_null. rewrite (proj2 (Nat.eqb_neq (i_ptr i) 0)) by lia. rewrite P2. unfold ret.
  cbn [cell nd_value nd_flag]. rewrite fl_cb, fl_wild. auto.
Qed.
Lemma keep_step : forall t t' o ls e, leaves ls o -> e_value e <> None -> op_eff t t' o -> has t (labels_of ls) e -> has t' (labels_of ls) e.
Proof.
  intros t t' o ls e L NV EF HA. 
  assert (RS : forall q t', q <> labels_of ls -> rem_spec t t' q -> has t' (labels_of ls) e).
  { intros q t1 NE RS. apply RS. exists e. split; auto. split; [|left; auto]. intros [_ PR]. destruct (PR _ _ HA) as [_ [X|X]]; [exists []; rewrite app_nil_r; reflexivity| |]; auto. }
  destruct o as [l v|l|l|l|l v|l b|l b|]; cbn [leaves op_eff] in *.
  - destruct EF as (p & old & X & X1 & [(e0 & EH & -> & -> & X2)|(NH & -> & _ & X2)]).
    + apply X2. left. split; auto.
    + apply X2. left. left. exact HA.
  - subst. exact HA.
  - destruct EF as (old & [(a & z & e0 & EQ & HB & MX & _ & RM)|(NH & _ & X)]).
    + apply (RS a); auto. intros ->. exact (L z EQ).
    + apply X. exact HA.
  - destruct EF as [[_ RM]|[_ ->]]; [eapply RS; eauto|exact HA].
  - apply EF. left. auto.
  - apply EF. left. auto.
  - apply EF. left. auto.
  - contradiction.
Qed.
Section M.
Variable md : mode.
Hypothesis SP : sc_panic -> md = Debug.
Lemma view_run : forall ls s t n x, wf_labels ls -> scoped ls -> inv s [] t n x -> tree_ok true t ->
  wp (view md ls) s (fun o s' => s' = s /\ forall e, o = Some e <-> has t (labels_of ls) e).
Proof.
  intros ls s t n x W AS H TO. unfold view. apply wp_bind. eapply wp_mono; [eapply find_run; eauto|]. intros r s' (-> & E0 & FS). unfold find_spec in FS. destruct (fr_flag r) eqn:FL.
  - destruct FS as (e & HA & EP). destruct (read_all _ _ _ _ _ _ H HA) as (R1 & R2 & R3). rewrite EP in R1, R2, R3. do 3 (apply wp_bind; eapply wp_ok; [eassumption|]). apply wp_ret. split; [reflexivity|]. intros e'. split.
    + intros X. inversion X. rewrite <- EP. destruct e; exact HA.
    + intros HB. rewrite (has_unique _ _ _ _ TO HB HA). rewrite <- EP. destruct e; reflexivity.
  - apply wp_ret. split; [reflexivity|]. intros e. split; [discriminate|]. intros HA. destruct FS as [_ FS]. exfalso. apply (FS (labels_of ls) [] e); [rewrite app_nil_r; reflexivity|exact HA].
  - apply wp_ret. split; [reflexivity|]. intros e. split; [discriminate|]. intros HA. destruct FS as [FS _]. exfalso. exact (FS e HA).
Qed.
Lemma opt_ext : forall A (a b : option A), (forall e, a = Some e <-> b = Some e) -> a = b.
Proof. intros A [a|] b H; [symmetry; apply H; reflexivity|]. destruct b as [b|]; auto. apply H. reflexivity. Qed.
Definition changes ls (f : entry -> entry) s s' : Prop := forall ls', wf_labels ls' -> scoped ls' -> wp (view md ls') s (fun o s1 => s1 = s /\
  wp (view md ls') s' (fun o' s2 => s2 = s' /\ o' = if same_labels (labels_of ls') (labels_of ls) then option_map f o else o)).
Lemma only_set : forall ls f s t n x s' t' n' x', good true s t n x -> good true s' t' n' x' -> set_spec t t' (labels_of ls) f -> changes ls f s s'.
Proof.
  intros ls f s t n x s' t' n' x' (H & TO & _) (H' & TO' & _) SQ ls' W AS. eapply wp_mono; [eapply (view_run ls' _ _ _ _ W AS H TO)|]. intros o s1 (-> & O). split; [reflexivity|].
  eapply wp_mono; [eapply (view_run ls' _ _ _ _ W AS H' TO')|]. intros o' s2 (-> & O'). split; [reflexivity|].
  apply opt_ext. intros e. rewrite O'. rewrite (SQ (labels_of ls') e). destruct (same_labels (labels_of ls') (labels_of ls)) eqn:SL.
  - apply same_true in SL. split.
    + intros [[X _]|(_ & e0 & X & ->)]; [contradiction|]. rewrite <- SL in X. apply O in X. rewrite X. reflexivity.
    + intros X. destruct o as [e0|]; [|discriminate]. right. split; auto. exists e0. rewrite <- SL. split; [apply O; reflexivity|]. inversion X. reflexivity.
  - assert (NE : labels_of ls' <> labels_of ls) by (intros X; apply same_true in X; congruence). split.
    + intros [[_ X]|[X _]]; [apply O; exact X|contradiction].
    + intros X. left. split; auto. apply O. exact X.
Qed.
Theorem setters : forall ops ls, Forall (op_ok true) ops -> wf_labels ls -> scoped ls -> wp (history md ops) tree_new (fun _ s =>
  (forall v, wp (do_op md (OSetValue ls v)) s (fun _ s' => changes ls (put_value v) s s')) /\
  (forall b, wp (do_op md (OSetCallback ls b)) s (fun _ s' => changes ls (put_cb b) s s')) /\
  (forall b, wp (do_op md (OSetWildcard ls b)) s (fun _ s' => changes ls (put_wild b) s s'))).
Proof.
  intros ops ls OK W AS. eapply wp_mono; [apply good_ops; auto|]. intros [] s (t & n & x & G).
  assert (K : forall o f, op_name o = ls -> (forall t', op_eff t t' o -> set_spec t t' (labels_of ls) f) -> wp (do_op md o) s (fun _ s' => changes ls f s s')).
  { intros o f N SQ. eapply wp_mono; [eapply (wp_do_op true md o s t n x (sound_true md SP)); [unfold op_ok; rewrite N; auto|exact G]|]. intros [] s' (t' & n' & x' & G' & _ & EF).
    eapply only_set; [exact G|exact G'|]. apply SQ. apply EF. reflexivity. }
  split; [|split]; intros v; apply K; auto.
Qed.
(** inserting: flags of an existing node stay, a new node has none *)
Theorem insert_view : forall ops ls v, Forall (op_ok true) ops -> wf_labels ls -> scoped ls -> wp (history md ops) tree_new (fun _ s =>
  wp (view md ls) s (fun o s0 => s0 = s /\ wp (insert md (name_of ls) v) s (fun r s' => wp (view md ls) s' (fun o2 s2 => s2 = s' /\ exists o', o2 = Some o' /\
  match o with Some e => fst r = e_ptr e /\ snd r = Some (e_value e) /\ o' = put_value v e | None => o' = mkEnt (fst r) v false false /\ (snd r = None \/ snd r = Some None) end)))).
Proof.
  intros ops ls v OK W AS. eapply wp_mono; [apply good_ops; auto|]. intros [] s (t & n & x & G). pose proof G as (H & TO & _ & X0). eapply wp_mono; [eapply (view_run ls _ _ _ _ W AS H TO)|]. intros o s0 (-> & O). split; [reflexivity|].
  eapply wp_mono; [eapply (wp_insert true md ls v s t n x W (fun _ => AS) (safe_true md SP) H X0 TO)|]. intros [p old] s' (t' & n' & x' & H' & TO' & _ & _ & IS). specialize (IS eq_refl). cbn [fst snd] in *. change (qof ls) with (labels_of ls) in IS.
  eapply wp_mono; [eapply (view_run ls _ _ _ _ W AS H' TO')|]. intros o' s2 (-> & O'). split; [reflexivity|].
  destruct IS as (X & X1 & X2). destruct X2 as [(e & EH & -> & -> & X2)|(NH & -> & _ & X2)].
  - assert (HA : has t' (labels_of ls) (mkEnt (e_ptr e) v (e_cb e) (e_wild e))) by (apply X2; right; auto). apply O' in HA. subst o'.
    eexists. split; [reflexivity|]. destruct EH as [EH|(a & px & -> & <- & ->)].
    + apply O in EH. rewrite EH. auto.
    + destruct (X1 _ _ eq_refl) as (_ & _ & N & _). destruct o as [e0|]; [exfalso; apply (N e0); apply O; reflexivity|]. cbn. auto.
  - assert (HA : has t' (labels_of ls) (mkEnt p v false false)) by (apply X2; right; auto). apply O' in HA. subst o'.
    eexists. split; [reflexivity|]. destruct o as [e0|]; auto. exfalso. apply (NH e0). left. apply O. reflexivity.
Qed.
Theorem handles : forall ops1 ops2 ls e, Forall (op_ok true) (ops1 ++ ops2) -> wf_labels ls -> scoped ls -> Forall (leaves ls) ops2 ->
  e_value e <> None -> wp (history md ops1) tree_new (fun _ s1 => wp (history md ops2) s1 (fun _ s2 =>
  view md ls s1 = (Ok (Some e), s1) -> wp (view md ls) s2 (fun o s' => s' = s2 /\ o = Some e))).
Proof.
  intros ops1 ops2 ls e OK W AS LV NV. apply Forall_app in OK. destruct OK as [OK1 OK2]. eapply wp_mono; [apply good_ops; auto|]. intros [] s1 (t & n & x & G).
  eapply wp_mono; [apply (wp_history true md (fun _ _ t' _ _ => has t (labels_of ls) e -> has t' (labels_of ls) e) [] ops2 s1 t n x (sound_true md SP) OK2 G (fun H => H))|].
  { intros o pre sa ta na xa sb tb nb xb I P (_ & _ & _ & _ & EF) HA. rewrite Forall_forall in LV. eapply keep_step; [apply LV; exact I|exact NV|apply EF; reflexivity|auto]. }
  intros [] s2 (t' & n' & x' & G' & K) VW.
  destruct G as (H & TO & _). destruct G' as (H' & TO' & _). pose proof (wp_run _ _ _ _ _ _ (view_run ls _ _ _ _ W AS H TO) VW) as [_ O]. eapply wp_mono; [eapply (view_run ls _ _ _ _ W AS H' TO')|]. intros o' s' (-> & O').
  split; [reflexivity|]. apply O'. apply K. apply O. reflexivity.
Qed.
End M.
End A.

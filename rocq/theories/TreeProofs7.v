(** [insert] as a whole. *)
From Coq Require Import Permutation Sorted.
From Verif Require Import Base BaseLemmas NameModel TreeModel SpecName SpecOrd SpecScope OrdBase SpecTree TreeProofs PermTac TreeProofs2 TreeProofs3 TreeProofs4
  NameWireProofs NameOpsProofs NameOpsProofs2 NameCmpProofs NameCmpProofs2 TreePure TreePure2 TreeProofs5 TreeProofs6.
Open Scope list_scope.
Open Scope nat_scope.

Section I.
Context {V : Type} {SC : scope}.
Notation node := (node V). Notation dtree := (dtree V). Notation info := (info V). Notation tree := (tree V). Notation entry := (entry V).
Notation frame := (@frame V). Notation ctx := (@ctx V).
Implicit Types (s : dtree) (t : tree) (i : info) (p : ptr) (L R : list (ptr * node)) (k kl : ctx) (f : frame) (e : entry).

(** * Changing what a node carries *)
Lemma lvl_mid : forall asc k c l i d r, tree_ok asc (plug k (T c l i d r)) -> lvl (level_ok asc) (i_labels i ++ ksuf k) d.
Proof. intros asc k c l i d r H. eapply lvl_elem; [exact H|]. cbn [elems]. apply in_or_app. cbn. auto. Qed.
Lemma tree_ok_set : forall asc k c l i d r i', tree_ok asc (plug k (T c l i d r)) -> i_labels i' = i_labels i -> tree_ok asc (plug k (T c l i' d r)).
Proof.
  intros asc k c l i d r i' H EL. pose proof (lvl_mid _ _ _ _ _ _ _ H) as LD. destruct (node_facts _ _ _ _ _ _ _ H) as [NO AI].
  destruct (split_level k) as (kl & k0 & -> & F & K). rewrite ksuf_app in * by auto.
  eapply tree_ok_mid; [exact F|exact K|exact H|unfold head, key; rewrite EL; reflexivity|unfold name_ok in *; rewrite EL; exact NO|rewrite EL; exact AI|rewrite EL; exact LD].
Qed.
Lemma has_node_iff : forall k c l i d r, exists O : list label -> entry -> Prop, forall i', i_labels i' = i_labels i -> forall q e,
  has (plug k (T c l i' d r)) q e <-> O q e \/ (q = kpre k ++ key i /\ e = ent i').
Proof.
  intros k c l i d r. destruct (has_plug_iff k) as (O & HO).
  set (R := fun q e => has l q e \/ has r q e \/ exists q', q = key i ++ q' /\ has d q' e).
  assert (X : forall i', i_labels i' = i_labels i -> forall q e, has (T c l i' d r) q e <-> R q e \/ (q = key i /\ e = ent i')).
  { intros i' EL q e. assert (EK : key i' = key i) by (unfold key; rewrite EL; reflexivity). unfold R, has. split.
    - intros (j & A & B). apply at_inv in A. destruct A as (i1 & d1 & I & A). cbn [elems] in I. apply in_app_or in I. cbn [In] in I. destruct I as [I|[I|I]].
      + left. left. exists j. split; auto. apply at_inv. eauto.
      + inversion I; subst. rewrite EK in A. destruct A as [[-> ->]|(q' & -> & A)]; auto. left. right. right. exists q'. split; auto. exists j. auto.
      + left. right. left. exists j. split; auto. apply at_inv. eauto.
    - intros [[(j & A & B)|[(j & A & B)|(q' & -> & j & A & B)]]|[-> ->]].
      + exists j. split; auto. apply at_inv in A. destruct A as (i1 & d1 & I & A). apply at_inv. exists i1, d1. split; auto. cbn [elems]. apply in_or_app. auto.
      + exists j. split; auto. apply at_inv in A. destruct A as (i1 & d1 & I & A). apply at_inv. exists i1, d1. split; auto. cbn [elems]. apply in_or_app. cbn. auto.
      + exists j. split; auto. rewrite <- EK. eapply at_down; [|exact A]. cbn [elems]. apply in_or_app. cbn. auto.
      + exists i'. split; auto. rewrite <- EK. eapply at_here. cbn [elems]. apply in_or_app. cbn. auto. }
  exists (fun q e => O q e \/ exists q', q = kpre k ++ q' /\ R q' e). intros i' EL q e. rewrite HO. split.
  - intros [A|(q' & -> & A)]; auto. apply (X i' EL) in A. destruct A as [A|[-> ->]]; eauto.
  - intros [[A|(q' & -> & A)]|[-> ->]]; auto; right; eexists; (split; [reflexivity|]); apply (X i' EL); auto.
Qed.
Lemma has_unique : forall t q e e', tree_ok true t -> has t q e -> has t q e' -> e = e'.
Proof. intros t q e e' H (i & A & <-) (j & B & <-). rewrite (at_unique _ _ H _ _ _ A B). reflexivity. Qed.
Lemma has_set : forall k c l i d r i', tree_ok true (plug k (T c l i d r)) -> i_labels i' = i_labels i -> forall q e,
  has (plug k (T c l i' d r)) q e <-> (q <> kpre k ++ key i /\ has (plug k (T c l i d r)) q e) \/ (q = kpre k ++ key i /\ e = ent i').
Proof.
  intros k c l i d r i' H EL q e. destruct (has_node_iff k c l i d r) as (O & HO).
  assert (X : forall e, ~ O (kpre k ++ key i) e).
  { intros e0 A. set (j := mkI (S (i_ptr i)) (i_labels i) (i_value i) (i_cb i) (i_wild i)).
    assert (Hj : tree_ok true (plug k (T c l j d r))) by (eapply tree_ok_set; [exact H|reflexivity]).
    assert (E1 : e0 = ent i). { eapply has_unique; [exact H|apply (HO i eq_refl); left; exact A|apply (HO i eq_refl); auto]. }
    assert (E2 : e0 = ent j). { eapply has_unique; [exact Hj|apply (HO j eq_refl); left; exact A|apply (HO j eq_refl); auto]. }
    rewrite E1 in E2. inversion E2. lia. }
  rewrite (HO i' EL), (HO i eq_refl). split.
  - intros [A|[-> ->]]; auto. left. split; auto. intros ->. destruct (X _ A).
  - intros [[N [A|[-> ->]]]|[-> ->]]; auto. congruence.
Qed.
Lemma has_here : forall k c l i d r, has (plug k (T c l i d r)) (kpre k ++ key i) (ent i).
Proof. intros. exists i. split; auto. apply at_plug. eapply at_here. cbn [elems]. apply in_or_app. cbn. auto. Qed.
Lemma count_set : forall k c l i d r i', count (plug k (T c l i' d r)) = count (plug k (T c l i d r)).
Proof. intros. rewrite (count_plug k (T c l i' d r)), (count_plug k (T c l i d r)). reflexivity. Qed.

(** * Pointers of entries *)
Lemma elem_ptr : forall t i d, In (i, d) (elems t) -> forall par rt, In (i_ptr i) (ptrs (cells par rt t)) /\ forall p, In p (ptrs (cells (i_ptr i) true d)) -> In p (ptrs (cells par rt t)).
Proof.
  induction t as [|c l IHl j e IHe r IHr]; intros i d I par rt; [inversion I|]. cbn [elems] in I. apply in_app_or in I. cbn [In] in I. cbn [cells]. unfold ptrs in *. cbn [map fst In]. rewrite !map_app. setoid_rewrite in_app_iff. setoid_rewrite in_app_iff.
  destruct I as [I|[I|I]].
  - destruct (IHl _ _ I (i_ptr j) false) as [A B]. split; [tauto|]. intros p X. right. left. auto.
  - inversion I; subst. split; [tauto|]. intros p X. right. right. left. auto.
  - destruct (IHr _ _ I (i_ptr j) false) as [A B]. split; [tauto|]. intros p X. right. right. right. auto.
Qed.
Lemma at_ptr : forall t q j, at_ t q j -> forall par rt, In (i_ptr j) (ptrs (cells par rt t)).
Proof. induction 1 as [t i d I|t i d q j I A IH]; intros par rt; [exact (proj1 (elem_ptr _ _ _ I par rt))|]. apply (proj2 (elem_ptr _ _ _ I par rt)). apply IH. Qed.
Lemma has_ptr : forall s t n x q e, inv s [] t n x -> has t q e -> 0 < e_ptr e < x.
Proof. intros s t n x q e H (i & A & <-). eapply St_pos; [exact H|]. unfold whole. cbn [kcells app]. apply at_ptr with (q := q). exact A. Qed.

(** * insert *)
Lemma fis_ok : forall asc q0 t0 n x t1 n1 x1, fis asc q0 t0 n x t1 n1 x1 -> tree_ok asc t0 -> tree_ok asc t1 /\ n1 + count t0 = n + count t1 /\ (x <= x1 /\ n1 + x = n + x1).
Proof.
  intros asc q0 t0 n x t1 n1 x1 [(-> & -> & ->)|(-> & -> & k & c & l & i & d & r & a & b & z & -> & -> & EL & Na & Nb & _)] H; [auto|].
  split; [apply fission_ok; auto|]. split; [|lia]. rewrite (count_plug k (T c l i d r)), (count_plug k (fissioned x c l i d r a b)). cbn [count fissioned]. lia.
Qed.
Definition xhad (t0 : tree) (X : option (list label * ptr)) q' e := has t0 q' e \/ (exists a px, X = Some (a, px) /\ q' = a /\ e = mkEnt px None false false).
Lemma fis_has : forall q0 t0 n x t1 n1 x1, fis true q0 t0 n x t1 n1 x1 -> tree_ok true t0 -> exists X,
  (forall a px, X = Some (a, px) -> a <> [] /\ (exists z, q0 = a ++ z) /\ (forall e, ~ has t0 a e) /\ px = x /\ x1 = S x) /\ forall q e, has t1 q e <-> xhad t0 X q e.
Proof.
  intros q0 t0 n x t1 n1 x1 [(-> & -> & ->)|(-> & -> & k & c & l & i & d & r & a & b & z & -> & -> & EL & Na & Nb & EQ & AB)] H.
  - exists None. split; [discriminate|]. intros q e. unfold xhad. split; auto. intros [A|(a & px & A & _)]; [auto|discriminate].
  - exists (Some (kpre k ++ rev (lc_labels b), x)). split.
    + intros a0 px E0. inversion E0; subst a0 px. split; [|split; [|split; [|auto]]].
      * intro X. apply app_eq_nil in X. destruct X as [_ X]. apply Nb. apply (f_equal (@length _)) in X. rewrite rev_lc_len in X. destruct b; [reflexivity|discriminate].
      * exists z. rewrite <- app_assoc. exact EQ.
      * intros e (j & A & _). eapply AB; eauto.
    + intros q e. destruct (has_plug_iff k) as (O & HO). unfold xhad. rewrite !HO. split.
      * intros [A|(q' & -> & A)]; auto. apply has_fissioned in A; auto. destruct A as [A|[-> ->]]; eauto 8.
      * intros [[A|(q' & -> & A)]|(a0 & px & E0 & -> & ->)]; auto.
        -- right. exists q'. split; auto. apply has_fissioned; auto.
        -- inversion E0; subst. right. eexists. split; [reflexivity|]. apply has_fissioned; auto.
Qed.
Definition qof (ls : list label) : list label := rev (lc_labels (full ls)).
Lemma ascii_tgt : forall ls ts fls, scoped ls -> tgt ls ts fls -> scoped fls.
Proof. intros ls ts fls A (_ & _ & m & H). apply scoped_full in A. rewrite H in A. apply Forall_app in A. apply A. Qed.

Theorem wp_insert : forall asc md ls v s t n x, wf_labels ls -> (asc = true -> scoped ls) -> safe_md asc md -> inv s [] t n x -> 0 < x -> tree_ok asc t ->
  wp (insert md (name_of ls) v) s (fun r s' => exists t' n' x', inv s' [] t' n' x' /\ tree_ok asc t' /\ n' + count t = n + count t' /\ (x <= x' /\ n' + x = n + x') /\
    (asc = true -> ins_spec t t' (qof ls) v (fst r) (snd r))).
Proof.
  intros asc md ls v s t n x W AS SM H X0 TO. unfold insert. apply wp_fun with (m := fun s => _).
  destruct (tgt_init ls W) as (ts & E1 & TG). apply wp_bind. eapply wp_lift; [exact E1|].
  assert (RT : dt_root s = pt t) by (destruct H as (_ & H & _); exact H). assert (NX : dt_next s = x) by (destruct H as (_ & _ & _ & H); exact H).
  assert (CN : count t < x).
  { destruct (St_len _ _ _ _ _ H) as [Y|[Y _]]; unfold whole in Y; cbn [kcells app] in Y; [rewrite cells_count in Y; exact Y|]. destruct t; [cbn; lia|discriminate]. }
  rewrite RT, NX. apply wp_bind.
  change null with (lpar (V := V) []) at 1. change null with (kup (V := V) []).
  eapply (wp_insert_loop asc md ls v (qof ls) W AS SM _ s [] t n x ts (full ls)); [lia|exact H|exact TO|exact TG|constructor|exact I|reflexivity| |].
  - (* found *)
    intros s' k c l i d r n' x' FI HI EQ. apply wp_ret. cbn [fst snd]. cbn [plug fold_left] in FI. destruct (fis_ok _ _ _ _ _ _ _ _ FI TO) as (TO1 & CO & LE).
    exists (plug k (T c l (setv i v) d r)), n', x'. split; [apply inv_plug; rewrite app_nil_r; exact HI|]. split; [eapply tree_ok_set; [exact TO1|reflexivity]|].
    split; [rewrite (count_set k c l i d r); exact CO|]. split; [exact LE|]. intros ->. destruct (fis_has _ _ _ _ _ _ _ FI TO) as (Y & Y1 & Y2).
    exists Y. split.
    { intros a px E0. destruct (Y1 _ _ E0) as (A1 & A2 & A3 & -> & _). repeat split; auto. intros q' e' He. pose proof (has_ptr _ _ _ _ _ _ H He). lia. }
    left. exists (ent i). split; [apply Y2; rewrite <- EQ; apply has_here|]. split; [reflexivity|]. split; [reflexivity|].
    intros q' e'. rewrite (has_set k c l i d r (setv i v) TO1 eq_refl). rewrite EQ. fold (xhad t Y q' e'). rewrite Y2. reflexivity.
  - (* new *)
    intros s' k n' x' ts' fls' order' FI HI TG' P EQ OR. cbv iota beta. cbn [plug fold_left] in FI. destruct (fis_ok _ _ _ _ _ _ _ _ FI TO) as (TO1 & CO & LE).
    destruct (split_level k) as (kl & k0 & -> & F & K). destruct (level_rb _ _ _ _ TO1 F K) as (m & RB & CB).
    match goal with |- wp ?prog _ _ => change prog with (link (name_of ls) v (lpar (kl ++ k0)) (kup (kl ++ k0)) order' ts') end.
    eapply wp_link; [exact HI|lia|exact F|exact K|exact RB|exact CB|exact OR|apply tgt_seq; [exact W|exact TG']|].
    intros s2 t' m' HI2 EL RB2 CB2. set (i := mkI x' fls' v false false) in *.
    assert (EK : key i = rev (lc_labels fls')) by reflexivity.
    assert (NO : name_ok (ksuf k0) i).
    { pose proof TG' as (_ & _ & mm & EM). rewrite <- (ksuf_app kl k0 F). eapply new_name_ok; [exact TO1|exact W|exact EM|apply (tgt_ne _ _ _ TG')|rewrite EQ; reflexivity]. }
    assert (TO2 : tree_ok asc (plug k0 t')).
    { eapply new_ok; [exact F|exact K|exact TO1|rewrite EK; exact P|exact NO| |exact EL|exact RB2|exact CB2]. intro A. eapply ascii_tgt; [apply AS; exact A|exact TG']. }
    exists (plug k0 t'), (n' + 1), (S x'). split; [apply inv_plug; rewrite app_nil_r; exact HI2|]. split; [exact TO2|]. split.
    { rewrite count_plug, (count_elems t'), EL, <- count_elems, (count_plug kl). rewrite plug_app, count_plug in CO. cbn [count]. lia. }
    split; [lia|]. intros ->. cbn [fst snd]. destruct (fis_has _ _ _ _ _ _ _ FI TO) as (Y & Y1 & Y2).
    assert (EQ' : kpre k0 ++ key i = qof ls). { rewrite EK, <- EQ. f_equal. rewrite !kpre_ksuf, ksuf_app by exact F. reflexivity. }
    exists Y. split.
    { intros a px E0. destruct (Y1 _ _ E0) as (A1 & A2 & A3 & -> & _). repeat split; auto. intros q' e' He. pose proof (has_ptr _ _ _ _ _ _ H He). lia. }
    right. split; [|split; [reflexivity|split]].
    + intros e He. apply Y2 in He. destruct He as (j & A & _). rewrite <- EQ in A. apply (at_path _ _ _ TO1 P) in A; [|rewrite <- EK; apply key_nonempty; apply NO|reflexivity]. inversion A; contradiction.
    + intros q' e' [He|(a & px & E0 & -> & ->)]; [pose proof (has_ptr _ _ _ _ _ _ H He); lia|]. destruct (Y1 _ _ E0) as (_ & _ & _ & -> & ->). cbn. lia.
    + intros q' e'. fold (xhad t Y q' e'). rewrite <- Y2. rewrite (has_new kl k0 i t' F EL), EQ'. reflexivity.
Qed.
End I.

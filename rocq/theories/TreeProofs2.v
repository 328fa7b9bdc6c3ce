(** Symbolic execution tactics; redirecting the hole of a context; rotations. *)
From Coq Require Import Permutation.
From Verif Require Import Base BaseLemmas NameModel TreeModel SpecName SpecOrd SpecScope OrdBase SpecTree TreeProofs PermTac.
Open Scope list_scope.
Open Scope nat_scope.

Ltac cell_idx p L :=
  lazymatch L with
  | (p, _) :: _ => constr:(O)
  | _ :: ?L' => let n := cell_idx p L' in constr:(S n)
  end.
Ltac rd_with lem :=
  lazymatch goal with
  | |- wp (_ ?p) ?s _ => match goal with H : St s ?L _ _ _ |- _ => let k := cell_idx p L in apply (lem _ _ k _ _ _ _ _ _ _ _ _ _ _ _ _ H eq_refl) end
  end.
Ltac wr_with lem :=
  lazymatch goal with
  | |- wp (_ ?p _) ?s _ =>
      match goal with H : St s ?L _ _ _ |- _ =>
        let k := cell_idx p L in apply (lem _ _ k _ _ _ _ _ _ _ _ _ _ _ _ _ H eq_refl);
        let s' := fresh "s" in let H' := fresh "HS" in intros s' H'; cbn [upd] in H'; clear H end
  end.
(** one step *)
Ltac stp :=
  cbn beta;
  lazymatch goal with
  | |- wp (bind _ _) _ _ => apply wp_bind; stp
  | |- wp (ret _) _ _ => apply wp_ret
  | |- wp (get_left _) _ _ => rd_with (@wp_get_left)
  | |- wp (get_right _) _ _ => rd_with (@wp_get_right)
  | |- wp (get_parent _) _ _ => rd_with (@wp_get_parent)
  | |- wp (get_down _) _ _ => rd_with (@wp_get_down)
  | |- wp (get_name _) _ _ => rd_with (@wp_get_name)
  | |- wp (get_value _) _ _ => rd_with (@wp_get_value)
  | |- wp (get_color null) _ _ => apply wp_get_color_null
  | |- wp (get_color _) _ _ => rd_with (@wp_get_color)
  | |- wp (is_red null) _ _ => apply wp_is_red_null
  | |- wp (is_red _) _ _ => rd_with (@wp_is_red)
  | |- wp (is_black null) _ _ => apply wp_is_black_null
  | |- wp (is_black _) _ _ => rd_with (@wp_is_black)
  | |- wp (is_subtree_root _) _ _ => rd_with (@wp_is_root)
  | |- wp (is_callback_enabled _) _ _ => rd_with (@wp_is_cb)
  | |- wp (set_left _ _) _ _ => wr_with (@wp_set_left)
  | |- wp (set_right _ _) _ _ => wr_with (@wp_set_right)
  | |- wp (set_parent _ _) _ _ => wr_with (@wp_set_parent)
  | |- wp (set_down _ _) _ _ => wr_with (@wp_set_down)
  | |- wp (set_color _ _) _ _ => wr_with (@wp_set_color)
  | |- wp (set_subtree_root _ _) _ _ => wr_with (@wp_set_subroot)
  | |- wp (set_name _ _) _ _ => wr_with (@wp_set_name)
  end.
(** unfold contexts *)
Ltac kred := cbn [kpar krt kcells fcells kroot app]; unfold fptr; cbn [finfo].
Ltac kred_in H := cbn [kpar krt kcells fcells kroot app] in H; unfold fptr in H; cbn [finfo] in H.
(** permute the cells known to be in memory *)
Ltac reorder H X := eapply (fun P => St_perm _ _ X _ _ _ P) in H; [|perm].

(** flatten a cell list: single cells first, then the other parts *)
Ltac conses L acc :=
  lazymatch L with
  | nil => acc
  | ?a ++ ?b => let acc := conses b acc in conses a acc
  | ?x :: ?b => let acc := conses b acc in constr:(x :: acc)
  | _ => acc
  end.
Ltac atoms L acc :=
  lazymatch L with
  | nil => acc
  | ?a ++ ?b => let acc := atoms b acc in atoms a acc
  | ?x :: ?b => atoms b acc
  | ?a => lazymatch acc with nil => a | _ => constr:(a ++ acc) end
  end.
Ltac flatten L :=
  lazymatch type of L with list ?A => let t := atoms L (@nil A) in conses L t end.
Ltac norm_in H := lazymatch type of H with St _ ?L _ _ _ => let X := flatten L in eapply (fun P => St_perm _ _ X _ _ _ P) in H; [|perm] end.
(** remove the atom [a] *)
Ltac rm_atom a L :=
  lazymatch L with
  | a => lazymatch type of L with list ?A => constr:(@nil A) end
  | a ++ ?b => b
  | ?x ++ ?b => let b' := rm_atom a b in constr:(x ++ b')
  | ?x :: ?b => let b' := rm_atom a b in constr:(x :: b')
  end.
Ltac bring_in a H :=
  norm_in H; lazymatch type of H with St _ ?L _ _ _ => let X := rm_atom a L in eapply (fun P => St_perm _ _ (a ++ X) _ _ _ P) in H; [|perm] end.
Ltac find_cells t L :=
  match L with
  | context [cells ?q ?rt t] => constr:(cells q rt t)
  end.
Ltac find_kcells L :=
  match L with
  | context [kcells ?q ?rt ?k ?h] => constr:(kcells q rt k h)
  end.

Section R.
Context {V : Type} {SC : scope}.
Notation node := (node V). Notation dtree := (dtree V). Notation info := (info V). Notation tree := (tree V).
Notation frame := (@frame V). Notation ctx := (@ctx V).
Implicit Types (s : dtree) (t : tree) (i : info) (p q : ptr) (L R : list (ptr * node)) (k : ctx).

(** * Distinctness *)
Definition ptrs L : list ptr := map fst L.
Lemma ptrs_app : forall L R, ptrs (L ++ R) = ptrs L ++ ptrs R. Proof. intros. apply map_app. Qed.
Lemma pt_in : forall t par rt, t <> E -> In (pt t) (ptrs (cells par rt t)).
Proof. intros [|c l i d r] par rt H; [congruence|]. left. reflexivity. Qed.
Lemma NoDup_app_in : forall (A : Type) (l1 l2 : list A) x, NoDup (l1 ++ l2) -> In x l1 -> In x l2 -> False.
Proof. induction l1 as [|a l1 IH]; intros l2 x H I1 I2; [inversion I1|]. inversion H; subst. destruct I1 as [->|I1]; [apply H2; apply in_or_app; auto|eauto]. Qed.
Lemma St_disj : forall s L1 L2 root n x p, St s (L1 ++ L2) root n x -> In p (ptrs L1) -> In p (ptrs L2) -> False.
Proof. intros s L1 L2 root n x p ((ND & _) & _) A B. unfold ptrs in *. rewrite map_app in ND. eapply NoDup_app_in; eauto. Qed.
Lemma St_pos : forall s L root n x p, St s L root n x -> In p (ptrs L) -> 0 < p < x.
Proof. intros s L root n x p ((_ & F) & _ & _ & <-) I. unfold ptrs in I. apply in_map_iff in I. destruct I as ([q m] & <- & I). rewrite Forall_forall in F. apply (F _ I). Qed.
(** a tree whose cells are apart from address [p] does not start there *)
Lemma pt_neq : forall s L1 par rt t root n x p, St s (L1 ++ cells par rt t) root n x -> In p (ptrs L1) -> pt t <> p.
Proof.
  intros s L1 par rt t root n x p H I E. assert (0 < p < x) by (eapply St_pos; [exact H|rewrite ptrs_app; apply in_or_app; auto]).
  destruct t as [|c l i d r]; [cbn in E; unfold null in *; subst p; lia|]. eapply St_disj; [exact H|exact I|]. rewrite <- E. left. reflexivity.
Qed.
Lemma pt_neq' : forall s L1 par rt t root n x p, St s (cells par rt t ++ L1) root n x -> In p (ptrs L1) -> pt t <> p.
Proof. intros s L1 par rt t root n x p H I. eapply pt_neq; [|exact I]. eapply St_perm; [exact H|]. apply Permutation_app_comm. Qed.
Lemma pt_pt_neq : forall s L1 par rt t par' rt' t' root n x, St s (L1 ++ cells par rt t ++ cells par' rt' t') root n x -> t <> E \/ t' <> E -> pt t <> pt t'.
Proof.
  intros s L1 par rt t par' rt' t' root n x H Nz E.
  assert (P : forall p, In p (ptrs (cells par rt t)) \/ In p (ptrs (cells par' rt' t')) -> 0 < p).
  { intros p I. eapply (St_pos s _ root n x p H). rewrite !ptrs_app, !in_app_iff. tauto. }
  destruct t as [|c l i d r].
  - destruct t' as [|c' l' i' d' r']; [destruct Nz; congruence|]. pose proof (P (i_ptr i') ltac:(right; left; reflexivity)). cbn in E. unfold null in *. lia.
  - destruct t' as [|c' l' i' d' r']; [pose proof (P (i_ptr i) ltac:(left; left; reflexivity)); cbn in E; unfold null in *; lia|].
    assert (H' : St s ((L1 ++ cells par rt (T c l i d r)) ++ cells par' rt' (T c' l' i' d' r')) root n x) by (rewrite <- app_assoc; exact H).
    eapply St_disj; [exact H'| |left; reflexivity]. rewrite ptrs_app, in_app_iff. right. left. exact E.
Qed.
Lemma kcells_ptrs : forall k bp br h h', ptrs (kcells bp br k h) = ptrs (kcells bp br k h').
Proof. intros [|f k] bp br h h'; [reflexivity|]. cbn [kcells]. rewrite !ptrs_app. f_equal. destruct f; reflexivity. Qed.
Lemma fcells_ptrs : forall f p b p' b' h h', ptrs (fcells p b f h) = ptrs (fcells p' b' f h').
Proof. intros [] p b p' b' h h'; reflexivity. Qed.

(** * Redirecting the hole *)
Definition to_hole s R k p n x (Q : unit -> dtree -> Prop) : Prop := forall s', St s' (kcells null true k p ++ R) (kroot k p) n x -> Q tt s'.
Lemma kroot_any : forall f k h h', kroot (f :: k) h = kroot (f :: k) h'.
Proof. reflexivity. Qed.

(** [write_loc] of the level's root location when the hole is the root of its level *)
Lemma wp_write_top : forall s k R h n x p Q, St s (kcells null true k h ++ R) (kroot k h) n x -> krt true k = true ->
  to_hole s R k p n x Q -> wp (write_loc (kloc k) p) s Q.
Proof.
  intros s k R h n x p Q H K HQ. destruct k as [|[c i d r|c l i d|c l i r] k]; try discriminate.
  - cbn [kloc write_loc]. eapply wp_set_root; [exact H|]. intros s' HS. apply HQ. exact HS.
  - cbn [kloc write_loc]. kred_in H. stp. apply HQ. exact HS.
Qed.
(** the branch of the rotations for a hole that is a left or right child *)
Lemma wp_write_lr : forall s k R h n x p Q, St s (kcells null true k h ++ R) (kroot k h) n x -> krt true k = false -> In h (ptrs R) ->
  to_hole s R k p n x Q ->
  wp (let! pl := get_left (kpar null k) in if h =? pl then set_left (kpar null k) p else set_right (kpar null k) p) s Q.
Proof.
  intros s k R h n x p Q H K I HQ. destruct k as [|[c i d r|c l i d|c l i r] k]; try discriminate.
  - kred. kred_in H. stp. rewrite Nat.eqb_refl. stp. apply HQ. exact HS.
  - kred. kred_in H.
    assert (Ne : pt l <> h).
    { eapply (pt_neq s (R ++ (i_ptr i, cell c (krt true k) i (pt l) h (kpar null k) (pt d)) :: cells (i_ptr i) true d ++ kcells null true k (i_ptr i))
              (i_ptr i) false); [eapply St_perm; [exact H|perm]|rewrite ptrs_app; apply in_or_app; left; exact I]. }
    stp. rewrite (proj2 (Nat.eqb_neq h (pt l))) by auto. stp. apply HQ. exact HS.
Qed.
Lemma wp_write_rl : forall s k R h n x p Q, St s (kcells null true k h ++ R) (kroot k h) n x -> krt true k = false -> In h (ptrs R) ->
  to_hole s R k p n x Q ->
  wp (let! pl := get_right (kpar null k) in if h =? pl then set_right (kpar null k) p else set_left (kpar null k) p) s Q.
Proof.
  intros s k R h n x p Q H K I HQ. destruct k as [|[c i d r|c l i d|c l i r] k]; try discriminate.
  - kred. kred_in H.
    assert (Ne : pt r <> h).
    { eapply (pt_neq s (R ++ (i_ptr i, cell c (krt true k) i h (pt r) (kpar null k) (pt d)) :: cells (i_ptr i) true d ++ kcells null true k (i_ptr i))
              (i_ptr i) false); [eapply St_perm; [exact H|perm]|rewrite ptrs_app; apply in_or_app; left; exact I]. }
    stp. rewrite (proj2 (Nat.eqb_neq h (pt r))) by auto. stp. apply HQ. exact HS.
  - kred. kred_in H. stp. rewrite Nat.eqb_refl. stp. apply HQ. exact HS.
Qed.

(** * Changing the parent pointer of a subtree *)
Lemma wp_reparent : forall s q rt t R root n x q' (Q : unit -> dtree -> Prop), St s (cells q rt t ++ R) root n x ->
  (forall s', St s' (cells q' rt t ++ R) root n x -> Q tt s') -> wp (if is_null (pt t) then ret tt else set_parent (pt t) q') s Q.
Proof.
  intros s q rt [|c l i d r] R root n x q' Q H HQ.
  - cbn [pt is_null null Nat.eqb]. stp. apply HQ. exact H.
  - cbn [pt]. cbn [cells app] in H. rewrite (St_nz 0 _ _ _ _ _ _ _ H eq_refl). stp. apply HQ. exact HS.
Qed.
End R.
Ltac reparent t :=
  apply wp_bind;
  lazymatch goal with
  | |- wp (if is_null _ then _ else set_parent _ _) ?s _ =>
      match goal with H : St s ?L _ _ _ |- _ =>
        let a := find_cells t L in bring_in a H; eapply wp_reparent; [exact H|];
        let s' := fresh "s" in let H' := fresh "HS" in intros s' H'; clear H; norm_in H' end
  end.
Ltac stps := repeat stp.
Ltac redir lem :=
  lazymatch goal with |- wp _ ?s _ =>
    match goal with H : St s ?L _ _ _ |- _ =>
      let a := find_kcells L in bring_in a H; eapply lem; [exact H| | |]; [assumption|try (unfold ptrs; cbn [map fst In]; tauto)|];
      let s' := fresh "s" in let H' := fresh "HS" in intros s' H'; clear H; norm_in H' end
  end.
Ltac redir_top :=
  lazymatch goal with |- wp _ ?s _ =>
    match goal with H : St s ?L _ _ _ |- _ =>
      let a := find_kcells L in bring_in a H; eapply wp_write_top; [exact H|assumption|];
      let s' := fresh "s" in let H' := fresh "HS" in intros s' H'; clear H; norm_in H' end
  end.
Ltac fin := lazymatch goal with |- St ?s _ _ _ _ => match goal with H : St s _ _ _ _ |- _ => eapply St_perm; [exact H|cbn [cells pt]; perm] end end.

Section Rot.
Context {V : Type} {SC : scope}.
Notation node := (node V). Notation dtree := (dtree V). Notation info := (info V). Notation tree := (tree V).
Notation frame := (@frame V). Notation ctx := (@ctx V).
Implicit Types (s : dtree) (t : tree) (i : info) (p q : ptr) (L R : list (ptr * node)) (k : ctx).

Lemma wp_left_rotate : forall s k c1 c2 a i d b j e r n x (Q : unit -> dtree -> Prop),
  inv s k (T c1 a i d (T c2 b j e r)) n x ->
  (forall s', inv s' k (T c2 (T c1 a i d b) j e r) n x -> Q tt s') ->
  wp (left_rotate (kloc k) (i_ptr i)) s Q.
Proof.
  intros s k c1 c2 a i d b j e r n x Q H HQ. unfold inv, whole in *. cbn [cells pt] in *. norm_in H. unfold left_rotate.
  stp. stp. stp. reparent b. stp. stp. stp. destruct (krt true k) eqn:K; cbn [negb].
  - apply wp_bind. stp. redir_top. stp. stp. stp. apply HQ. fin.
  - apply wp_bind. stp. redir @wp_write_lr. stp. stp. stp. apply HQ. fin.
Qed.
Lemma wp_right_rotate : forall s k c1 c2 a i d b j e r n x (Q : unit -> dtree -> Prop),
  inv s k (T c2 (T c1 a i d b) j e r) n x ->
  (forall s', inv s' k (T c1 a i d (T c2 b j e r)) n x -> Q tt s') ->
  wp (right_rotate (kloc k) (i_ptr j)) s Q.
Proof.
  intros s k c1 c2 a i d b j e r n x Q H HQ. unfold inv, whole in *. cbn [cells pt] in *. norm_in H. unfold right_rotate.
  stp. stp. stp. reparent b. stp. stp. stp. destruct (krt true k) eqn:K; cbn [negb].
  - apply wp_bind. stp. redir_top. stp. stp. stp. apply HQ. fin.
  - apply wp_bind. stp. redir @wp_write_rl. stp. stp. stp. apply HQ. fin.
Qed.
End Rot.

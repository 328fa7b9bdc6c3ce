(** Proof machinery for the heap model of the domain tree: cells, contexts, symbolic execution. *)
From Coq Require Import Permutation.
From Verif Require Import Base BaseLemmas NameModel TreeModel SpecName SpecOrd SpecScope OrdBase SpecTree.
Open Scope list_scope.
Open Scope nat_scope.

Section H.
Context {V : Type} {SC : scope}.
Notation node := (node V). Notation dtree := (dtree V). Notation info := (info V). Notation tree := (tree V).
Implicit Types (s : dtree) (t : tree) (i : info) (p q : ptr) (L R : list (ptr * node)).

(** * Weakest preconditions *)
Definition wp {A} (m : MT V A) s (Q : A -> dtree -> Prop) : Prop := (exists a s', m s = (Ok a, s') /\ Q a s') \/ (sc_panic /\ exists s', m s = (Panic, s')).
Lemma wp_ok : forall A (m : MT V A) s (Q : A -> dtree -> Prop) a s', m s = (Ok a, s') -> Q a s' -> wp m s Q.
Proof. intros. left. eauto. Qed.
Lemma wp_panic : forall A (m : MT V A) s (Q : A -> dtree -> Prop) s', sc_panic -> m s = (Panic, s') -> wp m s Q.
Proof. intros. right. eauto. Qed.
Lemma wp_run : forall A (m : MT V A) s (Q : A -> dtree -> Prop) a s', wp m s Q -> m s = (Ok a, s') -> Q a s'.
Proof. intros A m s Q a s' [(b & s1 & E & H)|(_ & s1 & E)] E'; rewrite E in E'; inversion E'; subst; auto. Qed.
Lemma wp_total : forall A (m : MT V A) s (Q : A -> dtree -> Prop), ~ sc_panic -> wp m s Q -> exists a s', m s = (Ok a, s') /\ Q a s'.
Proof. intros A m s Q N [H|[H _]]; [exact H|contradiction]. Qed.
Lemma wp_bind : forall A B (m : MT V A) (k : A -> MT V B) s Q, wp m s (fun a s1 => wp (k a) s1 Q) -> wp (bind m k) s Q.
Proof.
  intros A B m k s Q [(a & s1 & E & [(b & s2 & E2 & H)|(SP & s2 & E2)])|(SP & s1 & E)].
  - left. exists b, s2. split; auto. unfold bind. rewrite E. exact E2.
  - right. split; auto. exists s2. unfold bind. rewrite E. exact E2.
  - right. split; auto. exists s1. unfold bind. rewrite E. reflexivity.
Qed.
Lemma wp_bind_inv : forall A B (m : MT V A) (g : A -> MT V B) s Q, wp (bind m g) s Q -> wp m s (fun a s1 => wp (g a) s1 Q).
Proof.
  intros A B m g s Q [(b & s2 & E1 & H)|(SP & s2 & E1)]; unfold bind in E1; destruct (m s) as [[a| | |] s1] eqn:E2; try discriminate.
  - left. exists a, s1. split; auto. left. exists b, s2. auto.
  - left. exists a, s1. split; auto. right. eauto.
  - right. eauto.
Qed.
Lemma wp_ret : forall A (a : A) s (Q : A -> dtree -> Prop), Q a s -> wp (ret a) s Q.
Proof. intros. left. exists a, s. auto. Qed.
Lemma wp_mono : forall A (m : MT V A) s (Q Q' : A -> dtree -> Prop), wp m s Q -> (forall a s', Q a s' -> Q' a s') -> wp m s Q'.
Proof. intros A m s Q Q' [(a & s' & E & H)|H] I; [left; exists a, s'; auto|right; exact H]. Qed.
Lemma wp_lift : forall A (x : res A) a s (Q : A -> dtree -> Prop), x = Ok a -> Q a s -> wp (lift x) s Q.
Proof. intros. subst. left. exists a, s. auto. Qed.
Lemma wp_fun : forall A (m : dtree -> MT V A) s Q, wp (m s) s Q -> wp (fun s => m s s) s Q.
Proof. intros. exact H. Qed.

(** * States *)
(** cells in memory, root, length, next address *)
Definition St s L (root : ptr) (len nxt : nat) : Prop := holds s L /\ dt_root s = root /\ dt_len s = len /\ dt_next s = nxt.

Lemma holds_nth : forall s L k p n, holds s L -> nth_error L k = Some (p, n) -> 0 < p < dt_next s /\ dt_heap s p = Some n.
Proof. intros s L k p n [_ F] H. rewrite Forall_forall in F. apply nth_error_In in H. apply (F _ H). Qed.
Lemma map_fst_upd : forall L k p n n', nth_error L k = Some (p, n) -> map fst (upd L k (p, n')) = map fst L.
Proof. induction L as [|[q m] L IH]; intros [|k] p n n' H; cbn in *; try congruence. f_equal. eapply IH; eauto. Qed.
Lemma nth_upd : forall L k j p n', nth_error (upd L k (p, n')) j = Some (p, n') \/ nth_error (upd L k (p, n')) j = nth_error L j.
Proof. induction L as [|[q m] L IH]; intros [|k] [|j] p n'; cbn; auto. Qed.
Lemma nth_upd2 : forall L k j p n' x, nth_error (upd L k (p, n')) j = Some x -> (j = k /\ x = (p, n')) \/ (j <> k /\ nth_error L j = Some x).
Proof.
  induction L as [|[q m] L IH]; intros [|k] [|j] p n' x H; cbn in *; try discriminate; auto.
  - inversion H. auto.
  - destruct (IH _ _ _ _ _ H) as [[-> ->]|[? ?]]; auto.
Qed.
Lemma holds_upd : forall s L k p n n' s', holds s L -> nth_error L k = Some (p, n) ->
  dt_heap s' = hset (dt_heap s) p (Some n') -> dt_next s' = dt_next s -> holds s' (upd L k (p, n')).
Proof.
  intros s L k p n n' s' [ND F] H EH EN. split; [rewrite (map_fst_upd _ _ _ _ _ H); exact ND|].
  apply Forall_forall. intros [q m] I. apply In_nth_error in I. destruct I as [j J]. apply nth_upd2 in J. cbn [fst snd].
  rewrite EH, EN. unfold hset. rewrite Forall_forall in F. destruct J as [[-> E]|[Ne J]].
  - inversion E; subst. rewrite Nat.eqb_refl. apply nth_error_In in H. destruct (F _ H). auto.
  - assert (q <> p).
    { intros ->. apply Ne. assert (X : nth_error (map fst L) j = nth_error (map fst L) k).
      { rewrite !nth_error_map, J, H. reflexivity. }
      rewrite NoDup_nth_error in ND. apply ND; auto. rewrite map_length. apply nth_error_Some. rewrite J. discriminate. }
    rewrite (proj2 (Nat.eqb_neq q p)) by auto. apply nth_error_In in J. apply (F _ J).
Qed.
Lemma holds_perm : forall s L L', holds s L -> Permutation L L' -> holds s L'.
Proof.
  intros s L L' [ND F] P. split.
  - eapply Permutation_NoDup; [apply Permutation_map; exact P|exact ND].
  - apply Forall_forall. intros x I. rewrite Forall_forall in F. apply F. eapply Permutation_in; [apply Permutation_sym; exact P|exact I].
Qed.
Lemma St_perm : forall s L L' r n x, St s L r n x -> Permutation L L' -> St s L' r n x.
Proof. intros s L L' r n x (H & ?) P. split; auto. eapply holds_perm; eauto. Qed.
Lemma St_drop : forall s L L' r n x, St s (L ++ L') r n x -> St s L r n x.
Proof.
  intros s L L' r n x ((ND & F) & ?). split; auto. split.
  - rewrite map_app in ND. clear - ND. induction (map fst L) as [|a m IH]; [constructor|]. cbn in ND. inversion ND; subst. constructor; auto. rewrite in_app_iff in *. tauto.
  - apply Forall_app in F. apply F.
Qed.
Lemma St_nz : forall k s L r n x p m, St s L r n x -> nth_error L k = Some (p, m) -> is_null p = false.
Proof. intros k s L r n x p m (H & _) E. destruct (holds_nth _ _ _ _ _ H E). unfold is_null. apply Nat.eqb_neq. lia. Qed.
Lemma St_neq : forall j k s L r n x p m q m', St s L r n x -> nth_error L j = Some (p, m) -> nth_error L k = Some (q, m') -> j <> k -> p <> q.
Proof.
  intros j k s L r n x p m q m' ((ND & _) & _) A B Ne ->. apply Ne. rewrite NoDup_nth_error in ND. apply ND.
  - rewrite map_length. apply nth_error_Some. rewrite A. discriminate.
  - rewrite !nth_error_map, A, B. reflexivity.
Qed.

Lemma wp_deref : forall k s L r n x p m (Q : node -> dtree -> Prop), St s L r n x -> nth_error L k = Some (p, m) -> Q m s -> wp (deref p) s Q.
Proof.
  intros k s L r n x p m Q H E HQ. left. exists m, s. split; auto. unfold deref. rewrite (St_nz _ _ _ _ _ _ _ _ H E).
  destruct H as (H & _). destruct (holds_nth _ _ _ _ _ H E) as [_ ->]. reflexivity.
Qed.
Lemma wp_store : forall k s L r n x p m f (Q : unit -> dtree -> Prop), St s L r n x -> nth_error L k = Some (p, m) ->
  (forall s', St s' (upd L k (p, f m)) r n x -> Q tt s') -> wp (store p f) s Q.
Proof.
  intros k s L r n x p m f Q H E HQ. left. exists tt. eexists. unfold store. rewrite (St_nz _ _ _ _ _ _ _ _ H E).
  destruct H as (H & H1 & H2 & H3). destruct (holds_nth _ _ _ _ _ H E) as [_ ->]. split; [reflexivity|]. apply HQ.
  split; [|cbn; auto]. eapply holds_upd; eauto.
Qed.
Lemma wp_set_root : forall s L r n x q (Q : unit -> dtree -> Prop), St s L r n x -> (forall s', St s' L q n x -> Q tt s') -> wp (set_root q) s Q.
Proof. intros s L r n x q Q ((ND & F) & H1 & H2 & H3) HQ. left. exists tt. eexists. split; [reflexivity|]. apply HQ. repeat split; auto. Qed.
Lemma wp_add_len : forall s L r n x k (Q : unit -> dtree -> Prop), St s L r n x -> (forall s', St s' L r (n + k) x -> Q tt s') -> wp (add_len k) s Q.
Proof. intros s L r n x k Q ((ND & F) & H1 & H2 & H3) HQ. left. exists tt. eexists. split; [reflexivity|]. apply HQ. repeat split; cbn; auto. Qed.
Lemma wp_dec_len : forall s L r n x (Q : unit -> dtree -> Prop), St s L r (S n) x -> (forall s', St s' L r n x -> Q tt s') -> wp dec_len s Q.
Proof.
  intros s L r n x Q ((ND & F) & H1 & H2 & H3) HQ. left. exists tt. unfold dec_len. rewrite H2. eexists. split; [reflexivity|]. apply HQ. repeat split; cbn; auto.
Qed.
Lemma wp_new : forall s L r n x nm v (Q : ptr -> dtree -> Prop), St s L r n x -> 0 < x ->
  (forall s', St s' ((x, mkNode flag_default null null null null nm v) :: L) r n (S x) -> Q x s') -> wp (node_new nm v) s Q.
Proof.
  intros s L r n x nm v Q ((ND & F) & H1 & H2 & H3) X HQ. left. exists x. eexists. split; [unfold node_new; rewrite H3; reflexivity|]. apply HQ.
  split; [|cbn; auto]. assert (NI : ~ In x (map fst L)).
  { intro I. apply in_map_iff in I. destruct I as ([q m] & E & I). cbn in E. subst q. rewrite Forall_forall in F. apply F in I. cbn in I. lia. }
  split; [cbn; constructor; auto|]. constructor; [cbn; unfold hset; rewrite Nat.eqb_refl; split; auto; lia|].
  apply Forall_forall. intros [q m] I. rewrite Forall_forall in F. pose proof (F _ I) as [A B]. cbn in *. unfold hset.
  rewrite (proj2 (Nat.eqb_neq q x)); [split; auto; lia|]. intros ->. apply NI. apply in_map_iff. exists (x, m). auto.
Qed.

(** * Flags *)
Lemma fl_color : forall c rt cb w, flag_color (flags c rt cb w) = c.
Proof. intros [] [] [] []; reflexivity. Qed.
Lemma fl_set_color : forall c rt cb w c', flag_set_color (flags c rt cb w) c' = flags c' rt cb w.
Proof. intros [] [] [] [] []; reflexivity. Qed.
Lemma fl_root : forall c rt cb w, flag_test (flags c rt cb w) SUBTREE_ROOT_MASK = rt.
Proof. intros [] [] [] []; reflexivity. Qed.
Lemma fl_set_root : forall c rt cb w b, flag_put (flags c rt cb w) b SUBTREE_ROOT_MASK = flags c b cb w.
Proof. intros [] [] [] [] []; reflexivity. Qed.
Lemma fl_cb : forall c rt cb w, flag_test (flags c rt cb w) CALLBACK_MASK = cb.
Proof. intros [] [] [] []; reflexivity. Qed.
Lemma fl_set_cb : forall c rt cb w b, flag_put (flags c rt cb w) b CALLBACK_MASK = flags c rt b w.
Proof. intros [] [] [] [] []; reflexivity. Qed.
Lemma fl_wild : forall c rt cb w, flag_test (flags c rt cb w) WILDCARD_MASK = w.
Proof. intros [] [] [] []; reflexivity. Qed.
Lemma fl_set_wild : forall c rt cb w b, flag_put (flags c rt cb w) b WILDCARD_MASK = flags c rt cb b.
Proof. intros [] [] [] [] []; reflexivity. Qed.

(** * Reading and writing cells *)
Section Cell.
Variables (k : nat) (s : dtree) (L : list (ptr * node)) (rt0 : ptr) (n0 x0 : nat) (p : ptr).
Variables (c : color) (rt : bool) (i : info) (lp rp pp dp : ptr).
Hypothesis HS : St s L rt0 n0 x0.
Hypothesis HN : nth_error L k = Some (p, cell c rt i lp rp pp dp).
Ltac rd := (eapply wp_bind; eapply wp_deref; [exact HS|exact HN|]; apply wp_ret; cbn [cell nd_left nd_right nd_parent nd_down nd_flag nd_name nd_value]).
Lemma wp_get_left : forall Q : ptr -> dtree -> Prop, Q lp s -> wp (get_left p) s Q. Proof. intros; rd; auto. Qed.
Lemma wp_get_right : forall Q : ptr -> dtree -> Prop, Q rp s -> wp (get_right p) s Q. Proof. intros; rd; auto. Qed.
Lemma wp_get_parent : forall Q : ptr -> dtree -> Prop, Q pp s -> wp (get_parent p) s Q. Proof. intros; rd; auto. Qed.
Lemma wp_get_down : forall Q : ptr -> dtree -> Prop, Q dp s -> wp (get_down p) s Q. Proof. intros; rd; auto. Qed.
Lemma wp_get_name : forall Q : labelseq -> dtree -> Prop, Q (seqf (i_labels i)) s -> wp (get_name p) s Q. Proof. intros; rd; auto. Qed.
Lemma wp_get_value : forall Q : option V -> dtree -> Prop, Q (i_value i) s -> wp (get_value p) s Q. Proof. intros; rd; auto. Qed.
Lemma wp_get_color : forall Q : color -> dtree -> Prop, Q c s -> wp (get_color p) s Q.
Proof. intros Q H. unfold get_color. rewrite (St_nz _ _ _ _ _ _ _ _ HS HN). rd. rewrite fl_color. auto. Qed.
Lemma wp_is_red : forall Q : bool -> dtree -> Prop, Q (match c with Red => true | Black => false end) s -> wp (is_red p) s Q.
Proof. intros Q H. apply wp_bind. apply wp_get_color. apply wp_ret. auto. Qed.
Lemma wp_is_black : forall Q : bool -> dtree -> Prop, Q (match c with Red => false | Black => true end) s -> wp (is_black p) s Q.
Proof. intros Q H. apply wp_bind. apply wp_is_red. apply wp_ret. destruct c; auto. Qed.
Lemma wp_is_root : forall Q : bool -> dtree -> Prop, Q rt s -> wp (is_subtree_root p) s Q. Proof. intros; rd. rewrite fl_root; auto. Qed.
Lemma wp_is_cb : forall Q : bool -> dtree -> Prop, Q (i_cb i) s -> wp (is_callback_enabled p) s Q. Proof. intros; rd. rewrite fl_cb; auto. Qed.
Lemma wp_is_wild : forall Q : bool -> dtree -> Prop, Q (i_wild i) s -> wp (is_wildcard_node p) s Q. Proof. intros; rd. rewrite fl_wild; auto. Qed.
Definition into (x : node) (Q : unit -> dtree -> Prop) : Prop := forall s', St s' (upd L k (p, x)) rt0 n0 x0 -> Q tt s'.
Lemma wp_set_left : forall q Q, into (cell c rt i q rp pp dp) Q -> wp (set_left p q) s Q.
Proof. intros q Q H. eapply wp_store; [exact HS|exact HN|exact H]. Qed.
Lemma wp_set_right : forall q Q, into (cell c rt i lp q pp dp) Q -> wp (set_right p q) s Q.
Proof. intros q Q H. eapply wp_store; [exact HS|exact HN|exact H]. Qed.
Lemma wp_set_parent : forall q Q, into (cell c rt i lp rp q dp) Q -> wp (set_parent p q) s Q.
Proof. intros q Q H. eapply wp_store; [exact HS|exact HN|exact H]. Qed.
Lemma wp_set_down : forall q Q, into (cell c rt i lp rp pp q) Q -> wp (set_down p q) s Q.
Proof. intros q Q H. eapply wp_store; [exact HS|exact HN|exact H]. Qed.
Lemma wp_set_color : forall c' Q, into (cell c' rt i lp rp pp dp) Q -> wp (set_color p c') s Q.
Proof. intros c' Q H. eapply wp_store; [exact HS|exact HN|]. cbn [with_flag cell nd_flag nd_left nd_right nd_parent nd_down nd_name nd_value]. rewrite fl_set_color. exact H. Qed.
Lemma wp_set_subroot : forall b Q, into (cell c b i lp rp pp dp) Q -> wp (set_subtree_root p b) s Q.
Proof. intros b Q H. eapply wp_store; [exact HS|exact HN|]. cbn [with_flag cell nd_flag nd_left nd_right nd_parent nd_down nd_name nd_value]. rewrite fl_set_root. exact H. Qed.
Lemma wp_set_callback : forall b Q, into (cell c rt (mkI (i_ptr i) (i_labels i) (i_value i) b (i_wild i)) lp rp pp dp) Q -> wp (set_callback p b) s Q.
Proof. intros b Q H. eapply wp_store; [exact HS|exact HN|]. cbn [with_flag cell nd_flag nd_left nd_right nd_parent nd_down nd_name nd_value]. rewrite fl_set_cb. exact H. Qed.
Lemma wp_set_wildcard : forall b Q, into (cell c rt (mkI (i_ptr i) (i_labels i) (i_value i) (i_cb i) b) lp rp pp dp) Q -> wp (set_wildcard p b) s Q.
Proof. intros b Q H. eapply wp_store; [exact HS|exact HN|]. cbn [with_flag cell nd_flag nd_left nd_right nd_parent nd_down nd_name nd_value]. rewrite fl_set_wild. exact H. Qed.
Lemma wp_set_name : forall ls Q, into (cell c rt (mkI (i_ptr i) ls (i_value i) (i_cb i) (i_wild i)) lp rp pp dp) Q -> wp (set_name p (seqf ls)) s Q.
Proof. intros b Q H. eapply wp_store; [exact HS|exact HN|exact H]. Qed.
Lemma wp_set_value : forall v (Q : option V -> dtree -> Prop),
  (forall s', St s' (upd L k (p, cell c rt (mkI (i_ptr i) (i_labels i) v (i_cb i) (i_wild i)) lp rp pp dp)) rt0 n0 x0 -> Q (i_value i) s') -> wp (set_value p v) s Q.
Proof.
  intros v Q H. apply wp_bind. eapply wp_deref; [exact HS|exact HN|]. apply wp_bind. eapply wp_store; [exact HS|exact HN|]. intros s' HS'. apply wp_ret.
  apply H. exact HS'.
Qed.
End Cell.
Lemma wp_get_color_null : forall s (Q : color -> dtree -> Prop), Q Black s -> wp (get_color null) s Q.
Proof. intros. apply wp_ret. auto. Qed.
Lemma wp_is_red_null : forall s (Q : bool -> dtree -> Prop), Q false s -> wp (is_red null) s Q.
Proof. intros. apply wp_bind. apply wp_get_color_null. apply wp_ret. auto. Qed.
Lemma wp_is_black_null : forall s (Q : bool -> dtree -> Prop), Q true s -> wp (is_black null) s Q.
Proof. intros. apply wp_bind. apply wp_is_red_null. apply wp_ret. auto. Qed.
Lemma wp_read_root : forall s L r n x (Q : ptr -> dtree -> Prop), St s L r n x -> Q r s -> wp (read_loc LRoot) s Q.
Proof. intros s L r n x Q (_ & H & _) HQ. left. exists r, s. split; auto. cbn. rewrite H. reflexivity. Qed.

(** * Contexts *)
Inductive frame := FL (c : color) (i : info) (d r : tree) | FR (c : color) (l : tree) (i : info) (d : tree) | FD (c : color) (l : tree) (i : info) (r : tree).
Definition ctx := list frame.
Implicit Types (k : ctx) (f : frame).
Definition finfo f := match f with FL _ i _ _ => i | FR _ _ i _ => i | FD _ _ i _ => i end.
Definition fptr f := i_ptr (finfo f).
Definition fcol f := match f with FL c _ _ _ => c | FR c _ _ _ => c | FD c _ _ _ => c end.
Definition fill f t : tree := match f with FL c i d r => T c t i d r | FR c l i d => T c l i d t | FD c l i r => T c l i t r end.
Definition plug k t : tree := fold_left (fun t f => fill f t) k t.
(** parent pointer and subtree-root flag of the hole; [bp], [br] for the empty context *)
Definition kpar (bp : ptr) k := match k with [] => bp | f :: _ => fptr f end.
Definition krt (br : bool) k := match k with [] => br | FD _ _ _ _ :: _ => true | _ => false end.
Definition fcells (par : ptr) (rt : bool) f (hole : ptr) : list (ptr * node) :=
  match f with
  | FL c i d r => (i_ptr i, cell c rt i hole (pt r) par (pt d)) :: cells (i_ptr i) true d ++ cells (i_ptr i) false r
  | FR c l i d => (i_ptr i, cell c rt i (pt l) hole par (pt d)) :: cells (i_ptr i) false l ++ cells (i_ptr i) true d
  | FD c l i r => (i_ptr i, cell c rt i (pt l) (pt r) par hole) :: cells (i_ptr i) false l ++ cells (i_ptr i) false r
  end.
Fixpoint kcells (bp : ptr) (br : bool) k (hole : ptr) : list (ptr * node) :=
  match k with [] => [] | f :: k' => fcells (kpar bp k') (krt br k') f hole ++ kcells bp br k' (fptr f) end.
Fixpoint kroot k (hole : ptr) : ptr := match k with [] => hole | f :: k' => kroot k' (fptr f) end.
(** the location that holds the root of the level of the hole *)
Fixpoint kloc k : loc := match k with [] => LRoot | FD _ _ i _ :: _ => LDown (i_ptr i) | _ :: k' => kloc k' end.

Lemma pt_fill : forall f t, pt (fill f t) = fptr f.
Proof. intros [] t; reflexivity. Qed.
Lemma cells_fill : forall f t par rt, Permutation (cells par rt (fill f t)) (fcells par rt f (pt t) ++ cells (fptr f) (krt false [f]) t).
Proof.
  intros [c i d r|c l i d|c l i r] t par rt; cbn [fill cells fcells fptr finfo krt app]; apply perm_skip.
  - rewrite !app_assoc. rewrite (Permutation_app_comm _ (cells (i_ptr i) false t)). rewrite <- !app_assoc. apply Permutation_refl.
  - rewrite !app_assoc. apply Permutation_refl.
  - rewrite <- !app_assoc. apply Permutation_app_head. apply Permutation_app_comm.
Qed.
Definition whole k t := kcells null true k (pt t) ++ cells (kpar null k) (krt true k) t.
Lemma whole_fill : forall k f t, Permutation (whole k (fill f t)) (whole (f :: k) t).
Proof.
  intros k f t. unfold whole. cbn [kcells kpar]. rewrite pt_fill.
  replace (krt true (f :: k)) with (krt false [f]) by (destruct f; reflexivity).
  rewrite cells_fill. rewrite (Permutation_app_comm (kcells null true k (fptr f))). rewrite <- !app_assoc. apply Permutation_app_head.
  apply Permutation_app_comm.
Qed.
(** The memory holds [t] in context [k] (and the garbage [G]). *)
Definition inv s k t (len nxt : nat) : Prop := St s (whole k t) (kroot k (pt t)) len nxt.
Lemma inv_fill : forall s k f t n x, inv s k (fill f t) n x <-> inv s (f :: k) t n x.
Proof.
  intros. unfold inv. cbn [kroot]. rewrite pt_fill. split; intro H; eapply St_perm; try exact H; [|apply Permutation_sym]; apply whole_fill.
Qed.
Lemma inv_plug : forall k' k s t n x, inv s k (plug k' t) n x <-> inv s (k' ++ k) t n x.
Proof.
  induction k' as [|f k' IH]; intros k s t n x; [reflexivity|]. cbn [plug fold_left app]. change (fold_left _ k' (fill f t)) with (plug k' (fill f t)).
  rewrite IH. apply inv_fill.
Qed.
Lemma shape_inv : forall s t, shape s t <-> exists n x, inv s [] t n x.
Proof.
  intros s t. unfold shape, inv, whole, St. cbn [kcells kroot kpar krt app]. split.
  - intros [A B]. exists (dt_len s), (dt_next s). auto.
  - intros (n & x & A & B & _). auto.
Qed.
End H.

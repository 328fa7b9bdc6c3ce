(** Proof of C102 for [insert]: the number of passes of its search loop and of its repair loop. *)
From Coq Require Import ZArith Lia Permutation.
From Verif Require Import Base BaseLemmas NameModel TreeModel SpecName SpecOrd SpecScope SpecTree SpecHist SpecTreeWork OrdBase TreeProofs PermTac TreeProofs2 TreeProofs3 TreeProofs4
  NameWireProofs NameOpsProofs NameOpsProofs2 NameCmpProofs NameCmpProofs2 TreePure TreePure2 TreeProofs5 TreeProofs6 TreeProofs7 TreeProofs8 TreeProofs9 TreeProofs10 TreeProofs11 TreeProofs12 TreeProofs13 TreeProofs14 TreeProofs15 TreeProofs16 TreeProofs17 TreeWorkProofs.
Open Scope list_scope.
Open Scope nat_scope.

(** * More passes change nothing once there are enough *)
Section M.
Context {V : Type}.
Notation dtree := (dtree V).
(** [m'] does what [m] does unless [m] gave up *)
Definition upto {A} (m m' : MT V A) : Prop := forall s, fst (m s) = Hang \/ m s = m' s.
Lemma upto_refl : forall A (m : MT V A), upto m m. Proof. intros A m s. right. reflexivity. Qed.
Lemma upto_bind : forall A B (m m' : MT V A) (g g' : A -> MT V B), upto m m' -> (forall a, upto (g a) (g' a)) -> upto (bind m g) (bind m' g').
Proof.
  intros A B m m' g g' HM HG s. unfold bind. destruct (HM s) as [H|H].
  - destruct (m s) as [r s1]. cbn in H. subst r. left. reflexivity.
  - rewrite H. destruct (m' s) as [[a| | |] s1]; auto. apply HG.
Qed.
Lemma upto_hang : forall A (m : MT V A), upto (lift Hang) m. Proof. intros A m s. left. reflexivity. Qed.
Ltac ub := apply upto_bind; [apply upto_refl|intros ?].
Lemma upto_iloop : forall md v f f' par up cur o ts, f <= f' -> upto (insert_loop md f v par up cur o ts) (insert_loop (V := V) md f' v par up cur o ts).
Proof.
  intros md v. induction f as [|f IH]; intros f' par up cur o ts L.
  - cbn [insert_loop]. destruct (is_null cur) eqn:E; [destruct f'; cbn [insert_loop]; rewrite E; apply upto_refl|apply upto_hang].
  - destruct f' as [|f']; [lia|]. cbn [insert_loop]. destruct (is_null cur); [apply upto_refl|]. do 3 ub. destruct (cr_relation _); try apply upto_refl; repeat ub; apply IH; lia.
Qed.
Lemma upto_floop : forall f f' root nd, f <= f' -> upto (insert_fixup_loop (V := V) f root nd) (insert_fixup_loop f' root nd).
Proof.
  induction f as [|f IH]; intros f' root nd L; [apply upto_hang|]. destruct f' as [|f']; [lia|]. cbn [insert_fixup_loop]. ub.
  destruct (_ =? _); [apply upto_refl|]. do 2 ub. match goal with |- upto (if ?b then _ else _) _ => destruct b end; [apply upto_refl|]. do 3 ub.
  match goal with |- upto (if ?b then _ else _) _ => destruct b end; [|apply upto_refl]. do 3 ub. apply IH. lia.
Qed.
Lemma upto_fixup : forall f f' root nd, f <= f' -> upto (insert_fixup_within (V := V) f root nd) (insert_fixup_within f' root nd).
Proof. intros. unfold insert_fixup_within. apply upto_bind; [apply upto_floop; assumption|intros []; apply upto_refl]. Qed.
Definition link_within (j : nat) (target : name) (v : option V) (par up : ptr) (order : Z) (ts : labelslice) : MT V (ptr * option (option V)) :=
  let current_root := if is_null up then LRoot else LDown up in
  add_len 1 ;;
  let! nm := lift (into_label_sequence target (sl_first ts) (sl_last ts)) in
  let! nd := node_new nm v in
  set_parent nd par ;;
  (if is_null par then
     write_loc current_root nd ;; set_color nd Black ;; set_subtree_root nd true ;; set_parent nd up
   else if (order <? 0)%Z then
     set_subtree_root nd false ;; set_left par nd ;; insert_fixup_within j current_root nd
   else
     set_subtree_root nd false ;; set_right par nd ;; insert_fixup_within j current_root nd) ;;
  ret (nd, None).
Lemma upto_link : forall j j' target v par up order ts, j <= j' -> upto (link_within j target v par up order ts) (link_within j' target v par up order ts).
Proof.
  intros. unfold link_within. cbv zeta. do 4 ub. apply upto_bind; [|intros ?; apply upto_refl]. destruct (is_null par); [apply upto_refl|].
  destruct (order <? 0)%Z; do 2 ub; apply upto_fixup; assumption.
Qed.
Lemma insert_within_eq : forall k j md target (v : option V) s, insert_within k j md target v s =
  (let! ts := lift (slice_of_name target) in let! r := insert_loop md k v null null (dt_root s) (-1) ts in
   match r with inl (p, old) => ret (p, Some old) | inr (par, up, order, ts) => link_within j target v par up order ts end) s.
Proof. intros. reflexivity. Qed.
Lemma upto_insert : forall k k' j j' md target (v : option V), k <= k' -> j <= j' -> upto (insert_within k j md target v) (insert_within k' j' md target v).
Proof.
  intros k k' j j' md target v K J s. rewrite !insert_within_eq. generalize (dt_root s). intros p0.
  match goal with |- _ \/ ?a s = ?b s => assert (X : upto a b); [|apply X] end. ub. apply upto_bind; [apply upto_iloop; exact K|]. intros [[p old]|[[[par up] order] ts]]; [apply upto_refl|apply upto_link; exact J].
Qed.
Lemma mle_within : forall k j target (v : option V), mle (insert_within k j Debug target v) (insert_within k j Release target v).
Proof.
  intros k j target v s. rewrite !insert_within_eq. generalize (dt_root s). intros p0. match goal with |- _ \/ ?a s = ?b s => assert (X : mle a b); [|apply X] end.
  apply mle_bind; [apply mle_refl|intros ts]. apply mle_bind; [apply mle_iloop|intros r]. apply mle_refl.
Qed.
End M.

(** * Enough *)
Section I.
Context {V : Type} {SC : scope}.
Notation node := (node V). Notation dtree := (dtree V). Notation info := (info V). Notation tree := (tree V).
Notation frame := (@frame V). Notation ctx := (@ctx V).
Implicit Types (s : dtree) (t : tree) (i : info) (p : ptr) (L R : list (ptr * node)) (k kl : ctx) (f : frame).

Lemma wp_fixup_within : forall j s kl k0 i d n x (Q : unit -> dtree -> Prop), length kl < j ->
  inv s (kl ++ k0) (T Red E i d E) n x -> krt true k0 = true -> kok kl 0 ->
  (forall s' t' m', inv s' k0 t' n x -> elems t' = elems (plug kl (T Red E i d E)) -> rb t' m' -> col t' = Black -> Q tt s') ->
  wp (insert_fixup_within j (kloc k0) (i_ptr i)) s Q.
Proof.
  intros j s kl k0 i d n x Q Le H K Ko HQ. unfold insert_fixup_within. apply wp_bind.
  eapply (wp_fixup_loop _ _ kl k0); [exact Le|exact H|exact K|constructor|constructor|reflexivity|reflexivity|exact Ko|].
  intros s' t' m' HI HE [[HR HC]|(l' & i' & d' & r' & -> & Rl & Rr)].
  - apply wp_bind. eapply (wp_read_lvl s' [] k0); [exact HI|exact K|]. cbn [kroot]. destruct t' as [|c l' i' d' r'].
    { exfalso. destruct (elems_nonempty kl i d (kok_flat _ _ Ko)). symmetry. exact HE. }
    cbn [col] in HC. subst c. unfold inv, whole in HI. cbn [cells pt] in HI. norm_in HI. cbn [pt]. stp.
    eapply (HQ _ (T Black l' i' d' r')); [fold_inv|exact HE|exact HR|reflexivity].
  - apply wp_bind. eapply (wp_read_lvl s' [] k0); [exact HI|exact K|]. cbn [kroot].
    unfold inv, whole in HI. cbn [cells pt] in HI. norm_in HI. cbn [pt]. stp.
    eapply (HQ _ (T Black l' i' d' r')); [fold_inv|exact HE|constructor; eassumption|reflexivity].
Qed.
Lemma wp_link_within : forall j s kl k0 n x m target v order ts ls (Q : ptr * option (option V) -> dtree -> Prop), length kl < j ->
  inv s (kl ++ k0) E n x -> 0 < x -> flat kl -> krt true k0 = true -> rb (plug kl E) m -> col (plug kl E) = Black -> ord_ok (kl ++ k0) order ->
  into_label_sequence target (sl_first ts) (sl_last ts) = Ok (seqf ls) ->
  (forall s' t' m', inv s' k0 t' (n + 1) (S x) -> elems t' = elems (plug kl (T Red E (mkI x ls v false false) E E)) -> rb t' m' -> col t' = Black -> Q (x, None) s') ->
  wp (link_within j target v (lpar (kl ++ k0)) (kup (kl ++ k0)) order ts) s Q.
Proof.
  intros jj s kl k0 n x m target v order ts ls Q Lj H X F K R C O HT HQ. unfold link_within. unfold inv, whole in H. cbn [cells app] in H.
  rewrite (kup_kloc _ _ _ _ _ _ _ H). rewrite kloc_app by exact F.
  apply wp_bind. eapply wp_add_len; [exact H|]. clear H s. intros s H. apply wp_bind. eapply wp_lift; [exact HT|]. apply wp_bind.
  eapply wp_new_cell; [exact H|exact X|]. clear H s. intros s i Ei H.
  assert (Pi : x = i_ptr i) by (subst i; reflexivity). rewrite app_nil_r in H.
  destruct (rb_plug kl E m F R (or_intror C)) as (m0 & RE & Ko & _). assert (m0 = 0) by (inversion RE; reflexivity). subst m0. destruct kl as [|f kl].
  - cbn [app plug fold_left] in *. replace (lpar k0) with null by (destruct k0 as [|[]]; try discriminate; reflexivity).
    stp. cbn [is_null null Nat.eqb]. apply wp_bind. apply wp_bind.
    bring_in (kcells null true k0 (pt (@E V))) HS. eapply wp_write_top; [exact HS|exact K|].
    clear HS. intros s' HS. norm_in HS. stp. stp. stp. stp. rewrite <- Pi.
    eapply (HQ _ (T Black E i E E) 1); [|rewrite <- Ei; reflexivity|repeat constructor|reflexivity].
    unfold inv, whole. cbn [cells pt app]. replace (krt true k0) with true by auto.
    replace (kup k0) with (kpar null k0) in HS0 by (destruct k0 as [|[]]; try discriminate; reflexivity). fin.
  - inversion F as [|? ? Ff Fk]; subst x.
    assert (G : forall s', inv s' ((f :: kl) ++ k0) (T Red E i E E) (n + 1) (S (i_ptr i)) -> wp (insert_fixup_within jj (kloc k0) (i_ptr i)) s' (fun _ s1 => Q (i_ptr i, None) s1)).
    { intros s' HI. eapply wp_fixup_within; [exact Lj|exact HI|exact K|exact Ko|]. intros s1 t' m' A B D D'. eapply HQ; [exact A| |exact D|exact D']. rewrite <- Ei. exact B. }
    destruct f as [c j e u|c u j e|]; [| |contradiction]; cbn [app lpar ord_ok] in *.
    + kred_in H. norm_in H. stp. eqb_step. rewrite (proj2 (Z.ltb_lt _ _) O). apply wp_bind. stp. stp.
      eapply wp_mono; [apply G; fold_inv|]. intros [] s' HQ'. apply wp_ret. exact HQ'.
    + kred_in H. norm_in H. stp. eqb_step. rewrite (proj2 (Z.ltb_ge _ _) O). apply wp_bind. stp. stp.
      eapply wp_mono; [apply G; fold_inv|]. intros [] s' HQ'. apply wp_ret. exact HQ'.
Qed.

Lemma wp_insert_loop2 : forall asc md ls (v : option V) q0 H, wf_labels ls -> (asc = true -> scoped ls) -> safe_md asc md ->
  forall fu s k t n x ts fls order Q, inv s k t n x -> tree_ok asc (plug k t) -> tgt ls ts fls -> path asc k (rev (lc_labels fls)) -> ord_ok k order ->
  kpre k ++ rev (lc_labels fls) = q0 -> (forall i d, In (i, d) (elems t) -> exists suf, lowly H suf d) -> enough H (length fls) t fu ->
  found_post asc v q0 (plug k t) n x Q -> new_post asc ls q0 (plug k t) n x Q ->
  wp (insert_loop md (fu + 2) v (lpar k) (kup k) (pt t) order ts) s Q.
Proof.
  intros asc md ls v q0 H W AS SM. induction fu as [|fu IH]; intros s k t n x ts fls order Q HI TO TG P O EQ0 LW EN HF HN.
  - destruct t as [|c l i d r]; [|destruct (enough_0 _ _ _ _ _ _ _ EN)]. cbn [insert_loop pt Nat.add]. change (is_null null) with true. cbv iota. apply wp_ret. eapply HN; eauto. left. auto.
  - change (S fu + 2) with (S (fu + 2)). destruct t as [|c l i d r].
    { cbn [insert_loop pt]. change (is_null null) with true. cbv iota. apply wp_ret. eapply HN; eauto. left. auto. }
    cbn [insert_loop]. change (pt (T c l i d r)) with (i_ptr i). rewrite (nz_node _ _ _ _ _ _ _ _ _ HI).
    cbn [elems] in LW.
    eapply wp_compare_at; [exact W|exact AS|exact SM|exact HI|exact TO|exact TG|]. intros cr CL OR.
    inversion CL as [E1 R1 C1|N1 N2 N3 R1 C1|x1 N1 E1 R1 C1|y1 N1 E1 R1 C1|s1 x1 y1 u1 v1 N1 E1 E2 N2 R1 C1].
    + apply wp_bind. eapply wp_setv; [exact HI|]. clear HI s. intros s HI. apply wp_ret. eapply HF; [left; auto|exact HI|]. rewrite <- E1. exact EQ0.
    + specialize (OR (eq_sym R1)). apply wp_bind. eapply wp_next; [exact HI|]. destruct (cr_order cr <? 0)%Z eqn:Oz.
      * change (i_ptr i) with (lpar (FL c i d r :: k)). change (kup k) with (kup (FL c i d r :: k)).
        eapply (IH s (FL c i d r :: k) l); [apply inv_fill; exact HI|exact TO|exact TG|apply path_L; auto; eapply goes_lt; eauto|apply Z.ltb_lt; exact Oz|exact EQ0| |eapply enough_l; exact EN|exact HF|exact HN].
        intros j dj I. apply (LW j). apply in_or_app. auto.
      * change (i_ptr i) with (lpar (FR c l i d :: k)). change (kup k) with (kup (FR c l i d :: k)).
        eapply (IH s (FR c l i d :: k) r); [apply inv_fill; exact HI|exact TO|exact TG|apply path_R; auto; eapply goes_gt; eauto|apply Z.ltb_ge; exact Oz|exact EQ0| |eapply enough_r; exact EN|exact HF|exact HN].
        intros j dj I. apply (LW j). apply in_or_app. right. right. exact I.
    + destruct (node_facts _ _ _ _ _ _ _ TO) as [(NK & _) _]. apply key_nonempty in NK.
      destruct (tgt_strip _ _ _ (key i) x1 TG E1 NK N1) as (ts' & S1 & TG' & EQ'). apply wp_bind. eapply wp_lift; [exact S1|]. apply wp_bind. eapply wp_down; [exact HI|].
      change null with (lpar (FD c l i r :: k)). change (i_ptr i) with (kup (FD c l i r :: k)).
      destruct (LW i d ltac:(apply in_elt)) as (suf & LD). assert (LD' : height d <= H /\ forall j dj, In (j, dj) (elems d) -> lowly H (i_labels j ++ suf) dj) by (inversion LD as [? ? [HD _] LWD]; split; assumption). destruct LD' as [HD LWD].
      eapply (IH s (FD c l i r :: k) d); [apply inv_fill; exact HI|exact TO|exact TG'|rewrite EQ'; apply path_D; rewrite <- E1; exact P|exact I| | | |exact HF|exact HN].
      * rewrite EQ'. cbn [kpre]. rewrite <- app_assoc, <- E1. exact EQ0.
      * intros j dj J. eexists. apply LWD. exact J.
      * pose proof (f_equal (@length _) EQ') as L1. pose proof (f_equal (@length _) E1) as L2. rewrite rev_lc_len in L1, L2. rewrite app_length in L2.
        eapply enough_d; [exact EN|exact HD|]. destruct x1; [congruence|]. destruct (key i); [congruence|]. cbn [length] in *. lia.
    + eapply wp_insert_fis with (z := []); eauto; [lia|rewrite app_nil_r; reflexivity|].
      intro X. apply (tgt_ne _ _ _ TG). apply (f_equal (@length _)) in X. rewrite rev_lc_len in X. destruct fls; [reflexivity|discriminate].
    + eapply wp_insert_fis with (u := s1) (z := u1 :: x1) (y := v1 :: y1); eauto; [lia|discriminate].
Qed.
Lemma kl_height : forall kl t, flat kl -> length kl + height t <= height (plug kl t).
Proof.
  induction kl as [|f kl IH]; intros t F; [apply le_n|]. inversion F as [|? ? Ff Fk]; subst. change (plug (f :: kl) t) with (plug kl (fill f t)).
  specialize (IH (fill f t) Fk). destruct f; [| |contradiction]; cbn [fill height length] in *; lia.
Qed.
Lemma wp_insert_within : forall md ls (v : option V) s t n x (k j : nat), wf_labels ls -> safe_md false md -> inv s [] t n x -> 0 < x -> tree_ok false t -> count t <= n ->
  S (length ls) * (2 * Nat.log2 (S n)) + 2 <= k -> 2 * Nat.log2 (S (S n)) < j ->
  wp (insert_within k j md (name_of ls) v) s (fun r s' => True).
Proof.
  intros md ls v s t n x k j W SM H X0 TO CN KK JJ. apply wp_fun with (m := fun s => _).
  destruct (tgt_init ls W) as (ts & E1 & TG). apply wp_bind. eapply wp_lift; [exact E1|].
  assert (RT : dt_root s = pt t) by (destruct H as (_ & H & _); exact H).
  rewrite RT. apply wp_bind.
  change null with (lpar (V := V) []) at 1. change null with (kup (V := V) []).
  replace k with (k - 2 + 2) by lia. pose proof (lowly_of n [] t TO CN) as LW. inversion LW as [? ? [HT LB] LD]; subst.
  eapply (wp_insert_loop2 false md ls v (qof ls) _ W ltac:(discriminate) SM (k - 2) s [] t n x ts (full ls)); [exact H|exact TO|exact TG|constructor|exact I|reflexivity|intros i d J; eexists; apply LD; exact J| | |].
  - right. unfold full. rewrite app_length. cbn [length]. replace (length ls + 1 - 1) with (length ls) by lia. cbn [Nat.mul] in KK. remember (length ls * _) as z. lia.
  - intros s' k' c l i d r n' x' FI HI EQ. apply wp_ret. exact I.
  - intros s' k' n' x' ts' fls' order' FI HI TG' P EQ OR. cbv iota beta. cbn [plug fold_left] in FI. destruct (fis_ok _ _ _ _ _ _ _ _ FI TO) as (TO1 & CO & LE).
    destruct (split_level k') as (kl & k0 & -> & F & K). destruct (level_rb _ _ _ _ TO1 F K) as (m & RB & CB).
    match goal with |- wp ?prog _ _ => change prog with (link_within j (name_of ls) v (lpar (kl ++ k0)) (kup (kl ++ k0)) order' ts') end.
    eapply wp_link_within; [|exact HI|lia|exact F|exact K|exact RB|exact CB|exact OR|apply tgt_seq; [exact W|exact TG']|auto].
    pose proof (kl_height kl E F) as KH. cbn [height] in KH. pose proof (level_height (plug kl E) (ex_intro _ m RB) CB) as LH.
    assert (X : length (elems (plug kl E)) <= S n).
    { destruct (elems_count (plug kl E)) as [EC _]. rewrite plug_app, count_plug in CO.
      assert (n' <= n + 1) by (destruct FI as [(_ & -> & _)|(-> & _)]; lia). lia. }
    pose proof (Nat.log2_le_mono (S (length (elems (plug kl E)))) (S (S n)) ltac:(lia)). lia.
Qed.
End I.

(** * Histories *)
Section H.
Context {V : Type}.
Notation dtree := (dtree V).
Definition ev {A} (m : MT V A) (mj : nat -> MT V A) : Prop := forall s, exists j0, forall j, j0 <= j -> fst (m s) = Hang \/ m s = mj j s.
Lemma ev_refl : forall A (m : MT V A), ev m (fun _ => m). Proof. intros A m s. exists 0. auto. Qed.
Lemma ev_bindr : forall A B (m : MT V A) (g : A -> MT V B) gj, (forall a, ev (g a) (gj a)) -> ev (bind m g) (fun j => bind m (fun a => gj a j)).
Proof. intros A B m g gj H s. unfold bind. destruct (m s) as [[a| | |] s1]; try (exists 0; auto; fail). apply H. Qed.
Lemma ev_bindl : forall A B (m : MT V A) mj (g : A -> MT V B), ev m mj -> ev (bind m g) (fun j => bind (mj j) g).
Proof.
  intros A B m mj g H s. destruct (H s) as (j0 & J). exists j0. intros j L. unfold bind. destruct (J j L) as [X|X].
  - destruct (m s) as [r s1]. cbn in X. subst r. left. reflexivity.
  - rewrite X. auto.
Qed.
Lemma ev_fixup : forall root nd, ev (insert_fixup root nd) (fun j => insert_fixup_within j root nd).
Proof. intros root nd s. exists (S (dt_next s)). intros j L. exact (upto_fixup (S (dt_next s)) j root nd L s). Qed.
Lemma ev_insert : forall md target (v : option V) s, exists j0, forall j, j0 <= j -> fst (insert md target v s) = Hang \/ insert md target v s = insert_within (2 * dt_next s + 2) j md target v s.
Proof.
  intros md target v s.
  assert (X : forall p0 f0, ev (let! ts := lift (slice_of_name target) in let! r := insert_loop md f0 v null null p0 (-1) ts in
      match r with inl (p, old) => ret (p, Some old) | inr (par, up, order, ts) => link target v par up order ts end)
    (fun j => let! ts := lift (slice_of_name target) in let! r := insert_loop md f0 v null null p0 (-1) ts in
      match r with inl (p, old) => ret (p, Some old) | inr (par, up, order, ts) => link_within j target v par up order ts end)); [|exact (X (dt_root s) (2 * dt_next s + 2) s)].
  intros p0 f0.
  apply ev_bindr. intros ts. apply ev_bindr. intros [[p old]|[[[par up] order] ts']]; [apply ev_refl|]. unfold link, link_within. cbv zeta. do 4 (apply ev_bindr; intros ?).
  apply ev_bindl. destruct (is_null par); [apply ev_refl|]. destruct (order <? 0)%Z; do 2 (apply ev_bindr; intros ?); apply ev_fixup.
Qed.
Theorem insert_passes : forall md md' (ops : list (op V)) s ls v k j, any_names ops -> reached md ops s -> wf_labels ls ->
  S (length ls) * (2 * Nat.log2 (S (dt_len s))) + 2 <= k -> 2 * Nat.log2 (S (S (dt_len s))) < j ->
  insert_within k j md' (name_of ls) v s = insert md' (name_of ls) v s /\ fst (insert md' (name_of ls) v s) <> Hang.
Proof.
  intros md md' ops s ls v k j W R WL K J. apply reached_release in R. pose proof (any_ok _ W) as OK.
  assert (G : @wp V quiet _ (history Release ops) tree_new (fun _ s => exists t n x, @good V quiet false s t n x /\ True)).
  { apply (@reached_good V quiet false Release (fun _ _ _ _ _ => True) ops sound_false OK); auto. }
  apply quiet_total in G. destruct G as ([] & s' & R' & t & n & x & (H & TO & C & X0) & _).
  assert (s' = s) by (unfold reached in *; congruence). subst s'. rewrite (inv_len _ _ _ _ _ H) in K, J.
  assert (NI : fst (insert md' (name_of ls) v s) <> Hang).
  { assert (A : exists a s1, insert Release (name_of ls) v s = (Ok a, s1)).
    { destruct (quiet_total _ _ _ _ (@wp_insert V quiet false Release ls v s t n x WL ltac:(discriminate) ltac:(apply sound_false) H ltac:(lia) TO)) as (a & s1 & A & _). eauto. }
    destruct A as (a & s1 & A). destruct md'; [|rewrite A; discriminate]. destruct (mle_insert (name_of ls) v s) as [Y|Y]; rewrite Y; [discriminate|rewrite A; discriminate]. }
  assert (NW : fst (insert_within k j md' (name_of ls) v s) <> Hang).
  { assert (A : exists a s1, insert_within k j Release (name_of ls) v s = (Ok a, s1)).
    { destruct (quiet_total _ _ _ _ (@wp_insert_within V quiet Release ls v s t n x k j WL ltac:(apply sound_false) H ltac:(lia) TO C K J)) as (a & s1 & A & _). eauto. }
    destruct A as (a & s1 & A). destruct md'; [|rewrite A; discriminate]. destruct (mle_within k j (name_of ls) v s) as [Y|Y]; rewrite Y; [discriminate|rewrite A; discriminate]. }
  split; [|exact NI]. destruct (ev_insert md' (name_of ls) v s) as (j0 & EV). destruct (EV (Nat.max j j0) ltac:(lia)) as [Y|Y]; [contradiction|].
  destruct (upto_insert (2 * dt_next s + 2) (Nat.max k (2 * dt_next s + 2)) (Nat.max j j0) (Nat.max j j0) md' (name_of ls) v ltac:(lia) ltac:(lia) s) as [Z|Z]; [rewrite <- Y in Z; contradiction|].
  destruct (upto_insert k (Nat.max k (2 * dt_next s + 2)) j (Nat.max j j0) md' (name_of ls) v ltac:(lia) ltac:(lia) s) as [Z'|Z']; [contradiction|].
  rewrite Y, Z. exact Z'.
Qed.
End H.

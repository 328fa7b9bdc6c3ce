(** Linking a new node, connect_child, node_fission. *)
From Coq Require Import Permutation.
From Verif Require Import Base BaseLemmas NameModel TreeModel SpecName SpecOrd SpecScope OrdBase SpecTree TreeProofs PermTac TreeProofs2 TreeProofs3 NameWireProofs NameOpsProofs NameOpsProofs2 NameCmpProofs NameCmpProofs2.
Open Scope list_scope.
Open Scope nat_scope.

Section L.
Context {V : Type} {SC : scope}.
Notation node := (node V). Notation dtree := (dtree V). Notation info := (info V). Notation tree := (tree V).
Notation frame := (@frame V). Notation ctx := (@ctx V).
Implicit Types (s : dtree) (t : tree) (i : info) (p q : ptr) (L R : list (ptr * node)) (k : ctx) (f : frame).

Fixpoint kup k : ptr := match k with [] => null | FD _ _ i _ :: _ => i_ptr i | _ :: k' => kup k' end.
Lemma kup_kloc : forall k s R h root n x, St s (kcells null true k h ++ R) root n x -> (if is_null (kup k) then LRoot else LDown (kup k)) = kloc k.
Proof.
  induction k as [|f k IH]; intros s R h root n x H; [reflexivity|]. destruct f as [c i d r|c l i d|c l i r]; cbn [kup kloc].
  - cbn [kcells] in H. eapply (IH s (fcells (kpar null k) (krt true k) (FL c i d r) h ++ R) (fptr (FL c i d r))). eapply St_perm; [exact H|perm].
  - cbn [kcells] in H. eapply (IH s (fcells (kpar null k) (krt true k) (FR c l i d) h ++ R) (fptr (FR c l i d))). eapply St_perm; [exact H|perm].
  - kred_in H. norm_in H. rewrite (St_nz 0 _ _ _ _ _ _ _ H eq_refl). reflexivity.
Qed.
Lemma split_level : forall k, exists kl k0, k = kl ++ k0 /\ flat kl /\ krt true k0 = true.
Proof.
  induction k as [|f k (kl & k0 & -> & F & K)].
  - exists [], []. repeat split; constructor.
  - destruct f as [c i d r|c l i d|c l i r].
    + exists (FL c i d r :: kl), k0. repeat split; auto. constructor; auto. exact I.
    + exists (FR c l i d :: kl), k0. repeat split; auto. constructor; auto. exact I.
    + exists [], (FD c l i r :: kl ++ k0). repeat split; constructor.
Qed.

(** a fresh node *)
Lemma wp_new_cell : forall s L r n x ls v (Q : ptr -> dtree -> Prop), St s L r n x -> 0 < x ->
  (forall s' i, i = mkI x ls v false false -> St s' ((i_ptr i, cell Red false i null null null null) :: L) r n (S x) -> Q (i_ptr i) s') -> wp (node_new (seqf ls) v) s Q.
Proof. intros s L r n x ls v Q H X HQ. eapply wp_new; [exact H|exact X|]. intros s' H'. eapply (HQ s' (mkI x ls v false false)); [reflexivity|exact H']. Qed.

(** node.rs:312-328 *)
Lemma wp_connect : forall s k R h new cur c rt i lp rp dp n x Q,
  St s (kcells null true k h ++ (cur, cell c rt i lp rp (kpar null k) dp) :: R) (kroot k h) n x ->
  In h (ptrs ((cur, cell c rt i lp rp (kpar null k) dp) :: R)) ->
  to_hole s ((cur, cell c rt i lp rp (kpar null k) dp) :: R) k new n x Q ->
  wp (connect_child LRoot cur h new) s Q.
Proof.
  intros s k R h new cur c rt i lp rp dp n x Q H I HQ. unfold connect_child.
  assert (G : wp (get_parent cur) s (fun a s1 => a = kpar null k /\ s1 = s)) by (norm_in H; stp; auto).
  apply wp_bind. eapply wp_mono; [exact G|]. clear G. intros a s1 [-> ->].
  destruct k as [|[fc fi fd fr|fc fl fi fd|fc fl fi fr] k].
  - cbn [kpar is_null null Nat.eqb write_loc]. eapply wp_set_root; [exact H|]. intros s' H'. apply HQ. exact H'.
  - kred. kred_in H. kred_in I. unfold to_hole in HQ. cbn [kcells fcells kpar krt kroot] in HQ. unfold fptr in HQ. cbn [finfo] in HQ. norm_in H.
    rewrite (St_nz 0 _ _ _ _ _ _ _ H eq_refl). stp. rewrite Nat.eqb_refl. stp. apply HQ. fin.
  - kred. kred_in H. kred_in I. unfold to_hole in HQ. cbn [kcells fcells kpar krt kroot] in HQ. unfold fptr in HQ. cbn [finfo] in HQ.
    assert (N : pt fl <> h).
    { assert (H' := H). bring_in (cells (i_ptr fi) false fl) H'. eapply pt_neq'; [exact H'|]. revert I. unfold ptrs. cbn [map fst In]. rewrite !map_app, !in_app_iff. tauto. }
    norm_in H. rewrite (St_nz 0 _ _ _ _ _ _ _ H eq_refl). stp. rewrite (proj2 (Nat.eqb_neq _ _) N). stp. rewrite Nat.eqb_refl. stp. apply HQ. fin.
  - kred. kred_in H. kred_in I. unfold to_hole in HQ. cbn [kcells fcells kpar krt kroot] in HQ. unfold fptr in HQ. cbn [finfo] in HQ.
    assert (N : pt fl <> h).
    { assert (H' := H). bring_in (cells (i_ptr fi) false fl) H'. eapply pt_neq'; [exact H'|]. revert I. unfold ptrs. cbn [map fst In]. rewrite !map_app, !in_app_iff. tauto. }
    assert (N' : pt fr <> h).
    { assert (H' := H). bring_in (cells (i_ptr fi) false fr) H'. eapply pt_neq'; [exact H'|]. revert I. unfold ptrs. cbn [map fst In]. rewrite !map_app, !in_app_iff. tauto. }
    norm_in H. rewrite (St_nz 0 _ _ _ _ _ _ _ H eq_refl). stp. rewrite (proj2 (Nat.eqb_neq _ _) N). stp. rewrite (proj2 (Nat.eqb_neq _ _) N'). stp. apply HQ. fin.
Qed.

Lemma wp_connect' : forall cur c rt i lp rp dp s k R h new n x Q,
  St s (kcells null true k h ++ R) (kroot k h) n x -> In (cur, cell c rt i lp rp (kpar null k) dp) R -> In h (ptrs R) ->
  to_hole s R k new n x Q -> wp (connect_child LRoot cur h new) s Q.
Proof.
  intros cur c rt i lp rp dp s k R h new n x Q H I Ih HQ. apply in_split in I. destruct I as (R1 & R2 & ->).
  eapply (wp_connect s k (R1 ++ R2) h new cur c rt i lp rp dp n x).
  - eapply St_perm; [exact H|perm].
  - revert Ih. unfold ptrs. rewrite map_app. cbn [map fst In]. rewrite map_app, !in_app_iff. cbn [In]. tauto.
  - intros s' H'. apply HQ. eapply St_perm; [exact H'|perm].
Qed.

(** tree.rs:227-250: the part of [insert] after the search *)
Definition lpar k : ptr := match k with FL _ i _ _ :: _ => i_ptr i | FR _ _ i _ :: _ => i_ptr i | _ => null end.
Definition ord_ok k (z : Z) : Prop := match k with FL _ _ _ _ :: _ => (z < 0)%Z | FR _ _ _ _ :: _ => (0 <= z)%Z | _ => True end.
Definition link (target : name) (v : option V) (par up : ptr) (order : Z) (ts : labelslice) : MT V (ptr * option (option V)) :=
  let current_root := if is_null up then LRoot else LDown up in
  add_len 1 ;;
  let! nm := lift (into_label_sequence target (sl_first ts) (sl_last ts)) in
  let! nd := node_new nm v in
  set_parent nd par ;;
  (if is_null par then
     write_loc current_root nd ;; set_color nd Black ;; set_subtree_root nd true ;; set_parent nd up
   else if (order <? 0)%Z then
     set_subtree_root nd false ;; set_left par nd ;; insert_fixup current_root nd
   else
     set_subtree_root nd false ;; set_right par nd ;; insert_fixup current_root nd) ;;
  ret (nd, None).
Lemma rb_plug : forall kl t m, flat kl -> rb (plug kl t) m -> kl = [] \/ col (plug kl t) = Black -> exists n, rb t n /\ kok kl n /\ (kcol kl = Red -> kl <> [] -> col t = Black).
Proof.
  induction kl as [|f kl IH]; intros t m F H C.
  - exists m. repeat split; auto; try constructor. congruence.
  - destruct C as [C|C]; [discriminate|]. inversion F as [|? ? Ff Fk]; subst. cbn [plug fold_left] in H, C. change (fold_left _ kl ?u) with (plug kl u) in H, C.
    destruct (IH (fill f t) m Fk H (or_intror C)) as (n & A & B & D).
    destruct f as [c i d r|c l i d|]; [| |contradiction]; cbn [fill] in A.
    + inversion A; subst; cbn [kcol fcol].
      * eexists. repeat split; [eassumption|constructor; auto|discriminate].
      * exists n. repeat split; auto. constructor; auto. destruct kl as [|g kl]; [cbn in C; discriminate|]. destruct (kcol (g :: kl)) eqn:X; auto. specialize (D eq_refl ltac:(discriminate)). discriminate.
    + inversion A; subst; cbn [kcol fcol].
      * eexists. repeat split; [eassumption|constructor; auto|discriminate].
      * exists n. repeat split; auto. constructor; auto. destruct kl as [|g kl]; [cbn in C; discriminate|]. destruct (kcol (g :: kl)) eqn:X; auto. specialize (D eq_refl ltac:(discriminate)). discriminate.
Qed.
Lemma wp_link : forall s kl k0 n x m target v order ts ls (Q : ptr * option (option V) -> dtree -> Prop),
  inv s (kl ++ k0) E n x -> 0 < x -> flat kl -> krt true k0 = true -> rb (plug kl E) m -> col (plug kl E) = Black -> ord_ok (kl ++ k0) order ->
  into_label_sequence target (sl_first ts) (sl_last ts) = Ok (seqf ls) ->
  (forall s' t' m', inv s' k0 t' (n + 1) (S x) -> elems t' = elems (plug kl (T Red E (mkI x ls v false false) E E)) -> rb t' m' -> col t' = Black -> Q (x, None) s') ->
  wp (link target v (lpar (kl ++ k0)) (kup (kl ++ k0)) order ts) s Q.
Proof.
  intros s kl k0 n x m target v order ts ls Q H X F K R C O HT HQ. unfold link. unfold inv, whole in H. cbn [cells app] in H.
  rewrite (kup_kloc _ _ _ _ _ _ _ H). rewrite kloc_app by exact F.
  apply wp_bind. eapply wp_add_len; [exact H|]. clear H s. intros s H. apply wp_bind. eapply wp_lift; [exact HT|]. apply wp_bind.
  eapply wp_new_cell; [exact H|exact X|]. clear H s. intros s i Ei H.
  assert (Pi : x = i_ptr i) by (subst i; reflexivity). rewrite app_nil_r in H.
  destruct (rb_plug kl E m F R (or_intror C)) as (m0 & RE & Ko & _). assert (m0 = 0) by (inversion RE; reflexivity). subst m0. destruct kl as [|f kl].
  - cbn [app plug fold_left] in *. replace (lpar k0) with null by (destruct k0 as [|[]]; try discriminate; reflexivity).
    stp. cbn [is_null null Nat.eqb]. apply wp_bind. apply wp_bind.
    bring_in (kcells null true k0 (pt (@E V))) HS. eapply wp_write_top; [exact HS|exact K|].
    clear HS. intros s' HS. norm_in HS. stp. stp. stp. stp. rewrite <- Pi.
    eapply (HQ _ (T Black E i E E) 1); [|rewrite <- Ei; reflexivity|repeat constructor|reflexivity].
    unfold inv, whole. cbn [cells pt app]. replace (krt true k0) with true by auto.
    replace (kup k0) with (kpar null k0) in HS0 by (destruct k0 as [|[]]; try discriminate; reflexivity). fin.
  - inversion F as [|? ? Ff Fk]; subst x.
    assert (G : forall s', inv s' ((f :: kl) ++ k0) (T Red E i E E) (n + 1) (S (i_ptr i)) -> wp (insert_fixup (kloc k0) (i_ptr i)) s' (fun _ s1 => Q (i_ptr i, None) s1)).
    { intros s' HI. eapply wp_insert_fixup; [exact HI|exact K|exact Ko|]. intros s1 t' m' A B D D'. eapply HQ; [exact A| |exact D|exact D']. rewrite <- Ei. exact B. }
    destruct f as [c j e u|c u j e|]; [| |contradiction]; cbn [app lpar ord_ok] in *.
    + kred_in H. norm_in H. stp. eqb_step. rewrite (proj2 (Z.ltb_lt _ _) O). apply wp_bind. stp. stp.
      eapply wp_mono; [apply G; fold_inv|]. intros [] s' HQ'. apply wp_ret. exact HQ'.
    + kred_in H. norm_in H. stp. eqb_step. rewrite (proj2 (Z.ltb_ge _ _) O). apply wp_bind. stp. stp.
      eapply wp_mono; [apply G; fold_inv|]. intros [] s' HQ'. apply wp_ret. exact HQ'.
Qed.

(** tree.rs:254-275 *)
Lemma obody_len : forall ls p, length (obody p ls) = length ls.
Proof. induction ls as [|l ls IH]; intros p; cbn; auto. Qed.
Lemma wp_fission : forall s k c l i d r a b n x (Q : unit -> dtree -> Prop),
  inv s k (T c l i d r) n x -> i_labels i = a ++ b -> a <> [] -> b <> [] -> elen (a ++ b) <= 255 ->
  (forall s', inv s' k (T c l (mkI x b None false false) (T Black E (mkI (i_ptr i) a (i_value i) (i_cb i) (i_wild i)) d E) r) (n + 1) (S x) -> Q tt s') ->
  wp (node_fission (i_ptr i) (length b)) s Q.
Proof.
  intros s k c l i d r a b n x Q H EL Na Nb Le HQ. unfold node_fission, split_to_parent. unfold inv, whole in H. cbn [cells pt] in H. norm_in H.
  assert (X : 0 < x). { destruct (holds_nth _ _ 0 _ _ (proj1 H) eq_refl) as [A _]. destruct H as (_ & _ & _ & <-). lia. }
  apply wp_bind. stp. rewrite EL. apply wp_bind. eapply wp_lift; [unfold seqf; cbn [ls_offsets]; rewrite obody_len, app_length; unfold csub; rewrite (proj2 (Nat.leb_le _ _)) by lia; reflexivity|].
  replace (length a + length b - length b) with (length a) by lia.
  rewrite seq_split_spec by exact Le. rewrite app_length, (proj2 (Nat.ltb_lt (length a) _)), (proj2 (Nat.ltb_lt 0 _)); [|destruct b; [congruence|cbn; lia]|destruct b; [congruence|cbn; lia]].
  cbn [andb].
  replace (firstn (length b) (skipn (length a) (a ++ b))) with b by (rewrite skipn_app, skipn_all, Nat.sub_diag; cbn [skipn app]; rewrite firstn_all; reflexivity).
  replace (firstn (length a) (a ++ b) ++ skipn (length a + length b) (a ++ b)) with a.
  2:{ rewrite firstn_app, firstn_all, Nat.sub_diag. cbn [firstn]. rewrite app_nil_r. rewrite <- app_length, skipn_all, app_nil_r. reflexivity. }
  stp. eapply wp_new_cell; [exact HS|exact X|]. clear HS s0. intros s0 u Eu HS.
  remember (mkI (i_ptr i) a (i_value i) (i_cb i) (i_wild i)) as i' eqn:Ei'. assert (Pi : i_ptr i = i_ptr i') by (subst i'; reflexivity).
  assert (Pu : x = i_ptr u) by (subst u; reflexivity). rewrite Pi in *. clear Ei' Pi. rewrite <- Eu in HQ. clear Eu.
  stp. stp. apply wp_bind.
  bring_in (kcells null true k (i_ptr i')) HS0.
  eapply wp_connect'; [exact HS0|right; left; reflexivity|in_ptrs|]. clear HS0. intros s2 HS. norm_in HS.
  stp. stp. stp. stp. reparent l. stp. stp. reparent r. stp. stp. stp. stp. stp. stp. stp. stp.
  eapply wp_add_len; [eassumption|]. intros s' H'. apply HQ. fold_inv.
Qed.
End L.

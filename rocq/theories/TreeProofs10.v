(** Unlinking one node: get_upper_node, exchange, connect_child, remove_fixup. *)
From Coq Require Import Permutation.
From Verif Require Import Base BaseLemmas NameModel TreeModel SpecName SpecOrd SpecScope OrdBase SpecTree TreeProofs PermTac TreeProofs2 TreeProofs3 TreeProofs4
  TreePure TreePure2 TreeProofs9.
Open Scope list_scope.
Open Scope nat_scope.

Ltac reparent0 t :=
  lazymatch goal with
  | |- wp (if is_null _ then _ else set_parent _ _) ?s _ =>
      match goal with H : St s ?L _ _ _ |- _ =>
        let a := find_cells t L in bring_in a H; eapply wp_reparent; [exact H|];
        let s' := fresh "s" in let H' := fresh "HS" in intros s' H'; clear H; norm_in H' end
  end.
Section A.
Context {V : Type} {SC : scope}.
Notation node := (node V). Notation dtree := (dtree V). Notation info := (info V). Notation tree := (tree V).
Notation frame := (@frame V). Notation ctx := (@ctx V).
Implicit Types (s : dtree) (t : tree) (i : info) (p q : ptr) (L R : list (ptr * node)) (k kl kr : ctx) (f : frame).

Lemma wp_subroot : forall kl fuel s k0 c l i d r n x (Q : ptr -> dtree -> Prop), length kl < fuel -> flat kl -> krt true k0 = true -> inv s (kl ++ k0) (T c l i d r) n x ->
  Q (kpar null k0) s -> wp (let! r := subtree_root fuel (i_ptr i) in get_parent r) s Q.
Proof.
  induction kl as [|f kl IH]; intros fuel s k0 c l i d r n x Q Fu F K H HQ; destruct fuel as [|fuel]; try (cbn in Fu; lia); cbn [subtree_root].
  - cbn [app] in H. apply wp_bind. unfold inv, whole in H. cbn [cells pt] in H. norm_in H. stp. rewrite K. stp. stp. exact HQ.
  - apply wp_bind. apply wp_bind.
    assert (G : wp (is_subtree_root (i_ptr i)) s (fun a s1 => a = false /\ s1 = s)).
    { assert (H' := H). unfold inv, whole in H'. cbn [cells pt] in H'. norm_in H'. stp. inversion F; subst. destruct f; auto; contradiction. }
    eapply wp_mono; [exact G|]. clear G. intros a s1 [-> ->]. cbv iota. apply wp_bind.
    assert (G : wp (get_parent (i_ptr i)) s (fun a s1 => a = fptr f /\ s1 = s)).
    { assert (H' := H). unfold inv, whole in H'. cbn [cells pt] in H'. norm_in H'. stp. auto. }
    eapply wp_mono; [exact G|]. clear G. intros a s1 [-> ->].
    cbn [app] in H. apply inv_fill in H. inversion F as [|? ? Ff Fk]; subst.
    assert (G : wp (let! r := subtree_root fuel (fptr f) in get_parent r) s Q).
    { destruct f as [c1 j e u|c1 u j e|]; [| |contradiction]; cbn [fill] in H; unfold fptr; cbn [finfo]; (eapply IH; [cbn in Fu; lia|exact Fk|exact K|exact H|exact HQ]). }
    apply wp_bind_inv in G. exact G.
Qed.
Lemma fuel_kl : forall s kl k0 t n x, inv s (kl ++ k0) t n x -> 0 < x -> length kl < S (dt_next s).
Proof.
  intros s kl k0 t n x H X. destruct (St_len _ _ _ _ _ H) as [Y|[Y _]].
  - unfold whole in Y. rewrite app_length in Y. destruct H as (_ & _ & _ & ->). pose proof (kcells_len (kl ++ k0) null true (pt t)) as Z. rewrite app_length in Z. lia.
  - unfold whole in Y. apply app_eq_nil in Y. destruct Y as [Y _]. pose proof (kcells_len (kl ++ k0) null true (pt t)) as Z. rewrite Y, app_length in Z. cbn in Z. lia.
Qed.
Lemma inv_pos : forall s k c l i d r n x, inv s k (T c l i d r) n x -> 0 < x /\ dt_next s = x.
Proof. intros s k c l i d r n x H. unfold inv, whole in H. cbn [cells pt] in H. norm_in H. destruct (holds_nth _ _ 0 _ _ (proj1 H) eq_refl) as [A _]. destruct H as (_ & _ & _ & <-). split; auto. lia. Qed.
Lemma wp_upper : forall kl s k0 c l i d r n x (Q : ptr -> dtree -> Prop), flat kl -> krt true k0 = true -> inv s (kl ++ k0) (T c l i d r) n x ->
  Q (kpar null k0) s -> wp (get_upper_node (i_ptr i)) s Q.
Proof.
  intros kl s k0 c l i d r n x Q F K H HQ. unfold get_upper_node. apply wp_fun with (m := fun s => _). eapply wp_subroot; eauto. eapply fuel_kl; [exact H|]. apply (inv_pos _ _ _ _ _ _ _ _ _ H).
Qed.

(** right spines *)
Definition spine kr := Forall (fun f => match f with FR _ _ _ _ => True | _ => False end) kr.
Lemma spine_flat : forall kr, spine kr -> flat kr.
Proof. intros kr H. eapply Forall_impl; [|exact H]. intros [] X; auto; exact I. Qed.
Lemma spine_right : forall kr, spine kr -> kright kr = [].
Proof. induction 1 as [|f kr X _ IH]; auto. destruct f; try contradiction. exact IH. Qed.
Lemma wp_rightmost : forall fuel s k t n x (Q : ptr -> dtree -> Prop), t <> E -> count t < fuel -> inv s k t n x ->
  (forall kr c b j e, spine kr -> t = plug kr (T c b j e E) -> Q (i_ptr j) s) -> wp (rightmost fuel (pt t)) s Q.
Proof.
  induction fuel as [|fuel IH]; intros s k t n x Q N Fu H HQ; [lia|]. destruct t as [|c l i d r]; [congruence|]. cbn [rightmost]. apply wp_bind.
  assert (G : wp (get_right (pt (T c l i d r))) s (fun a s1 => a = pt r /\ s1 = s)).
  { assert (H' := H). unfold inv, whole in H'. cbn [cells pt] in H'. norm_in H'. cbn [pt]. stp. auto. }
  eapply wp_mono; [exact G|]. clear G. intros a s1 [-> ->].
  destruct r as [|c' l' i' d' r'] eqn:Er.
  - cbn [pt]. change (is_null null) with true. cbv iota. apply wp_ret. apply (HQ [] c l i d); [constructor|reflexivity].
  - rewrite <- Er in *. assert (NZ : is_null (pt r) = false). { assert (H' := H). rewrite Er in H'. unfold inv, whole in H'. cbn [cells pt] in H'. norm_in H'. rewrite Er. cbn [pt]. eqb_step. reflexivity. }
    rewrite NZ. change (T c l i d r) with (fill (FR c l i d) r) in H. apply inv_fill in H.
    eapply IH; [rewrite Er; discriminate|cbn [count] in Fu; lia|exact H|].
    intros kr cb b j e S1 E1. apply (HQ (kr ++ [FR c l i d]) cb b j e); [apply Forall_app; split; auto; constructor; auto; exact I|]. rewrite plug_app, <- E1. reflexivity.
Qed.

(** the parent pointer of the topmost node of a context *)
Lemma wp_reparent_k : forall kr f s q R h root n x q' (Q : unit -> dtree -> Prop), St s (kcells q false (kr ++ [f]) h ++ R) root n x ->
  (forall s', St s' (kcells q' false (kr ++ [f]) h ++ R) root n x -> Q tt s') -> wp (if is_null (kroot (kr ++ [f]) h) then ret tt else set_parent (kroot (kr ++ [f]) h) q') s Q.
Proof.
  intros kr f s q R h root n x q' Q H HQ. rewrite kroot_app. cbn [kroot]. rewrite kcells_app in *. cbn [kcells kpar krt] in *. unfold fptr in *.
  destruct f as [c i d r|c l i d|c l i r]; cbn [finfo fcells krt kpar] in *; norm_in H; eqb_step; stp; apply HQ; fin.
Qed.
(** the memory while [i] waits to be unlinked: [i] sits in the hole of [k] with one child [b], whose parent pointer is [pb] *)
Definition hung s k (c : color) i (lp rp : ptr) (b : tree) (pb : ptr) n x : Prop :=
  St s (kcells null true k (i_ptr i) ++ (i_ptr i, cell c (krt true k) i lp rp (kpar null k) null) :: cells pb false b) (kroot k (i_ptr i)) n x.

Lemma kcells_cons : forall f k bp br h, kcells bp br (f :: k) h = fcells (kpar bp k) (krt br k) f h ++ kcells bp br k (fptr f).
Proof. reflexivity. Qed.
(** node.rs:241-276 *)
Lemma wp_exchange : forall s k kr c i r c2 b j e n x (Q : unit -> dtree -> Prop), spine kr -> r <> E ->
  inv s k (T c (plug kr (T c2 b j e E)) i E r) n x ->
  (forall s', hung s' (kr ++ FL c j e r :: k) c2 i (pt b) null b (i_ptr j) n x -> Q tt s') ->
  wp (exchange (i_ptr i) (i_ptr j) LRoot) s Q.
Proof.
  intros s k kr c i r c2 b j e n x Q SP Nr H HQ. unfold hung in HQ.
  destruct kr as [|f kr].
  - cbn [plug fold_left app] in *. unfold inv, whole in H. cbn [cells pt app] in H. norm_in H. kred_in HQ. unfold exchange.
    run2.
    lazymatch goal with |- wp _ ?s0 _ => match goal with H : St s0 _ _ _ _ |- _ => bring_in (kcells null true k (i_ptr i)) H; eapply (wp_connect' (i_ptr j)); [exact H|right; left; reflexivity|in_ptrs|]; clear H end end.
    intros s' HS. norm_in HS. run2. reparent0 r. run2. apply HQ. fin.
  - inversion SP as [|? ? Ff SP']; subst. destruct f as [|cf lf g df|]; try contradiction.
    apply (inv_fill s k (FL c i E r)) in H. apply (proj1 (inv_plug _ _ _ _ _ _)) in H. unfold inv, whole in H.
    rewrite kcells_app, kroot_app in H. cbn [pt cells] in H. cbn [app] in H. 
    change (kpar null (FL c i E r :: k)) with (i_ptr i) in H. change (krt true (FL c i E r :: k)) with false in H.
    set (g0 := kroot (FR cf lf g df :: kr) (i_ptr j)) in H.
    assert (Eg : g0 = kroot kr (i_ptr g)) by reflexivity.
    assert (G1 : g0 <> i_ptr j).
    { intro X. eapply St_disj; [exact H| |left; reflexivity]. rewrite <- X. rewrite ptrs_app, in_app_iff. left. apply kroot_in. }
    rewrite kcells_cons in H. kred_in H. norm_in H. unfold exchange. run2.
    rewrite (proj2 (Nat.eqb_neq _ _) G1). cbv iota. run2.
    lazymatch goal with |- wp _ ?s0 _ => match goal with H : St s0 _ _ _ _ |- _ => bring_in (kcells null true k (i_ptr i)) H; eapply (wp_connect' (i_ptr j)); [exact H|right; right; left; reflexivity|in_ptrs|]; clear H end end.
    intros s' HS. norm_in HS. run2. reparent0 r. run2.
    assert (EG : g0 = kroot (FR cf lf g df :: kr) (i_ptr i)) by reflexivity.
    lazymatch goal with |- wp _ ?s0 _ => match goal with H : St s0 _ _ _ _ |- _ => rename H into HX; rename s0 into sx end end.
    destruct (exists_last (l := FR cf lf g df :: kr) ltac:(discriminate)) as (kr1 & f1 & EK).
    assert (HY : St sx (kcells (i_ptr i) false (kr1 ++ [f1]) (i_ptr i) ++ ((i_ptr i, cell c2 false i (pt b) null (i_ptr g) null) :: cells (i_ptr j) false b) ++
       (i_ptr j, cell c (krt true k) j g0 (pt r) (kpar null k) (pt e)) :: cells (i_ptr j) true e ++ cells (i_ptr j) false r ++ kcells null true k (i_ptr j)) (kroot k (i_ptr j)) n x).
    { rewrite <- EK, kcells_cons. kred. fin. }
    rewrite EG, EK. eapply wp_reparent_k; [exact HY|]. clear HX HY; intros sz HZ. apply HQ. rewrite kcells_app, kroot_app. change (kpar null (FL c j e r :: k)) with (i_ptr j). change (krt true (FL c j e r :: k)) with false.
    rewrite EK in *. kred. rewrite <- EG. rewrite <- EK at 2 3. change (krt true ((FR cf lf g df :: kr) ++ FL c j e r :: k)) with false. change (kpar null ((FR cf lf g df :: kr) ++ FL c j e r :: k)) with (i_ptr g). fin.
Qed.

(** tree.rs:374-403: the part of the loop of [remove_node] between [exchange] and the length update *)
Definition splice (nd up : ptr) : MT V unit :=
  let! r := get_right nd in
  let! child := (if is_null r then get_left nd else get_right nd) in
  connect_child LRoot nd nd child ;;
  (if is_null child then ret tt
   else
     let! par := get_parent nd in
     set_parent child par ;;
     let! cp := get_parent child in
     let! top := (if is_null cp then ret true else let! d := get_down cp in ret (d =? child)) in
     if top : bool then let! b := is_subtree_root nd in set_subtree_root child b else ret tt) ;;
  let! nb := is_black nd in
  (if nb : bool then
     let! cred := (if is_null child then ret false else is_red child) in
     if cred : bool then set_color child Black
     else
       let current_root := if is_null up then LRoot else LDown up in
       let! par := get_parent nd in
       (fun s => remove_fixup (S (dt_next s)) current_root child par s)
   else ret tt).
Lemma kup_app : forall kl k0, flat kl -> kup (kl ++ k0) = kup k0.
Proof. induction 1 as [|[] kl F _ IH]; cbn in *; auto; contradiction. Qed.
Lemma kup_top : forall k0, krt true k0 = true -> kup k0 = kpar null k0.
Proof. intros [|[] k0] H; try discriminate; reflexivity. Qed.

Lemma wp_splice : forall s kl k0 c i lp rp b pb mb n x (Q : unit -> dtree -> Prop),
  hung s (kl ++ k0) c i lp rp b pb n x -> (lp = pt b /\ rp = null) \/ (lp = null /\ rp = pt b) -> krt true k0 = true ->
  rb b mb -> (c = Red -> col b = Black) -> kok kl (colS c mb) ->
  (forall s' t' m', inv s' k0 t' n x -> elems t' = elems (plug kl b) -> rb t' m' -> col t' = Black -> Q tt s') ->
  wp (splice (i_ptr i) (kpar null k0)) s Q.
Proof.
  intros s kl k0 c i lp rp b pb mb n x Q H LR K Rb Cb Ko HQ. pose proof (kok_flat _ _ Ko) as F. unfold splice. unfold hung in H.
  assert (BN : b <> E -> is_null (pt b) = false).
  { intro N. destruct b as [|cb bl bi bd br]; [congruence|]. cbn [cells] in H. norm_in H. cbn [pt]. apply (St_nz 1 _ _ _ _ _ _ _ H eq_refl). }
  assert (G : forall P : ptr -> dtree -> Prop, P (pt b) s -> wp (let! r := get_right (i_ptr i) in if is_null r then get_left (i_ptr i) else get_right (i_ptr i)) s P).
  { intros P HP. norm_in H. stp. destruct LR as [[-> ->]|[-> ->]].
    - change (is_null null) with true. cbv iota. stp. exact HP.
    - destruct b as [|cb bl bi bd br]; [change (is_null (pt E)) with true; cbv iota; stp; exact HP|]. rewrite (BN ltac:(discriminate)). stp. exact HP. }
  assert (G2 : forall B (f : ptr -> MT V B) QQ, wp (f (pt b)) s QQ -> wp (let! r := get_right (i_ptr i) in let! child := (if is_null r then get_left (i_ptr i) else get_right (i_ptr i)) in f child) s QQ).
  { intros B f QQ HB. specialize (G (fun a s1 => wp (f a) s1 QQ) HB). apply wp_bind_inv in G. apply wp_bind. eapply wp_mono; [exact G|]. intros r0 s0 G0. apply wp_bind. exact G0. }
  clear G. apply G2. clear G2.
  (* connect the child *)
  apply wp_bind. eapply (wp_connect' (i_ptr i)); [exact H|left; reflexivity|left; reflexivity|]. intros s1 H1. clear H s. rename s1 into s, H1 into H.
  apply wp_bind.
  (* parent and flag of the child *)
  eapply wp_mono with (Q := fun _ s' => St s' (kcells null true (kl ++ k0) (pt b) ++ (i_ptr i, cell c (krt true (kl ++ k0)) i lp rp (kpar null (kl ++ k0)) null) :: cells (kpar null (kl ++ k0)) (krt true (kl ++ k0)) b) (kroot (kl ++ k0) (pt b)) n x).
  { destruct b as [|cb bl bi bd br].
    { cbn [pt]. change (is_null null) with true. cbv iota. apply wp_ret. exact H. }
    rewrite (BN ltac:(discriminate)). cbn [pt cells] in *. clear BN. revert H. generalize (kl ++ k0) as k. intros k H.
    destruct k as [|[kc ki kd kr|kc kl' ki kd|kc kl' ki kr] k]; kred_in H; norm_in H; run2; [..|]; kred; try fin. }
  clear H s. intros [] s H.
  assert (HI : inv s (kl ++ k0) b n x).
  { unfold inv, whole. eapply St_drop with (L' := [(i_ptr i, cell c (krt true (kl ++ k0)) i lp rp (kpar null (kl ++ k0)) null)]). eapply St_perm; [exact H|perm]. }
  apply wp_bind. assert (G : wp (is_black (i_ptr i)) s (fun a s1 => a = blackb c /\ s1 = s)) by (norm_in H; stp; auto).
  eapply wp_mono; [exact G|]. clear G. intros a s1 [-> ->]. destruct c; cbn [blackb colS] in *.
  - apply wp_ret. destruct (kok_plug0 _ _ _ Ko Rb (Cb eq_refl)) as (m' & A & B). eapply HQ; [apply inv_plug; exact HI|reflexivity|exact A|exact B].
  - apply wp_bind.
    assert (G : wp (if is_null (pt b) then ret false else is_red (pt b)) s (fun a s1 => a = redb (col b) /\ s1 = s)).
    { assert (H' := HI). unfold inv, whole in H'. clear H. colstep. auto. }
    eapply wp_mono; [exact G|]. clear G. intros a s1 [-> ->]. destruct (col b) eqn:C0; cbn [redb].
    + destruct b as [|cb bl bi bd br]; [discriminate|]. cbn [col] in C0. subst cb. destruct (rb_red _ _ _ _ _ Rb) as (R1 & R2 & _ & _). clear H.
      unfold inv, whole in HI. cbn [pt cells] in *. norm_in HI. stp. assert (HJ : inv s0 (kl ++ k0) (T Black bl bi bd br) n x) by fold_inv.
      assert (RB : rb (T Black bl bi bd br) (S mb)) by (constructor; auto).
      destruct (kok_plug0 _ _ _ Ko RB eq_refl) as (m' & A & B). eapply HQ; [apply inv_plug; exact HJ| |exact A|exact B]. apply elems_plug; auto.
    + cbv zeta. apply wp_bind. assert (G : wp (get_parent (i_ptr i)) s (fun a s1 => a = kpar null (kl ++ k0) /\ s1 = s)) by (norm_in H; stp; auto).
      eapply wp_mono; [exact G|]. clear G. intros a s1 [-> ->]. apply wp_fun with (m := fun s => _).
      assert (KU : (if is_null (kpar null k0) then LRoot else LDown (kpar null k0)) = kloc k0).
      { rewrite <- (kup_top _ K), <- (kup_app kl k0 F), <- (kloc_app kl k0 F). eapply kup_kloc. exact H. }
      rewrite KU. assert (X0 : 0 < x). { norm_in H. destruct (holds_nth _ _ 0 _ _ (proj1 H) eq_refl) as [A _]. destruct H as (_ & _ & _ & <-). lia. }
      eapply wp_rfix; [eapply fuel_kl; [exact HI|exact X0]|exact HI|exact K|exact Rb|exact C0|exact Ko|exact HQ].
Qed.
End A.

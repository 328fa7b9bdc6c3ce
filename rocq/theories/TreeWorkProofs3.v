(** Proof of C102 for [remove]: the number of passes of its loops. *)
From Coq Require Import ZArith Lia Permutation.
From Verif Require Import Base BaseLemmas NameModel TreeModel SpecName SpecOrd SpecScope SpecTree SpecHist SpecTreeWork OrdBase TreeProofs PermTac TreeProofs2 TreeProofs3 TreeProofs4
  NameWireProofs NameOpsProofs NameOpsProofs2 NameCmpProofs NameCmpProofs2 TreePure TreePure2 TreeProofs5 TreeProofs6 TreeProofs7 TreeProofs8 TreeProofs9 TreeProofs10 TreeProofs11 TreeProofs12 TreeProofs13 TreeProofs14 TreeProofs15 TreeProofs16 TreeProofs17 TreeWorkProofs TreeWorkProofs2.
Open Scope list_scope.
Open Scope nat_scope.

Section A.
Context {V : Type} {SC : scope}.
Notation node := (node V). Notation dtree := (dtree V). Notation info := (info V). Notation tree := (tree V).
Notation frame := (@frame V). Notation ctx := (@ctx V).
Implicit Types (s : dtree) (t : tree) (i : info) (p q : ptr) (L R : list (ptr * node)) (k kl kr : ctx) (f : frame).

Lemma ssh_height : forall t t', ssh t t' -> height t = height t'.
Proof. induction 1 as [|c l i d r l' i' d' r' A IHA B IHB]; cbn [height]; congruence. Qed.
Lemma wp_rightmost2 : forall fuel s k t n x (Q : ptr -> dtree -> Prop), t <> E -> height t <= fuel -> inv s k t n x ->
  (forall kr c b j e, spine kr -> t = plug kr (T c b j e E) -> Q (i_ptr j) s) -> wp (rightmost fuel (pt t)) s Q.
Proof.
  induction fuel as [|fuel IH]; intros s k t n x Q N Fu H HQ; [destruct t; [congruence|cbn in Fu; lia]|]. destruct t as [|c l i d r]; [congruence|]. cbn [rightmost]. apply wp_bind.
  assert (G : wp (get_right (pt (T c l i d r))) s (fun a s1 => a = pt r /\ s1 = s)).
  { assert (H' := H). unfold inv, whole in H'. cbn [cells pt] in H'. norm_in H'. cbn [pt]. stp. auto. }
  eapply wp_mono; [exact G|]. clear G. intros a s1 [-> ->].
  destruct r as [|c' l' i' d' r'] eqn:Er.
  - cbn [pt]. change (is_null null) with true. cbv iota. apply wp_ret. apply (HQ [] c l i d); [constructor|reflexivity].
  - rewrite <- Er in *. assert (NZ : is_null (pt r) = false). { assert (H' := H). rewrite Er in H'. unfold inv, whole in H'. cbn [cells pt] in H'. norm_in H'. rewrite Er. cbn [pt]. eqb_step. reflexivity. }
    rewrite NZ. change (T c l i d r) with (fill (FR c l i d) r) in H. apply inv_fill in H.
    eapply IH; [rewrite Er; discriminate|cbn [height] in Fu; lia|exact H|].
    intros kr cb b j e S1 E1. apply (HQ (kr ++ [FR c l i d]) cb b j e); [apply Forall_app; split; auto; constructor; auto; exact I|]. rewrite plug_app, <- E1. reflexivity.
Qed.

Definition splice2 (ku : nat) (nd up : ptr) : MT V unit :=
  let! r := get_right nd in
  let! child := (if is_null r then get_left nd else get_right nd) in
  connect_child LRoot nd nd child ;;
  (if is_null child then ret tt
   else
     let! par := get_parent nd in
     set_parent child par ;;
     let! cp := get_parent child in
     let! top := (if is_null cp then ret true else let! d := get_down cp in ret (d =? child)) in
     if top : bool then let! b := is_subtree_root nd in set_subtree_root child b else ret tt) ;;
  let! nb := is_black nd in
  (if nb : bool then
     let! cred := (if is_null child then ret false else is_red child) in
     if cred : bool then set_color child Black
     else
       let current_root := if is_null up then LRoot else LDown up in
       let! par := get_parent nd in
       remove_fixup ku current_root child par
   else ret tt).
Lemma wp_splice2 : forall ku s kl k0 c i lp rp b pb mb n x (Q : unit -> dtree -> Prop),
  hung s (kl ++ k0) c i lp rp b pb n x -> (lp = pt b /\ rp = null) \/ (lp = null /\ rp = pt b) -> krt true k0 = true ->
  rb b mb -> (c = Red -> col b = Black) -> kok kl (colS c mb) -> length kl < ku ->
  (forall s' t' m', inv s' k0 t' n x -> elems t' = elems (plug kl b) -> rb t' m' -> col t' = Black -> Q tt s') ->
  wp (splice2 ku (i_ptr i) (kpar null k0)) s Q.
Proof.
  intros ku s kl k0 c i lp rp b pb mb n x Q H LR K Rb Cb Ko LK HQ. pose proof (kok_flat _ _ Ko) as F. unfold splice2. unfold hung in H.
  assert (BN : b <> E -> is_null (pt b) = false).
  { intro N. destruct b as [|cb bl bi bd br]; [congruence|]. cbn [cells] in H. norm_in H. cbn [pt]. apply (St_nz 1 _ _ _ _ _ _ _ H eq_refl). }
  assert (G : forall P : ptr -> dtree -> Prop, P (pt b) s -> wp (let! r := get_right (i_ptr i) in if is_null r then get_left (i_ptr i) else get_right (i_ptr i)) s P).
  { intros P HP. norm_in H. stp. destruct LR as [[-> ->]|[-> ->]].
    - change (is_null null) with true. cbv iota. stp. exact HP.
    - destruct b as [|cb bl bi bd br]; [change (is_null (pt E)) with true; cbv iota; stp; exact HP|]. rewrite (BN ltac:(discriminate)). stp. exact HP. }
  assert (G2 : forall B (f : ptr -> MT V B) QQ, wp (f (pt b)) s QQ -> wp (let! r := get_right (i_ptr i) in let! child := (if is_null r then get_left (i_ptr i) else get_right (i_ptr i)) in f child) s QQ).
  { intros B f QQ HB. specialize (G (fun a s1 => wp (f a) s1 QQ) HB). apply wp_bind_inv in G. apply wp_bind. eapply wp_mono; [exact G|]. intros r0 s0 G0. apply wp_bind. exact G0. }
  clear G. apply G2. clear G2.
  (* connect the child *)
  apply wp_bind. eapply (wp_connect' (i_ptr i)); [exact H|left; reflexivity|left; reflexivity|]. intros s1 H1. clear H s. rename s1 into s, H1 into H.
  apply wp_bind.
  (* parent and flag of the child *)
  eapply wp_mono with (Q := fun _ s' => St s' (kcells null true (kl ++ k0) (pt b) ++ (i_ptr i, cell c (krt true (kl ++ k0)) i lp rp (kpar null (kl ++ k0)) null) :: cells (kpar null (kl ++ k0)) (krt true (kl ++ k0)) b) (kroot (kl ++ k0) (pt b)) n x).
  { destruct b as [|cb bl bi bd br].
    { cbn [pt]. change (is_null null) with true. cbv iota. apply wp_ret. exact H. }
    rewrite (BN ltac:(discriminate)). cbn [pt cells] in *. clear BN. revert H. generalize (kl ++ k0) as k. intros k H.
    destruct k as [|[kc ki kd kr|kc kl' ki kd|kc kl' ki kr] k]; kred_in H; norm_in H; run2; [..|]; kred; try fin. }
  clear H s. intros [] s H.
  assert (HI : inv s (kl ++ k0) b n x).
  { unfold inv, whole. eapply St_drop with (L' := [(i_ptr i, cell c (krt true (kl ++ k0)) i lp rp (kpar null (kl ++ k0)) null)]). eapply St_perm; [exact H|perm]. }
  apply wp_bind. assert (G : wp (is_black (i_ptr i)) s (fun a s1 => a = blackb c /\ s1 = s)) by (norm_in H; stp; auto).
  eapply wp_mono; [exact G|]. clear G. intros a s1 [-> ->]. destruct c; cbn [blackb colS] in *.
  - apply wp_ret. destruct (kok_plug0 _ _ _ Ko Rb (Cb eq_refl)) as (m' & A & B). eapply HQ; [apply inv_plug; exact HI|reflexivity|exact A|exact B].
  - apply wp_bind.
    assert (G : wp (if is_null (pt b) then ret false else is_red (pt b)) s (fun a s1 => a = redb (col b) /\ s1 = s)).
    { assert (H' := HI). unfold inv, whole in H'. clear H. colstep. auto. }
    eapply wp_mono; [exact G|]. clear G. intros a s1 [-> ->]. destruct (col b) eqn:C0; cbn [redb].
    + destruct b as [|cb bl bi bd br]; [discriminate|]. cbn [col] in C0. subst cb. destruct (rb_red _ _ _ _ _ Rb) as (R1 & R2 & _ & _). clear H.
      unfold inv, whole in HI. cbn [pt cells] in *. norm_in HI. stp. assert (HJ : inv s0 (kl ++ k0) (T Black bl bi bd br) n x) by fold_inv.
      assert (RB : rb (T Black bl bi bd br) (S mb)) by (constructor; auto).
      destruct (kok_plug0 _ _ _ Ko RB eq_refl) as (m' & A & B). eapply HQ; [apply inv_plug; exact HJ| |exact A|exact B]. apply elems_plug; auto.
    + cbv zeta. apply wp_bind. assert (G : wp (get_parent (i_ptr i)) s (fun a s1 => a = kpar null (kl ++ k0) /\ s1 = s)) by (norm_in H; stp; auto).
      eapply wp_mono; [exact G|]. clear G. intros a s1 [-> ->].
      assert (KU : (if is_null (kpar null k0) then LRoot else LDown (kpar null k0)) = kloc k0).
      { rewrite <- (kup_top _ K), <- (kup_app kl k0 F), <- (kloc_app kl k0 F). eapply kup_kloc. exact H. }
      rewrite KU. assert (X0 : 0 < x). { norm_in H. destruct (holds_nth _ _ 0 _ _ (proj1 H) eq_refl) as [A _]. destruct H as (_ & _ & _ & <-). lia. }
      eapply wp_rfix; [exact LK|exact HI|exact K|exact Rb|exact C0|exact Ko|exact HQ].
Qed.
Definition unlink2 (ku : nat) (nd up : ptr) : MT V unit :=
  let! l := get_left nd in
  let! two := (if is_null l then ret false else let! r := get_right nd in ret (negb (is_null r))) in
  (if two : bool then
     let! l := get_left nd in
     let! rm := rightmost ku l in
     exchange nd rm LRoot
   else ret tt) ;; splice2 ku nd up.
Lemma loop_unfold2 : forall ku fuel nd s Q, wp (upper_within ku nd) s (fun up s1 => wp (unlink2 ku nd up) s1 (fun _ s2 => wp (rest (remove_loop_within (V := V) ku fuel) up) s2 Q)) -> wp (remove_loop_within ku (S fuel) nd) s Q.
Proof.
  intros ku fuel nd s Q H. cbn [remove_loop_within]. apply wp_bind. eapply wp_mono; [exact H|]. clear H. intros up s1 H. cbn beta in H. unfold unlink2, splice2 in H.
  repeat (lazymatch type of H with
          | wp (bind _ _) _ _ => apply wp_bind_inv in H; apply wp_bind; eapply wp_mono; [exact H|]; clear H; let a := fresh "a" in let s := fresh "s" in intros a s H; cbn beta in H
          end).
  apply wp_bind. eapply wp_mono; [exact H|]. clear H. intros ? ? H. exact H.
Qed.

Lemma wp_unlink2 : forall ku s kl k0 c l i r m n x (Q : unit -> dtree -> Prop), flat kl -> krt true k0 = true ->
  inv s (kl ++ k0) (T c l i E r) n x -> rb (plug kl (T c l i E r)) m -> col (plug kl (T c l i E r)) = Black -> height (plug kl (T c l i E r)) <= ku ->
  (forall s' t' m', inv s' k0 t' n x -> elems t' = kleft kl ++ elems l ++ elems r ++ kright kl -> rb t' m' -> col t' = Black -> Q tt s') ->
  wp (unlink2 ku (i_ptr i) (kpar null k0)) s Q.
Proof.
  intros ku s kl k0 c l i r m n x Q F K H RB CB HK HQ. unfold unlink2. pose proof (kl_height kl (T c l i E r) F) as KH. cbn [height] in KH.
  destruct (rb_plug kl _ m F RB (or_intror CB)) as (h & R0 & Ko & Cc).
  destruct l as [|cl ll il dl rl].
  - (* no left child *)
    assert (HU : hung s (kl ++ k0) c i null (pt r) r (i_ptr i) n x).
    { unfold hung. unfold inv, whole in H. cbn [cells pt] in H. fin. }
    assert (G : wp (get_left (i_ptr i)) s (fun a s1 => a = null /\ s1 = s)) by (unfold inv, whole in H; cbn [cells pt] in H; norm_in H; stp; auto).
    apply wp_bind. eapply wp_mono; [exact G|]. clear G. intros a s1 [-> ->]. change (is_null null) with true. cbv iota. apply wp_bind. apply wp_ret. cbv iota. apply wp_bind. apply wp_ret.
    inversion R0; subst.
    + match goal with X : rb E _ |- _ => inversion X; subst end.
      eapply wp_splice2; [exact HU|right; auto|exact K|eassumption|discriminate|exact Ko|lia|]. intros s' t' m' A B. apply HQ; auto. rewrite B, elems_plug_eq by exact F. reflexivity.
    + match goal with X : rb E _ |- _ => inversion X; subst end.
      eapply wp_splice2; [exact HU|right; auto|exact K|eassumption|auto|exact Ko|lia|]. intros s' t' m' A B. apply HQ; auto. rewrite B, elems_plug_eq by exact F. reflexivity.
  - remember (T cl ll il dl rl) as l eqn:El. assert (Nl : l <> E) by (rewrite El; discriminate).
    assert (NZ : is_null (pt l) = false). { rewrite El in *. unfold inv, whole in H. cbn [cells pt] in H. norm_in H. cbn [pt]. eqb_step. reflexivity. }
    assert (G : wp (get_left (i_ptr i)) s (fun a s1 => a = pt l /\ s1 = s)) by (unfold inv, whole in H; cbn [cells pt] in H; norm_in H; stp; auto).
    apply wp_bind. eapply wp_mono; [exact G|]. intros a s1 [-> ->]. rewrite NZ. 
    assert (G2 : wp (get_right (i_ptr i)) s (fun a s1 => a = pt r /\ s1 = s)) by (unfold inv, whole in H; cbn [cells pt] in H; norm_in H; stp; auto).
    apply wp_bind. apply wp_bind. eapply wp_mono; [exact G2|]. intros a s1 [-> ->]. apply wp_ret.
    destruct r as [|cr lr ir dr rr].
    + (* no right child *)
      change (negb (is_null (pt E))) with false. cbv iota. apply wp_bind. apply wp_ret.
      assert (HU : hung s (kl ++ k0) c i (pt l) null l (i_ptr i) n x).
      { unfold hung. unfold inv, whole in H. cbn [cells pt] in H. fin. }
      inversion R0; subst; match goal with X : rb E _ |- _ => inversion X; subst end.
      * eapply wp_splice2; [exact HU|left; auto|exact K|eassumption|discriminate|exact Ko|lia|]. intros s' t' m' A B. apply HQ; auto. rewrite B, elems_plug_eq by exact F. reflexivity.
      * eapply wp_splice2; [exact HU|left; auto|exact K|eassumption|auto|exact Ko|lia|]. intros s' t' m' A B. apply HQ; auto. rewrite B, elems_plug_eq by exact F. reflexivity.
    + remember (T cr lr ir dr rr) as r eqn:Er. assert (Nr : r <> E) by (rewrite Er; discriminate).
      assert (NZ2 : is_null (pt r) = false). { rewrite Er in *. unfold inv, whole in H. cbn [cells pt] in H. norm_in H. cbn [pt]. eqb_step. reflexivity. }
      rewrite NZ2. cbn [negb]. cbv iota. apply wp_bind. apply wp_bind. eapply wp_mono; [exact G|]. intros a s1 [-> ->]. apply wp_bind.
      destruct (inv_pos _ _ _ _ _ _ _ _ _ H) as [X0 NX].
      eapply (wp_rightmost2 _ s (FL c i E r :: kl ++ k0) l n x); [exact Nl|lia|apply inv_fill; exact H|].
      intros kr c2 b j e SP EL. rewrite EL in H. eapply wp_exchange; [exact SP|exact Nr|exact H|]. clear H G G2 s NX. intros s HU.
      change (kr ++ FL c j e r :: kl ++ k0) with (kr ++ (FL c j e r :: kl) ++ k0) in HU. rewrite app_assoc in HU.
      assert (FK : flat (kr ++ FL c j e r :: kl)) by (apply Forall_app; split; [apply spine_flat; exact SP|constructor; [exact I|exact F]]).
      assert (SS : ssh (plug kl (T c l i E r)) (plug (kr ++ FL c j e r :: kl) (T c2 b i E E))).
      { rewrite plug_app. cbn [plug fold_left fill]. apply ssh_plug; [exact F|]. constructor; [|apply ssh_refl]. rewrite EL. apply ssh_plug; [apply spine_flat; exact SP|]. constructor; apply ssh_refl. }
      assert (LK2 : length (kr ++ FL c j e r :: kl) < ku) by (rewrite (ssh_height _ _ SS) in HK; pose proof (kl_height _ (T c2 b i E E) FK) as KH2; cbn [height] in KH2; lia).
      pose proof (ssh_rb _ _ SS _ RB) as RB2. rewrite (ssh_col _ _ SS) in CB.
      destruct (rb_plug _ _ m FK RB2 (or_intror CB)) as (h2 & R2 & Ko2 & _).
      assert (EQ : elems (plug (kr ++ FL c j e r :: kl) b) = kleft kl ++ elems l ++ elems r ++ kright kl).
      { rewrite plug_app. cbn [plug fold_left fill]. change (fold_left _ kl ?u) with (plug kl u). change (fold_left _ kr ?u) with (plug kr u). rewrite elems_plug_eq by exact F. cbn [elems]. rewrite EL, !elems_plug_eq by (apply spine_flat; exact SP). rewrite (spine_right _ SP). cbn [elems].
        rewrite !app_nil_r, <- !app_assoc. reflexivity. }
      inversion R2; subst; match goal with X : rb E _ |- _ => inversion X; subst end.
      * eapply wp_splice2; [exact HU|left; auto|exact K|eassumption|discriminate|exact Ko2|exact LK2|]. intros s' t' m' A B. apply HQ; auto. rewrite B. exact EQ.
      * eapply wp_splice2; [exact HU|left; auto|exact K|eassumption|auto|exact Ko2|exact LK2|]. intros s' t' m' A B. apply HQ; auto. rewrite B. exact EQ.
Qed.

(** the number of levels above *)
Fixpoint depth k : nat := match k with [] => 0 | FD _ _ _ _ :: k => S (depth k) | _ :: k => depth k end.
Lemma depth_flat : forall kl k0, flat kl -> depth (kl ++ k0) = depth k0.
Proof. induction 1 as [|[] kl F _ IH]; cbn in *; auto; contradiction. Qed.
Lemma depth_suf : forall asc k t, tree_ok asc (plug k t) -> depth k <= length (ksuf k).
Proof.
  intros asc. induction k as [|f k IH]; intros t H; [apply le_n|]. rewrite plug_cons in H. specialize (IH _ H). destruct f; cbn [depth ksuf fill] in *; auto.
  destruct (node_facts _ _ _ _ _ _ _ H) as [(NE & _) _]. rewrite app_length. destruct (i_labels i); [congruence|cbn; lia].
Qed.
Lemma depth_128 : forall asc k c l i d r, tree_ok asc (plug k (T c l i d r)) -> depth k < 128.
Proof.
  intros asc k c l i d r H. pose proof (depth_suf _ _ _ H) as D. destruct (node_facts _ _ _ _ _ _ _ H) as [(NE & ls & [W1 W2] & EQ) _].
  apply (f_equal (@length _)) in EQ. rewrite !app_length in EQ. cbn [length] in EQ. assert (2 * length ls < 255).
  { pose proof (wire_elen ls) as X. assert (2 * length ls <= elen ls); [|lia]. clear - W1. induction W1 as [|l ls [A _] _ IH]; [apply le_n|]. rewrite elen_cons. cbn [length]. lia. }
  destruct (i_labels i); [congruence|cbn [length] in EQ; lia].
Qed.
Lemma level_low : forall (asc : bool) n k kl k0 t, tree_ok asc (plug k t) -> k = kl ++ k0 -> flat kl -> krt true k0 = true -> count (plug k t) <= n -> height (plug kl t) <= 2 * Nat.log2 (S n).
Proof.
  intros asc n k kl k0 t TO -> F K C. destruct (level_rb _ _ _ _ TO F K) as (m & RB & CB). pose proof (level_height _ (ex_intro _ m RB) CB) as LH.
  destruct (elems_count (plug kl t)) as [EC _]. rewrite plug_app, count_plug in C. pose proof (Nat.log2_le_mono (S (length (elems (plug kl t)))) (S n) ltac:(lia)). lia.
Qed.
Lemma wp_remove_loop2 : forall asc ku n0 fuel s k c l i r n x, depth k < fuel -> inv s k (T c l i E r) n x -> tree_ok asc (plug k (T c l i E r)) ->
  count (plug k (T c l i E r)) <= n -> n <= n0 -> 2 * Nat.log2 (S n0) <= ku -> wp (remove_loop_within ku fuel (i_ptr i)) s (fun _ _ => True).
Proof.
  intros asc ku n0. induction fuel as [|fuel IH]; intros s k c l i r n x LF H TO CN N0 KU; [lia|].
  destruct (split_level k) as (kl & k0 & Ek0 & F & K). assert (HL : height (plug kl (T c l i E r)) <= ku).
  { rewrite (level_low asc n k kl k0 _ TO Ek0 F K CN). pose proof (Nat.log2_le_mono (S n) (S n0) ltac:(lia)). lia. }
  subst k. destruct (level_rb _ _ _ _ TO F K) as (m & RB & CB).
  apply loop_unfold2. unfold upper_within. eapply wp_subroot; [|exact F|exact K|exact H|].
  { pose proof (kl_height kl (T c l i E r) F) as X. cbn [height] in X. lia. }
  eapply wp_unlink2; [exact F|exact K|exact H|exact RB|exact CB|exact HL|].
  clear s H. intros s tl m' H EL RB' CB'.
  pose proof (step_ok asc kl k0 c l r tl i m' F K TO EL RB' CB') as TO1.
  pose proof (step_count kl k0 c l r tl i F EL) as CO.
  unfold rest. destruct n as [|n]; [lia|]. apply wp_bind. eapply wp_dec_len; [exact H|]. clear s H. intros s H. change (inv s k0 tl n x) in H.
  assert (KK : k0 = [] \/ exists c1 l1 u r1 k1, k0 = FD c1 l1 u r1 :: k1) by (destruct k0 as [|[?|?|c1 l1 u r1] k1]; try discriminate; eauto 8).
  destruct KK as [Ek|(c1 & l1 & u & r1 & k1 & Ek)].
  - assert (EP : kpar null k0 = null) by (rewrite Ek; reflexivity). rewrite EP. change (is_null null) with true. cbv iota. apply wp_bind. apply wp_ret. apply wp_ret. exact I.
  - rewrite Ek in H. pose proof H as H0. apply (proj2 (inv_fill s k1 (FD c1 l1 u r1) tl n x)) in H. cbn [fill] in H.
    assert (EP : kpar null k0 = i_ptr u) by (rewrite Ek; reflexivity). rewrite EP. rewrite (nz_node _ _ _ _ _ _ _ _ _ H).
    apply wp_bind.
    assert (GV : forall Q' : option V -> dtree -> Prop, Q' (i_value u) s -> wp (get_value (i_ptr u)) s Q') by (intros Q' HQ'; unfold inv, whole in H; cbn [cells] in H; norm_in H; stp; exact HQ').
    assert (GD : forall Q' : ptr -> dtree -> Prop, Q' (pt tl) s -> wp (get_down (i_ptr u)) s Q') by (intros Q' HQ'; eapply wp_down; [exact H|exact HQ']).
    apply wp_bind. apply GV. destruct (i_value u) as [vu|] eqn:VU.
    + apply wp_ret. apply wp_ret. exact I.
    + apply wp_bind. apply GD. apply wp_ret. destruct tl as [|c2 l2 i2 d2 r2].
      * change (negb (is_null (pt E))) with false. cbv iota.
        assert (CO2 : plug k0 E = plug k1 (T c1 l1 u E r1)) by (rewrite Ek, plug_cons; reflexivity). rewrite CO2 in TO1, CO.
        eapply (IH s k1 c1 l1 u r1 n x); [rewrite depth_flat, Ek in LF by exact F; cbn in LF; lia|exact H|exact TO1|lia|lia|exact KU].
      * assert (NZ : is_null (pt (T c2 l2 i2 d2 r2)) = false) by (eapply nz_node; exact H0). rewrite NZ. cbn [negb]. cbv iota. apply wp_ret. exact I.
Qed.
Lemma wp_remove_node2 : forall asc ku m s k c l i d r n x, inv s k (T c l i d r) n x -> tree_ok asc (plug k (T c l i d r)) -> count (plug k (T c l i d r)) <= n ->
  2 * Nat.log2 (S n) <= ku -> 128 <= m -> wp (remove_node_within ku m (i_ptr i)) s (fun _ _ => True).
Proof.
  intros asc ku m s k c l i d r n x H TO CN KU M. unfold remove_node_within. apply wp_bind. eapply wp_setv; [exact H|]. clear s H. intros s H.
  apply wp_bind. change (i_ptr i) with (i_ptr (setv i None)). eapply wp_down; [exact H|].
  pose proof (tree_ok_set asc k c l i d r (setv i None) TO eq_refl) as TO1. pose proof (count_set k c l i d r (setv i None)) as CO.
  destruct d as [|c2 l2 i2 d2 r2].
  - change (negb (is_null (pt E))) with false. cbv iota. apply wp_bind.
    eapply wp_mono; [eapply (wp_remove_loop2 asc ku n m s k); [pose proof (depth_128 _ _ _ _ _ _ _ TO); lia|exact H|exact TO1|rewrite CO; exact CN|lia|exact KU]|].
    intros ? ? _. apply wp_ret. exact I.
  - assert (NZ : is_null (pt (T c2 l2 i2 d2 r2)) = false). { unfold inv, whole in H. cbn [cells pt] in H. norm_in H. cbn [pt]. eqb_step. reflexivity. }
    rewrite NZ. cbn [negb]. cbv iota. apply wp_ret. exact I.
Qed.
End A.

(** * More passes change nothing once there are enough *)
Section M.
Context {V : Type}.
Notation dtree := (dtree V).
Ltac ub := apply upto_bind; [apply upto_refl|intros ?].
Ltac db := match goal with |- upto (if ?b then _ else _) _ => destruct b end.
Lemma upto_sub : forall a b p, a <= b -> upto (subtree_root (V := V) a p) (subtree_root b p).
Proof. induction a as [|a IH]; intros b p L; [apply upto_hang|]. destruct b as [|b]; [lia|]. cbn [subtree_root]. ub. db; [apply upto_refl|]. ub. apply IH. lia. Qed.
Lemma upto_right : forall a b p, a <= b -> upto (rightmost (V := V) a p) (rightmost b p).
Proof. induction a as [|a IH]; intros b p L; [apply upto_hang|]. destruct b as [|b]; [lia|]. cbn [rightmost]. ub. destruct (is_null _); [apply upto_refl|]. apply IH. lia. Qed.
Lemma upto_rfix : forall a b root c p, a <= b -> upto (remove_fixup (V := V) a root c p) (remove_fixup b root c p).
Proof.
  induction a as [|a IH]; intros b root c p L; [apply upto_hang|]. destruct b as [|b]; [lia|]. cbn [remove_fixup]. do 2 ub. destruct (negb _); [apply upto_refl|].
  ub. db; [apply upto_refl|]. do 6 ub. match goal with |- upto (if ?b then _ else _) _ => destruct b end; [|apply upto_refl]. do 2 ub.
  match goal with |- upto (if ?b then _ else _) _ => destruct b end; [|apply upto_refl]. ub. apply IH. lia.
Qed.
Lemma upto_rloop : forall k k' m m' nd, k <= k' -> m <= m' -> upto (remove_loop_within (V := V) k m nd) (remove_loop_within k' m' nd).
Proof.
  intros k k' m m' nd K. revert m' nd. induction m as [|m IH]; intros m' nd M; [apply upto_hang|]. destruct m' as [|m']; [lia|]. cbn [remove_loop_within].
  apply upto_bind; [unfold upper_within; apply upto_bind; [apply upto_sub; exact K|intros ?; apply upto_refl]|intros up].
  do 2 ub. apply upto_bind; [db; [|apply upto_refl]; ub; apply upto_bind; [apply upto_right; exact K|intros ?; apply upto_refl]|intros ?].
  do 5 ub. apply upto_bind; [db; [|apply upto_refl]; ub; db; [apply upto_refl|]; cbv zeta; ub; apply upto_rfix; exact K|intros ?].
  do 2 ub. db; [apply upto_refl|]. apply IH. lia.
Qed.
Lemma upto_rnode : forall k k' m m' nd, k <= k' -> m <= m' -> upto (remove_node_within (V := V) k m nd) (remove_node_within k' m' nd).
Proof. intros. unfold remove_node_within. do 2 ub. destruct (negb _); [apply upto_refl|]. apply upto_bind; [apply upto_rloop; assumption|intros ?; apply upto_refl]. Qed.

Lemma ev_bind : forall A B (m : MT V A) mj (g : A -> MT V B) gj, ev m mj -> (forall a, ev (g a) (gj a)) -> ev (bind m g) (fun j => bind (mj j) (fun a => gj a j)).
Proof.
  intros A B m mj g gj H G s. destruct (H s) as (j0 & J). unfold bind. destruct (m s) as [r s1] eqn:EM.
  assert (G1 : exists j1, forall j, j1 <= j -> forall a, r = Ok a -> fst (g a s1) = Hang \/ g a s1 = gj a j s1).
  { destruct r as [a| | |]; try (exists 0; intros; discriminate). destruct (G a s1) as (j1 & J1). exists j1. intros j L a' EA. injection EA as <-. apply J1. exact L. }
  destruct G1 as (j1 & J1). exists (Nat.max j0 j1). intros j L. destruct (J j ltac:(lia)) as [X|X]; cbn [fst] in X.
  - subst r. left. reflexivity.
  - rewrite <- X. destruct r as [a| | |]; auto. apply J1; [lia|reflexivity].
Qed.
Lemma ev_upto : forall A (mk : nat -> MT V A), (forall a b, a <= b -> upto (mk a) (mk b)) -> ev (fun s => mk (S (dt_next s)) s) mk.
Proof. intros A mk H s. exists (S (dt_next s)). intros j L. exact (H _ _ L s). Qed.
Ltac eb := apply (ev_bindr _ _ _); intros ?.
Lemma ev_rloop : forall m nd, ev (remove_loop (V := V) m nd) (fun j => remove_loop_within j m nd).
Proof.
  induction m as [|m IH]; intros nd; [apply ev_refl|]. cbn [remove_loop remove_loop_within].
  apply ev_bind. { unfold get_upper_node, upper_within. apply (ev_upto _ (fun j => let! r := subtree_root j nd in get_parent r)). intros a b L. apply upto_bind; [apply upto_sub; exact L|intros ?; apply upto_refl]. }
  intros up. apply ev_bindr; intros l. apply ev_bindr; intros two.
  apply ev_bind. { destruct two; [|apply ev_refl]. apply ev_bindr; intros l'. apply ev_bindl. apply (ev_upto _ (fun j => rightmost j l')). intros a b L. apply upto_right. exact L. }
  intros []. apply ev_bindr; intros r. apply ev_bindr; intros child. apply ev_bindr; intros []. apply ev_bindr; intros []. apply ev_bindr; intros nb.
  apply ev_bind. { destruct nb; [|apply ev_refl]. apply ev_bindr; intros cred. destruct cred; [apply ev_refl|]. cbv zeta. apply ev_bindr; intros par. apply (ev_upto _ (fun j => remove_fixup j _ child par)). intros a b L. apply upto_rfix. exact L. }
  intros []. apply ev_bindr; intros []. apply ev_bindr; intros stop. destruct stop; [apply ev_refl|]. apply IH.
Qed.
Lemma ev_rnode : forall nd, ev (remove_node (V := V) nd) (fun j => remove_node_within j j nd).
Proof.
  intros nd. unfold remove_node, remove_node_within. apply ev_bindr; intros old. apply ev_bindr; intros d. destruct (negb _); [apply ev_refl|]. apply ev_bindl.
  intros s. destruct (ev_rloop (S (dt_next s)) nd s) as (j0 & J). exists (Nat.max j0 (S (dt_next s))). intros j L. destruct (J j ltac:(lia)) as [X|X]; [left; exact X|].
  rewrite X. exact (upto_rloop j j (S (dt_next s)) j nd ltac:(lia) ltac:(lia) s).
Qed.
Theorem remove_passes : forall md md' (ops : list (op V)) s ls kf k m, any_names ops -> reached md ops s -> wf_labels ls ->
  S (length ls) * (2 * Nat.log2 (S (dt_len s))) <= kf -> 2 * Nat.log2 (S (dt_len s)) <= k -> 128 <= m ->
  remove_within kf k m md' (name_of ls) s = remove md' (name_of ls) s /\ fst (remove md' (name_of ls) s) <> Hang.
Proof.
  intros md md' ops s ls kf k m W R WL KF K M.
  assert (FW : find_within kf md' (name_of ls) s = find md' (name_of ls) s).
  { unfold find_within, find, find_node, bind. rewrite (find_passes md md' ops s ls W R WL unit chain_new None tt kf KF). destruct (find_node_ext _ _ _ _ _ _) as [[[[r c] u]| | |] s1]; reflexivity. }
  apply reached_release in R. pose proof (any_ok _ W) as OK.
  assert (G : @wp V quiet _ (history Release ops) tree_new (fun _ s => exists t n x, @good V quiet false s t n x /\ True)).
  { apply (@reached_good V quiet false Release (fun _ _ _ _ _ => True) ops sound_false OK); auto. }
  apply quiet_total in G. destruct G as ([] & s' & R' & t & n & x & (H & TO & C & X0) & _).
  assert (s' = s) by (unfold reached in *; congruence). subst s'. rewrite (inv_len _ _ _ _ _ H) in K.
  destruct (quiet_total _ _ _ _ (@wp_find V quiet false Release ls s t n x WL ltac:(discriminate) ltac:(apply sound_false) H TO)) as (r & s1 & FR & -> & FN & _).
  unfold remove_within, remove, bind. rewrite FW.
  assert (FD' : find md' (name_of ls) s = (Ok r, s) \/ fst (find md' (name_of ls) s) = Panic).
  { destruct md'; [|left; exact FR]. destruct (mle_find (name_of ls) s) as [Y|Y]; [right; rewrite Y; reflexivity|left; congruence]. }
  destruct FD' as [FD'|FD']; [rewrite FD'|destruct (find md' (name_of ls) s) as [[a| | |] s2]; try discriminate; split; [reflexivity|discriminate]].
  destruct FN as [FN|(k0 & c & l & i & d & r0 & -> & EP)]; [rewrite FN; split; [reflexivity|discriminate]|].
  destruct (negb (is_null (fr_node r))); [|split; [reflexivity|discriminate]]. rewrite <- EP.
  assert (HI : inv s k0 (T c l i d r0) n x) by (rewrite <- (app_nil_r k0); apply inv_plug; exact H).
  destruct (quiet_total _ _ _ _ (@wp_remove_node V quiet false s k0 c l i d r0 n x HI TO C)) as (a & s1 & R1 & _).
  destruct (quiet_total _ _ _ _ (@wp_remove_node2 V quiet false k m s k0 c l i d r0 n x HI TO C K M)) as (a' & s1' & R2 & _).
  destruct (ev_rnode (i_ptr i) s) as (j0 & EV). destruct (EV (Nat.max j0 (Nat.max k m)) ltac:(lia)) as [Y|Y]; [rewrite R1 in Y; discriminate|].
  split; [|rewrite R1; discriminate]. rewrite Y. destruct (upto_rnode k (Nat.max j0 (Nat.max k m)) m (Nat.max j0 (Nat.max k m)) (i_ptr i) ltac:(lia) ltac:(lia) s) as [Z|Z]; [rewrite R2 in Z; discriminate|exact Z].
Qed.
End M.

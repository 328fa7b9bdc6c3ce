(** Red-black insertion repair. *)
From Coq Require Import Permutation.
From Verif Require Import Base BaseLemmas NameModel TreeModel SpecName SpecOrd SpecScope OrdBase SpecTree TreeProofs PermTac TreeProofs2.
Open Scope list_scope.
Open Scope nat_scope.

(** decide pointer comparisons from the cells in memory *)
Ltac in_ptrs := unfold ptrs; cbn [map fst app]; repeat first [left; reflexivity | right].
Ltac cells_neq H p q :=
  lazymatch type of H with St _ ?L _ _ _ => let a := cell_idx p L in let b := cell_idx q L in exact (St_neq a b _ _ _ _ _ _ _ _ _ H eq_refl eq_refl ltac:(discriminate)) end.
Ltac pt_cell_neq H t p :=
  lazymatch type of H with St _ ?L _ _ _ =>
    let a := find_cells t L in
    let H' := fresh in pose proof H as H'; bring_in a H'; eapply pt_neq'; [exact H'|in_ptrs] end.
Ltac null_neq H p :=
  lazymatch type of H with St _ ?L _ _ _ => let k := cell_idx p L in exact (proj1 (Nat.eqb_neq _ _) (St_nz k _ _ _ _ _ _ _ H eq_refl)) end.
Ltac prove_neq p q :=
  match goal with
  | H : St _ _ _ _ _ |- _ =>
      first [ lazymatch q with null => null_neq H p end | lazymatch p with null => apply not_eq_sym; null_neq H q end
            | cells_neq H p q
            | lazymatch p with pt ?t => pt_cell_neq H t q end
            | lazymatch q with pt ?t => apply not_eq_sym; pt_cell_neq H t p end ]
  end.
Ltac eqb_step :=
  match goal with
  | |- context [is_null null] => change (is_null null) with true
  | |- context [?p =? ?p] => rewrite (Nat.eqb_refl p)
  | |- context [?p =? ?q] => let N := fresh in assert (N : p <> q) by (prove_neq p q); rewrite (proj2 (Nat.eqb_neq p q) N); clear N
  | |- context [is_null ?p] =>
      match goal with H : St _ ?L _ _ _ |- _ => let k := cell_idx p L in rewrite (St_nz k _ _ _ _ _ _ _ H eq_refl) end
  end; cbv iota.
Section Col.
Context {V : Type} {SC : scope}.
Definition redb (c : color) : bool := match c with Red => true | Black => false end.
Definition blackb (c : color) : bool := match c with Red => false | Black => true end.
Lemma wp_color_t : forall (s : dtree V) q rt t R root n x (Q : color -> dtree V -> Prop), St s (cells q rt t ++ R) root n x -> Q (col t) s -> wp (get_color (pt t)) s Q.
Proof. intros s q rt [|c l i d r] R root n x Q H HQ; cbn [pt]; [apply wp_get_color_null; exact HQ|]. cbn [cells app] in H. stp. exact HQ. Qed.
Lemma wp_red_t : forall (s : dtree V) q rt t R root n x (Q : bool -> dtree V -> Prop), St s (cells q rt t ++ R) root n x -> Q (redb (col t)) s -> wp (is_red (pt t)) s Q.
Proof. intros s q rt [|c l i d r] R root n x Q H HQ; cbn [pt]; [apply wp_is_red_null; exact HQ|]. cbn [cells app] in H. stp. exact HQ. Qed.
Lemma wp_black_t : forall (s : dtree V) q rt t R root n x (Q : bool -> dtree V -> Prop), St s (cells q rt t ++ R) root n x -> Q (blackb (col t)) s -> wp (is_black (pt t)) s Q.
Proof. intros s q rt [|c l i d r] R root n x Q H HQ; cbn [pt]; [apply wp_is_black_null; exact HQ|]. cbn [cells app] in H. stp. exact HQ. Qed.
Lemma wp_redg_t : forall (s : dtree V) q rt t R root n x (Q : bool -> dtree V -> Prop), St s (cells q rt t ++ R) root n x -> Q (redb (col t)) s ->
  wp (if is_null (pt t) then ret false else is_red (pt t)) s Q.
Proof. intros s q rt [|c l i d r] R root n x Q H HQ; cbn [pt]; [apply wp_ret; exact HQ|]. cbn [cells app] in H. rewrite (St_nz 0 _ _ _ _ _ _ _ H eq_refl). stp. exact HQ. Qed.
End Col.
Ltac col_with lem t :=
  lazymatch goal with |- wp _ ?s _ =>
    match goal with H : St s ?L _ _ _ |- _ =>
      let a := find_cells t L in
      let H' := fresh in pose proof H as H'; bring_in a H'; eapply lem; [exact H'|]; clear H';
      try match goal with C : col t = _ |- _ => rewrite C end; cbn [redb blackb] end end.
Ltac colstep :=
  lazymatch goal with
  | |- wp (get_color (pt ?t)) _ _ => col_with @wp_color_t t
  | |- wp (is_red (pt ?t)) _ _ => col_with @wp_red_t t
  | |- wp (is_black (pt ?t)) _ _ => col_with @wp_black_t t
  | |- wp (if is_null (pt ?t) then ret false else is_red (pt ?t)) _ _ => col_with @wp_redg_t t
  end.
(** run: read/write steps, comparisons *)
Ltac unf :=
  lazymatch goal with
  | |- wp (uncle _) _ _ => unfold uncle
  | |- wp (grand_parent _) _ _ => unfold grand_parent
  | |- wp (get_sibling _ _) _ _ => unfold get_sibling
  | |- wp (bind _ _) _ _ => apply wp_bind
  end.
Ltac run := repeat first [progress cbv iota beta | colstep | eqb_step | stp | unf].

Ltac fold_inv := unfold inv, whole; cbn [pt cells]; kred; fin.
Ltac to_inv k t := lazymatch goal with |- wp _ ?s _ => match goal with H : St s _ _ ?n ?x |- _ => let H' := fresh "HJ" in assert (H' : inv s k t n x) by fold_inv; clear H; rename H' into HI end end.
Section A.
Context {V : Type} {SC : scope}.
Notation node := (node V). Notation dtree := (dtree V). Notation info := (info V). Notation tree := (tree V).
Notation frame := (@frame V). Notation ctx := (@ctx V).
Implicit Types (s : dtree) (t : tree) (i : info) (p q : ptr) (L R : list (ptr * node)) (k : ctx) (f : frame).

(** * Red-black trees of one level *)
(** contexts inside one level, with the black height expected in the hole; a red frame sits below a black one *)
Definition kcol k := match k with [] => Red | f :: _ => fcol f end.
Inductive kok : ctx -> nat -> Prop :=
| kok_nil n : kok [] n
| kok_LB i d r k n : rb r n -> kok k (S n) -> kok (FL Black i d r :: k) n
| kok_RB l i d k n : rb l n -> kok k (S n) -> kok (FR Black l i d :: k) n
| kok_LR i d r k n : rb r n -> col r = Black -> kok k n -> kcol k = Black -> kok (FL Red i d r :: k) n
| kok_RR l i d k n : rb l n -> col l = Black -> kok k n -> kcol k = Black -> kok (FR Red l i d :: k) n.
Lemma kok_plug : forall k t n, kok k n -> rb t n -> k <> [] -> (col t = Black \/ kcol k = Black) -> exists m, rb (plug k t) m /\ col (plug k t) = Black.
Proof.
  induction k as [|f k IH]; intros t n K H N C; [congruence|]. cbn [plug fold_left]. change (fold_left _ k ?u) with (plug k u).
  destruct k as [|g k'].
  - inversion K; subst; cbn [kcol] in *; try discriminate; cbn [plug fold_left fill]; exists (S n); split; auto; constructor; auto.
  - inversion K; subst; cbn [fill]; cbn [kcol fcol] in C.
    + eapply IH; [eassumption|constructor; auto|discriminate|left; reflexivity].
    + eapply IH; [eassumption|constructor; auto|discriminate|left; reflexivity].
    + eapply IH; [eassumption| |discriminate|right; assumption]. destruct C; [|discriminate]. constructor; auto.
    + eapply IH; [eassumption| |discriminate|right; assumption]. destruct C; [|discriminate]. constructor; auto.
Qed.
Lemma kok_plug0 : forall k t n, kok k n -> rb t n -> col t = Black -> exists m, rb (plug k t) m /\ col (plug k t) = Black.
Proof. intros k t n K R C. destruct k as [|f k]; [exists n; auto|]. eapply kok_plug; eauto. discriminate. Qed.

(** * Level roots *)
Lemma kroot_in : forall k f bp br h h', In (kroot (f :: k) h) (ptrs (kcells bp br (f :: k) h')).
Proof.
  induction k as [|g k IH]; intros f bp br h h'; cbn [kroot kcells]; rewrite ptrs_app, in_app_iff.
  - left. destruct f; left; reflexivity.
  - right. apply (IH g bp br (fptr f)).
Qed.
Lemma kcells_app : forall kl k bp br h, kcells bp br (kl ++ k) h = kcells (kpar bp k) (krt br k) kl h ++ kcells bp br k (kroot kl h).
Proof.
  induction kl as [|f kl IH]; intros k bp br h; [reflexivity|]. cbn [app kcells kroot]. rewrite IH, app_assoc. f_equal. f_equal.
  f_equal; destruct kl as [|[]]; reflexivity.
Qed.
Lemma kroot_app : forall kl k h, kroot (kl ++ k) h = kroot k (kroot kl h).
Proof. induction kl as [|f kl IH]; intros k h; [reflexivity|]. cbn [app kroot]. apply IH. Qed.
(** one level *)
Definition flat_f f := match f with FD _ _ _ _ => False | _ => True end.
Definition flat k := Forall flat_f k.
Lemma elems_plug : forall k t t', flat k -> elems t = elems t' -> elems (plug k t) = elems (plug k t').
Proof.
  induction k as [|f k IH]; intros t t' F H; [exact H|]. inversion F; subst. cbn [plug fold_left]. apply IH; auto. destruct f; cbn [fill elems]; try contradiction; congruence.
Qed.
Lemma kloc_app : forall kl k, flat kl -> kloc (kl ++ k) = kloc k.
Proof. induction 1 as [|[] kl F _ IH]; cbn in *; auto; contradiction. Qed.
Lemma kok_flat : forall k n, kok k n -> flat k.
Proof. induction 1; constructor; auto; exact I. Qed.
Lemma wp_read_lvl : forall s kl k R h n x (Q : ptr -> dtree -> Prop), St s (kcells null true (kl ++ k) h ++ R) (kroot (kl ++ k) h) n x ->
  krt true k = true -> Q (kroot kl h) s -> wp (read_loc (kloc k)) s Q.
Proof.
  intros s kl k R h n x Q H K HQ. rewrite kcells_app, kroot_app in H. destruct k as [|[c i d r|c l i d|c l i r] k]; try discriminate.
  - cbn [kloc]. eapply wp_read_root; [exact H|]. exact HQ.
  - cbn [kloc read_loc]. kred_in H. norm_in H. stp. exact HQ.
Qed.
Lemma not_lroot : forall s f kl k R h n x p, St s (kcells null true ((f :: kl) ++ k) h ++ R) (kroot ((f :: kl) ++ k) h) n x -> In p (ptrs R) -> p <> kroot (f :: kl) h.
Proof.
  intros s f kl k R h n x p H I E. rewrite kcells_app in H. eapply St_disj; [exact H| |exact I]. rewrite ptrs_app, in_app_iff. left. rewrite E. apply kroot_in.
Qed.


Lemma kok_inv2L : forall f c h w u kl m, kok (f :: FL c h w u :: kl) m -> fcol f = Red -> c = Black /\ rb u m /\ kok kl (S m).
Proof. intros f c h w u kl m K C. inversion K; subst; cbn in *; try discriminate; subst; match goal with X : kok (FL _ _ _ _ :: _) _ |- _ => inversion X; subst; auto end. Qed.
Lemma kok_inv2R : forall f c h w u kl m, kok (f :: FR c u h w :: kl) m -> fcol f = Red -> c = Black /\ rb u m /\ kok kl (S m).
Proof. intros f c h w u kl m K C. inversion K; subst; cbn in *; try discriminate; subst; match goal with X : kok (FR _ _ _ _ :: _) _ |- _ => inversion X; subst; auto end. Qed.
Lemma kok_inv1L : forall j e u kl m, kok (FL Red j e u :: kl) m -> rb u m /\ col u = Black.
Proof. intros j e u kl m K. inversion K; subst; auto. Qed.
Lemma kok_inv1R : forall j e u kl m, kok (FR Red u j e :: kl) m -> rb u m /\ col u = Black.
Proof. intros j e u kl m K. inversion K; subst; auto. Qed.
Lemma rb_red : forall l i d r n, rb (T Red l i d r) n -> rb l n /\ rb r n /\ col l = Black /\ col r = Black.
Proof. intros l i d r n H. inversion H; subst; auto. Qed.
Lemma rb_blacken : forall c l i d r n, rb (T c l i d r) n -> exists m, rb (T Black l i d r) m /\ rb l (pred m) /\ rb r (pred m).
Proof. intros c l i d r n H. inversion H; subst; exists (S n0) || exists (S n); repeat split; auto; constructor; auto. Qed.

(** * insert_fixup *)
Ltac el := cbn [elems plug fold_left fill]; repeat (rewrite <- ?app_assoc; cbn [app]); reflexivity.
Ltac rbs := repeat match goal with
  | |- rb _ _ => first [assumption | constructor]
  | |- col _ = _ => first [assumption | reflexivity] end.

Lemma wp_fixup_loop : forall fuel s kl k0 l i d r m n x (Q : unit -> dtree -> Prop),
  length kl < fuel -> inv s (kl ++ k0) (T Red l i d r) n x -> krt true k0 = true ->
  rb l m -> rb r m -> col l = Black -> col r = Black -> kok kl m ->
  (forall s' t' m', inv s' k0 t' n x -> elems t' = elems (plug kl (T Red l i d r)) ->
     ((rb t' m' /\ col t' = Black) \/ exists l' i' d' r', t' = T Red l' i' d' r' /\ rb l' m' /\ rb r' m') -> Q tt s') ->
  wp (insert_fixup_loop fuel (kloc k0) (i_ptr i)) s Q.
Proof.
  induction fuel as [|fuel IH]; intros s kl k0 l i d r m n x Q Fu H K Rl Rr Cl Cr Ko HQ; [lia|].
  cbn [insert_fixup_loop]. apply wp_bind.
  eapply (wp_read_lvl s kl k0); [exact H|exact K|]. destruct kl as [|f kl].
  - cbn [kroot pt]. rewrite Nat.eqb_refl. stp. eapply HQ; [exact H|reflexivity|]. right. repeat eexists; eauto.
  - rewrite (proj2 (Nat.eqb_neq _ _)); [|eapply not_lroot; [exact H|left; reflexivity]].
    destruct (fcol f) eqn:Cf.
    + (* parent is red *)
      destruct kl as [|g kl]; [destruct f; cbn in Cf; subst; inversion Ko; subst; cbn in *; discriminate|].
      assert (F : flat kl) by (apply kok_flat in Ko; inversion Ko as [|? ? ? F]; inversion F; auto).
      assert (Fin : forall s' t' M, inv s' (kl ++ k0) t' n x -> rb t' M -> col t' = Black -> kok kl M ->
                      elems t' = elems (fill g (fill f (T Red l i d r))) -> Q tt s').
      { intros s' t' M HI HR HC HK HE. destruct (kok_plug0 _ _ _ HK HR HC) as (m' & A & B).
        eapply HQ; [apply inv_plug; exact HI| |left; split; eassumption]. apply (elems_plug kl); auto. }
      change ((f :: g :: kl) ++ k0) with (f :: g :: kl ++ k0) in H. apply inv_fill, inv_fill in H.
      destruct f as [cf j e u1|cf u1 j e|]; [| |inversion Ko].
      * cbn [fcol] in Cf. subst cf. pose proof (kok_inv1L _ _ _ _ _ Ko) as [Ru1 Cu1].
        destruct g as [cg h w u|cg u h w|]; [| |inversion Ko; subst; cbn in *; match goal with X : kok (FD _ _ _ _ :: _) _ |- _ => inversion X end].
        -- destruct (kok_inv2L _ _ _ _ _ _ _ Ko eq_refl) as (-> & Ru & Kk). cbn [fill] in *. unfold inv, whole in H.
           destruct (col u) eqn:Cu.
           ++ destruct u as [|cu ul ui ud ur]; [discriminate|]. cbn [col] in Cu. subst cu. destruct (rb_red _ _ _ _ _ Ru) as (? & ? & ? & ?).
              cbn [cells pt] in H. norm_in H. run.
              to_inv (kl ++ k0) (T Red (T Black (T Red l i d r) j e u1) h w (T Black ul ui ud ur)).
              eapply (IH _ _ _ _ _ _ _ (S m)); [| exact HI | exact K | | | | | exact Kk |]; rbs; [cbn in Fu; lia|].
              intros s' t' m' HI' HE HR. eapply HQ; [exact HI'|rewrite HE; apply (elems_plug kl); auto; el|exact HR].
           ++ cbn [cells pt] in H. norm_in H. run.
              to_inv (kl ++ k0) (T Red (T Black (T Red l i d r) j e u1) h w u). rewrite <- (kloc_app kl k0 F).
              eapply wp_right_rotate; [exact HI|].
              clear HI. intros s' HI. eapply (Fin _ _ (S m)); [exact HI|rbs|reflexivity|exact Kk|el].
        -- destruct (kok_inv2R _ _ _ _ _ _ _ Ko eq_refl) as (-> & Ru & Kk). cbn [fill] in *. unfold inv, whole in H.
           destruct (col u) eqn:Cu.
           ++ destruct u as [|cu ul ui ud ur]; [discriminate|]. cbn [col] in Cu. subst cu. destruct (rb_red _ _ _ _ _ Ru) as (? & ? & ? & ?).
              cbn [cells pt] in H. norm_in H. run.
              to_inv (kl ++ k0) (T Red (T Black ul ui ud ur) h w (T Black (T Red l i d r) j e u1)).
              eapply (IH _ _ _ _ _ _ _ (S m)); [| exact HI | exact K | | | | | exact Kk |]; rbs; [cbn in Fu; lia|].
              intros s' t' m' HI' HE HR. eapply HQ; [exact HI'|rewrite HE; apply (elems_plug kl); auto; el|exact HR].
           ++ cbn [cells pt] in H. norm_in H. run.
              rewrite <- (kloc_app kl k0 F). to_inv (FR Black u h w :: kl ++ k0) (T Red (T Red l i d r) j e u1).
              change (kloc (kl ++ k0)) with (kloc (FR Black u h w :: kl ++ k0)). eapply wp_right_rotate; [exact HI|].
              clear HI. intros s' HI. apply inv_fill in HI. cbn [fill] in HI. unfold inv, whole in HI. cbn [cells pt] in HI. norm_in HI. run.
              to_inv (kl ++ k0) (T Red u h w (T Black l i d (T Red r j e u1))).
              change (kloc (FR Black u h w :: kl ++ k0)) with (kloc (kl ++ k0)). eapply wp_left_rotate; [exact HI|].
              clear HI. intros s'' HI. eapply (Fin _ _ (S m)); [exact HI|rbs|reflexivity|exact Kk|el].
      * cbn [fcol] in Cf. subst cf. pose proof (kok_inv1R _ _ _ _ _ Ko) as [Ru1 Cu1].
        destruct g as [cg h w u|cg u h w|]; [| |inversion Ko; subst; cbn in *; match goal with X : kok (FD _ _ _ _ :: _) _ |- _ => inversion X end].
        -- destruct (kok_inv2L _ _ _ _ _ _ _ Ko eq_refl) as (-> & Ru & Kk). cbn [fill] in *. unfold inv, whole in H.
           destruct (col u) eqn:Cu.
           ++ destruct u as [|cu ul ui ud ur]; [discriminate|]. cbn [col] in Cu. subst cu. destruct (rb_red _ _ _ _ _ Ru) as (? & ? & ? & ?).
              cbn [cells pt] in H. norm_in H. run.
              to_inv (kl ++ k0) (T Red (T Black u1 j e (T Red l i d r)) h w (T Black ul ui ud ur)).
              eapply (IH _ _ _ _ _ _ _ (S m)); [| exact HI | exact K | | | | | exact Kk |]; rbs; [cbn in Fu; lia|].
              intros s' t' m' HI' HE HR. eapply HQ; [exact HI'|rewrite HE; apply (elems_plug kl); auto; el|exact HR].
           ++ cbn [cells pt] in H. norm_in H. run.
              rewrite <- (kloc_app kl k0 F). to_inv (FL Black h w u :: kl ++ k0) (T Red u1 j e (T Red l i d r)).
              change (kloc (kl ++ k0)) with (kloc (FL Black h w u :: kl ++ k0)). eapply wp_left_rotate; [exact HI|].
              clear HI. intros s' HI. apply inv_fill in HI. cbn [fill] in HI. unfold inv, whole in HI. cbn [cells pt] in HI. norm_in HI. run.
              to_inv (kl ++ k0) (T Red (T Black (T Red u1 j e l) i d r) h w u).
              change (kloc (FL Black h w u :: kl ++ k0)) with (kloc (kl ++ k0)). eapply wp_right_rotate; [exact HI|].
              clear HI. intros s'' HI. eapply (Fin _ _ (S m)); [exact HI|rbs|reflexivity|exact Kk|el].
        -- destruct (kok_inv2R _ _ _ _ _ _ _ Ko eq_refl) as (-> & Ru & Kk). cbn [fill] in *. unfold inv, whole in H.
           destruct (col u) eqn:Cu.
           ++ destruct u as [|cu ul ui ud ur]; [discriminate|]. cbn [col] in Cu. subst cu. destruct (rb_red _ _ _ _ _ Ru) as (? & ? & ? & ?).
              cbn [cells pt] in H. norm_in H. run.
              to_inv (kl ++ k0) (T Red (T Black ul ui ud ur) h w (T Black u1 j e (T Red l i d r))).
              eapply (IH _ _ _ _ _ _ _ (S m)); [| exact HI | exact K | | | | | exact Kk |]; rbs; [cbn in Fu; lia|].
              intros s' t' m' HI' HE HR. eapply HQ; [exact HI'|rewrite HE; apply (elems_plug kl); auto; el|exact HR].
           ++ cbn [cells pt] in H. norm_in H. run.
              to_inv (kl ++ k0) (T Red u h w (T Black u1 j e (T Red l i d r))). rewrite <- (kloc_app kl k0 F).
              eapply wp_left_rotate; [exact HI|].
              clear HI. intros s' HI. eapply (Fin _ _ (S m)); [exact HI|rbs|reflexivity|exact Kk|el].
    + (* parent is black *)
      pose proof (kok_flat _ _ Ko) as F. assert (R0 : rb (T Red l i d r) m) by rbs. destruct (kok_plug _ _ _ Ko R0 ltac:(discriminate) (or_intror Cf)) as (m' & A & B).
      assert (wp (get_parent (i_ptr i)) s (fun a s1 => a = fptr f /\ s1 = s)).
      { unfold inv, whole in H. cbn [app kpar pt cells] in H. norm_in H. stp. auto. }
      assert (wp (is_black (fptr f)) s (fun a s1 => a = true /\ s1 = s)).
      { unfold inv, whole in H. cbn [app kpar pt cells] in H. destruct f as [cf j e u1|cf u1 j e|cf u1 j u2]; cbn [fcol] in Cf; subst cf; kred_in H; norm_in H; unfold fptr; cbn [finfo]; stp; auto. }
      apply wp_bind. eapply wp_mono; [eassumption|]. intros a s1 [-> ->]. apply wp_bind. eapply wp_mono; [eassumption|]. intros a s1 [-> ->]. stp.
      eapply HQ; [apply inv_plug; exact H|reflexivity|left; eauto].
Qed.
(** tree.rs:146-181: after linking a red leaf, the level is a red-black tree again *)
Lemma kcells_len : forall k bp br h, length k <= length (kcells bp br k h).
Proof. induction k as [|f k IH]; intros bp br h; cbn [kcells length]; [lia|]. rewrite app_length. specialize (IH bp br (fptr f)). destruct f; cbn [fcells length]; lia. Qed.
Lemma St_len : forall s L root n x, St s L root n x -> length L < x \/ (L = [] /\ x = 0).
Proof.
  intros s L root n x ((ND & F) & _ & _ & <-). destruct L as [|y L]; [destruct (dt_next s); auto; left; cbn; lia|]. left.
  assert (I : incl (map fst (y :: L)) (seq 1 (dt_next s - 1))).
  { intros p I. apply in_map_iff in I. destruct I as (pn & <- & I). rewrite Forall_forall in F. apply F in I. destruct I as [? _]. apply in_seq. unfold ptr in *. lia. }
  pose proof (NoDup_incl_length ND I) as X. rewrite map_length, seq_length in X. cbn [length] in *. inversion F as [|? ? [? _] _]; subst. unfold ptr in *. lia.
Qed.
Lemma elems_plug_in : forall k t e, flat k -> In e (elems t) -> In e (elems (plug k t)).
Proof.
  induction k as [|f k IH]; intros t e F H; [exact H|]. inversion F; subst. cbn [plug fold_left]. apply IH; auto.
  destruct f; cbn [fill elems]; try contradiction; rewrite in_app_iff; cbn [In]; tauto.
Qed.
Lemma elems_nonempty : forall k i d, flat k -> elems (plug k (T Red E i d E)) <> [].
Proof. intros k i d F X. assert (Y : In (i, d) (elems (plug k (T Red E i d E)))) by (apply elems_plug_in; auto; left; reflexivity). rewrite X in Y. exact Y. Qed.
Lemma wp_insert_fixup : forall s kl k0 i d n x (Q : unit -> dtree -> Prop),
  inv s (kl ++ k0) (T Red E i d E) n x -> krt true k0 = true -> kok kl 0 ->
  (forall s' t' m', inv s' k0 t' n x -> elems t' = elems (plug kl (T Red E i d E)) -> rb t' m' -> col t' = Black -> Q tt s') ->
  wp (insert_fixup (kloc k0) (i_ptr i)) s Q.
Proof.
  intros s kl k0 i d n x Q H K Ko HQ. unfold insert_fixup. apply wp_fun with (m := fun s => _). apply wp_bind.
  assert (Le : length kl < S (dt_next s)).
  { destruct (St_len _ _ _ _ _ H) as [X|[X _]].
    - unfold whole in X. rewrite app_length in X. destruct H as (_ & _ & _ & ->). pose proof (kcells_len (kl ++ k0) null true (pt (T Red E i d E))). rewrite app_length in H. lia.
    - unfold whole in X. apply app_eq_nil in X. destruct X. discriminate. }
  eapply (wp_fixup_loop _ _ kl k0); [exact Le|exact H|exact K|constructor|constructor|reflexivity|reflexivity|exact Ko|].
  intros s' t' m' HI HE [[HR HC]|(l' & i' & d' & r' & -> & Rl & Rr)].
  - apply wp_bind. eapply (wp_read_lvl s' [] k0); [exact HI|exact K|]. cbn [kroot]. destruct t' as [|c l' i' d' r'].
    { exfalso. destruct (elems_nonempty kl i d (kok_flat _ _ Ko)). symmetry. exact HE. }
    cbn [col] in HC. subst c. unfold inv, whole in HI. cbn [cells pt] in HI. norm_in HI. cbn [pt]. stp.
    eapply (HQ _ (T Black l' i' d' r')); [fold_inv|exact HE|exact HR|reflexivity].
  - apply wp_bind. eapply (wp_read_lvl s' [] k0); [exact HI|exact K|]. cbn [kroot].
    unfold inv, whole in HI. cbn [cells pt] in HI. norm_in HI. cbn [pt]. stp.
    eapply (HQ _ (T Black l' i' d' r')); [fold_inv|exact HE|constructor; eassumption|reflexivity].
Qed.
End A.
Ltac el := cbn [elems plug fold_left fill]; repeat (rewrite <- ?app_assoc; cbn [app]); reflexivity.
Ltac rbs := repeat match goal with
  | |- rb _ _ => first [assumption | constructor]
  | |- col _ = _ => first [assumption | reflexivity] end.

(** The loop of [remove_node]. *)
From Coq Require Import Permutation Sorted.
From Verif Require Import Base BaseLemmas NameModel TreeModel SpecName SpecOrd SpecScope OrdBase SpecTree NameCmpProofs2 TreeProofs PermTac TreeProofs2 TreeProofs3 TreeProofs4
  TreePure TreePure2 TreeProofs6 TreeProofs7 TreeProofs8 TreeProofs9 TreeProofs10.
Open Scope list_scope.
Open Scope nat_scope.

Section A.
Context {V : Type} {SC : scope}.
Notation node := (node V). Notation dtree := (dtree V). Notation info := (info V). Notation tree := (tree V).
Notation frame := (@frame V). Notation ctx := (@ctx V).
Implicit Types (s : dtree) (t : tree) (i : info) (p q : ptr) (L R : list (ptr * node)) (k kl kr : ctx) (f : frame).

(** the loop body up to the length update *)
Definition unlink (nd up : ptr) : MT V unit :=
  let! l := get_left nd in
  let! two := (if is_null l then ret false else let! r := get_right nd in ret (negb (is_null r))) in
  (if two : bool then
     let! l := get_left nd in
     let! rm := (fun s => rightmost (S (dt_next s)) l s) in
     exchange nd rm LRoot
   else ret tt) ;; splice nd up.
Definition rest (loop : ptr -> MT V unit) (up : ptr) : MT V unit :=
  dec_len ;;
  let! stop :=
    (if is_null up then ret true
     else
       let! v := get_value up in
       match v with
       | Some _ => ret true
       | None => let! d := get_down up in ret (negb (is_null d))
       end) in
  if stop : bool then ret tt else loop up.
Lemma loop_unfold : forall fuel nd s Q, wp (get_upper_node nd) s (fun up s1 => wp (unlink nd up) s1 (fun _ s2 => wp (rest (remove_loop (V := V) fuel) up) s2 Q)) -> wp (remove_loop (S fuel) nd) s Q.
Proof.
  intros fuel nd s Q H. cbn [remove_loop]. apply wp_bind. eapply wp_mono; [exact H|]. clear H. intros up s1 H. cbn beta in H. unfold unlink, splice in H.
  repeat (lazymatch type of H with
          | wp (bind _ _) _ _ => apply wp_bind_inv in H; apply wp_bind; eapply wp_mono; [exact H|]; clear H; let a := fresh "a" in let s := fresh "s" in intros a s H; cbn beta in H
          end).
  apply wp_bind. eapply wp_mono; [exact H|]. clear H. intros ? ? H. exact H.
Qed.

Lemma wp_unlink : forall s kl k0 c l i r m n x (Q : unit -> dtree -> Prop), flat kl -> krt true k0 = true ->
  inv s (kl ++ k0) (T c l i E r) n x -> rb (plug kl (T c l i E r)) m -> col (plug kl (T c l i E r)) = Black ->
  (forall s' t' m', inv s' k0 t' n x -> elems t' = kleft kl ++ elems l ++ elems r ++ kright kl -> rb t' m' -> col t' = Black -> Q tt s') ->
  wp (unlink (i_ptr i) (kpar null k0)) s Q.
Proof.
  intros s kl k0 c l i r m n x Q F K H RB CB HQ. unfold unlink.
  destruct (rb_plug kl _ m F RB (or_intror CB)) as (h & R0 & Ko & Cc).
  destruct l as [|cl ll il dl rl].
  - (* no left child *)
    assert (HU : hung s (kl ++ k0) c i null (pt r) r (i_ptr i) n x).
    { unfold hung. unfold inv, whole in H. cbn [cells pt] in H. fin. }
    assert (G : wp (get_left (i_ptr i)) s (fun a s1 => a = null /\ s1 = s)) by (unfold inv, whole in H; cbn [cells pt] in H; norm_in H; stp; auto).
    apply wp_bind. eapply wp_mono; [exact G|]. clear G. intros a s1 [-> ->]. change (is_null null) with true. cbv iota. apply wp_bind. apply wp_ret. cbv iota. apply wp_bind. apply wp_ret.
    inversion R0; subst.
    + match goal with X : rb E _ |- _ => inversion X; subst end.
      eapply wp_splice; [exact HU|right; auto|exact K|eassumption|discriminate|exact Ko|]. intros s' t' m' A B. apply HQ; auto. rewrite B, elems_plug_eq by exact F. reflexivity.
    + match goal with X : rb E _ |- _ => inversion X; subst end.
      eapply wp_splice; [exact HU|right; auto|exact K|eassumption|auto|exact Ko|]. intros s' t' m' A B. apply HQ; auto. rewrite B, elems_plug_eq by exact F. reflexivity.
  - remember (T cl ll il dl rl) as l eqn:El. assert (Nl : l <> E) by (rewrite El; discriminate).
    assert (NZ : is_null (pt l) = false). { rewrite El in *. unfold inv, whole in H. cbn [cells pt] in H. norm_in H. cbn [pt]. eqb_step. reflexivity. }
    assert (G : wp (get_left (i_ptr i)) s (fun a s1 => a = pt l /\ s1 = s)) by (unfold inv, whole in H; cbn [cells pt] in H; norm_in H; stp; auto).
    apply wp_bind. eapply wp_mono; [exact G|]. intros a s1 [-> ->]. rewrite NZ. 
    assert (G2 : wp (get_right (i_ptr i)) s (fun a s1 => a = pt r /\ s1 = s)) by (unfold inv, whole in H; cbn [cells pt] in H; norm_in H; stp; auto).
    apply wp_bind. apply wp_bind. eapply wp_mono; [exact G2|]. intros a s1 [-> ->]. apply wp_ret.
    destruct r as [|cr lr ir dr rr].
    + (* no right child *)
      change (negb (is_null (pt E))) with false. cbv iota. apply wp_bind. apply wp_ret.
      assert (HU : hung s (kl ++ k0) c i (pt l) null l (i_ptr i) n x).
      { unfold hung. unfold inv, whole in H. cbn [cells pt] in H. fin. }
      inversion R0; subst; match goal with X : rb E _ |- _ => inversion X; subst end.
      * eapply wp_splice; [exact HU|left; auto|exact K|eassumption|discriminate|exact Ko|]. intros s' t' m' A B. apply HQ; auto. rewrite B, elems_plug_eq by exact F. reflexivity.
      * eapply wp_splice; [exact HU|left; auto|exact K|eassumption|auto|exact Ko|]. intros s' t' m' A B. apply HQ; auto. rewrite B, elems_plug_eq by exact F. reflexivity.
    + remember (T cr lr ir dr rr) as r eqn:Er. assert (Nr : r <> E) by (rewrite Er; discriminate).
      assert (NZ2 : is_null (pt r) = false). { rewrite Er in *. unfold inv, whole in H. cbn [cells pt] in H. norm_in H. cbn [pt]. eqb_step. reflexivity. }
      rewrite NZ2. cbn [negb]. cbv iota. apply wp_bind. apply wp_bind. eapply wp_mono; [exact G|]. intros a s1 [-> ->]. apply wp_bind. apply wp_fun with (m := fun s => _).
      destruct (inv_pos _ _ _ _ _ _ _ _ _ H) as [X0 NX].
      assert (CN : count l < S (dt_next s)).
      { destruct (St_len _ _ _ _ _ H) as [Y|[Y _]]; [|unfold whole in Y; apply app_eq_nil in Y; destruct Y; discriminate].
        unfold whole in Y. rewrite app_length, cells_count in Y. cbn [count] in Y. rewrite NX. lia. }
      eapply (wp_rightmost _ s (FL c i E r :: kl ++ k0) l n x); [exact Nl|exact CN|apply inv_fill; exact H|].
      intros kr c2 b j e SP EL. rewrite EL in H. eapply wp_exchange; [exact SP|exact Nr|exact H|]. clear H G G2 s CN NX. intros s HU.
      change (kr ++ FL c j e r :: kl ++ k0) with (kr ++ (FL c j e r :: kl) ++ k0) in HU. rewrite app_assoc in HU.
      assert (FK : flat (kr ++ FL c j e r :: kl)) by (apply Forall_app; split; [apply spine_flat; exact SP|constructor; [exact I|exact F]]).
      assert (SS : ssh (plug kl (T c l i E r)) (plug (kr ++ FL c j e r :: kl) (T c2 b i E E))).
      { rewrite plug_app. cbn [plug fold_left fill]. apply ssh_plug; [exact F|]. constructor; [|apply ssh_refl]. rewrite EL. apply ssh_plug; [apply spine_flat; exact SP|]. constructor; apply ssh_refl. }
      pose proof (ssh_rb _ _ SS _ RB) as RB2. rewrite (ssh_col _ _ SS) in CB.
      destruct (rb_plug _ _ m FK RB2 (or_intror CB)) as (h2 & R2 & Ko2 & _).
      assert (EQ : elems (plug (kr ++ FL c j e r :: kl) b) = kleft kl ++ elems l ++ elems r ++ kright kl).
      { rewrite plug_app. cbn [plug fold_left fill]. change (fold_left _ kl ?u) with (plug kl u). change (fold_left _ kr ?u) with (plug kr u). rewrite elems_plug_eq by exact F. cbn [elems]. rewrite EL, !elems_plug_eq by (apply spine_flat; exact SP). rewrite (spine_right _ SP). cbn [elems].
        rewrite !app_nil_r, <- !app_assoc. reflexivity. }
      inversion R2; subst; match goal with X : rb E _ |- _ => inversion X; subst end.
      * eapply wp_splice; [exact HU|left; auto|exact K|eassumption|discriminate|exact Ko2|]. intros s' t' m' A B. apply HQ; auto. rewrite B. exact EQ.
      * eapply wp_splice; [exact HU|left; auto|exact K|eassumption|auto|exact Ko2|]. intros s' t' m' A B. apply HQ; auto. rewrite B. exact EQ.
Qed.

(** * Names in a sorted tree *)
Lemma path_of : forall k t i d, tree_ok true (plug k t) -> In (i, d) (elems t) -> forall y, path true k (key i ++ y).
Proof.
  induction k as [|f k IH]; intros t i d H I y; [constructor|]. rewrite plug_cons in H.
  destruct (sub_level _ _ _ H) as [NO SO]. destruct (SO eq_refl) as [_ SS]. apply name_ok_keyed in NO. unfold keyed in NO. rewrite Forall_forall in NO.
  destruct f as [c i' d' r|c l i' d'|c l i' r]; cbn [fill elems] in *.
  - assert (NK : key i <> []) by (apply key_nonempty; apply NO; apply in_map_iff; exists (i, d); split; auto; apply in_or_app; auto).
    constructor; [eapply IH; [exact H|cbn [fill elems]; apply in_or_app; left; exact I]|].
    rewrite map_app in SS. apply ss_app in SS. destruct SS as (_ & _ & SS). rewrite Forall_forall in SS. specialize (SS i ltac:(apply in_map_iff; exists (i, d); auto)). cbn [map fst] in SS. inversion SS as [|? ? SL _]; subst.
    unfold slt in SL. split; [rewrite hd_app by exact NK; apply lt_neq; exact SL|]. intros _. rewrite hd_app by exact NK. exact SL.
  - assert (NK : key i <> []) by (apply key_nonempty; apply NO; apply in_map_iff; exists (i, d); split; auto; apply in_or_app; cbn; auto).
    constructor; [eapply IH; [exact H|cbn [fill elems]; apply in_or_app; right; right; exact I]|].
    rewrite map_app in SS. apply ss_app in SS. destruct SS as (_ & SS & _). cbn [map fst] in SS. inversion SS as [|? ? _ SL]; subst. rewrite Forall_forall in SL. specialize (SL i ltac:(apply in_map_iff; exists (i, d); auto)).
    unfold slt in SL. assert (X : slex (hd [] (key i)) (hd [] (key i')) = Gt) by (rewrite slex_opp in SL; destruct (slex (hd [] (key i)) (hd [] (key i'))); cbn in SL; congruence).
    split; [rewrite hd_app by exact NK; intro Y; rewrite Y, slex_refl in X; discriminate|]. intros _. rewrite hd_app by exact NK. exact X.
  - constructor. eapply IH; [exact H|]. cbn [fill elems]. apply in_or_app. right. left. reflexivity.
Qed.
End A.

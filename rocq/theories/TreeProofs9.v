(** Red-black repair after a removal. *)
From Coq Require Import Permutation.
From Verif Require Import Base BaseLemmas NameModel TreeModel SpecName SpecOrd SpecScope OrdBase SpecTree TreeProofs PermTac TreeProofs2 TreeProofs3.
Open Scope list_scope.
Open Scope nat_scope.

Ltac run2 := repeat first [progress cbn [negb] | progress cbv iota beta | colstep | eqb_step | stp | unf].
Section A.
Context {V : Type} {SC : scope}.
Notation node := (node V). Notation dtree := (dtree V). Notation info := (info V). Notation tree := (tree V).
Notation frame := (@frame V). Notation ctx := (@ctx V).
Implicit Types (s : dtree) (t : tree) (i : info) (p q : ptr) (L R : list (ptr * node)) (k : ctx) (f : frame).

(** the part of [remove_fixup] after the sibling is known to be black (tree.rs:448-487) *)
Definition rfix_tail (rf : ptr -> ptr -> MT V unit) (root : loc) (child par sib : ptr) : MT V unit :=
  let! sl := get_left sib in
  let! slb := is_black sl in
  let! both := (if slb : bool then let! sr := get_right sib in is_black sr else ret false) in
  if both : bool then
    set_color sib Red ;;
    let! pb := is_black par in
    if pb : bool then let! q := get_parent par in rf par q
    else set_color par Black
  else
    let! ss1 := get_left sib in
    let! ss2 := get_right sib in
    let! pl := get_left par in
    let '(ss1, ss2) := if negb (pl =? child) then (ss2, ss1) else (ss1, ss2) in
    let! b2 := is_black ss2 in
    let! sib :=
      (if b2 : bool then
         set_color sib Red ;; set_color ss1 Black ;;
         (let! pl := get_left par in if pl =? child then right_rotate root sib else left_rotate root sib) ;;
         get_sibling par child
       else ret sib) in
    let! pc := get_color par in
    set_color sib pc ;;
    set_color par Black ;;
    let! ss1 := get_left sib in
    let! ss2 := get_right sib in
    let! pl := get_left par in
    let '(ss1, ss2) := if negb (pl =? child) then (ss2, ss1) else (ss1, ss2) in
    set_color ss2 Black ;;
    let! pl := get_left par in
    if pl =? child then left_rotate root par else right_rotate root par.

Definition colS (c : color) (m : nat) : nat := match c with Black => S m | Red => m end.
Lemma rb_col : forall c l i d r n, rb l n -> rb r n -> (c = Red -> col l = Black /\ col r = Black) -> rb (T c l i d r) (colS c n).
Proof. intros [] l i d r n A B C; cbn [colS]; [destruct (C eq_refl)|]; constructor; auto. Qed.

Lemma wp_tail_L : forall rf s k kr cf j d a w dw b t m n x (Q : unit -> dtree -> Prop),
  inv s k (T cf t j d (T Black a w dw b)) n x -> kloc k = kr -> rb t m -> col t = Black -> rb a m -> rb b m ->
  (forall s', cf = Black -> inv s' k (T Black t j d (T Red a w dw b)) n x -> rb (T Black t j d (T Red a w dw b)) (S m) -> wp (rf (i_ptr j) (kpar null k)) s' Q) ->
  (forall s' t', inv s' k t' n x -> elems t' = elems (T cf t j d (T Black a w dw b)) -> rb t' (colS cf (S m)) -> (cf = Black -> col t' = Black) -> Q tt s') ->
  wp (rfix_tail rf kr (pt t) (i_ptr j) (i_ptr w)) s Q.
Proof.
  intros rf s k kr cf j d a w dw b t m n x Q H <- Rt Ct Ra Rb Hrec Hfin. unfold rfix_tail.
  assert (Both : col a = Black -> col b = Black -> wp (rfix_tail rf (kloc k) (pt t) (i_ptr j) (i_ptr w)) s Q).
  { intros Ca Cb. unfold rfix_tail. unfold inv, whole in H. cbn [cells pt] in H. norm_in H. run.
    destruct cf; run.
    - eapply (Hfin _ (T Black t j d (T Red a w dw b))); [fold_inv|el|rbs|discriminate].
    - eapply Hrec; [reflexivity|fold_inv|rbs]. }
  destruct (col b) eqn:Cb; [|destruct (col a) eqn:Ca; [|apply Both; auto]].
  - destruct b as [|cb bl bi bd br]; [discriminate|]. cbn [col] in Cb. subst cb. destruct (rb_red _ _ _ _ _ Rb) as (? & ? & ? & ?).
    assert (G : wp (rfix_tail rf (kloc k) (pt t) (i_ptr j) (i_ptr w)) s Q).
    { destruct (col a) eqn:Ca; unfold rfix_tail; unfold inv, whole in H; cbn [cells pt] in H; norm_in H; run2;
      (to_inv k (T Black t j d (T cf a w dw (T Black bl bi bd br))); eapply wp_left_rotate; [exact HI|]; clear HI; intros s'' HI;
      eapply Hfin; [exact HI|el|apply rb_col; [rbs|rbs|auto]|]; intros ->; reflexivity). }
    exact G.
  - destruct a as [|ca al ai ad ar]; [discriminate|]. cbn [col] in Ca. subst ca. destruct (rb_red _ _ _ _ _ Ra) as (? & ? & ? & ?).
    unfold inv, whole in H. cbn [cells pt] in H. norm_in H. run2.
    to_inv (FR cf t j d :: k) (T Red (T Black al ai ad ar) w dw b). change (kloc k) with (kloc (FR cf t j d :: k)). eapply wp_right_rotate; [exact HI|].
    clear HI. intros s' HI. apply inv_fill in HI. cbn [fill] in HI. unfold inv, whole in HI. cbn [cells pt] in HI. norm_in HI. run2. 
    to_inv k (T Black t j d (T cf al ai ad (T Black ar w dw b))). change (kloc (FR cf t j d :: k)) with (kloc k). eapply wp_left_rotate; [exact HI|]. clear HI. intros s'' HI.
    eapply Hfin; [exact HI|el|apply rb_col; [rbs|rbs|auto]|]. intros ->. reflexivity.
Qed.
Lemma wp_tail_R : forall rf s k kr cf j d a w dw b t m n x (Q : unit -> dtree -> Prop),
  inv s k (T cf (T Black b w dw a) j d t) n x -> kloc k = kr -> rb t m -> col t = Black -> rb a m -> rb b m ->
  (forall s', cf = Black -> inv s' k (T Black (T Red b w dw a) j d t) n x -> rb (T Black (T Red b w dw a) j d t) (S m) -> wp (rf (i_ptr j) (kpar null k)) s' Q) ->
  (forall s' t', inv s' k t' n x -> elems t' = elems (T cf (T Black b w dw a) j d t) -> rb t' (colS cf (S m)) -> (cf = Black -> col t' = Black) -> Q tt s') ->
  wp (rfix_tail rf kr (pt t) (i_ptr j) (i_ptr w)) s Q.
Proof.
  intros rf s k kr cf j d a w dw b t m n x Q H <- Rt Ct Ra Rb Hrec Hfin. unfold rfix_tail.
  assert (Both : col a = Black -> col b = Black -> wp (rfix_tail rf (kloc k) (pt t) (i_ptr j) (i_ptr w)) s Q).
  { intros Ca Cb. unfold rfix_tail. unfold inv, whole in H. cbn [cells pt] in H. norm_in H. run.
    destruct cf; run.
    - eapply (Hfin _ (T Black (T Red b w dw a) j d t)); [fold_inv|el|rbs|discriminate].
    - eapply Hrec; [reflexivity|fold_inv|rbs]. }
  destruct (col b) eqn:Cb; [|destruct (col a) eqn:Ca; [|apply Both; auto]].
  - destruct b as [|cb bl bi bd br]; [discriminate|]. cbn [col] in Cb. subst cb. destruct (rb_red _ _ _ _ _ Rb) as (? & ? & ? & ?).
    assert (G : wp (rfix_tail rf (kloc k) (pt t) (i_ptr j) (i_ptr w)) s Q).
    { destruct (col a) eqn:Ca; unfold rfix_tail; unfold inv, whole in H; cbn [cells pt] in H; norm_in H; run2;
      (to_inv k (T Black (T cf (T Black bl bi bd br) w dw a) j d t); eapply wp_right_rotate; [exact HI|]; clear HI; intros s'' HI;
      eapply Hfin; [exact HI|el|apply rb_col; [rbs|rbs|auto]|]; intros ->; reflexivity). }
    exact G.
  - destruct a as [|ca al ai ad ar]; [discriminate|]. cbn [col] in Ca. subst ca. destruct (rb_red _ _ _ _ _ Ra) as (? & ? & ? & ?).
    unfold inv, whole in H. cbn [cells pt] in H. norm_in H. run2.
    to_inv (FL cf j d t :: k) (T Red b w dw (T Black al ai ad ar)). change (kloc k) with (kloc (FL cf j d t :: k)). eapply wp_left_rotate; [exact HI|].
    clear HI. intros s' HI. apply inv_fill in HI. cbn [fill] in HI. unfold inv, whole in HI. cbn [cells pt] in HI. norm_in HI. run2. 
    to_inv k (T Black (T cf (T Black b w dw al) ai ad ar) j d t). change (kloc (FL cf j d t :: k)) with (kloc k). eapply wp_right_rotate; [exact HI|]. clear HI. intros s'' HI.
    eapply Hfin; [exact HI|el|apply rb_col; [rbs|rbs|auto]|]. intros ->. reflexivity.
Qed.

Lemma rfix_unfold : forall (fu : nat) (root : loc) (child par : ptr), remove_fixup (S fu) root child par =
  (let! r := read_loc root in
   let! go := (if child =? r then ret false else is_black child) in
   if negb go then ret tt
   else
     let! stop := (if is_null par then ret false else let! d := get_down par in let! r := read_loc root in ret (d =? r)) in
     if stop : bool then ret tt
     else
       let! sib := get_sibling par child in
       let! sr := is_red sib in
       let! sib :=
         (if sr : bool then
            set_color par Red ;; set_color sib Black ;;
            (let! pl := get_left par in if pl =? child then left_rotate root par else right_rotate root par) ;;
            get_sibling par child
          else ret sib) in
       rfix_tail (remove_fixup (V := V) fu root) root child par sib).
Proof. reflexivity. Qed.
Lemma kok_LS : forall c (j : info) (d u : tree) (kl : ctx) m, kok (FL c j d u :: kl) m -> rb u m /\ (c = Red -> col u = Black) /\ kok kl (colS c m) /\ (c = Red -> kcol kl = Black).
Proof. intros c j d u kl m H. inversion H; subst; cbn [colS]; repeat split; auto; discriminate. Qed.
Lemma kok_RS : forall c (j : info) (d u : tree) (kl : ctx) m, kok (FR c u j d :: kl) m -> rb u m /\ (c = Red -> col u = Black) /\ kok kl (colS c m) /\ (c = Red -> kcol kl = Black).
Proof. intros c j d u kl m H. inversion H; subst; cbn [colS]; repeat split; auto; discriminate. Qed.
Lemma rb_S : forall t m, rb t (S m) -> col t = Black -> exists a w dw b, t = T Black a w dw b /\ rb a m /\ rb b m.
Proof. intros t m H C. inversion H; subst; [|discriminate]. repeat eexists; eauto. Qed.

Lemma kroot_nz : forall s f kl k R h n x, St s (kcells null true ((f :: kl) ++ k) h ++ R) (kroot ((f :: kl) ++ k) h) n x -> kroot (f :: kl) h <> null.
Proof.
  intros s f kl k R h n x H X. rewrite kcells_app in H. assert (0 < kroot (f :: kl) h < x); [|unfold null in X; lia].
  eapply St_pos; [exact H|]. rewrite !ptrs_app, !in_app_iff. left. left. apply kroot_in.
Qed.
Lemma child_not_root : forall s f kl k t n x, inv s ((f :: kl) ++ k) t n x -> pt t <> kroot (f :: kl) (pt t).
Proof.
  intros s f kl k t n x H. destruct t as [|c l i d r].
  - intro X. eapply kroot_nz; [exact H|]. symmetry. exact X.
  - eapply not_lroot; [exact H|left; reflexivity].
Qed.
Definition fdown f : tree := match f with FL _ _ d _ => d | FR _ _ _ d => d | FD _ _ _ _ => E end.
Lemma down_not_root : forall s f kl k R h n x, St s (kcells null true ((f :: kl) ++ k) h ++ R) (kroot ((f :: kl) ++ k) h) n x -> pt (fdown f) <> kroot (f :: kl) h.
Proof.
  intros s f kl k R h n x H. assert (NZ := kroot_nz _ _ _ _ _ _ _ _ H).
  assert (I : kroot (f :: kl) h = fptr f \/ In (kroot (f :: kl) h) (ptrs (kcells (kpar null k) (krt true k) kl (fptr f)))).
  { destruct kl as [|g kl]; [left; reflexivity|]. right. cbn [kroot]. change (kroot kl (fptr g)) with (kroot (g :: kl) (fptr f)). apply kroot_in. }
  cbn [app kcells] in H. rewrite kcells_app in H.
  destruct f as [c i d r|c l i d|c l i r]; cbn [fdown].
  - kred_in H. assert (H' := H). bring_in (cells (i_ptr i) true d) H'. eapply pt_neq'; [exact H'|]. destruct I as [->|I]; [left; reflexivity|]. right. rewrite !ptrs_app, !in_app_iff. unfold fptr in I. cbn [finfo] in I. tauto.
  - kred_in H. assert (H' := H). bring_in (cells (i_ptr i) true d) H'. eapply pt_neq'; [exact H'|]. destruct I as [->|I]; [left; reflexivity|]. right. rewrite !ptrs_app, !in_app_iff. unfold fptr in I. cbn [finfo] in I. tauto.
  - auto.
Qed.

Lemma wp_rfix : forall fuel s kl k0 t m n x (Q : unit -> dtree -> Prop),
  length kl < fuel -> inv s (kl ++ k0) t n x -> krt true k0 = true -> rb t m -> col t = Black -> kok kl (S m) ->
  (forall s' t' m', inv s' k0 t' n x -> elems t' = elems (plug kl t) -> rb t' m' -> col t' = Black -> Q tt s') ->
  wp (remove_fixup fuel (kloc k0) (pt t) (kpar null (kl ++ k0))) s Q.
Proof.
  induction fuel as [|fuel IH]; intros s kl k0 t m n x Q Fu H K Rt Ct Ko HQ; [lia|]. rewrite rfix_unfold.
  apply wp_bind. eapply (wp_read_lvl s kl k0); [exact H|exact K|]. destruct kl as [|f kl].
  - cbn [kroot]. rewrite Nat.eqb_refl. apply wp_bind. apply wp_ret. cbn [negb]. apply wp_ret. eapply HQ; eauto.
  - rewrite (proj2 (Nat.eqb_neq _ _) (child_not_root _ _ _ _ _ _ _ H)).
    apply wp_bind. assert (G : wp (is_black (pt t)) s (fun a s1 => a = true /\ s1 = s)).
    { assert (H' := H). unfold inv, whole in H'. colstep. auto. }
    eapply wp_mono; [exact G|]. clear G. intros a s1 [-> ->]. cbn [negb].
    assert (F : flat kl) by (apply kok_flat in Ko; inversion Ko; auto).
    assert (G : wp (if is_null (kpar null ((f :: kl) ++ k0)) then ret false else let! d := get_down (kpar null ((f :: kl) ++ k0)) in let! r := read_loc (kloc k0) in ret (d =? r)) s (fun a s1 => a = false /\ s1 = s)).
    { assert (N := down_not_root _ _ _ _ _ _ _ _ H). cbn [app kpar].
      assert (NZ : is_null (fptr f) = false). { assert (H' := H). unfold inv, whole in H'. destruct f as [c i d r|c l i d|c l i r]; cbn [app] in H'; kred_in H'; norm_in H'; unfold fptr; cbn [finfo]; apply (St_nz 0 _ _ _ _ _ _ _ H' eq_refl). }
      rewrite NZ. apply wp_bind. assert (G : wp (get_down (fptr f)) s (fun a s1 => a = pt (fdown f) /\ s1 = s)).
      { assert (H' := H). unfold inv, whole in H'. destruct f as [c i d r|c l i d|c l i r]; [| |inversion Ko]; cbn [app] in H'; kred_in H'; norm_in H'; unfold fptr; cbn [finfo fdown]; stp; auto. }
      eapply wp_mono; [exact G|]. clear G. intros a s1 [-> ->]. apply wp_bind. eapply (wp_read_lvl s (f :: kl) k0); [exact H|exact K|]. apply wp_ret. split; auto. apply Nat.eqb_neq. exact N. }
    apply wp_bind. eapply wp_mono; [exact G|]. clear G. intros a s1 [-> ->].
    (* what the tail lemmas give *)
    assert (Rec : forall c s' t', c = Black -> kok kl (colS c (S m)) -> inv s' (kl ++ k0) t' n x -> rb t' (S m) -> col t' = Black -> elems t' = elems (fill f t) ->
                  wp (remove_fixup fuel (kloc k0) (pt t') (kpar null (kl ++ k0))) s' Q).
    { intros c s' t' -> Kk HI R' C' EL. eapply (IH _ kl k0 t' (S m)); [cbn in Fu; lia|exact HI|exact K|exact R'|exact C'|exact Kk|].
      intros s'' t'' m'' A B C D. eapply HQ; [exact A| |exact C|exact D]. rewrite B. apply (elems_plug kl); auto. }
    assert (Fin : forall c s' t', kok kl (colS c (S m)) -> (c = Red -> kcol kl = Black) -> inv s' (kl ++ k0) t' n x -> rb t' (colS c (S m)) -> (c = Black -> col t' = Black) -> (kl = [] -> c = Black) -> elems t' = elems (fill f t) -> Q tt s').
    { intros c s' t' Kk Kc HI R' C' Ne EL.
      assert (X : exists m', rb (plug kl t') m' /\ col (plug kl t') = Black).
      { destruct c; [|eapply kok_plug0; eauto]. destruct kl as [|g kl]; [discriminate (Ne eq_refl)|]. eapply kok_plug; eauto. discriminate. }
      destruct X as (m' & X1 & X2). eapply HQ; [apply inv_plug; exact HI| |exact X1|exact X2]. apply (elems_plug kl); auto. }
    destruct f as [cf j d u|cf u j d|]; [| |inversion Ko].
    + destruct (kok_LS _ _ _ _ _ _ Ko) as (Ru & Cu & Kk & Kc). change ((FL cf j d u :: kl) ++ k0) with (FL cf j d u :: kl ++ k0) in *. apply inv_fill in H. cbn [fill] in *. kred.
      destruct (col u) eqn:Cu'.
      * destruct cf; [discriminate (Cu eq_refl)|]. destruct u as [|cu a w dw b]; [discriminate|]. cbn in Cu'. subst cu. destruct (rb_red _ _ _ _ _ Ru) as (Ra & Rb & Ca & Cb).
        unfold inv, whole in H. cbn [cells pt] in H. norm_in H. run2. rewrite <- (kloc_app kl k0 F).
        to_inv (kl ++ k0) (T Red t j d (T Black a w dw b)). eapply wp_left_rotate; [exact HI|]. clear HI. intros s' HI.
        destruct (rb_S _ _ Ra Ca) as (a1 & wa & da & a2 & -> & Ra1 & Ra2).
        unfold inv, whole in HI. cbn [cells pt] in HI. norm_in HI. run2. to_inv (FL Black w dw b :: kl ++ k0) (T Red t j d (T Black a1 wa da a2)).
        rewrite (kloc_app kl k0 F).
        eapply wp_tail_L; [exact HI|cbn [kloc]; apply kloc_app; exact F|exact Rt|exact Ct|exact Ra1|exact Ra2|discriminate|].
        intros s'' t' HI' EL R' _. apply inv_fill in HI'. cbn [fill] in HI'. eapply (Fin Black); [exact Kk|discriminate|exact HI'|cbn [colS] in *; constructor; auto|reflexivity|reflexivity|].
        cbn [elems]. rewrite EL. el.
      * destruct (rb_S _ _ Ru Cu') as (a & w & dw & b & -> & Ra & Rb).
        assert (Ne : kl = [] -> cf = Black). { intros ->. destruct cf; auto. }
        unfold inv, whole in H. cbn [cells pt] in H. norm_in H.
        apply wp_bind. unf. run2.
        to_inv (kl ++ k0) (T cf t j d (T Black a w dw b)). eapply wp_tail_L; [exact HI|apply kloc_app; exact F|exact Rt|exact Ct|exact Ra|exact Rb| |].
        -- clear HI. intros s' -> HI R'. eapply (Rec Black _ (T Black t j d (T Red a w dw b))); auto; el.
        -- clear HI. intros s' t' HI EL R' C'. eapply (Fin cf); eauto.
    + destruct (kok_RS _ _ _ _ _ _ Ko) as (Ru & Cu & Kk & Kc). change ((FR cf u j d :: kl) ++ k0) with (FR cf u j d :: kl ++ k0) in *. apply inv_fill in H. cbn [fill] in *. kred.
      destruct (col u) eqn:Cu'.
      * destruct cf; [discriminate (Cu eq_refl)|]. destruct u as [|cu b w dw a]; [discriminate|]. cbn in Cu'. subst cu. destruct (rb_red _ _ _ _ _ Ru) as (Rb & Ra & Cb & Ca).
        unfold inv, whole in H. cbn [cells pt] in H. norm_in H. run2. rewrite <- (kloc_app kl k0 F).
        to_inv (kl ++ k0) (T Red (T Black b w dw a) j d t). eapply wp_right_rotate; [exact HI|]. clear HI. intros s' HI.
        destruct (rb_S _ _ Ra Ca) as (a1 & wa & da & a2 & -> & Ra1 & Ra2).
        unfold inv, whole in HI. cbn [cells pt] in HI. norm_in HI. run2. to_inv (FR Black b w dw :: kl ++ k0) (T Red (T Black a1 wa da a2) j d t).
        rewrite (kloc_app kl k0 F).
        eapply wp_tail_R; [exact HI|cbn [kloc]; apply kloc_app; exact F|exact Rt|exact Ct|exact Ra2|exact Ra1|discriminate|].
        intros s'' t' HI' EL R' _. apply inv_fill in HI'. cbn [fill] in HI'. eapply (Fin Black); [exact Kk|discriminate|exact HI'|cbn [colS] in *; constructor; auto|reflexivity|reflexivity|].
        cbn [elems]. rewrite EL. el.
      * destruct (rb_S _ _ Ru Cu') as (b & w & dw & a & -> & Rb & Ra).
        assert (Ne : kl = [] -> cf = Black). { intros ->. destruct cf; auto. }
        unfold inv, whole in H. cbn [cells pt] in H. norm_in H.
        apply wp_bind. unf. run2.
        to_inv (kl ++ k0) (T cf (T Black b w dw a) j d t). eapply wp_tail_R; [exact HI|apply kloc_app; exact F|exact Rt|exact Ct|exact Ra|exact Rb| |].
        -- clear HI. intros s' -> HI R'. eapply (Rec Black _ (T Black (T Red b w dw a) j d t)); auto; el.
        -- clear HI. intros s' t' HI EL R' C'. eapply (Fin cf); eauto.
Qed.
End A.

(** [remove], the setters, [clear]: all calls of a history. *)
From Coq Require Import Permutation Sorted.
From Verif Require Import Base BaseLemmas NameModel TreeModel SpecName SpecOrd SpecScope OrdBase SpecTree SpecHist NameCmpProofs2 TreeProofs PermTac TreeProofs2 TreeProofs3 TreeProofs4
  TreePure TreePure2 TreeProofs5 TreeProofs6 TreeProofs7 TreeProofs8 TreeProofs9 TreeProofs10 TreeProofs11 TreeProofs12.
Open Scope list_scope.
Open Scope nat_scope.

Section A.
Context {V : Type} {SC : scope}.
Notation node := (node V). Notation dtree := (dtree V). Notation info := (info V). Notation tree := (tree V). Notation entry := (entry V).
Notation frame := (@frame V). Notation ctx := (@ctx V).
Implicit Types (s : dtree) (t : tree) (i : info) (k kl kr : ctx) (f : frame).

(** * An address belongs to one entry *)
Definition eptrs (x : info * tree) : list ptr := i_ptr (fst x) :: ptrs (cells (i_ptr (fst x)) true (snd x)).
Lemma elems_perm : forall t par rt, Permutation (ptrs (cells par rt t)) (flat_map eptrs (elems t)).
Proof.
  induction t as [|c l IHl i d _ r IHr]; intros par rt; cbn [cells elems]; [constructor|]. rewrite flat_map_app. cbn [flat_map]. unfold ptrs in *. cbn [map fst]. rewrite !map_app.
  eapply Permutation_trans; [|apply Permutation_app; [apply (IHl (i_ptr i) false)|apply Permutation_app_head; apply (IHr (i_ptr i) false)]].
  unfold eptrs. cbn [fst snd]. unfold ptrs. cbn [app]. eapply Permutation_trans; [|apply Permutation_middle]. constructor.
  apply Permutation_app_head. reflexivity.
Qed.
Lemma nd_l : forall (X : Type) (a b : list X), NoDup (a ++ b) -> NoDup b.
Proof. induction a as [|x a IH]; intros b N; [exact N|]. inversion N; auto. Qed.
Lemma nd_r : forall (X : Type) (a b : list X), NoDup (a ++ b) -> NoDup a.
Proof. induction a as [|x a IH]; intros b N; [constructor|]. inversion N as [|? ? N1 N2]; subst. constructor; [intro I; apply N1; apply in_or_app; auto|eauto]. Qed.
Lemma flat_nodup : forall (X Y : Type) (g : X -> list Y) L a b y, NoDup (flat_map g L) -> In a L -> In b L -> In y (g a) -> In y (g b) -> a = b.
Proof.
  induction L as [|z L IH]; intros a b y N A B YA YB; [inversion A|]. cbn [flat_map] in N.
  assert (M : forall w, In w L -> In y (g w) -> In y (flat_map g L)) by (intros; apply in_flat_map; eauto).
  cbn [In] in A, B. destruct A as [<-|A]; destruct B as [<-|B]; auto.
  - exfalso. eapply NoDup_app_in; [exact N|exact YA|]. eapply M; eauto.
  - exfalso. eapply NoDup_app_in; [exact N|exact YB|]. eapply M; eauto.
  - eapply IH; eauto. eapply nd_l. exact N.
Qed.
Lemma flat_nodup1 : forall (X Y : Type) (g : X -> list Y) L a, NoDup (flat_map g L) -> In a L -> NoDup (g a).
Proof.
  induction L as [|z L IH]; intros a N A; [inversion A|]. cbn [flat_map] in N. destruct A as [<-|A]; [eapply nd_r; exact N|]. apply IH; auto. eapply nd_l. exact N.
Qed.
Lemma at_ptr_inj : forall t q j, at_ t q j -> forall par rt q' j', NoDup (ptrs (cells par rt t)) -> at_ t q' j' -> i_ptr j = i_ptr j' -> q = q' /\ j = j'.
Proof.
  assert (P : forall (d : tree) q j p, at_ d q j -> In (i_ptr j) (ptrs (cells p true d))) by (intros; eapply at_ptr; eauto).
  induction 1 as [t i d I|t i d q j I A IH]; intros par rt q' j' N A' EP; apply (Permutation_NoDup (elems_perm t par rt)) in N; apply at_inv in A'; destruct A' as (i' & d' & I' & A').
  - assert (X : (i, d) = (i', d')).
    { eapply flat_nodup; [exact N|exact I|exact I'|left; reflexivity|]. cbn [fst]. rewrite EP. unfold eptrs. cbn [fst snd]. destruct A' as [[-> ->]|(q1 & -> & A')]; [left; reflexivity|right; eauto]. }
    inversion X; subst i' d'. destruct A' as [[-> ->]|(q1 & -> & A')]; auto. exfalso. pose proof (flat_nodup1 _ _ _ _ _ N I) as N1. unfold eptrs in N1. cbn [fst snd] in N1. inversion N1 as [|? ? N2 _]; subst. apply N2. rewrite EP. eauto.
  - assert (X : (i, d) = (i', d')).
    { eapply flat_nodup; [exact N|exact I|exact I'|right; eapply P; exact A|]. rewrite EP. unfold eptrs. cbn [fst snd]. destruct A' as [[-> ->]|(q1 & -> & A')]; [left; reflexivity|right; eauto]. }
    inversion X; subst i' d'. pose proof (flat_nodup1 _ _ _ _ _ N I) as N1. unfold eptrs in N1. cbn [fst snd] in N1. inversion N1 as [|? ? N2 N3]; subst.
    destruct A' as [[-> ->]|(q1 & -> & A')].
    + exfalso. apply N2. rewrite <- EP. eauto.
    + destruct (IH _ _ _ _ N3 A' EP) as [-> ->]. auto.
Qed.
Lemma has_ptr_inj : forall s t n x q q' e e', inv s [] t n x -> has t q e -> has t q' e' -> e_ptr e = e_ptr e' -> q = q' /\ e = e'.
Proof.
  intros s t n x q q' e e' H (i & A & <-) (j & B & <-) EP. destruct H as ((N & _) & _). unfold whole in N. cbn [kcells app] in N. destruct (at_ptr_inj _ _ _ A _ _ _ _ N B EP) as [-> ->]. auto.
Qed.

(** * find, remove *)
Definition is_node t (p : ptr) := exists k c l i d r, t = plug k (T c l i d r) /\ i_ptr i = p.
Lemma wp_find : forall asc md ls s t n x, wf_labels ls -> (asc = true -> scoped ls) -> safe_md asc md -> inv s [] t n x -> tree_ok asc t ->
  wp (find md (name_of ls)) s (fun r s' => s' = s /\ (fr_node r = null \/ is_node t (fr_node r)) /\ (fr_node r = null -> fr_flag r = NotFound) /\ (asc = true -> find_spec t (qof ls) r)).
Proof.
  intros asc md ls s t n x W AS SM H TO. unfold find, find_node. apply wp_bind. apply wp_bind. eapply wp_mono; [eapply (wp_find_ext unit asc md ls None); eauto|].
  cbn beta. intros [[r ch] p] s' (-> & A & B & C). apply wp_ret. apply wp_ret. cbn [fst snd] in *. split; auto. split; [exact A|]. split; [exact B|]. intros X. destruct (C X) as (L0 & AN & C2).
  assert (VN : forall L p, visit (V := V) (P := unit) None L p = inr p). { clear. induction L as [|[l e] L IH]; intros p; cbn [visit]; auto. destruct (e_cb e); rewrite IH; reflexivity. }
  rewrite VN in C2. apply C2.
Qed.
Lemma node_has : forall t p, is_node t p -> exists k c l i d r, t = plug k (T c l i d r) /\ i_ptr i = p /\ has t (kpre k ++ key i) (ent i).
Proof. intros t p (k & c & l & i & d & r & -> & E0). exists k, c, l, i, d, r. split; auto. split; auto. apply has_here. Qed.
Definition good (asc : bool) s t n x : Prop := inv s [] t n x /\ tree_ok asc t /\ count t <= n /\ 0 < x.

Lemma wp_remove : forall asc md ls s t n x, wf_labels ls -> (asc = true -> scoped ls) -> safe_md asc md -> good asc s t n x ->
  wp (remove md (name_of ls)) s (fun old s' => exists t' n', good asc s' t' n' x /\ n' + count t = n + count t' /\ (asc = true -> remove_spec t t' (qof ls) old)).
Proof.
  intros asc md ls s t n x W AS SM (H & TO & CN & X0). unfold remove. apply wp_bind. eapply wp_mono; [eapply wp_find; eauto|].
  intros r s' (-> & A & B & C). destruct A as [A|A].
  - rewrite A. change (negb (is_null null)) with false. cbv iota. apply wp_ret. exists t, n. split; [split; [exact H|split; [exact TO|split; [exact CN|exact X0]]]|]. split; [lia|]. intros Y. specialize (C Y). specialize (B A). unfold find_spec in C. rewrite B in C. right. split; [apply C|]. split; [reflexivity|]. reflexivity.
  - destruct (node_has _ _ A) as (k & c & l & i & d & r0 & -> & EP & HH). assert (HI : inv s k (T c l i d r0) n x) by (rewrite <- (app_nil_r k); apply inv_plug; exact H).
    rewrite <- EP. rewrite (nz_node _ _ _ _ _ _ _ _ _ HI). cbn [negb]. cbv iota. eapply wp_mono; [eapply wp_remove_node; eauto|].
    intros old s' (-> & t' & n' & H' & TO' & CO & RS). exists t', n'. split; [split; [exact H'|split; [exact TO'|split; [lia|exact X0]]]|]. split; [exact CO|]. intros Y. specialize (C Y). left.
    assert (FF : exists a z e, qof ls = a ++ z /\ has (plug k (T c l i d r0)) a e /\ e_ptr e = fr_node r /\ forall a' z' e', qof ls = a' ++ z' -> has (plug k (T c l i d r0)) a' e' -> length a' <= length a).
    { unfold find_spec in C. destruct (fr_flag r) eqn:FL.
      - destruct C as (e & C1 & C2). exists (qof ls), [], e. rewrite app_nil_r. split; auto. split; auto. split; auto. intros a' z' e' EQ _. rewrite EQ, app_length. lia.
      - destruct C as [C1 _]. rewrite C1 in EP. pose proof (nz_node _ _ _ _ _ _ _ _ _ HI) as Z. rewrite EP in Z. discriminate.
      - destruct C as (_ & a & z & e & C1 & C2 & C3 & C4 & C5). exists a, z, e. repeat split; auto. }
    destruct FF as (a & z & e & F1 & F2 & F3 & F4). destruct (has_ptr_inj _ _ _ _ _ _ _ _ H F2 HH) as [E1 E2]; [rewrite F3; symmetry; exact EP|].
    exists a, z, e. split; auto. split; auto. split; auto. split; [rewrite E2; reflexivity|]. rewrite E1. apply RS. exact Y.
Qed.

(** * Acting on the exact node *)
Lemma wp_on_exact : forall A asc md ls (g : ptr -> MT V A) s t n x (Q : unit -> dtree -> Prop), wf_labels ls -> (asc = true -> scoped ls) -> safe_md asc md -> good asc s t n x ->
  ((asc = true -> forall e, ~ has t (qof ls) e) -> Q tt s) ->
  (forall k c l i d r, t = plug k (T c l i d r) -> (asc = true -> kpre k ++ key i = qof ls) -> inv s k (T c l i d r) n x -> wp (g (i_ptr i)) s (fun _ s' => Q tt s')) ->
  wp (on_exact md ls g) s Q.
Proof.
  intros A asc md ls g s t n x Q W AS SM (H & TO & CN & X0) HN HE. unfold on_exact. apply wp_bind. eapply wp_mono; [eapply wp_find; eauto|].
  intros r s' (-> & B & C & D). destruct (fr_flag r) eqn:FL.
  - destruct B as [B|B]; [specialize (C B); congruence|]. destruct (node_has _ _ B) as (k & c & l & i & d & r0 & -> & EP & HH).
    assert (HI : inv s k (T c l i d r0) n x) by (rewrite <- (app_nil_r k); apply inv_plug; exact H). rewrite <- EP. apply wp_bind. eapply wp_mono; [eapply HE; [reflexivity| |exact HI]|].
    + intros Y. specialize (D Y). unfold find_spec in D. rewrite FL in D. destruct D as (e & D1 & D2). destruct (has_ptr_inj _ _ _ _ _ _ _ _ H D1 HH) as [E1 _]; [rewrite D2; symmetry; exact EP|]. auto.
    + intros a s' X. apply wp_ret. exact X.
  - apply wp_ret. apply HN. intros Y e HA. specialize (D Y). unfold find_spec in D. rewrite FL in D. destruct D as [_ D]. apply (D (qof ls) [] e); [rewrite app_nil_r; reflexivity|exact HA].
  - apply wp_ret. apply HN. intros Y e HA. specialize (D Y). unfold find_spec in D. rewrite FL in D. destruct D as [D _]. exact (D e HA).
Qed.
Lemma wp_store_i : forall s k c l i d r n x i' (g : MT V unit) (Q : unit -> dtree -> Prop), inv s k (T c l i d r) n x -> i_ptr i' = i_ptr i -> i_labels i' = i_labels i ->
  (forall L j rt lp rp pp dp (Q' : unit -> dtree -> Prop), St s L (kroot k (i_ptr i)) n x -> nth_error L j = Some (i_ptr i, cell c rt i lp rp pp dp) ->
     (forall s', St s' (upd L j (i_ptr i, cell c rt i' lp rp pp dp)) (kroot k (i_ptr i)) n x -> Q' tt s') -> wp g s Q') ->
  (forall s', inv s' k (T c l i' d r) n x -> Q tt s') -> wp g s Q.
Proof.
  intros s k c l i d r n x i' g Q H EP EL HG HQ. unfold inv, whole in H. cbn [cells pt] in H. norm_in H. eapply (HG _ 0); [exact H|reflexivity|]. intros s' H'. cbn [upd] in H'. apply HQ. unfold inv, whole. cbn [cells pt]. rewrite EP. fin.
Qed.
Lemma set_has : forall k c l i d r i', tree_ok true (plug k (T c l i d r)) -> i_labels i' = i_labels i -> forall g : entry -> entry, ent i' = g (ent i) ->
  set_spec (plug k (T c l i d r)) (plug k (T c l i' d r)) (kpre k ++ key i) g.
Proof.
  intros k c l i d r i' TO EL g EG q' e'. rewrite (has_set k c l i d r i' TO EL). split; intros [[N X]|[-> X]]; auto; right; split; auto.
  - exists (ent i). split; [apply has_here|]. rewrite X. exact EG.
  - destruct X as (e & X & ->). rewrite (has_unique _ _ _ _ TO X (has_here k c l i d r)). symmetry. exact EG.
Qed.
Lemma set_same : forall t q (g : entry -> entry), (forall e, ~ has t q e) -> set_spec t t q g.
Proof.
  intros t q g N q' e'. split.
  - intros A. left. split; auto. intros ->. exact (N _ A).
  - intros [[_ A]|[-> (e & A & _)]]; auto. exfalso. exact (N _ A).
Qed.
Lemma good_set : forall asc s k c l i d r i' n x, good asc s (plug k (T c l i d r)) n x -> i_labels i' = i_labels i -> forall s', inv s' k (T c l i' d r) n x -> good asc s' (plug k (T c l i' d r)) n x.
Proof.
  intros asc s k c l i d r i' n x (H & TO & CN & X0) EL s' H'. split; [apply inv_plug; rewrite app_nil_r; exact H'|]. split; [eapply tree_ok_set; eauto|]. rewrite (count_set k c l i d r). auto.
Qed.

(** * clear *)
Lemma wp_free : forall p m L s root n x (Q : unit -> dtree -> Prop), St s ((p, m) :: L) root n x ->
  (forall s', St s' L root n x -> dt_heap s' p = None -> (forall q, q <> p -> dt_heap s' q = dt_heap s q) -> Q tt s') -> wp (node_free p) s Q.
Proof.
  intros p m L s root n x Q ((ND & F) & H1 & H2 & H3) HQ. pose proof (Forall_inv F) as [[P1 P2] P3]. cbn [fst snd] in *. unfold wp, node_free. rewrite P3. unfold is_null. rewrite (proj2 (Nat.eqb_neq p 0)) by lia.
  left. exists tt. eexists. split; [reflexivity|]. cbn [map fst] in ND. inversion ND as [|? ? N1 N2]; subst. apply HQ; cbn [dt_heap dt_next dt_root dt_len].
  - split; [|auto]. split; [exact N2|]. apply Forall_inv_tail in F. rewrite Forall_forall in *. intros [q m'] I. pose proof (F _ I) as [A B]. cbn [fst snd dt_heap dt_next] in *. split; auto. unfold hset. rewrite (proj2 (Nat.eqb_neq q p)); auto.
    intros ->. apply N1. apply in_map_iff. exists (p, m'). auto.
  - unfold hset. rewrite Nat.eqb_refl. reflexivity.
  - intros q Nq. unfold hset. rewrite (proj2 (Nat.eqb_neq q p)); auto.
Qed.
Lemma wp_clear_rec : forall t fuel s par rt R root n x (Q : unit -> dtree -> Prop), count t <= fuel -> St s (cells par rt t ++ R) root n x ->
  (forall s', St s' R root n x -> (forall q, In q (ptrs (cells par rt t)) -> dt_heap s' q = None) -> (forall q, ~ In q (ptrs (cells par rt t)) -> dt_heap s' q = dt_heap s q) -> Q tt s') ->
  wp (clear_recurse fuel (pt t)) s Q.
Proof.
  induction t as [|c l IHl i d IHd r IHr]; intros fuel s par rt R root n x Q Fu H HQ.
  - destruct fuel; cbn [clear_recurse pt]; change (is_null null) with true; cbv iota; apply wp_ret; apply HQ; auto; intros q [].
  - cbn [count] in Fu. destruct fuel as [|fuel]; [lia|]. cbn [clear_recurse pt]. cbn [cells app] in H. rewrite (St_nz 0 _ _ _ _ _ _ _ H eq_refl).
    set (self := cell c rt i (pt l) (pt r) par (pt d)) in *.
    apply wp_bind. eapply wp_get_left with (k := 0); [exact H|reflexivity|].
    apply wp_bind. eapply (IHl fuel s (i_ptr i) false ((i_ptr i, self) :: cells (i_ptr i) true d ++ cells (i_ptr i) false r ++ R)); [lia|eapply St_perm; [exact H|]|].
    { rewrite <- !app_assoc. apply Permutation_middle. }
    intros s1 H1 A1 B1. apply wp_bind. eapply wp_get_right with (k := 0); [exact H1|reflexivity|].
    apply wp_bind. eapply (IHr fuel s1 (i_ptr i) false ((i_ptr i, self) :: cells (i_ptr i) true d ++ R)); [lia|eapply St_perm; [exact H1|]|].
    { eapply Permutation_trans; [|apply Permutation_middle]. constructor. rewrite !app_assoc. apply Permutation_app_tail. apply Permutation_app_comm. }
    intros s2 H2 A2 B2. apply wp_bind. eapply wp_get_down with (k := 0); [exact H2|reflexivity|].
    apply wp_bind. eapply (IHd fuel s2 (i_ptr i) true ((i_ptr i, self) :: R)); [lia|eapply St_perm; [exact H2|]|].
    { apply Permutation_middle. }
    intros s3 H3 A3 B3. eapply wp_free; [exact H3|]. intros s4 H4 A4 B4. apply HQ; [exact H4| |].
    + intros q I. destruct (Nat.eq_dec q (i_ptr i)) as [->|N]; [exact A4|]. rewrite B4 by exact N. unfold ptrs in I. cbn [cells map fst In] in I. rewrite !map_app, !in_app_iff in I.
      destruct (in_dec Nat.eq_dec q (ptrs (cells (i_ptr i) true d))) as [I3|I3]; [auto|]. rewrite B3 by exact I3.
      destruct (in_dec Nat.eq_dec q (ptrs (cells (i_ptr i) false r))) as [I2|I2]; [auto|]. rewrite B2 by exact I2.
      apply A1. unfold ptrs in *. destruct I as [I|[I|[I|I]]]; [congruence|exact I|contradiction|contradiction].
    + intros q I. unfold ptrs in I. cbn [cells map fst In] in I. rewrite !map_app, !in_app_iff in I. rewrite B4 by (intros ->; apply I; auto).
      rewrite B3 by (intro; apply I; auto). rewrite B2 by (intro; apply I; auto). rewrite B1 by (intro; apply I; auto). reflexivity.
Qed.
Lemma tree_ok_E : forall asc, tree_ok asc (E : tree).
Proof.
  intros asc. constructor; [|intros i d []]. split; [exists 0; constructor|]. split; [reflexivity|]. split; [constructor|]. intros _. split; constructor.
Qed.
Lemma wp_clear : forall asc s t n x, good asc s t n x -> wp clear s (fun _ s' => good asc s' E n x /\ (forall q, In q (ptrs (cells null true t)) -> dt_heap s' q = None) /\ (forall q, ~ In q (ptrs (cells null true t)) -> dt_heap s' q = dt_heap s q)).
Proof.
  intros asc s t n x (H & TO & CN & X0). unfold clear. apply wp_fun with (m := fun s => _). assert (RT : dt_root s = pt t) by (destruct H as (_ & H & _); exact H). assert (NX : dt_next s = x) by (destruct H as (_ & _ & _ & H); exact H).
  assert (CX : count t <= x).
  { destruct (St_len _ _ _ _ _ H) as [Y|[Y _]]; unfold whole in Y; cbn [kcells app] in Y; [rewrite cells_count in Y; lia|]. destruct t; [cbn; lia|discriminate]. }
  unfold inv, whole in H. cbn [kcells app kpar krt] in H. rewrite RT, NX. apply wp_bind.
  left. exists tt. eexists. split; [reflexivity|]. eapply (wp_clear_rec t _ _ null true [] null n x); [lia| |].
  - rewrite app_nil_r. destruct H as (A & B & C & D). split; [exact A|]. cbn. auto.
  - intros s' H' A B. split; [split; [exact H'|split; [apply tree_ok_E|split; [cbn; lia|exact X0]]]|]. split; [exact A|]. intros q I. rewrite (B q I). reflexivity.
Qed.
Lemma good_new : forall asc, good asc (tree_new : dtree) E 0 1.
Proof. intros asc. split; [repeat split; auto; constructor|]. split; [apply tree_ok_E|]. cbn. lia. Qed.
End A.

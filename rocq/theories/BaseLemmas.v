(** Proof-side lemmas about Base and lists. *)
From Verif Require Import Base.

Lemma idx_nth : forall A (l : list A) i a, nth_error l i = Some a -> idx l i = Ok a.
Proof. intros. unfold idx. rewrite H. reflexivity. Qed.
Lemma idx_ok_lt : forall A (l : list A) i, i < length l -> exists a, idx l i = Ok a /\ nth_error l i = Some a.
Proof.
  intros. unfold idx. destruct (nth_error l i) eqn:E; [eauto|].
  apply nth_error_None in E. lia.
Qed.
Lemma idx_ok_inv : forall A (l : list A) i a, idx l i = Ok a -> nth_error l i = Some a /\ i < length l.
Proof.
  unfold idx. intros. destruct (nth_error l i) eqn:E; inversion H; subst.
  split; auto. apply nth_error_Some. congruence.
Qed.
Lemma idx_app_mid : forall A (a : list A) x b i, i = length a -> idx (a ++ x :: b) i = Ok x.
Proof. intros. subst. unfold idx. rewrite nth_error_app2 by lia. rewrite Nat.sub_diag. reflexivity. Qed.
Lemma idx_app_l : forall A (a b : list A) i, i < length a -> idx (a ++ b) i = idx a i.
Proof. intros. unfold idx. rewrite nth_error_app1 by lia. reflexivity. Qed.
Lemma idx_app_r : forall A (a b : list A) i, length a <= i -> idx (a ++ b) i = idx b (i - length a).
Proof. intros. unfold idx. rewrite nth_error_app2 by lia. reflexivity. Qed.

Lemma slice_mid : forall A (a b c : list A) s e,
  s = length a -> e = length a + length b -> slice (a ++ b ++ c) s e = Ok b.
Proof.
  intros. subst. unfold slice.
  rewrite !app_length.
  replace (length a <=? length a + length b) with true by (symmetry; apply Nat.leb_le; lia).
  replace (length a + length b <=? length a + (length b + length c)) with true by (symmetry; apply Nat.leb_le; lia).
  simpl. replace (length a + length b - length a) with (length b) by lia.
  rewrite skipn_app, skipn_all, Nat.sub_diag. simpl.
  rewrite firstn_app, firstn_all, Nat.sub_diag. simpl. rewrite app_nil_r. reflexivity.
Qed.
Lemma slice_pre : forall A (b c : list A) e, e = length b -> slice (b ++ c) 0 e = Ok b.
Proof. intros. apply (slice_mid A [] b c); simpl; auto. Qed.
Lemma slice_suf : forall A (a b : list A) s e, s = length a -> e = length (a ++ b) -> slice (a ++ b) s e = Ok b.
Proof.
  intros. pose proof (slice_mid A a b [] s e). rewrite app_nil_r in H1. apply H1; auto.
  rewrite app_length in H0. auto.
Qed.
Lemma slice_inv : forall A (l : list A) s e r, slice l s e = Ok r ->
  s <= e <= length l /\ r = firstn (e - s) (skipn s l) /\ length r = e - s.
Proof.
  unfold slice. intros. destruct ((s <=? e) && (e <=? length l)) eqn:E; inversion H.
  apply andb_true_iff in E. destruct E as [E1 E2]. apply Nat.leb_le in E1, E2.
  repeat split; auto. rewrite firstn_length, skipn_length. lia.
Qed.

Lemma upd_length : forall A (l : list A) i v, length (upd l i v) = length l.
Proof. induction l; destruct i; simpl; intros; auto. Qed.
Lemma upd_app_mid : forall A (a : list A) x b v i, i = length a -> upd (a ++ x :: b) i v = a ++ v :: b.
Proof. intros. subst. induction a; simpl; auto. f_equal. auto. Qed.
Lemma upd_r_app_mid : forall A (a : list A) x b v i, i = length a -> upd_r (a ++ x :: b) i v = Ok (a ++ v :: b).
Proof.
  intros. unfold upd_r. rewrite app_length. simpl.
  replace (i <? length a + S (length b)) with true by (symmetry; apply Nat.ltb_lt; lia).
  rewrite upd_app_mid; auto.
Qed.

Lemma csub_ok : forall a b, b <= a -> csub a b = Ok (a - b).
Proof. intros. unfold csub. replace (b <=? a) with true; auto. symmetry. apply Nat.leb_le. auto. Qed.
Lemma u8_add_ok : forall a b, (a + b < 256)%N -> u8_add a b = Ok (a + b)%N.
Proof. intros. unfold u8_add. replace (a + b <? 256)%N with true; auto. symmetry. apply N.ltb_lt. auto. Qed.
Lemma u8_sub_ok : forall a b, (b <= a)%N -> u8_sub a b = Ok (a - b)%N.
Proof. intros. unfold u8_sub. replace (b <=? a)%N with true; auto. symmetry. apply N.leb_le. auto. Qed.
Lemma as_u8_small : forall n, (n < 256)%N -> as_u8 n = n.
Proof. intros. unfold as_u8. apply N.mod_small. auto. Qed.
Lemma as_u16_small : forall n, (n < 65536)%N -> as_u16 n = n.
Proof. intros. unfold as_u16. apply N.mod_small. auto. Qed.

Lemma rmap_app : forall A B (f : A -> res B) a b a' b',
  rmap f a = Ok a' -> rmap f b = Ok b' -> rmap f (a ++ b) = Ok (a' ++ b').
Proof.
  induction a; simpl; intros.
  - inversion H. auto.
  - destruct (f a); simpl in *; try discriminate.
    destruct (rmap f a0) eqn:E; simpl in *; try discriminate.
    inversion H; subst. erewrite IHa; eauto. reflexivity.
Qed.

Lemma nth_error_ext : forall A (a b : list A), (forall i, nth_error a i = nth_error b i) -> a = b.
Proof.
  induction a; destruct b; intros; auto.
  - specialize (H 0). discriminate.
  - specialize (H 0). discriminate.
  - pose proof (H 0). simpl in H0. inversion H0; subst. f_equal. apply IHa. intros. apply (H (S i)).
Qed.

Lemma blen_app : forall A (a b : list A), blen (a ++ b) = (blen a + blen b)%N.
Proof. intros. unfold blen. rewrite app_length. lia. Qed.

Lemma bytes_app : forall a b, bytes (a ++ b) <-> bytes a /\ bytes b.
Proof. intros. unfold bytes. apply Forall_app. Qed.

(** Monad inversion *)
Lemma rbind_ok : forall A B (m : res A) (k : A -> res B) b,
  rbind m k = Ok b -> exists a, m = Ok a /\ k a = Ok b.
Proof. intros. destruct m; simpl in H; try discriminate. eauto. Qed.
Lemma bind_ok : forall S A B (m : M S A) (k : A -> M S B) s b s',
  bind m k s = (Ok b, s') -> exists a s1, m s = (Ok a, s1) /\ k a s1 = (Ok b, s').
Proof. unfold bind. intros. destruct (m s) as [[a| | |] s1]; try discriminate. eauto. Qed.

Ltac bl := repeat match goal with
  | H : (_ <=? _) = true |- _ => apply Nat.leb_le in H
  | H : (_ <=? _) = false |- _ => apply Nat.leb_gt in H
  | H : (_ <? _) = true |- _ => apply Nat.ltb_lt in H
  | H : (_ <? _) = false |- _ => apply Nat.ltb_ge in H
  | H : (_ =? _) = true |- _ => apply Nat.eqb_eq in H
  | H : (_ =? _) = false |- _ => apply Nat.eqb_neq in H
  | H : (_ <=? _)%N = true |- _ => apply N.leb_le in H
  | H : (_ <=? _)%N = false |- _ => apply N.leb_gt in H
  | H : (_ <? _)%N = true |- _ => apply N.ltb_lt in H
  | H : (_ <? _)%N = false |- _ => apply N.ltb_ge in H
  | H : (_ =? _)%N = true |- _ => apply N.eqb_eq in H
  | H : (_ =? _)%N = false |- _ => apply N.eqb_neq in H
  | H : (_ <=? _)%Z = true |- _ => apply Z.leb_le in H
  | H : (_ <=? _)%Z = false |- _ => apply Z.leb_gt in H
  | H : (_ <? _)%Z = true |- _ => apply Z.ltb_lt in H
  | H : (_ <? _)%Z = false |- _ => apply Z.ltb_ge in H
  | H : (_ =? _)%Z = true |- _ => apply Z.eqb_eq in H
  | H : (_ =? _)%Z = false |- _ => apply Z.eqb_neq in H
  | H : _ && _ = true |- _ => apply andb_true_iff in H; destruct H
  | H : _ && _ = false |- _ => apply andb_false_iff in H
  | H : _ || _ = false |- _ => apply orb_false_iff in H; destruct H
  | H : _ || _ = true |- _ => apply orb_true_iff in H
  | H : negb _ = true |- _ => apply negb_true_iff in H
  | H : negb _ = false |- _ => apply negb_false_iff in H
  end.
Ltac ift := match goal with
  | |- context [if ?b then _ else _] =>
      replace b with true by (symmetry; rewrite ?andb_true_iff, ?orb_true_iff, ?negb_true_iff,
         ?Nat.ltb_lt, ?Nat.leb_le, ?Nat.eqb_eq, ?N.ltb_lt, ?N.leb_le, ?N.eqb_eq, ?Nat.ltb_ge, ?Nat.leb_gt, ?Nat.eqb_neq, ?N.eqb_neq; lia)
  end.
Ltac iff_ := match goal with
  | |- context [if ?b then _ else _] =>
      replace b with false by (symmetry; rewrite ?andb_false_iff, ?orb_false_iff, ?negb_false_iff,
         ?Nat.ltb_ge, ?Nat.leb_gt, ?Nat.eqb_neq, ?N.ltb_ge, ?N.leb_gt, ?N.eqb_neq, ?Nat.eqb_eq, ?N.eqb_eq; lia)
  end.
Ltac inj H := match type of H with
  | Some ?a = Some ?b => let E := fresh "Einj" in assert (E : a = b) by congruence; clear H; try (subst a) end.
Global Arguments N.add _ _ : simpl never.
Global Arguments N.sub _ _ : simpl never.
Global Arguments N.mul _ _ : simpl never.
Global Arguments N.modulo _ _ : simpl never.
Global Arguments N.div _ _ : simpl never.
Lemma Ok_inj : forall A (a b : A), Ok a = Ok b -> a = b. Proof. congruence. Qed.
Lemma Some_inj : forall A (a b : A), Some a = Some b -> a = b. Proof. congruence. Qed.
Lemma pair_inj : forall A B (a c : A) (b d : B), (a, b) = (c, d) -> a = c /\ b = d. Proof. intros. split; congruence. Qed.
(** Decompose [H : Ok (a, b) = Ok (c, d)] and the like; substitutes what it can. *)
Ltac okinj H := match type of H with
  | Ok _ = Ok _ => apply Ok_inj in H; okinj H
  | Some _ = Some _ => apply Some_inj in H; okinj H
  | (_, _) = (_, _) => apply pair_inj in H; let H1 := fresh "E" in let H2 := fresh "E" in destruct H as [H1 H2]; okinj H1; okinj H2
  | ?x = ?y => first [subst y | subst x | idtac]
  end.
Lemma app_eq_len : forall A (a b c d : list A), length a = length c -> a ++ b = c ++ d -> a = c /\ b = d.
Proof.
  induction a as [|x a IH]; intros b [|y c] d L E; simpl in *; try discriminate; auto.
  injection E as -> E. injection L as L. destruct (IH _ _ _ L E) as [-> ->]. auto.
Qed.
Lemma skipn_add : forall A (l : list A) a b, skipn a (skipn b l) = skipn (b + a) l.
Proof. intros A l a b. revert l. induction b; intros; simpl; auto. destruct l; [apply skipn_nil|apply IHb]. Qed.
Lemma firstn_In : forall A n (l : list A) x, In x (firstn n l) -> In x l.
Proof. intros A n l x H. rewrite <- (firstn_skipn n l). apply in_or_app. auto. Qed.
Lemma skipn_In : forall A n (l : list A) x, In x (skipn n l) -> In x l.
Proof. intros A n l x H. rewrite <- (firstn_skipn n l). apply in_or_app. auto. Qed.
Lemma nth_skipn : forall A n (l : list A) i, nth_error (skipn n l) i = nth_error l (n + i).
Proof. induction n; intros; simpl; auto. destruct l; [destruct i; auto|apply IHn]. Qed.
Lemma nth_firstn : forall A n (l : list A) i, i < n -> nth_error (firstn n l) i = nth_error l i.
Proof. induction n; intros; [lia|]. destruct l; simpl; auto. destruct i; simpl; auto. apply IHn. lia. Qed.
Lemma nth_upd_same : forall A (l : list A) i v, i < length l -> nth_error (upd l i v) i = Some v.
Proof. induction l; destruct i; simpl; intros; auto; try lia. apply IHl. lia. Qed.
Lemma nth_upd_other : forall A (l : list A) i j v, i <> j -> nth_error (upd l i v) j = nth_error l j.
Proof. induction l; destruct i, j; simpl; intros; auto; try lia. Qed.
Lemma upd_r_ok : forall A (l : list A) i v, i < length l -> upd_r l i v = Ok (upd l i v).
Proof. intros. unfold upd_r. ift. reflexivity. Qed.

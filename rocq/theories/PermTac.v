(** A small reflective solver for permutations of lists built from [++], [::] and atoms. *)
From Coq Require Import List Permutation Arith Bool.
Import ListNotations.

Section P.
Context {A : Type}.
Inductive pexp := PNil | PAtom (n : nat) | PApp (a b : pexp).
Definition lk (env : list (list A)) (n : nat) : list A := nth n env [].
Fixpoint den (env : list (list A)) (e : pexp) : list A :=
  match e with PNil => [] | PAtom n => lk env n | PApp a b => den env a ++ den env b end.
Fixpoint flat (e : pexp) : list nat := match e with PNil => [] | PAtom n => [n] | PApp a b => flat a ++ flat b end.
Fixpoint ins (n : nat) (l : list nat) : list nat :=
  match l with [] => [n] | m :: l' => if n <=? m then n :: l else m :: ins n l' end.
Fixpoint sortn (l : list nat) : list nat := match l with [] => [] | n :: l' => ins n (sortn l') end.
Lemma ins_perm : forall n l, Permutation (n :: l) (ins n l).
Proof. induction l as [|m l IH]; cbn; auto. destruct (n <=? m); auto. eapply perm_trans; [apply perm_swap|]. auto. Qed.
Lemma sortn_perm : forall l, Permutation l (sortn l).
Proof. induction l as [|n l IH]; cbn; auto. eapply perm_trans; [|apply ins_perm]. auto. Qed.
Definition sem env (l : list nat) : list A := flat_map (lk env) l.
Lemma den_flat : forall env e, den env e = sem env (flat e).
Proof. induction e; cbn; auto; unfold sem in *. { rewrite app_nil_r. reflexivity. } rewrite flat_map_app. congruence. Qed.
Lemma sem_perm : forall env l l', Permutation l l' -> Permutation (sem env l) (sem env l').
Proof.
  intros env l l' H. induction H; cbn; auto.
  - apply Permutation_app_head. exact IHPermutation.
  - rewrite !app_assoc. apply Permutation_app_tail. apply Permutation_app_comm.
  - eapply perm_trans; eauto.
Qed.
Fixpoint leqb (a b : list nat) : bool := match a, b with [], [] => true | x :: a', y :: b' => (x =? y) && leqb a' b' | _, _ => false end.
Lemma leqb_eq : forall a b, leqb a b = true -> a = b.
Proof. induction a as [|x a IH]; intros [|y b] H; cbn in H; try discriminate; auto. apply andb_true_iff in H. destruct H as [H1 H2]. apply Nat.eqb_eq in H1. f_equal; auto. Qed.
Lemma perm_ok : forall env a b, leqb (sortn (flat a)) (sortn (flat b)) = true -> Permutation (den env a) (den env b).
Proof.
  intros env a b H. rewrite !den_flat. apply sem_perm. apply leqb_eq in H.
  eapply perm_trans; [apply sortn_perm|]. rewrite H. apply Permutation_sym. apply sortn_perm.
Qed.
End P.

Ltac perm_mem x l :=
  lazymatch l with
  | nil => constr:(false)
  | x :: _ => constr:(true)
  | _ :: ?l' => perm_mem x l'
  end.
Ltac perm_idx x l :=
  lazymatch l with
  | x :: _ => constr:(O)
  | _ :: ?l' => let n := perm_idx x l' in constr:(S n)
  end.
Ltac perm_env e env :=
  lazymatch e with
  | nil => env
  | ?a ++ ?b => let env := perm_env a env in perm_env b env
  | ?x :: ?b =>
      let a := constr:([x]) in
      let env := (lazymatch perm_mem a env with true => env | false => constr:(a :: env) end) in perm_env b env
  | ?a => lazymatch perm_mem a env with true => env | false => constr:(a :: env) end
  end.
Ltac perm_reify e env :=
  lazymatch e with
  | nil => constr:(PNil)
  | ?a ++ ?b => let x := perm_reify a env in let y := perm_reify b env in constr:(PApp x y)
  | ?x :: ?b => let n := perm_idx ([x]) env in let y := perm_reify b env in constr:(PApp (PAtom n) y)
  | ?a => let n := perm_idx a env in constr:(PAtom n)
  end.
Ltac perm :=
  lazymatch goal with
  | |- @Permutation ?A ?a ?b =>
      let env := perm_env a (@nil (list A)) in
      let env := perm_env b env in
      let x := perm_reify a env in
      let y := perm_reify b env in
      change (Permutation (den env x) (den env y)); apply perm_ok; vm_compute; reflexivity
  end.
Goal forall (A : Type) (a b c : list A) x y, Permutation (x :: (a ++ y :: b) ++ c) (c ++ [y] ++ (b ++ [x]) ++ a).
Proof. intros. perm. Qed.

(** [dump] prints the picture of the tree. *)
From Coq Require String.
From Verif Require Import Base NameModel TextModel TreeModel SliceModel DumpModel SpecName SpecOrd SpecEsc SpecScope SpecTree SpecSlice SpecDump.
From Verif Require Import SliceProofs SliceProofs2.
Import String.StringSyntax.
Open Scope string_scope.
Open Scope list_scope.
Open Scope nat_scope.

Section D.
Context {V : Type}.
Implicit Types (s : dtree V) (p : ptr) (t : tree V).

Lemma bind_ok : forall A B (m : MT V A) (f : A -> MT V B) s a, m s = (Ok a, s) -> bind m f s = f a s.
Proof. intros A B m f s a H. unfold bind. rewrite H. reflexivity. Qed.
Lemma NoDup_app_disj : forall A (l r : list A) x, NoDup (l ++ r) -> In x l -> In x r -> False.
Proof.
  induction l as [|y l IH]; intros r x N I J; [destruct I|]. cbn [app] in N. inversion N as [|? ? N1 N2]; subst. destruct I as [->|I].
  - apply N1. apply in_or_app. auto.
  - eapply IH; eauto.
Qed.
Lemma NoDup_app_remove_l : forall A (l r : list A), NoDup (l ++ r) -> NoDup r.
Proof. induction l as [|x l IH]; intros r N; [exact N|]. inversion N; subst. apply IH. assumption. Qed.
Lemma NoDup_app_remove_r : forall A (l r : list A), NoDup (l ++ r) -> NoDup l.
Proof. induction l as [|x l IH]; intros r N; [constructor|]. inversion N as [|? ? A1 A2]; subst. constructor; [|eapply IH; eauto]. intro I. apply A1. apply in_or_app. auto. Qed.
Lemma indent_margin : forall d, indent d = margin d.
Proof. induction d as [|d IH]; [reflexivity|]. unfold indent in *. cbn [margin]. rewrite <- IH. reflexivity. Qed.
Lemma holds_in : forall s L p n, holds s L -> In (p, n) L -> deref p s = (Ok n, s) /\ is_null p = false.
Proof.
  intros s L p n [_ H] I. rewrite Forall_forall in H. specialize (H _ I). cbn [fst snd] in H. destruct H as [A B]. unfold deref.
  assert (Z : is_null p = false) by (apply Nat.eqb_neq; lia). rewrite Z, B. auto.
Qed.
Lemma holds_app : forall s A B, holds s (A ++ B) -> holds s A /\ holds s B.
Proof.
  intros s A B [N F]. rewrite map_app in N. apply Forall_app in F. destruct F as [F1 F2]. split; split; auto.
  - apply NoDup_app_remove_r in N. exact N.
  - apply NoDup_app_remove_l in N. exact N.
Qed.
(** every node's labels can be printed *)
Fixpoint shown (t : tree V) : Prop := match t with E => True | T _ l i d r => seq_shape (i_labels i) /\ i_labels i <> [] /\ shown l /\ shown d /\ shown r end.
Lemma name_text_spec : forall s L p c rt i a b d e, holds s L -> In (p, cell c rt i a b d e) L -> seq_shape (i_labels i) -> i_labels i <> [] ->
  name_text p s = (Ok (show_seq (i_labels i)), s).
Proof.
  intros s L p c rt i a b d e H I S N. unfold name_text, get_name. destruct (holds_in _ _ _ _ H I) as [D _].
  rewrite (bind_ok _ _ _ _ s (seqf (i_labels i))).
  - unfold lift. rewrite seq_display_spec by exact S. destruct (i_labels i); [congruence|reflexivity].
  - rewrite (bind_ok _ _ _ _ s _ D). reflexivity.
Qed.
Lemma flags_color : forall c rt cb w, flag_color (flags c rt cb w) = c.
Proof. intros [] [] [] []; reflexivity. Qed.
Lemma flags_root : forall c rt cb w, flag_test (flags c rt cb w) SUBTREE_ROOT_MASK = rt.
Proof. intros [] [] [] []; reflexivity. Qed.
(** what [side_text] says of [p], given memory *)
Definition side_is s p (side : String.string) : Prop := side_text p s = (Ok (of_string side), s).

Lemma dump_helper_spec : forall fuel s t par rt depth side, count t < fuel -> holds s (cells par rt t) -> shown t ->
  (t <> E -> side_is s (pt t) side) -> dump_helper fuel (pt t) depth s = (Ok (show_tree depth side rt t), s).
Proof.
  induction fuel as [|k IH]; intros s t par rt depth side F H SH SI; [lia|]. destruct t as [|c l i d r].
  - cbn [dump_helper pt show_tree]. change (is_null null) with true. cbv iota. rewrite indent_margin. reflexivity.
  - cbn [cells] in H. set (me := cell c rt i (pt l) (pt r) par (pt d)) in *.
    assert (HI : In (i_ptr i, me) ((i_ptr i, me) :: cells (i_ptr i) false l ++ cells (i_ptr i) true d ++ cells (i_ptr i) false r)) by (left; reflexivity).
    destruct (holds_in _ _ _ _ H HI) as [DE NZ]. destruct SH as (S1 & S2 & SHl & SHd & SHr).
    assert (NT := name_text_spec _ _ _ _ _ _ _ _ _ _ H HI S1 S2).
    assert (H' := H). change ((i_ptr i, me) :: ?x) with ([(i_ptr i, me)] ++ x) in H'. apply holds_app in H'. destruct H' as [_ H']. apply holds_app in H'. destruct H' as [Hl H']. apply holds_app in H'. destruct H' as [Hd Hr].
    specialize (SI ltac:(discriminate)). cbn [pt] in SI. cbn [count] in F.
    assert (ND : NoDup (i_ptr i :: map fst (cells (i_ptr i) false l) ++ map fst (cells (i_ptr i) true d) ++ map fst (cells (i_ptr i) false r))).
    { destruct H as [N _]. cbn [map fst] in N. rewrite !map_app in N. exact N. }
    cbn [dump_helper pt]. rewrite NZ. rewrite (bind_ok _ _ _ _ s _ SI). rewrite (bind_ok _ _ _ _ s _ NT).
    assert (GC : get_color (i_ptr i) s = (Ok c, s)). { unfold get_color. rewrite NZ, (bind_ok _ _ _ _ s _ DE). unfold ret, me. cbn [nd_flag cell]. rewrite flags_color. reflexivity. }
    rewrite (bind_ok _ _ _ _ s _ GC).
    assert (GV : get_value (i_ptr i) s = (Ok (i_value i), s)). { unfold get_value. rewrite (bind_ok _ _ _ _ s _ DE). reflexivity. }
    rewrite (bind_ok _ _ _ _ s _ GV).
    assert (GS : is_subtree_root (i_ptr i) s = (Ok rt, s)). { unfold is_subtree_root. rewrite (bind_ok _ _ _ _ s _ DE). unfold ret, me. cbn [nd_flag cell]. rewrite flags_root. reflexivity. }
    rewrite (bind_ok _ _ _ _ s _ GS).
    assert (GD : get_down (i_ptr i) s = (Ok (pt d), s)). { unfold get_down. rewrite (bind_ok _ _ _ _ s _ DE). reflexivity. }
    rewrite (bind_ok _ _ _ _ s _ GD).
    assert (GL : get_left (i_ptr i) s = (Ok (pt l), s)). { unfold get_left. rewrite (bind_ok _ _ _ _ s _ DE). reflexivity. }
    assert (GR : get_right (i_ptr i) s = (Ok (pt r), s)). { unfold get_right. rewrite (bind_ok _ _ _ _ s _ DE). reflexivity. }
    assert (SUB : forall u rt', holds s (cells (i_ptr i) rt' u) -> u <> E -> get_parent (pt u) s = (Ok (i_ptr i), s) /\ In (pt u) (map fst (cells (i_ptr i) rt' u))).
    { intros [|c1 l1 i1 d1 r1] rt' Hu U; [congruence|]. cbn [cells pt] in *. split; [|left; reflexivity]. unfold get_parent.
      destruct (holds_in _ _ (i_ptr i1) _ Hu (or_introl eq_refl)) as [D1 _]. rewrite (bind_ok _ _ _ _ s _ D1). reflexivity. }
    set (line := indent depth ++ _) in *.
    assert (BE : (if is_null (pt d) then ret [] else let! dn := name_text (pt d) in let! xs := dump_helper k (pt d) (depth + 1) in
       ret (indent (depth + 1) ++ of_string "begin down from " ++ dn ++ [10%N; 10%N] ++ xs ++ indent (depth + 1) ++ of_string "end down from " ++ dn ++ [10%N])) s =
      (Ok (match d return list N with E => [] | T _ _ j _ _ => margin (S depth) ++ of_string "begin down from " ++ show_seq (i_labels j) ++ nl ++ nl ++
           show_tree (S depth) "" true d ++ margin (S depth) ++ of_string "end down from " ++ show_seq (i_labels j) ++ nl end), s)).
    { destruct d as [|c1 l1 i1 d1 r1]; [reflexivity|]. cbn [pt]. assert (I1 : In (i_ptr i1, cell c1 true i1 (pt l1) (pt r1) (i_ptr i) (pt d1)) (cells (i_ptr i) true (T c1 l1 i1 d1 r1))) by (left; reflexivity).
      destruct (holds_in _ _ _ _ Hd I1) as [_ NZ1]. rewrite NZ1. cbn [shown] in SHd. rewrite (bind_ok _ _ _ _ s _ (name_text_spec _ _ _ _ _ _ _ _ _ _ Hd I1 (proj1 SHd) (proj1 (proj2 SHd)))).
      rewrite (bind_ok _ _ _ _ s (show_tree (S depth) "" true (T c1 l1 i1 d1 r1))).
      2:{ replace (depth + 1) with (S depth) by lia. change (i_ptr i1) with (pt (T c1 l1 i1 d1 r1)). apply (IH s _ (i_ptr i)); [lia|exact Hd|exact SHd|].
          intros _. unfold side_is, side_text. destruct (SUB _ _ Hd) as [GP IN]; [discriminate|]. rewrite (bind_ok _ _ _ _ s _ GP). rewrite NZ, (bind_ok _ _ _ _ s _ GL).
          assert (X : forall u rt', holds s (cells (i_ptr i) rt' u) -> (u = l /\ rt' = false \/ u = r /\ rt' = false) -> (pt u =? pt (T c1 l1 i1 d1 r1)) = false).
          { intros u rt' Hu C. apply Nat.eqb_neq. intro X. inversion ND as [|? ? _ ND']; subst. destruct u as [|c2 l2 i2 d2 r2].
            - cbn [pt] in X. cbn [pt] in NZ1. apply Nat.eqb_neq in NZ1. apply NZ1. rewrite <- X. reflexivity.
            - destruct (SUB _ _ Hu) as [_ IN2]; [discriminate|]. rewrite X in IN2. destruct C as [[E1 E2]|[E1 E2]]; rewrite E2, E1 in IN2.
              + refine (NoDup_app_disj _ _ _ _ ND' IN2 (in_or_app _ _ _ (or_introl IN))).
              + exact (NoDup_app_disj _ (map fst (cells (i_ptr i) true (T c1 l1 i1 d1 r1))) (map fst (cells (i_ptr i) false r)) _ (NoDup_app_remove_l _ _ _ ND') IN IN2). }
          rewrite (X l false Hl) by auto. rewrite (bind_ok _ _ _ _ s _ GR). rewrite (X r false Hr) by auto. reflexivity. }
      unfold ret. replace (depth + 1) with (S depth) by lia. rewrite indent_margin. reflexivity. }
    rewrite (bind_ok _ _ _ _ s _ BE). rewrite (bind_ok _ _ _ _ s _ GL).
    rewrite (bind_ok _ _ _ _ s (show_tree (S depth) "left>" false l)).
    2:{ replace (depth + 1) with (S depth) by lia. apply (IH s _ (i_ptr i)); [lia|exact Hl|exact SHl|]. intros U. unfold side_is, side_text.
        destruct (SUB _ _ Hl U) as [GP IN]. rewrite (bind_ok _ _ _ _ s _ GP). rewrite NZ, (bind_ok _ _ _ _ s _ GL), Nat.eqb_refl. reflexivity. }
    rewrite (bind_ok _ _ _ _ s _ GR).
    rewrite (bind_ok _ _ _ _ s (show_tree (S depth) "right>" false r)).
    2:{ replace (depth + 1) with (S depth) by lia. apply (IH s _ (i_ptr i)); [lia|exact Hr|exact SHr|]. intros U. unfold side_is, side_text.
        destruct (SUB _ _ Hr U) as [GP IN]. rewrite (bind_ok _ _ _ _ s _ GP). rewrite NZ, (bind_ok _ _ _ _ s _ GL).
        assert (X : (pt l =? pt r) = false).
        { apply Nat.eqb_neq. intro X. inversion ND as [|? ? _ ND']; subst. destruct l as [|c2 l2 i2 d2 r2].
          - destruct r as [|c3 l3 i3 d3 r3]; [congruence|]. cbn [pt cells] in *. destruct (holds_in _ _ (i_ptr i3) _ Hr (or_introl eq_refl)) as [_ Z]. rewrite <- X in Z. discriminate.
          - destruct (SUB _ _ Hl) as [_ IN2]; [discriminate|]. rewrite X in IN2. exact (NoDup_app_disj _ _ _ _ ND' IN2 (in_or_app _ _ _ (or_intror IN))). }
        rewrite X. rewrite (bind_ok _ _ _ _ s _ GR), Nat.eqb_refl. reflexivity. }
    unfold ret, line. cbn [show_tree]. rewrite indent_margin. unfold color_text, nl. destruct c, (i_value i), rt; cbn [of_string]; rewrite <- ?app_assoc; reflexivity.
Qed.
End D.

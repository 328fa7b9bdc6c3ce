From Verif Require Import Base BaseLemmas NameModel SpecName SpecEsc NameWireProofs NameOpsProofs NameOpsProofs2 NameCmpProofs NameCmpProofs2 NameTextProofs NameTextProofs2 FitProofs EscProofs.
Open Scope list_scope.
Open Scope nat_scope.

(** Characters the display form prints as one character, escaped or not. *)
Definition pr (c : N) : Prop := (33 <= c <= 126)%N /\ c <> 46%N.
Lemma show_plain : forall c, pr c -> special c = false -> show_char c = [c].
Proof.
  intros c [H _] SP. unfold show_char. rewrite SP. unfold printable.
  replace ((33 <=? c) && (c <=? 126))%N with true; auto. symmetry. apply andb_true_iff. rewrite !N.leb_le. lia.
Qed.
Lemma show_special : forall c, special c = true -> show_char c = [92%N; c].
Proof. intros c SP. unfold show_char. rewrite SP. reflexivity. Qed.
Lemma special_not_digit : forall c, special c = true -> dec_digit c = false.
Proof.
  intros c H. unfold special in H. simpl in H. unfold dec_digit. apply andb_false_iff.
  rewrite !orb_true_iff in H. rewrite !N.eqb_eq in H. rewrite !N.leb_gt. lia || intuition lia.
Qed.
Lemma digit_not_special : forall c, dec_digit c = true -> special c = false.
Proof. intros. destruct (special c) eqn:E; auto. apply special_not_digit in E. congruence. Qed.

Definition O (l : list N) : option (list N) := esc_octets true (show_label l).
Definition Em (l : list N) : option (list N) := esc_octets true (92%N :: show_label l).
Lemma esc_nodig : forall b c t, dec_digit c = false -> esc_octets b (92%N :: c :: t) = opt_cons c (esc_octets b (c :: t)).
Proof. intros. cbn [esc_octets N.eqb Pos.eqb]. rewrite H. reflexivity. Qed.
Lemma esc_plain : forall b c t, c <> 92%N -> esc_octets b (c :: t) = opt_cons c (esc_octets b t).
Proof. intros. cbn [esc_octets]. apply N.eqb_neq in H. rewrite H. reflexivity. Qed.
Lemma not_special_92 : forall c, special c = false -> c <> 92%N.
Proof. intros c H ->. discriminate. Qed.

Lemma O_plain : forall c l, pr c -> special c = false -> O (c :: l) = opt_cons c (O l).
Proof. intros. unfold O, show_label. cbn [flat_map]. rewrite show_plain by auto. simpl app. apply esc_plain. apply not_special_92; auto. Qed.
Lemma O_special : forall c l, special c = true -> c <> 92%N -> O (c :: l) = opt_cons c (opt_cons c (O l)).
Proof.
  intros. unfold O, show_label. cbn [flat_map]. rewrite show_special by auto. simpl app.
  rewrite esc_nodig by (apply special_not_digit; auto). rewrite esc_plain by auto. reflexivity.
Qed.
Lemma O_bs : forall l, O (92%N :: l) = opt_cons 92%N (Em l).
Proof. intros. unfold O, Em, show_label. cbn [flat_map]. rewrite show_special by reflexivity. simpl app. rewrite esc_nodig by reflexivity. reflexivity. Qed.
Lemma E_plain : forall c l, pr c -> special c = false -> dec_digit c = false -> Em (c :: l) = opt_cons c (opt_cons c (O l)).
Proof.
  intros. unfold Em, O, show_label. cbn [flat_map]. rewrite show_plain by auto. simpl app. rewrite esc_nodig, esc_plain; auto. apply not_special_92; auto.
Qed.
Lemma E_special : forall c l, special c = true -> Em (c :: l) = opt_cons 92%N (O (c :: l)).
Proof.
  intros. unfold Em, O, show_label. cbn [flat_map]. rewrite show_special by auto. simpl app. rewrite esc_nodig by reflexivity. reflexivity.
Qed.
Lemma show_head : forall c l, pr c -> exists t, show_label (c :: l) = (if special c then 92%N else c) :: t.
Proof.
  intros. unfold show_label. cbn [flat_map]. destruct (special c) eqn:SPC.
  - rewrite show_special by auto. eexists. reflexivity.
  - rewrite show_plain by auto. eexists. reflexivity.
Qed.
Lemma E_digit : forall d l o, pr d -> Forall pr l -> dec_digit d = true -> Em (d :: l) = Some o ->
  exists y z l' o', l = y :: z :: l' /\ dec_digit y = true /\ dec_digit z = true /\ O l' = Some o' /\ o = z :: o'.
Proof.
  intros d l o P F D H. unfold Em, show_label in H. cbn [flat_map] in H. rewrite show_plain in H by (auto; apply digit_not_special; auto).
  simpl app in H. cbn [esc_octets N.eqb Pos.eqb] in H. rewrite D in H.
  destruct l as [|y l]; [discriminate|]. inversion F; subst.
  assert (SY : special y = false).
  { destruct (special y) eqn:SPC; auto. exfalso. cbn [flat_map] in H. rewrite show_special in H by auto. simpl app in H.
    change (dec_digit 92) with false in H. simpl andb in H. discriminate. }
  cbn [flat_map] in H. rewrite show_plain in H by auto. simpl app in H.
  destruct l as [|z l]; [discriminate|]. inversion H3; subst.
  assert (SZ : special z = false).
  { destruct (special z) eqn:SPC; auto. exfalso. cbn [flat_map] in H. rewrite show_special in H by auto. simpl app in H.
    change (dec_digit 92) with false in H. destruct (dec_digit y); discriminate. }
  cbn [flat_map] in H. rewrite show_plain in H by auto. simpl app in H.
  destruct (dec_digit y) eqn:DY; [|discriminate]. destruct (dec_digit z) eqn:DZ; [|discriminate].
  simpl andb in H. destruct (_ <=? 255)%N; [|discriminate].
  fold (show_label l) in H. fold (O l) in H. destruct (O l) as [o'|] eqn:OL; [|discriminate]. injection H as <-.
  exists y, z, l, o'. auto.
Qed.

Lemma rep_no : forall l x j o, Forall pr l -> x <> 92%N -> O l = Some o -> l = repeat x (S j) ++ o -> False.
Proof.
  induction l as [|c l IH]; intros x j o F X H E; [discriminate|].
  simpl in E. injection E as -> E. inversion F; subst.
  destruct (special x) eqn:SPC.
  - rewrite O_special in H by auto. destruct (O (repeat x j ++ o)) as [o'|] eqn:OL; [|discriminate]. injection H as <-.
    apply (IH x (S j) o'); auto. clear. simpl. induction j; simpl; auto. f_equal. auto.
  - rewrite O_plain in H by auto. destruct (O (repeat x j ++ o)) as [o'|] eqn:OL; [|discriminate]. injection H as <-.
    apply (IH x j o'); auto. clear. simpl. induction j; simpl; auto. f_equal. auto.
Qed.
Lemma shift_no : forall l y z, Forall pr l -> dec_digit y = true -> dec_digit z = true -> O l = Some (y :: z :: l) -> False.
Proof.
  induction l as [|a l IH]; intros y z F Y Z H; [discriminate|]. inversion F; subst.
  destruct (special a) eqn:SPC.
  - destruct (N.eq_dec a 92) as [->|NB].
    + rewrite O_bs in H. destruct (Em l); [|discriminate]. injection H as <- _. discriminate.
    + rewrite O_special in H by auto. destruct (O l); [|discriminate]. injection H as <- _. apply special_not_digit in SPC. congruence.
  - rewrite O_plain in H by auto. destruct (O l) as [o|] eqn:OL; [|discriminate]. injection H as <- ->. apply (IH z a); auto.
Qed.
Lemma bs_no : forall l j o, Forall pr l -> Em l = Some o -> l = repeat 92%N (S j) ++ o -> False.
Proof.
  induction l as [|c l IH]; intros j o F H E; [discriminate|].
  simpl in E. injection E as -> E. inversion F; subst.
  rewrite E_special in H by reflexivity. rewrite O_bs in H.
  destruct (Em (repeat 92%N j ++ o)) as [o'|] eqn:EL; [|discriminate]. injection H as <-.
  apply (IH (S j) o'); auto. clear. simpl. induction j; simpl; auto. f_equal. auto.
Qed.
Lemma O_fix : forall l, Forall pr l -> O l = Some l -> Forall (fun c => special c = false) l.
Proof.
  induction l as [|c l IH]; intros F H; [constructor|]. inversion F; subst.
  destruct (special c) eqn:SPC.
  - exfalso. destruct (N.eq_dec c 92) as [->|NB].
    + rewrite O_bs in H. destruct (Em l) as [o|] eqn:EL; [|discriminate]. injection H as ->.
      destruct l as [|c l]; [discriminate|]. inversion H3; subst.
      destruct (special c) eqn:SC.
      * rewrite E_special in EL by auto. destruct (O (c :: l)) as [o|] eqn:OL; [|discriminate]. injection EL as <- ->.
        rewrite O_bs in OL. destruct (Em l) as [o|] eqn:E2; [|discriminate]. injection OL as OL.
        apply (bs_no l 0 o); auto.
      * destruct (dec_digit c) eqn:DC.
        -- destruct (E_digit _ _ _ H1 H4 DC EL) as (y & z & l' & o' & -> & DY & DZ & OL & E). injection E as -> <-.
           apply (shift_no l' y z); auto. apply Forall_inv_tail in H4. apply Forall_inv_tail in H4. exact H4.
        -- rewrite E_plain in EL by auto. destruct (O l) as [o|] eqn:OL; [|discriminate]. injection EL as EL.
           apply (rep_no l c 0 o); auto. apply not_special_92; auto.
    + rewrite O_special in H by auto. destruct (O l) as [o|] eqn:OL; [|discriminate]. injection H as H.
      apply (rep_no l c 0 o); auto.
  - constructor; auto. rewrite O_plain in H by auto. destruct (O l) as [o|] eqn:OL; [|discriminate]. injection H as ->. auto.
Qed.
Lemma reading_fix : forall l, Forall pr l -> label_reading true (show_label l) = Some l -> Forall (fun c => special c = false) l.
Proof.
  intros l F H. unfold label_reading in H. destruct l as [|c l]; [constructor|].
  inversion F; subst. destruct (show_head c l H2) as (t & E). rewrite E in H. simpl hd in H.
  destruct (special c) eqn:SPC.
  - exfalso. change (92 =? 92)%N with true in H. cbn iota in H. rewrite <- E in H. change (opt_cons 92%N (O (c :: l)) = Some (c :: l)) in H.
    destruct (O (c :: l)) as [o|] eqn:OL; [|discriminate]. injection H as <- ->.
    rewrite O_bs in OL. destruct (Em l) as [o|] eqn:EL; [|discriminate]. injection OL as OL. apply (bs_no l 0 o); auto.
  - pose proof (not_special_92 _ SPC) as N1. apply N.eqb_neq in N1. rewrite N1, <- E in H. apply O_fix; auto.
Qed.

(** Every octet read stands in the text or is a dot. *)
Lemma esc_from : forall b n t o, length t <= n -> esc_octets b t = Some o -> Forall (fun c => In c t \/ c = 46%N) o.
Proof.
  intros b. induction n; intros t o L H.
  { destruct t; [|simpl in L; lia]. injection H as <-. constructor. }
  destruct t as [|c t]; [injection H as <-; constructor|]. simpl in L.
  cbn [esc_octets] in H. destruct (c =? 92)%N.
  - destruct t as [|x t].
    + destruct b; [|discriminate]. injection H as <-. auto.
    + destruct (dec_digit x).
      * destruct t as [|y [|z t]]; try discriminate. destruct (_ && _ && _); [|discriminate].
        destruct (esc_octets b t) as [o'|] eqn:E; [|discriminate]. injection H as <-. constructor; [simpl; auto 8|].
        simpl in L. apply IHn in E; [|lia]. eapply Forall_impl; [|exact E]. simpl. tauto.
      * destruct (esc_octets b (x :: t)) as [o'|] eqn:E; [|discriminate]. injection H as <-. constructor; [simpl; auto 8|].
        apply IHn in E; [|lia]. eapply Forall_impl; [|exact E]. simpl. tauto.
  - destruct (esc_octets b t) as [o'|] eqn:E; [|discriminate]. injection H as <-. constructor; [simpl; auto 8|].
    apply IHn in E; [|lia]. eapply Forall_impl; [|exact E]. simpl. tauto.
Qed.
Lemma reading_from : forall b t o, label_reading b t = Some o -> Forall (fun c => In c t \/ c = 46%N \/ c = 92%N) o.
Proof.
  intros b t o H. unfold label_reading in H. destruct (_ =? 92)%N.
  - destruct (esc_octets b t) as [o'|] eqn:E; [|discriminate]. injection H as <-. constructor; auto.
    eapply esc_from in E; [|reflexivity]. eapply Forall_impl; [|exact E]. simpl. tauto.
  - eapply esc_from in H; [|reflexivity]. eapply Forall_impl; [|exact H]. simpl. tauto.
Qed.

(** Cutting the display form at its dots. *)
Lemma split_app : forall a b, ~ In 46%N a -> split_dots (a ++ 46%N :: b) = a :: split_dots b.
Proof.
  induction a as [|c a IH]; intros b H; [reflexivity|]. simpl in *.
  destruct (c =? 46)%N eqn:E; [bl; subst; tauto|]. rewrite IH by tauto. reflexivity.
Qed.
Lemma split_len_app : forall a b, length (split_dots (a ++ 46%N :: b)) = length (split_dots a) + length (split_dots b).
Proof.
  induction a as [|c a IH]; intros b; [reflexivity|]. simpl.
  destruct (c =? 46)%N.
  - simpl. rewrite IH. reflexivity.
  - pose proof (IH b) as L. destruct (split_dots_ne (a ++ 46%N :: b)) as (h & t & E). rewrite E in *.
    destruct (split_dots_ne a) as (h2 & t2 & E2). rewrite E2 in *. simpl in *. lia.
Qed.
Lemma split_len_dot : forall a, In 46%N a -> 2 <= length (split_dots a).
Proof.
  induction a as [|c a IH]; intros H; [contradiction|]. simpl. destruct (c =? 46)%N eqn:E.
  - simpl. destruct (split_dots_ne a) as (h & t & ->). simpl. lia.
  - destruct H as [->|H]; [rewrite N.eqb_refl in E; discriminate|]. specialize (IH H).
    destruct (split_dots a); simpl in *; lia.
Qed.
Lemma split_len_ge : forall a, 1 <= length (split_dots a).
Proof. intros. destruct (split_dots_ne a) as (h & t & ->). simpl. lia. Qed.
Definition sname (ls : list label) : list N := flat_map (fun l => show_label l ++ [46%N]) ls.
Lemma sname_len : forall ls, length ls + 1 <= length (split_dots (sname ls)) /\
  (length (split_dots (sname ls)) = length ls + 1 -> Forall (fun l => ~ In 46%N (show_label l)) ls).
Proof.
  induction ls as [|l ls [I1 I2]]; [split; [simpl; lia|constructor]|].
  change (sname (l :: ls)) with ((show_label l ++ [46%N]) ++ sname ls). rewrite <- app_assoc. simpl app.
  rewrite split_len_app. simpl length. pose proof (split_len_ge (show_label l)). split; [lia|].
  intros H2. constructor.
  - intros X. apply split_len_dot in X. lia.
  - apply I2. lia.
Qed.
Lemma pieces_reading_len : forall ps L, pieces_reading (ps ++ [[]]) = Some L -> length L = length ps.
Proof.
  induction ps as [|p ps IH]; intros L H; [injection H as <-; reflexivity|].
  simpl app in H. destruct (ps ++ [[]]) as [|p2 r] eqn:E; [destruct ps; discriminate|].
  change (pieces_reading (p :: p2 :: r)) with (match label_reading true p, pieces_reading (p2 :: r) with Some l, Some ls => Some (l :: ls) | _, _ => None end) in H.
  destruct (label_reading true p); [|discriminate]. destruct (pieces_reading (p2 :: r)) as [L'|]; [|discriminate]. injection H as <-.
  simpl. f_equal. apply IH. reflexivity.
Qed.
Lemma split_ends : forall a, exists ps, split_dots (a ++ [46%N]) = ps ++ [[]] /\ length ps = length (split_dots a).
Proof.
  induction a as [|c a (ps & E & L)]; [exists [[]]; split; reflexivity|]. simpl. rewrite E. destruct (c =? 46)%N.
  - exists ([] :: ps). simpl. rewrite L. auto.
  - destruct (split_dots_ne a) as (h & t & E2). rewrite E2 in *. destruct ps as [|p ps]; [simpl in L; lia|].
    exists ((c :: p) :: ps). simpl in *. auto.
Qed.
Lemma sname_ends : forall ls, ls <> [] -> exists a, sname ls = a ++ [46%N].
Proof.
  intros ls H. destruct (exists_last H) as (r & l & ->). unfold sname. rewrite flat_map_app. simpl. rewrite app_nil_r. eexists. rewrite app_assoc. reflexivity.
Qed.
Lemma pieces_all : forall ls L, Forall (fun l => ~ In 46%N (show_label l)) ls -> pieces_reading (split_dots (sname ls)) = Some L ->
  Forall2 (fun l k => label_reading true (show_label l) = Some k) ls L.
Proof.
  induction ls as [|l ls IH]; intros L F H; [injection H as <-; constructor|].
  inversion F; subst. change (sname (l :: ls)) with ((show_label l ++ [46%N]) ++ sname ls) in H. rewrite <- app_assoc in H. simpl app in H.
  rewrite split_app in H by auto. destruct (split_dots_ne (sname ls)) as (h & t & E). rewrite E in *.
  change (pieces_reading (show_label l :: h :: t)) with (match label_reading true (show_label l), pieces_reading (h :: t) with Some l, Some ls => Some (l :: ls) | _, _ => None end) in H.
  destruct (label_reading true (show_label l)) eqn:LR; [|discriminate]. destruct (pieces_reading (h :: t)); [|discriminate]. injection H as <-. constructor; auto.
Qed.

Lemma in_show : forall c l, In c l -> special c = true -> In c (show_label l).
Proof. intros. unfold show_label. apply in_flat_map. exists c. split; auto. rewrite show_special by auto. simpl. auto. Qed.
Lemma pieces_plain : forall ls, ls <> [] -> Forall wf_label ls -> pieces_reading (split_dots (sname ls)) = Some ls -> plain_labels ls.
Proof.
  intros ls NE W PR. destruct (sname_ends ls NE) as (a & EA).
  destruct (split_ends a) as (ps & E2 & _). rewrite EA, E2 in PR. pose proof (pieces_reading_len _ _ PR) as LL.
  destruct (sname_len ls) as [_ S2]. 
  assert (ND : Forall (fun l => ~ In 46%N (show_label l)) ls).
  { apply S2. rewrite EA, E2, app_length. rewrite LL. reflexivity. }
  rewrite <- E2, <- EA in PR. pose proof (pieces_all _ _ ND PR) as F2.
  unfold plain_labels. clear - W ND F2.
  assert (A : forall l, In l ls -> label_reading true (show_label l) = Some l).
  { clear W ND. revert F2. generalize ls. intros k F2. 
    assert (G : forall a b, Forall2 (fun l k => label_reading true (show_label l) = Some k) a b -> a = b -> forall l, In l a -> label_reading true (show_label l) = Some l).
    { induction 1; intros E m I; [contradiction|]. injection E as -> ->. destruct I as [<-|I]; auto. }
    eapply G; eauto. }
  rewrite Forall_forall in *. intros l I. specialize (W l I). specialize (ND l I). specialize (A l I). destruct W as [_ WB].
  assert (NDL : ~ In 46%N l). { intros X. apply ND. apply in_show; auto. }
  assert (P : Forall pr l).
  { pose proof (reading_from _ _ _ A) as R. rewrite Forall_forall in R. apply Forall_forall. intros c Ic.
    assert (c <> 46%N) by (intros ->; auto). split; auto.
    destruct (R c Ic) as [Is|[ -> | -> ]]; [|congruence|lia].
    unfold show_label in Is. apply in_flat_map in Is. destruct Is as (d & Id & Is).
    pose proof (show_char_ascii d) as SA. unfold bytes in WB. rewrite Forall_forall in WB. specialize (SA (WB d Id)). rewrite Forall_forall in SA. specialize (SA c Is). lia. }
  pose proof (reading_fix l P A) as RF. rewrite Forall_forall in P, RF. apply Forall_forall. intros c Ic. split; [apply (P c Ic)|apply RF; exact Ic].
Qed.
Lemma round_trip_plain : forall ls, wf_labels ls -> name_new (show_name ls) = Ok (name_of ls) -> plain_labels ls.
Proof.
  intros ls W H. destruct ls as [|l0 ls0]; [constructor|]. set (ls := l0 :: ls0) in *.
  assert (NE : ls <> []) by discriminate. assert (SN : show_name ls = sname ls) by reflexivity. rewrite SN in H.
  assert (L0 : 1 <= length (show_label l0)).
  { destruct W as [W _]. inversion W; subst. destruct l0 as [|c l0]; [destruct H2 as [[? _] _]; simpl in *; lia|].
    unfold show_label. cbn [flat_map]. rewrite app_length. unfold show_char. destruct (special c); [simpl; lia|]. destruct (printable c); simpl; lia. }
  assert (LS : 2 <= length (sname ls)). { unfold ls, sname. cbn [flat_map]. rewrite !app_length. simpl. lia. }
  unfold name_new in H. rewrite parse_esc in H.
  2:{ intros X. rewrite X in LS. simpl in LS. lia. }
  2:{ split; intros X; rewrite X in LS; simpl in LS; lia. }
  simpl orb in H. unfold eout in H. destruct (pieces_reading (split_dots (sname ls))) as [L|] eqn:PR; [|discriminate].
  rewrite app_nil_l in H. destruct (_ && _); [|discriminate]. cbn [rbind] in H. injection H as E1 _.
  apply enc_inj_any in E1. subst L.
  apply pieces_plain; auto. apply W.
Qed.
Lemma display_parse_exact : forall ls, wf_labels ls ->
  exists s, name_display (name_of ls) = Ok s /\ (name_new s = Ok (name_of ls) <-> plain_labels ls).
Proof.
  intros ls W. exists (show_name ls). split; [apply name_display_spec; auto|]. split; [apply round_trip_plain; auto|].
  intros P. destruct (display_parse_plain ls W P) as (s & D & E). rewrite name_display_spec in D by auto. injection D as <-. auto.
Qed.

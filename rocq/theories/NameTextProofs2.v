From Verif Require Import Base BaseLemmas NameModel SpecName NameWireProofs NameOpsProofs NameOpsProofs2 NameCmpProofs NameCmpProofs2 NameTextProofs.

(** ** Display *)
Lemma disp_char_show : forall c, byte c -> disp_char c = show_char c.
Proof.
  intros c Hc. unfold disp_char, show_char, is_special, special, special_chars, printable, digit, byte in *.
  destruct (existsb _ _); [reflexivity|].
  replace ((32 <? c) && (c <? 127))%N with ((33 <=? c) && (c <=? 126))%N.
  2:{ apply eq_true_iff_eq. rewrite !andb_true_iff, !N.leb_le, !N.ltb_lt. lia. }
  destruct (_ && _)%N; [reflexivity|].
  assert (c / 100 < 10)%N by (apply N.div_lt_upper_bound; lia).
  rewrite (N.mod_small (c / 100)) by auto. reflexivity.
Qed.
Lemma disp_label_spec : forall l r buf, bytes l -> disp_label (l ++ r) (length l) buf = Ok (buf ++ show_label l, r).
Proof.
  induction l as [|c l IH]; intros r buf B; simpl.
  - rewrite app_nil_r. destruct r; reflexivity.
  - inversion B; subst. rewrite IH by auto. rewrite disp_char_show by auto. unfold show_label. simpl. rewrite <- app_assoc. reflexivity.
Qed.
Lemma show_label_ne : forall l, l <> [] -> show_label l <> [].
Proof.
  intros [|c l]; [congruence|]. intros _. unfold show_label. simpl. unfold show_char.
  destruct (special c); [discriminate|]. destruct (printable c); discriminate.
Qed.
Definition dotted (ls : list label) : list N := flat_map (fun l => 46%N :: show_label l) ls.

Lemma disp_loop_ne : forall ls fuel buf, wf_labels ls -> buf <> [] -> length ls < fuel ->
  disp_loop fuel (enc ls) buf = Ok (buf ++ dotted ls ++ [46%N]).
Proof.
  induction ls as [|l ls IH]; intros fuel buf W NB F; (destruct fuel as [|fuel]; [simpl in F; lia|]).
  - reflexivity.
  - destruct W as [W Wl]. inversion W as [|? ? [L B] W']; subst.
    unfold enc. simpl. rewrite <- app_assoc.
    replace (blen l =? 0)%N with false by (symmetry; apply N.eqb_neq; unfold blen; lia).
    destruct buf as [|b buf]; [congruence|]. 
    assert (X : N.to_nat (blen l) = length l) by (unfold blen; lia). rewrite X.
    rewrite disp_label_spec by auto. cbn [rbind].
    change (body ls ++ [0%N]) with (enc ls). rewrite IH.
    + f_equal. cbn [dotted flat_map]. change (flat_map _ ls) with (dotted ls). rewrite <- !app_assoc. reflexivity.
    + split; auto. rewrite wire_len_cons in Wl. lia.
    + discriminate.
    + simpl in F. lia.
Qed.
Lemma dotted_shift : forall ls, dotted ls ++ [46%N] = 46%N :: flat_map (fun l => show_label l ++ [46%N]) ls.
Proof.
  induction ls as [|l ls IH]; [reflexivity|]. cbn [dotted flat_map]. change (flat_map _ ls) with (dotted ls) at 1.
  simpl. f_equal. rewrite <- !app_assoc. f_equal. simpl. exact IH.
Qed.
Lemma disp_loop_top : forall ls fuel, wf_labels ls -> length ls < fuel -> disp_loop fuel (enc ls) [] = Ok (show_name ls).
Proof.
  intros [|l ls] fuel W F; (destruct fuel as [|fuel]; [simpl in F; lia|]); [reflexivity|].
  destruct W as [W Wl]. inversion W as [|? ? [L B] W']; subst.
  unfold enc. simpl. rewrite <- app_assoc.
  replace (blen l =? 0)%N with false by (symmetry; apply N.eqb_neq; unfold blen; lia).
  assert (X : N.to_nat (blen l) = length l) by (unfold blen; lia). rewrite X.
  rewrite disp_label_spec by auto. cbn [rbind]. simpl app at 2.
  change (body ls ++ [0%N]) with (enc ls). rewrite disp_loop_ne.
  - rewrite dotted_shift. rewrite <- app_assoc. reflexivity.
  - split; auto. rewrite wire_len_cons in Wl. lia.
  - simpl. apply show_label_ne. destruct l; [simpl in L; lia|discriminate].
  - simpl in F. lia.
Qed.
Lemma name_display_spec : forall ls, wf_labels ls -> name_display (name_of ls) = Ok (show_name ls).
Proof.
  intros ls W. unfold name_display. destruct (slice_of_name_rep ls W) as (s & -> & R & _). cbn [rbind].
  unfold sl_display. rewrite (rep_bytes _ _ R). cbn [rbind]. rewrite body_full. apply disp_loop_top; auto.
  unfold enc. rewrite app_length. simpl. pose proof (body_len ls). unfold elen in *.
  assert (forall ks : list label, length ks <= length (body ks)).
  { induction ks; simpl; [lia|]. rewrite app_length. lia. }
  specialize (H0 ls). lia.
Qed.

(** every output byte is ASCII *)
Lemma show_char_ascii : forall c, byte c -> Forall (fun b => (32 < b < 127)%N) (show_char c).
Proof.
  intros c Hc. unfold show_char.
  destruct (special c) eqn:E.
  - constructor; [lia|]. constructor; [|constructor]. unfold special in E. apply existsb_exists in E. destruct E as (x & I & EQ). apply N.eqb_eq in EQ. subst x.
    simpl in I. intuition lia.
  - destruct (printable c) eqn:P.
    + unfold printable in P. bl. repeat constructor; lia.
    + unfold digit, byte in *.
      assert (c / 100 < 10)%N by (apply N.div_lt_upper_bound; lia).
      pose proof (N.mod_upper_bound (c / 10) 10 ltac:(lia)). pose proof (N.mod_upper_bound c 10 ltac:(lia)).
      revert H H0 H1. generalize (c / 100)%N ((c / 10) mod 10)%N (c mod 10)%N. intros x y z Hx Hy Hz.
      repeat (apply Forall_cons; [lia|]). apply Forall_nil.
Qed.
Lemma show_name_ascii : forall ls, wf_labels ls -> Forall (fun b => (32 < b < 127)%N) (show_name ls).
Proof.
  intros ls [W _]. assert (F : Forall (fun b => (32 < b < 127)%N) (flat_map (fun l => show_label l ++ [46%N]) ls)).
  { induction W as [|l ls [L B] W IH]; [constructor|]. simpl. rewrite <- app_assoc. apply Forall_app. split.
    - clear -B. induction B; [constructor|]. unfold show_label. simpl. apply Forall_app. split; auto. apply show_char_ascii; auto.
    - constructor; [lia|auto]. }
  destruct ls; [repeat constructor; lia|exact F].
Qed.

(** ** round trip on plain names *)
Lemma show_label_plain : forall l, Forall plain_char l -> show_label l = l.
Proof.
  induction 1 as [|c l [R S0] F IH]; [reflexivity|]. unfold show_label in *. simpl. rewrite IH. unfold show_char. rewrite S0.
  unfold printable. replace ((33 <=? c) && (c <=? 126))%N with true; [reflexivity|].
  symmetry. rewrite andb_true_iff, !N.leb_le. lia.
Qed.
Lemma plain_special : forall c, special c = false -> c <> 46%N /\ c <> 92%N /\ c <> 64%N.
Proof.
  intros c H. unfold special in H. simpl in H. repeat (apply orb_false_iff in H; destruct H as [? H]).
  rewrite N.eqb_neq in *. auto.
Qed.
Lemma split_dots_label : forall l r, Forall plain_char l -> split_dots (l ++ 46%N :: r) = l :: split_dots r.
Proof.
  induction 1 as [|c l [R S0] F IH]; [reflexivity|]. simpl. rewrite IH.
  destruct (plain_special _ S0) as (D & _). apply N.eqb_neq in D. rewrite D. reflexivity.
Qed.
Lemma split_show : forall ls, plain_labels ls -> split_dots (flat_map (fun l => show_label l ++ [46%N]) ls) = ls ++ [[]].
Proof.
  induction 1 as [|l ls P F IH]; [reflexivity|]. simpl. rewrite show_label_plain by auto. rewrite <- app_assoc. simpl.
  rewrite split_dots_label by auto. rewrite IH. reflexivity.
Qed.
Lemma show_plain_text : forall ls, wf_labels ls -> plain_labels ls ->
  nobs (show_name ls) /\ text_legal (show_name ls) /\ text_labels (show_name ls) = ls.
Proof.
  intros ls W P. destruct ls as [|l ls].
  - split; [repeat constructor; discriminate|]. split; [left; reflexivity|reflexivity].
  - assert (T : drop_last_empty (split_dots (show_name (l :: ls))) = l :: ls).
    { unfold show_name. rewrite split_show by auto. unfold drop_last_empty. rewrite rev_app_distr. simpl. rewrite rev_app_distr, rev_involutive. reflexivity. }
    destruct W as [W Wl]. inversion W as [|? ? [L B] W']; subst. inversion P as [|? ? PL PR]; subst.
    assert (N1 : exists c r, show_name (l :: ls) = c :: r /\ c <> 46%N /\ c <> 64%N).
    { destruct l as [|c l]; [simpl in L; lia|]. unfold show_name. cbn [flat_map]. rewrite show_label_plain by auto. simpl. do 2 eexists. split; [reflexivity|].
      inversion PL as [|? ? [_ S0] ?]; subst. destruct (plain_special _ S0) as (? & ? & ?). auto. }
    destruct N1 as (c & r & E & D1 & D2).
    assert (TL : text_labels (show_name (l :: ls)) = l :: ls).
    { unfold text_labels. rewrite T. rewrite E. destruct r; [|destruct c as [|p]; [reflexivity|]; do 8 (try destruct p as [p|p|]; try reflexivity)].
      destruct c as [|p]; [reflexivity|]. do 8 (try destruct p as [p|p|]; try reflexivity); congruence. }
    split; [|split]; auto.
    + unfold nobs, show_name. rewrite Forall_forall. intros x Hx. apply in_flat_map in Hx. destruct Hx as (k & K & Hx).
      unfold plain_labels in P. rewrite Forall_forall in P. specialize (P k K). rewrite show_label_plain in Hx by auto. apply in_app_or in Hx.
      destruct Hx as [Hx|Hx]; [|simpl in Hx; destruct Hx as [<-|[]]; discriminate].
      rewrite Forall_forall in P. destruct (P x Hx) as [_ S0]. apply plain_special in S0. tauto.
    + right. right. rewrite TL, T. split; [rewrite E; discriminate|]. split; [discriminate|]. split; [|auto].
      apply Forall_forall. intros x Hx. rewrite Forall_forall in W. apply W; auto.
Qed.
Lemma display_parse_plain : forall ls, wf_labels ls -> plain_labels ls ->
  exists s, name_display (name_of ls) = Ok s /\ name_new s = Ok (name_of ls).
Proof.
  intros ls W P. exists (show_name ls). split; [apply name_display_spec; auto|].
  destruct (show_plain_text ls W P) as (NB & TL & E). rewrite <- E at 2. apply name_new_plain; auto.
Qed.

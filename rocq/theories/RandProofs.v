(** RandNameGenerator always yields legal names. *)
From Verif Require Import Base BaseLemmas NameModel RenderModel CodesModel RDataModel MsgModel TextModel SpecName SpecBuf SpecCodes SpecMsg SpecText
  NameTextProofs NameTextProofs2 TextProofs.
Open Scope list_scope.
Open Scope nat_scope.

Lemma gen_range_ok : forall lo hi r, lo < hi -> exists v r', gen_range lo hi r = (Ok v, r') /\ lo <= v < hi.
Proof.
  intros lo hi r H. unfold gen_range. apply Nat.ltb_lt in H as H'. rewrite H'. do 2 eexists. split; [reflexivity|].
  pose proof (Nat.mod_upper_bound (r 0) (hi - lo) ltac:(lia)). lia.
Qed.
Lemma valid_chars : forall i, i < 37 -> exists c, idx VALID_DOMAIN_CHAR i = Ok c /\ ldh c.
Proof.
  intros i H. do 37 (destruct i as [|i]; [eexists; split; [vm_compute; reflexivity|unfold ldh; lia]|]). lia.
Qed.
Lemma gen_label_ok : forall n r, exists l r', gen_label n r = (Ok l, r') /\ length l = n /\ Forall ldh l.
Proof.
  induction n as [|n IH]; intro r; cbn [gen_label].
  - exists [], r. repeat split; constructor.
  - destruct (gen_range_ok 0 (length VALID_DOMAIN_CHAR) r) as (i & r1 & E & L); [vm_compute; lia|].
    unfold bind at 1. rewrite E. destruct (valid_chars i) as (c & Ec & Lc); [exact (proj2 L)|].
    unfold bind at 1, lift. rewrite Ec. unfold bind. destruct (IH r1) as (l & r2 & E2 & Ll & F). rewrite E2.
    exists (c :: l), r2. split; [reflexivity|]. split; [cbn [length]; lia|constructor; auto].
Qed.
Definition dots (ls : list label) : list N := flat_map (fun l => l ++ [46%N]) ls.
Definition lab_ok (l : label) : Prop := 1 <= length l <= 63 /\ Forall ldh l.
Lemma dots_snoc : forall ls l, dots (ls ++ [l]) = dots ls ++ l ++ [46%N].
Proof. intros. unfold dots. rewrite flat_map_app. cbn [flat_map]. rewrite app_nil_r. reflexivity. Qed.
(** What a finished name looks like. *)
Definition done (len : nat) (s : list N) : Prop := exists ls l, s = dots ls ++ l /\ Forall lab_ok (ls ++ [l]) /\ length s <= len.
Lemma gen_loop_ok : forall todo len ls r, todo <> 0 -> Forall lab_ok ls -> length (dots ls) < len -> len <= 253 ->
  exists s r', gen_loop todo (N.of_nat len) (blen (dots ls)) (dots ls) r = (Ok s, r') /\ done len s.
Proof.
  induction todo as [|todo IH]; intros len ls r T F L M; [congruence|]. cbn [gen_loop]. unfold blen.
  set (g := length (dots ls)) in *. unfold bind at 1, lift. rewrite u8_sub_ok by lia.
  set (mx := N.min MAX_LABEL_LEN (N.of_nat len - N.of_nat g)).
  assert (Mx : (1 <= mx <= 63)%N /\ (mx <= N.of_nat len - N.of_nat g)%N). { unfold mx, MAX_LABEL_LEN. lia. }
  set (lst := match todo with O => true | _ => false end).
  (* the length of the label *)
  assert (LL : exists k r1, (if (mx =? 1)%N then ret 1%N else if lst then ret mx else let! v := gen_range 1 (N.to_nat mx) in ret (N.of_nat v)) r = (Ok k, r1) /\
     (1 <= k <= mx)%N /\ ((k < mx)%N \/ mx = 1%N \/ (lst = true /\ k = mx))).
  { destruct (N.eqb_spec mx 1) as [E|E]; [exists 1%N, r; split; [reflexivity|lia]|].
    destruct lst; [exists mx, r; split; [reflexivity|split; [lia|auto]]|].
    destruct (gen_range_ok 1 (N.to_nat mx) r) as (v & r1 & Ev & Lv); [lia|]. exists (N.of_nat v), r1. unfold bind. rewrite Ev. split; [reflexivity|]. split; [lia|]. left. lia. }
  destruct LL as (k & r1 & E & K1 & K2). unfold bind at 1. rewrite E. clear E.
  destruct (gen_label_ok (N.to_nat k) r1) as (l & r2 & El & Ll & Fl). unfold bind at 1. rewrite El.
  unfold bind at 1, lift. rewrite u8_add_ok by lia.
  assert (OKl : lab_ok l) by (split; [lia|exact Fl]).
  destruct (N.ltb_spec (N.of_nat g + k) (N.of_nat len)) as [Lt|Ge].
  - unfold bind at 1. unfold bind at 1, lift. rewrite u8_add_ok by lia.
    destruct (N.eqb_spec (N.of_nat g + k + 1) (N.of_nat len)) as [E1|E1].
    + destruct (N.ltb_spec k mx) as [Lk|Lk].
      * destruct (gen_label_ok 1 r2) as (c & r3 & Ec & Lc & Fc). unfold bind at 1. rewrite Ec. unfold ret.
        rewrite (proj2 (N.eqb_eq _ _) E1). do 2 eexists. split; [reflexivity|]. exists ls, (l ++ c). split; [rewrite app_assoc; reflexivity|].
        split; [apply Forall_app; split; auto; constructor; [|constructor]; split; [rewrite app_length; lia|apply Forall_app; auto]|].
        rewrite !app_length. fold g. lia.
      * (* only for the last label *)
        assert (Q : lst = true) by (destruct K2 as [K2|[K2|[K2 _]]]; [lia|unfold mx, MAX_LABEL_LEN in K2; lia|exact K2]).
        unfold ret at 1. rewrite (proj2 (N.eqb_neq _ _)) by lia.
        unfold lst in Q. destruct todo; [|discriminate]. cbn [gen_loop]. do 2 eexists. split; [reflexivity|]. exists ls, l. split; [reflexivity|].
        split; [apply Forall_app; split; auto|]. rewrite app_length. fold g. lia.
    + destruct lst eqn:El2; cbn [negb].
      * unfold ret at 1. rewrite (proj2 (N.eqb_neq _ _)) by lia. unfold lst in El2. destruct todo; [|discriminate]. cbn [gen_loop].
        do 2 eexists. split; [reflexivity|]. exists ls, l. split; [reflexivity|]. split; [apply Forall_app; split; auto|]. rewrite app_length. fold g. lia.
      * unfold ret at 1. rewrite (proj2 (N.eqb_neq _ _)) by lia. rewrite <- app_assoc, <- dots_snoc.
        replace (N.of_nat g + k + 1)%N with (blen (dots (ls ++ [l]))).
        2:{ unfold blen. rewrite dots_snoc, !app_length. cbn [length]. fold g. lia. }
        apply IH; auto.
        -- unfold lst in El2. destruct todo; [discriminate|]. discriminate.
        -- apply Forall_app. auto.
        -- rewrite dots_snoc, !app_length. cbn [length]. fold g. lia.
  - unfold bind at 1, ret at 1. rewrite (proj2 (N.eqb_eq _ _)) by lia. do 2 eexists. split; [reflexivity|]. exists ls, l. split; [reflexivity|].
    split; [apply Forall_app; split; auto|]. rewrite app_length. fold g. lia.
Qed.
Lemma split_dots_ldh : forall ls l, Forall lab_ok (ls ++ [l]) -> split_dots (dots ls ++ l) = ls ++ [l].
Proof.
  assert (A : forall l r, Forall ldh l -> split_dots (l ++ 46%N :: r) = l :: split_dots r).
  { induction l as [|c l IH]; intros r F; [reflexivity|]. inversion F as [|? ? Hc F']; subst. cbn [app split_dots]. rewrite IH by auto.
    replace (c =? 46)%N with false by (symmetry; apply N.eqb_neq; unfold ldh in Hc; lia). reflexivity. }
  assert (B : forall l, Forall ldh l -> split_dots l = [l]).
  { induction l as [|c l IH]; intros F; [reflexivity|]. inversion F as [|? ? Hc F']; subst. cbn [split_dots]. rewrite IH by auto.
    replace (c =? 46)%N with false by (symmetry; apply N.eqb_neq; unfold ldh in Hc; lia). reflexivity. }
  induction ls as [|x ls IH]; intros l F.
  - inversion F as [|? ? [_ Fl] _]; subst. apply B. exact Fl.
  - inversion F as [|? ? [_ Fx] F']; subst. cbn [dots flat_map]. rewrite <- !app_assoc. cbn [app]. rewrite A by auto. fold (dots ls). rewrite IH by auto. reflexivity.
Qed.
Lemma elen_dots : forall ls l, wire_len (ls ++ [l]) = length (dots ls ++ l) + 2.
Proof.
  intros. rewrite NameOpsProofs.wire_elen, NameOpsProofs.elen_app, NameOpsProofs.elen_cons, NameOpsProofs.elen_nil, app_length.
  assert (X : NameOpsProofs.elen ls = length (dots ls)); [|lia].
  induction ls as [|x ls IH]; [reflexivity|]. rewrite NameOpsProofs.elen_cons, IH. cbn [dots flat_map]. fold (dots ls). rewrite !app_length. cbn [length]. lia.
Qed.
Lemma done_name : forall len s, done len s -> len <= 253 -> exists ls, wf_labels ls /\ ls <> [] /\ Forall (Forall ldh) ls /\ name_new s = Ok (name_of ls).
Proof.
  intros len s (ls & l & -> & F & L) M. exists (ls ++ [l]).
  assert (Fl : Forall (Forall ldh) (ls ++ [l])) by (eapply Forall_impl; [|exact F]; intros a [_ Q]; exact Q).
  assert (Ll : lab_ok l) by (apply Forall_app in F; destruct F as [_ F]; inversion F; auto). destruct Ll as [Ll Hl].
  assert (D : drop_last_empty (split_dots (dots ls ++ l)) = ls ++ [l]).
  { rewrite split_dots_ldh by auto. unfold drop_last_empty. rewrite rev_app_distr. cbn [rev app]. destruct l; [cbn [length] in Ll; lia|]. reflexivity. }
  assert (H0 : exists c r, dots ls ++ l = c :: r /\ c <> 46%N /\ c <> 64%N).
  { destruct ls as [|x ls].
    - destruct l as [|c r]; [cbn [length] in Ll; lia|]. cbn [dots flat_map app]. exists c, r. split; auto. inversion Hl as [|? ? Q _]; unfold ldh in Q; lia.
    - inversion F as [|? ? [Lx Fx] _]; subst. destruct x as [|c r]; [cbn [length] in Lx; lia|]. cbn [dots flat_map app]. eexists. eexists. split; [reflexivity|].
      inversion Fx as [|? ? Q _]; unfold ldh in Q; lia. }
  destruct H0 as (c & r & Ec & C1 & C2).
  assert (TL : text_labels (dots ls ++ l) = ls ++ [l]).
  { rewrite <- D. unfold text_labels. rewrite Ec. destruct r; [|destruct c as [|p]; [reflexivity|]; do 8 (try destruct p as [p|p|]; try reflexivity)].
    destruct c as [|p]; [reflexivity|]. do 8 (try destruct p as [p|p|]; try reflexivity); congruence. }
  assert (NB : nobs (dots ls ++ l)).
  { unfold nobs. apply Forall_forall. intros x Hx. apply in_app_or in Hx. destruct Hx as [Hx|Hx].
    - apply in_flat_map in Hx. destruct Hx as (k & K & Hx). apply in_app_or in Hx. destruct Hx as [Hx|[<-|[]]]; [|discriminate].
      rewrite Forall_forall in Fl. specialize (Fl k ltac:(apply in_or_app; left; exact K)). rewrite Forall_forall in Fl. specialize (Fl x Hx). unfold ldh in Fl. lia.
    - rewrite Forall_forall in Hl. specialize (Hl x Hx). unfold ldh in Hl. lia. }
  assert (WL : wire_len (ls ++ [l]) <= 255) by (rewrite elen_dots; lia).
  split; [|split; [destruct ls; discriminate|split; [exact Fl|]]].
  - split; [|exact WL]. eapply Forall_impl; [|exact F]. intros a [La Ha]. split; [exact La|]. eapply Forall_impl; [|exact Ha]. unfold ldh, byte. intros. lia.
  - rewrite <- TL. apply name_new_plain; auto. right. right. rewrite TL, D. split; [rewrite Ec; discriminate|]. split; [destruct ls; discriminate|]. split; [|exact WL].
    eapply Forall_impl; [|exact F]. intros a [La Ha]. exact La.
Qed.
Lemma gen_next_ok : forall r, exists ls r', gen_next r = (Ok (name_of ls), r') /\ wf_labels ls /\ ls <> [] /\ Forall (Forall ldh) ls.
Proof.
  intro r. unfold gen_next, gen_name_string.
  destruct (gen_range_ok 1 (MAX_WIRE_LEN - 1) r) as (len & r1 & E1 & L1); [vm_compute; lia|].
  destruct (gen_range_ok 1 (MAX_LABEL_COUNT + 1) r1) as (cnt & r2 & E2 & L2); [vm_compute; lia|].
  change (MAX_WIRE_LEN - 1) with 254 in *.
  destruct (gen_loop_ok cnt len [] r2) as (s & r3 & E3 & D); [lia|constructor|cbn; lia|lia|].
  destruct (done_name len s D) as (ls & W & Nn & F & En); [lia|].
  exists ls, r3. unfold bind. rewrite E1, E2. rewrite as_u8_small by lia. change (gen_loop cnt (N.of_nat len) 0 [] r2) with (gen_loop cnt (N.of_nat len) (blen (dots [])) (dots []) r2).
  rewrite E3. unfold lift. rewrite En. auto.
Qed.

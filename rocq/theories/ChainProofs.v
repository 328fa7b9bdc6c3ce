(** [NodeChain]: stack operations and Display. *)
From Coq Require String.
From Verif Require Import Base BaseLemmas NameModel TextModel TreeModel SliceModel DumpModel SpecName SpecOrd SpecEsc SpecScope SpecTree SpecHist SpecHist2 SpecSlice SpecDump SpecChain
  SliceProofs SliceProofs2 DumpProofs TreeProofs24.
Import String.StringSyntax.
Open Scope string_scope.
Open Scope list_scope.
Open Scope nat_scope.

Definition stacked (c : chain) (st : list ptr) : Prop := ch_level c = length st /\ length (ch_nodes c) = 128 /\ firstn (length st) (ch_nodes c) = rev st.
Lemma stacked_new : stacked chain_new [].
Proof. split; [reflexivity|]. split; reflexivity. Qed.
Lemma stacked_le : forall c st, stacked c st -> length st <= 128.
Proof. intros c st (A & B & D). assert (H := f_equal (@length _) D). rewrite firstn_length, rev_length, B in H. lia. Qed.
Lemma upd_firstn : forall (l : list ptr) n x, n < length l -> length (upd l n x) = length l /\ firstn (S n) (upd l n x) = firstn n l ++ [x].
Proof.
  induction l as [|y l IH]; intros n x H; [cbn in H; lia|]. destruct n as [|n]; cbn [upd length] in *.
  - split; reflexivity.
  - destruct (IH n x ltac:(lia)) as [A B]. split; [lia|]. cbn [firstn app] in *. f_equal. exact B.
Qed.
Lemma push_spec : forall c st p, stacked c st -> if length st =? 128 then chain_push c p = Panic else
  exists c', chain_push c p = Ok c' /\ stacked c' (p :: st) /\ ch_last c' = ch_last c /\ ch_result c' = ch_result c.
Proof.
  intros c st p SK. pose proof (stacked_le _ _ SK) as LE. destruct SK as (A & B & D). unfold chain_push. rewrite A. change MAX_LABEL_COUNT with 128. destruct (Nat.eqb_spec (length st) 128) as [EQ|NE].
  - rewrite EQ. reflexivity.
  - assert (H : length st <? 128 = true) by (apply Nat.ltb_lt; lia). rewrite H. cbn [assert_r rbind]. unfold upd_r. rewrite B, H. cbn [rbind].
    destruct (upd_firstn (ch_nodes c) (length st) p ltac:(lia)) as [U1 U2].
    eexists. split; [reflexivity|]. split; [|split; reflexivity]. split; [cbn; lia|]. split; [cbn [ch_nodes]; lia|]. cbn [ch_nodes length rev]. rewrite U2, D. reflexivity.
Qed.
Lemma idx_firstn : forall (l : list ptr) n k x d, firstn n l = x -> k < n -> k < length l -> idx l k = Ok (nth k x d).
Proof.
  intros l n k x d H A B. subst x. unfold idx. destruct (nth_error l k) as [y|] eqn:N; [|apply nth_error_None in N; lia]. f_equal.
  assert (M : nth_error (firstn n l) k = Some y). { revert l k N A B. induction n as [|n IH]; intros l k N A B; [lia|]. destruct l as [|z l]; [destruct k; discriminate|]. destruct k as [|k]; [exact N|]. cbn in *. apply IH; auto; lia. }
  symmetry. apply nth_error_nth. exact M.
Qed.
Lemma pop_spec : forall c st, stacked c st -> match st with [] => chain_pop c = Panic /\ chain_top c = Panic | p :: st' =>
  exists c', chain_pop c = Ok (p, c') /\ chain_top c = Ok p /\ stacked c' st' /\ ch_last c' = ch_last c /\ ch_result c' = ch_result c end.
Proof.
  intros c [|p st] SK; pose proof (stacked_le _ _ SK) as LE; destruct SK as (A & B & D).
  - split; unfold chain_pop, chain_top; rewrite A; reflexivity.
  - cbn [length] in *. assert (I : idx (ch_nodes c) (length st) = Ok p).
    { rewrite (idx_firstn _ _ (length st) _ 0 D); [|lia|lia]. cbn [rev]. rewrite app_nth2; rewrite rev_length; [|lia]. rewrite Nat.sub_diag. reflexivity. }
    assert (Z : csub (S (length st)) 1 = Ok (length st)) by (cbn; f_equal; lia).
    unfold chain_pop, chain_top. rewrite A, Z. cbn [rbind]. rewrite I. cbn [assert_r rbind Nat.ltb Nat.leb]. eexists. split; [reflexivity|]. split; [reflexivity|]. split; [|split; reflexivity].
    split; [reflexivity|]. split; [exact B|]. cbn [ch_nodes]. cbn [rev] in D. assert (F : firstn (length st) (firstn (S (length st)) (ch_nodes c)) = firstn (length st) (rev st ++ [p])) by (rewrite D; reflexivity).
    rewrite firstn_firstn in F. rewrite Nat.min_l in F by lia. rewrite F. rewrite firstn_app, rev_length, Nat.sub_diag. cbn [firstn]. rewrite app_nil_r. rewrite <- (rev_length st). apply firstn_all.
Qed.
Lemma bottom_spec : forall c st, stacked c st -> exists b, chain_bottom c = Ok b /\ (forall st' p, st = st' ++ [p] -> b = p).
Proof.
  intros c st SK. pose proof (stacked_le _ _ SK) as LE. destruct SK as (A & B & D). unfold chain_bottom.
  destruct (ch_nodes c) as [|b l] eqn:N; [discriminate|]. exists b. split; [reflexivity|]. intros st' p ->. rewrite app_length in D. cbn [length] in D. rewrite Nat.add_comm in D. cbn [firstn Nat.add] in D. rewrite rev_app_distr in D. cbn [rev app] in D. congruence.
Qed.
Lemma run_spec : forall ops c st, stacked c st -> match stack_after ops st with None => chain_run ops c = Panic | Some st' =>
  exists c', chain_run ops c = Ok c' /\ stacked c' st' /\ ch_last c' = ch_last c /\ ch_result c' = ch_result c end.
Proof.
  induction ops as [|[p|] ops IH]; intros c st SK; cbn [stack_after chain_run].
  - exists c. auto.
  - pose proof (push_spec c st p SK) as H. destruct (length st =? 128); [rewrite H; reflexivity|]. destruct H as (c' & H1 & H2 & H3 & H4). rewrite H1. cbn [rbind]. specialize (IH c' _ H2). destruct (stack_after ops (p :: st)); [|exact IH].
    destruct IH as (c2 & X1 & X2 & X3 & X4). exists c2. repeat split; auto; try congruence; apply X2.
  - pose proof (pop_spec c st SK) as H. destruct st as [|p st]; [destruct H as [H _]; rewrite H; reflexivity|]. destruct H as (c' & H1 & _ & H2 & H3 & H4). rewrite H1. cbn [rbind snd]. specialize (IH c' _ H2). destruct (stack_after ops st); [|exact IH].
    destruct IH as (c2 & X1 & X2 & X3 & X4). exists c2. repeat split; auto; try congruence; apply X2.
Qed.
Theorem chain_stack : forall ops, match stack_after ops [] with
  | None => chain_run ops chain_new = Panic
  | Some st => exists c, chain_run ops chain_new = Ok c /\ ch_level c = length st /\ on_chain c = rev st /\ ch_last c = null /\ ch_result c = mkCmp 0 0 Equal /\
      chain_top c = match st with [] => Panic | p :: _ => Ok p end /\
      (exists b, chain_bottom c = Ok b /\ forall st' p, st = st' ++ [p] -> b = p)
  end.
Proof.
  intros ops. pose proof (run_spec ops chain_new [] stacked_new) as H. destruct (stack_after ops []) as [st|]; [|exact H]. destruct H as (c & H1 & H2 & H3 & H4). exists c. split; [exact H1|]. pose proof H2 as (A & B & D).
  split; [exact A|]. split; [unfold on_chain; rewrite A; exact D|]. split; [exact H3|]. split; [exact H4|]. split; [|exact (bottom_spec _ _ H2)].
  pose proof (pop_spec c st H2) as P. destruct st as [|p st]; [apply P|]. destruct P as (c' & _ & P & _). exact P.
Qed.

Lemma run_app : forall a b c, chain_run (a ++ b) c = match chain_run a c with Ok c' => chain_run b c' | Err => Err | Panic => Panic | Hang => Hang end.
Proof. induction a as [|[p|] a IH]; intros b c; cbn [app chain_run]; [reflexivity| |]; [destruct (chain_push c p)|destruct (chain_pop c)]; cbn [rbind]; auto. Qed.
Theorem chain_pop_top : forall ops st p, stack_after ops [] = Some (p :: st) -> exists c c', chain_run ops chain_new = Ok c /\ chain_pop c = Ok (p, c') /\ chain_run (ops ++ [CPop]) chain_new = Ok c' /\ on_chain c' = rev st.
Proof.
  intros ops st p H. pose proof (run_spec ops chain_new [] stacked_new) as X. rewrite H in X. destruct X as (c & X1 & X2 & _). destruct (pop_spec _ _ X2) as (c' & P1 & _ & P2 & _). exists c, c'. split; [exact X1|]. split; [exact P1|].
  split; [rewrite run_app, X1; cbn [chain_run]; rewrite P1; reflexivity|]. destruct P2 as (A & B & D). unfold on_chain. rewrite A. exact D.
Qed.

(** * Display *)
Section D.
Context {V : Type}.
Implicit Types (s : dtree V) (t : tree V).
Lemma dec_z_show : forall z, dec_z z = show_i8 z.
Proof. intros z. unfold dec_z, show_i8. destruct z as [|q|q]; reflexivity. Qed.
Lemma cmp_text_show : forall r, cmp_text r = show_result r.
Proof. intros [o c []]; unfold cmp_text, show_result; cbn [cr_order cr_common cr_relation]; rewrite dec_z_show; reflexivity. Qed.
Lemma nodes_cells : forall t par rt (p : ptr) (ls : list label), In (p, ls) (nodes_of t) -> shown t -> seq_shape ls /\ ls <> [] /\ exists c r i a b d e, In (p, cell c r i a b d e) (cells par rt t) /\ i_labels i = ls.
Proof.
  induction t as [|c l IHl i d IHd r IHr]; intros par rt p ls I SH; [destruct I|]. destruct SH as (S1 & S2 & SHl & SHd & SHr). cbn [nodes_of cells] in *. destruct I as [I|I].
  - injection I as <- <-. split; [exact S1|]. split; [exact S2|]. repeat eexists. left. reflexivity.
  - apply in_app_or in I. destruct I as [I|I]; [|apply in_app_or in I; destruct I as [I|I]].
    + destruct (IHl (i_ptr i) false _ _ I SHl) as (X1 & X2 & c0 & r0 & i0 & a0 & b0 & d0 & e0 & X3 & X4). split; [exact X1|]. split; [exact X2|]. exists c0, r0, i0, a0, b0, d0, e0. split; [|exact X4]. right. apply in_or_app. auto.
    + destruct (IHd (i_ptr i) true _ _ I SHd) as (X1 & X2 & c0 & r0 & i0 & a0 & b0 & d0 & e0 & X3 & X4). split; [exact X1|]. split; [exact X2|]. exists c0, r0, i0, a0, b0, d0, e0. split; [|exact X4]. right. apply in_or_app. right. apply in_or_app. auto.
    + destruct (IHr (i_ptr i) false _ _ I SHr) as (X1 & X2 & c0 & r0 & i0 & a0 & b0 & d0 & e0 & X3 & X4). split; [exact X1|]. split; [exact X2|]. exists c0, r0, i0, a0, b0, d0, e0. split; [|exact X4]. right. apply in_or_app. right. apply in_or_app. auto.
Qed.
Lemma names_text_spec : forall s t (ns : list (ptr * list label)), holds s (cells null true t) -> shown t -> Forall (fun n => In n (nodes_of t)) ns ->
  names_text (map fst ns) s = (Ok (List.concat (map (fun n => show_seq n ++ of_string ",") (map snd ns))), s).
Proof.
  intros s t ns H SH F. induction F as [|[p ls] ns I F IH]; [reflexivity|]. cbn [map fst snd names_text List.concat]. destruct (nodes_cells t null true _ _ I SH) as (S1 & S2 & c & r & i & a & b & d & e & J & EQ). subst ls.
  rewrite (bind_ok _ _ _ _ s _ (name_text_spec _ _ _ _ _ _ _ _ _ _ H J S1 S2)). rewrite (bind_ok _ _ _ _ s _ IH). unfold ret. rewrite <- !app_assoc. reflexivity.
Qed.
Theorem chain_display_spec : forall s t ch (ns : list (ptr * list label)), shape s t -> shown t -> on_chain ch = map fst ns -> length (on_chain ch) = ch_level ch -> Forall (fun n => In n (nodes_of t)) ns ->
  chain_display ch s = (Ok (show_chain ch (map snd ns)), s).
Proof.
  intros s t ch ns [RT H] SH OC LE F. unfold chain_display, show_chain. assert (LN : length (map snd ns) = ch_level ch) by (rewrite map_length, <- LE, OC, map_length; reflexivity). rewrite LN.
  change (ch_last ch =? null) with (is_null (ch_last ch)). destruct (is_null (ch_last ch)) eqn:NZ.
  - unfold ret. rewrite <- app_assoc. rewrite <- app_assoc. reflexivity.
  - assert (LV : ch_level ch <= length (ch_nodes ch)) by (unfold on_chain in LE; rewrite firstn_length in LE; lia).
    assert (SL : slice (ch_nodes ch) 0 (ch_level ch) = Ok (map fst ns)). { unfold slice. rewrite <- OC. unfold on_chain. destruct (0 <=? ch_level ch) eqn:Z; [|apply Nat.leb_gt in Z; lia]. destruct (ch_level ch <=? length (ch_nodes ch)) eqn:Z2; [|apply Nat.leb_gt in Z2; lia]. cbn [andb]. rewrite Nat.sub_0_r. reflexivity. }
    rewrite (bind_ok _ _ _ _ s (map fst ns)); [|unfold lift; rewrite SL; reflexivity]. rewrite (bind_ok _ _ _ _ s _ (names_text_spec s t ns H SH F)). unfold ret. rewrite cmp_text_show. rewrite <- !app_assoc. reflexivity.
Qed.
Theorem reached_chain : forall md (ops : list (op V)) s, any_names ops -> reached md ops s -> exists t, shape s t /\
  forall ch (ns : list (ptr * list label)), length (ch_nodes ch) = 128 -> ch_level ch <= 128 -> on_chain ch = map fst ns -> Forall (fun n => In n (nodes_of t)) ns ->
  chain_display ch s = (Ok (show_chain ch (map snd ns)), s).
Proof.
  intros md ops s W R. destruct (reached_shown md ops s W R) as (t & SP & SH). exists t. split; [exact SP|]. intros ch ns LN LE OC F. eapply chain_display_spec; eauto. unfold on_chain. rewrite firstn_length. lia.
Qed.

(** * The chain of a search *)
Definition linked t (p : ptr) : Prop := p = null \/ exists ls, In (p, ls) (nodes_of t).
Lemma linked_sub : forall t u (p : ptr), (forall n, In n (nodes_of u) -> In n (nodes_of t)) -> linked u p -> linked t p.
Proof. intros t u p H [->|[ls I]]; [left; reflexivity|right; exists ls; auto]. Qed.
Lemma linked_pt : forall t, linked t (pt t).
Proof. intros [|c l i d r]; [left; reflexivity|right; exists (i_labels i); left; reflexivity]. Qed.
Lemma node_links : forall t par rt (p : ptr) (ls : list label), In (p, ls) (nodes_of t) -> exists c r i a b d e, In (p, cell c r i a b d e) (cells par rt t) /\ linked t a /\ linked t b /\ linked t e.
Proof.
  induction t as [|c l IHl i d IHd r IHr]; intros par rt p ls I; [destruct I|]. cbn [nodes_of cells] in *.
  assert (Sl : forall n, In n (nodes_of l) -> In n (nodes_of (T c l i d r))) by (intros n J; cbn [nodes_of]; right; apply in_or_app; auto).
  assert (Sd : forall n, In n (nodes_of d) -> In n (nodes_of (T c l i d r))) by (intros n J; cbn [nodes_of]; right; apply in_or_app; right; apply in_or_app; auto).
  assert (Sr : forall n, In n (nodes_of r) -> In n (nodes_of (T c l i d r))) by (intros n J; cbn [nodes_of]; right; apply in_or_app; right; apply in_or_app; auto).
  destruct I as [I|I].
  - injection I as <- <-. do 7 eexists. split; [left; reflexivity|]. split; [exact (linked_sub _ _ _ Sl (linked_pt l))|]. split; [exact (linked_sub _ _ _ Sr (linked_pt r))|exact (linked_sub _ _ _ Sd (linked_pt d))].
  - apply in_app_or in I. destruct I as [I|I]; [|apply in_app_or in I; destruct I as [I|I]].
    + destruct (IHl (i_ptr i) false _ _ I) as (c0 & r0 & i0 & a0 & b0 & d0 & e0 & X3 & X4 & X5 & X6). exists c0, r0, i0, a0, b0, d0, e0. split; [right; apply in_or_app; auto|]. split; [|split]; eapply linked_sub; try exact Sl; assumption.
    + destruct (IHd (i_ptr i) true _ _ I) as (c0 & r0 & i0 & a0 & b0 & d0 & e0 & X3 & X4 & X5 & X6). exists c0, r0, i0, a0, b0, d0, e0. split; [right; apply in_or_app; right; apply in_or_app; auto|]. split; [|split]; eapply linked_sub; try exact Sd; assumption.
    + destruct (IHr (i_ptr i) false _ _ I) as (c0 & r0 & i0 & a0 & b0 & d0 & e0 & X3 & X4 & X5 & X6). exists c0, r0, i0, a0, b0, d0, e0. split; [right; apply in_or_app; right; apply in_or_app; auto|]. split; [|split]; eapply linked_sub; try exact Sr; assumption.
Qed.
Lemma bind_inv : forall A B (m : MT V A) (f : A -> MT V B) s b s', bind m f s = (Ok b, s') -> exists a s1, m s = (Ok a, s1) /\ f a s1 = (Ok b, s').
Proof. intros A B m f s b s' H. unfold bind in H. destruct (m s) as [[a| | |] s1] eqn:Q; try discriminate. exists a, s1. auto. Qed.
Lemma lift_inv : forall A (m : res A) s (a : A) s', @lift (dtree V) A m s = (Ok a, s') -> m = Ok a /\ s' = s.
Proof. intros A m s a s' H. unfold lift in H. injection H as -> ->. auto. Qed.
Definition tracks t (ch : chain) : Prop := exists (ns : list (ptr * list label)), stacked ch (rev (map fst ns)) /\ Forall (fun n => In n (nodes_of t)) ns.
Lemma tracks_push : forall t ch ch' (p : ptr) (ls : list label), tracks t ch -> In (p, ls) (nodes_of t) -> chain_push ch p = Ok ch' -> tracks t ch'.
Proof.
  intros t ch ch' p ls (ns & SK & F) I H. pose proof (push_spec ch _ p SK) as X. destruct (_ =? 128); [congruence|]. destruct X as (c' & X1 & X2 & _). assert (c' = ch') by congruence. subst c'.
  exists (ns ++ [(p, ls)]). split; [rewrite map_app, rev_app_distr; exact X2|]. apply Forall_app. split; [exact F|]. constructor; [exact I|constructor].
Qed.
Lemma deref_inv : forall (p : ptr) s n s', deref p s = (Ok n, s') -> s' = s.
Proof. intros p s n s' H. unfold deref in H. destruct (is_null p); [discriminate|]. destruct (dt_heap s p); congruence. Qed.
Lemma chain_names_inv : forall k c i s ns s', @chain_names V c i k s = (Ok ns, s') -> s' = s.
Proof.
  induction k as [|k IH]; intros c i s ns s' H; cbn [chain_names] in H; [unfold ret in H; congruence|].
  apply bind_inv in H. destruct H as (j & s1 & A & H). apply lift_inv in A. destruct A as [_ ->]. apply bind_inv in H. destruct H as (q & s1 & A & H). apply lift_inv in A. destruct A as [_ ->].
  apply bind_inv in H. destruct H as (nm & s1 & A & H). unfold get_name in A. apply bind_inv in A. destruct A as (nd & s2 & A & A2). apply deref_inv in A. unfold ret in A2. assert (s1 = s) by congruence. subst s1.
  apply bind_inv in H. destruct H as (rest & s1' & A3 & H). apply IH in A3. unfold ret in H. congruence.
Qed.
Lemma find_loop_tracks : forall P fuel md (cb : option (callback P)) nd res0 ts ch (p0 : P) s t r ch' p' s', holds s (cells null true t) -> linked t nd -> tracks t ch ->
  find_loop md fuel cb nd res0 ts ch p0 s = (Ok (r, ch', p'), s') -> s' = s /\ tracks t ch'.
Proof.
  intros P. induction fuel as [|k IH]; intros md cb nd res0 ts ch p0 s t r ch' p' s' H LK TR RUN; cbn [find_loop] in RUN; destruct (is_null nd) eqn:NZ.
  - unfold ret in RUN. injection RUN as _ <- _ <-. auto.
  - unfold lift in RUN. discriminate.
  - unfold ret in RUN. injection RUN as _ <- _ <-. auto.
  - destruct LK as [->|[ls I]]; [discriminate|]. destruct (node_links t null true _ _ I) as (c & rt & i & a & b & d & e & J & LA & LB & LE). destruct (holds_in _ _ _ _ H J) as [D _].
    apply bind_inv in RUN. destruct RUN as (nm & s1 & A & RUN). unfold get_name in A. rewrite (bind_ok _ _ _ _ s _ D) in A. unfold ret in A. injection A as _ <-.
    apply bind_inv in RUN. destruct RUN as (cs & s1 & A & RUN). apply lift_inv in A. destruct A as [_ ->]. apply bind_inv in RUN. destruct RUN as (cr & s1 & A & RUN). apply lift_inv in A. destruct A as [_ ->].
    set (ch1 := mkChain (ch_level ch) (ch_nodes ch) nd cr) in *. cbv zeta in RUN. assert (TR1 : tracks t ch1) by (destruct TR as (ns & SK & F); exists ns; split; [exact SK|exact F]).
    destruct (cr_relation cr).
    + unfold ret in RUN. injection RUN as _ <- _ <-. auto.
    + apply bind_inv in RUN. destruct RUN as (en & s1 & A & RUN). unfold is_callback_enabled in A. rewrite (bind_ok _ _ _ _ s _ D) in A. unfold ret in A. injection A as _ <-.
      apply bind_inv in RUN. destruct RUN as ([stop p1] & s1 & A & RUN).
      assert (s1 = s).
      { destruct en; [destruct cb as [f|]|]; try (unfold ret in A; congruence). unfold get_name in A. apply bind_inv in A. destruct A as (nm2 & s2 & A1 & A). rewrite (bind_ok _ _ _ _ s _ D) in A1. unfold ret in A1. injection A1 as _ <-.
        apply bind_inv in A. destruct A as (ab & s2 & A1 & A). unfold ret in A. assert (s1 = s2) by congruence. subst s2. unfold get_absolute_name in A1. destruct (ch_level ch1 =? 0).
        - apply lift_inv in A1. apply A1.
        - apply bind_inv in A1. destruct A1 as (names & s2 & A1 & A2). apply chain_names_inv in A1. apply lift_inv in A2. destruct A2 as [_ ->]. exact A1. }
      subst s1. destruct stop; [unfold ret in RUN; injection RUN as _ <- _ <-; auto|].
      apply bind_inv in RUN. destruct RUN as (ch2 & s1 & A2 & RUN). apply lift_inv in A2. destruct A2 as [PU ->]. apply bind_inv in RUN. destruct RUN as (t' & s1 & A2 & RUN). apply lift_inv in A2. destruct A2 as [_ ->].
      apply bind_inv in RUN. destruct RUN as (dn & s1 & A2 & RUN). unfold get_down in A2. rewrite (bind_ok _ _ _ _ s _ D) in A2. unfold ret in A2. injection A2 as <- <-.
      eapply IH; [exact H| |exact (tracks_push _ _ _ _ _ TR1 I PU)|exact RUN]. exact LE.
    + apply bind_inv in RUN. destruct RUN as (ch2 & s1 & A2 & RUN). apply lift_inv in A2. destruct A2 as [PU ->]. unfold ret in RUN. injection RUN as _ <- _ <-. split; [reflexivity|]. exact (tracks_push _ _ _ _ _ TR1 I PU).
    + unfold ret in RUN. injection RUN as _ <- _ <-. auto.
    + apply bind_inv in RUN. destruct RUN as (nx & s1 & A2 & RUN).
      assert (s1 = s /\ linked t nx) as [-> LX]. { destruct (cr_order cr <? 0)%Z; [unfold get_left in A2|unfold get_right in A2]; rewrite (bind_ok _ _ _ _ s _ D) in A2; unfold ret in A2; injection A2 as <- <-; auto. }
      eapply IH; [exact H|exact LX|exact TR1|exact RUN].
Qed.
Theorem reached_search_chain : forall md (ops : list (op V)) s, any_names ops -> reached md ops s -> exists t, shape s t /\
  forall md' P (cb : option (callback P)) (p0 : P) nm r ch p s', find_node_ext md' nm chain_new cb p0 s = (Ok (r, ch, p), s') ->
  s' = s /\ exists ns, Forall (fun n => In n (nodes_of t)) ns /\ on_chain ch = map fst ns /\ chain_display ch s = (Ok (show_chain ch (map snd ns)), s).
Proof.
  intros md ops s W R. destruct (reached_shown md ops s W R) as (t & SP & SH). exists t. split; [exact SP|]. intros md' P cb p0 nm r ch p s' RUN. pose proof SP as [RT H].
  unfold find_node_ext in RUN. apply bind_inv in RUN. destruct RUN as (ts & s1 & A & RUN). apply lift_inv in A. destruct A as [_ ->]. rewrite RT in RUN.
  destruct (find_loop_tracks _ _ _ _ _ _ _ _ _ _ t _ _ _ _ H (linked_pt t) (ex_intro _ [] (conj stacked_new (Forall_nil _))) RUN) as [-> (ns & SK & F)].
  split; [reflexivity|]. exists ns. split; [exact F|]. pose proof SK as (A & B & C). rewrite rev_involutive in C. assert (OC : on_chain ch = map fst ns) by (unfold on_chain; rewrite A; exact C). split; [exact OC|].
  apply (chain_display_spec s t); auto. unfold on_chain. rewrite firstn_length, B. pose proof (stacked_le _ _ SK). lia.
Qed.
End D.

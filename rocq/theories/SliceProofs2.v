(** The text form of label sequences. *)
From Verif Require Import Base BaseLemmas NameModel SliceModel RenderModel SpecName SpecOrd SpecScope SpecSlice SpecEsc
  NameWireProofs NameOpsProofs NameOpsProofs2 NameCmpProofs NameCmpProofs2 NameTextProofs NameTextProofs2 OrdBase OrdName OrdProofs EscProofs EscProofs2 FitProofs SliceProofs.
Open Scope list_scope.
Open Scope nat_scope.

Lemma seq_display_spec : forall fls, seq_shape fls -> seq_display (seqf fls) = match fls with [] => Panic | _ => Ok (show_seq fls) end.
Proof.
  intros fls S. unfold seq_display. destruct fls as [|l fls]; [reflexivity|]. destruct (slice_of_seqf (l :: fls) ltac:(discriminate) (proj1 S)) as (s & -> & R). cbn [rbind].
  apply rep_display; auto.
Qed.
Lemma ends_dot_iff : forall s, s <> [] -> ends_dot s = true <-> exists r, s = r ++ [46%N].
Proof.
  induction s as [|c s IH]; [congruence|]. intros _. destruct s as [|d s].
  - cbn. split.
    + intros H. apply N.eqb_eq in H. subst. exists []. reflexivity.
    + intros (r & E). destruct r as [|x r]; [injection E as ->; reflexivity|destruct r; discriminate].
  - rewrite ends_dot_cons by discriminate. rewrite IH by discriminate. split; intros (r & E).
    + exists (c :: r). rewrite E. reflexivity.
    + destruct r as [|x r]; [discriminate|]. injection E as _ E. eauto.
Qed.
Lemma seq_from_str_spec : forall s,
  (forall fls, seq_reading s fls -> seq_from_str s = Ok (seqf fls)) /\ ((forall fls, ~ seq_reading s fls) -> seq_from_str s = Err).
Proof.
  intros s. unfold seq_from_str, seq_reading.
  destruct (list_eq_dec N.eq_dec s []) as [->|N0].
  { split; [intros fls (ls & (X & _) & _); discriminate|reflexivity]. }
  destruct (list_eq_dec N.eq_dec s [46%N]) as [->|N1].
  { split.
    - intros fls (ls & (E & _) & [[_ ->]|[R _]]); [injection E as <-; reflexivity|]. exfalso. apply R. right. exists []. reflexivity.
    - intros H. exfalso. apply (H [[]]). exists []. split; [|left; split; [right; exists []; reflexivity|reflexivity]]. split; [reflexivity|]. split; [constructor|]. left. vm_compute. lia. }
  destruct (list_eq_dec N.eq_dec s [64%N]) as [->|N2].
  { split.
    - intros fls (ls & (E & _) & [[_ ->]|[R _]]); [injection E as <-; reflexivity|]. exfalso. apply R. left. reflexivity.
    - intros H. exfalso. apply (H [[]]). exists []. split; [|left; split; [left; reflexivity|reflexivity]]. split; [reflexivity|]. split; [constructor|]. left. vm_compute. lia. }
  rewrite parse_esc by (auto; split; auto). cbn [orb].
  assert (T : text_reading s = pieces_reading (split_dots s)).
  { unfold text_reading. destruct s; [congruence|]. destruct (list_eq_dec _ _ _); [congruence|]. destruct (list_eq_dec _ _ _); [congruence|]. reflexivity. }
  assert (RD : rooted s <-> ends_dot s = true). { rewrite ends_dot_iff by auto. unfold rooted. split; [intros [X|X]; [congruence|exact X]|auto]. }
  assert (OUT : forall L, (let? (data, offsets) := Ok (if ends_dot s then (enc L, offs_from 0 L) else (body L, obody 0 L)) in Ok (mkSeq data offsets)) = Ok (seqf (if ends_dot s then L ++ [[]] else L))).
  { intros L. destruct (ends_dot s); cbn [rbind]; unfold seqf; [|reflexivity]. change (L ++ [[]]) with (full L). rewrite body_full, obody_full. reflexivity. }
  unfold esc_legal. rewrite T. unfold eout. destruct (pieces_reading (split_dots s)) as [L|].
  - rewrite app_nil_l. split.
    + intros fls (ls & ([= <-] & F & W) & C). rewrite (proj2 (okl_spec _) F).
      replace ((wire_len L <=? 255) || ((wire_len L =? 256) && ends_escaped (split_dots s))) with true.
      2:{ symmetry. destruct W as [W|[W ->]]; [apply Nat.leb_le in W; rewrite W; reflexivity|rewrite W; reflexivity]. }
      cbn [andb]. rewrite OUT. f_equal. f_equal. rewrite RD in C. destruct C as [[-> ->]|[R ->]]; [reflexivity|]. destruct (ends_dot s); [exfalso; apply R; reflexivity|reflexivity].
    + intros H. destruct (_ && _) eqn:E; [|reflexivity]. exfalso. apply (H (if ends_dot s then L ++ [[]] else L)). exists L. apply andb_true_iff in E. destruct E as [E1 E2].
      split; [split; [reflexivity|]; split; [apply okl_spec; auto|]|].
      * apply orb_true_iff in E2. destruct E2 as [E2|E2]; [left; apply Nat.leb_le; auto|right]. apply andb_true_iff in E2. destruct E2 as [E2 E3]. apply Nat.eqb_eq in E2. auto.
      * rewrite RD. destruct (ends_dot s); [left|right]; split; auto; discriminate.
  - split; [intros fls (ls & (X & _) & _); discriminate|reflexivity].
Qed.

(** * Round trip *)
Lemma seq_reading_fun : forall s f g, seq_reading s f -> seq_reading s g -> f = g.
Proof. intros s f g F G. destruct (seq_from_str_spec s) as [A _]. pose proof (A _ F) as X. rewrite (A _ G) in X. injection X as X _. apply body_inj in X. auto. Qed.
Lemma from_str_iff : forall s fls, seq_from_str s = Ok (seqf fls) <-> seq_reading s fls.
Proof.
  intros s fls. destruct (seq_from_str_spec s) as [A B]. split; [|apply A]. intros H.
  assert (X : exists f, seq_reading s f).
  { unfold seq_from_str in H. destruct (list_eq_dec N.eq_dec s []) as [->|N0]; [discriminate|].
    destruct (list_eq_dec N.eq_dec s [46%N]) as [->|N1].
    { exists [[]], []. split; [split; [reflexivity|]; split; [constructor|]; left; vm_compute; lia|]. left. split; [right; exists []; reflexivity|reflexivity]. }
    destruct (list_eq_dec N.eq_dec s [64%N]) as [->|N2].
    { exists [[]], []. split; [split; [reflexivity|]; split; [constructor|]; left; vm_compute; lia|]. left. split; [left; reflexivity|reflexivity]. }
    rewrite parse_esc in H by (auto; split; auto). cbn [orb] in H. unfold eout in H. destruct (pieces_reading (split_dots s)) as [L|] eqn:PR; [|discriminate]. rewrite app_nil_l in H.
    destruct (_ && _) eqn:E; [|discriminate]. apply andb_true_iff in E. destruct E as [E1 E2].
    exists (if ends_dot s then L ++ [[]] else L), L. split.
    - split; [unfold text_reading; destruct s; [congruence|]; destruct (list_eq_dec _ _ _); [congruence|]; destruct (list_eq_dec _ _ _); [congruence|]; exact PR|]. split; [apply okl_spec; auto|].
      apply orb_true_iff in E2. destruct E2 as [E2|E2]; [left; apply Nat.leb_le; auto|right]. apply andb_true_iff in E2. destruct E2 as [E2 E3]. apply Nat.eqb_eq in E2. auto.
    - unfold rooted. rewrite <- ends_dot_iff by auto. destruct (ends_dot s) eqn:ED; [left; auto|right]. split; [intros [X|X]; [congruence|discriminate]|reflexivity]. }
  destruct X as (f & X). rewrite (A _ X) in H. injection H as H _. apply body_inj in H. subst. exact X.
Qed.
Lemma show_head_92 : forall l, bytes l -> l <> [] -> show_label l <> [64%N].
Proof.
  intros [|c l] B N; [congruence|]. cbn [show_label flat_map]. unfold show_char. destruct (special c) eqn:S; [discriminate|]. destruct (printable c) eqn:P; [|discriminate].
  intros [= -> _]. vm_compute in S. discriminate.
Qed.
Lemma join_sname : forall ls, ls <> [] -> join_dots ls ++ [46%N] = sname ls.
Proof.
  intros [|l ls]; [congruence|]. intros _. rewrite join_dotted, <- app_assoc, dotted_shift. cbn [sname flat_map]. unfold sname. rewrite <- app_assoc. reflexivity.
Qed.
Lemma esc_mono : forall n t o, length t <= n -> esc_octets false t = Some o -> esc_octets true t = Some o.
Proof.
  induction n as [|n IH]; intros t o L H; (destruct t as [|c t1]; [exact H|]); [cbn in L; lia|]. cbn [esc_octets] in *. cbn [length] in L.
  destruct (c =? 92)%N.
  - destruct t1 as [|x t2]; [discriminate|]. destruct (dec_digit x).
    + destruct t2 as [|y [|z t3]]; try discriminate. destruct (_ && _); [|discriminate]. destruct (esc_octets false t3) as [u|] eqn:E; [|discriminate]. cbn [length] in L. rewrite (IH t3 u ltac:(lia) E). exact H.
    + destruct (esc_octets false (x :: t2)) as [u|] eqn:E; [|discriminate]. rewrite (IH (x :: t2) u ltac:(lia) E). exact H.
  - destruct (esc_octets false t1) as [u|] eqn:E; [|discriminate]. rewrite (IH t1 u ltac:(lia) E). exact H.
Qed.
Lemma reading_mono : forall t o, label_reading false t = Some o -> label_reading true t = Some o.
Proof.
  intros t o. unfold label_reading. destruct (_ =? _)%N.
  - destruct (esc_octets false t) as [u|] eqn:E; [|discriminate]. rewrite (esc_mono (length t) t u ltac:(lia) E). auto.
  - intros E. apply (esc_mono (length t)); auto.
Qed.
Lemma pieces_mono : forall ps L, last ps [] <> [] -> pieces_reading ps = Some L -> pieces_reading (ps ++ [[]]) = Some L.
Proof.
  induction ps as [|p ps IH]; intros L N H; [cbn in N; congruence|]. destruct ps as [|q ps].
  - cbn in N. cbn [pieces_reading app] in *. destruct p as [|c p]; [congruence|]. destruct (label_reading false (c :: p)) as [l|] eqn:E; [|discriminate]. rewrite (reading_mono _ _ E). exact H.
  - change (last (p :: q :: ps) []) with (last (q :: ps) []) in N. change (pieces_reading (p :: q :: ps)) with (match label_reading true p, pieces_reading (q :: ps) with Some l, Some ls => Some (l :: ls) | _, _ => None end) in H.
    change ((p :: q :: ps) ++ [[]]) with (p :: (q :: ps) ++ [[]]). destruct (label_reading true p) as [l|] eqn:E; [|discriminate]. destruct (pieces_reading (q :: ps)) as [ls|] eqn:E2; [|discriminate].
    specialize (IH ls N eq_refl). change ((q :: ps) ++ [[]]) with (q :: ps ++ [[]]) in *.
    change (pieces_reading (p :: q :: ps ++ [[]])) with (match label_reading true p, pieces_reading (q :: ps ++ [[]]) with Some l, Some ls => Some (l :: ls) | _, _ => None end). rewrite E, IH. exact H.
Qed.
Lemma split_snoc : forall a, split_dots (a ++ [46%N]) = split_dots a ++ [[]].
Proof.
  induction a as [|c a IH]; [reflexivity|]. cbn [app split_dots]. destruct (c =? 46)%N; [rewrite IH; reflexivity|]. rewrite IH. pose proof (split_len_ge a). destruct (split_dots a) as [|l ls]; [cbn in H; lia|]. reflexivity.
Qed.
Lemma split_last : forall a, a <> [] -> ends_dot a = false -> last (split_dots a) [] <> [].
Proof.
  induction a as [|c a IH]; [congruence|]. intros _ E. destruct a as [|d a].
  - cbn in *. rewrite E. cbn. discriminate.
  - rewrite ends_dot_cons in E by discriminate. specialize (IH ltac:(discriminate) E). change (split_dots (c :: d :: a)) with (if (c =? 46)%N then [] :: split_dots (d :: a) else match split_dots (d :: a) with l :: ls => (c :: l) :: ls | [] => [[c]] end).
    pose proof (split_len_ge (d :: a)). destruct (split_dots (d :: a)) as [|l ls] eqn:Q; [cbn in H; lia|]. destruct (c =? 46)%N; [exact IH|]. destruct ls; [discriminate|exact IH].
Qed.
Lemma seq_round_trip : forall fls, seq_shape fls -> fls <> [] -> (Forall wf_label fls -> length (body fls) <= 254) ->
  (seq_from_str (show_seq fls) = Ok (seqf fls) <-> plain_labels fls).
Proof.
  intros fls [L S] NE W'. destruct S as [F|(ls & F & ->)].
  - specialize (W' F). assert (WW : wire_len fls <= 255) by (unfold wire_len, enc; rewrite app_length; cbn [length]; lia). clear W'. rename WW into W'. assert (SS : show_seq fls = join_dots fls).
    { unfold show_seq. destruct (rev fls) as [|[|c l] r] eqn:E; auto. exfalso. apply (f_equal (@rev _)) in E. rewrite rev_involutive in E. cbn in E. subst fls. apply Forall_app in F. destruct F as [_ F]. inversion F as [|? ? [X _] _]. cbn in X. lia. }
    rewrite SS. assert (WL : wf_labels fls) by (split; auto). assert (J : join_dots fls ++ [46%N] = sname fls) by (apply join_sname; auto).
    assert (J0 : join_dots fls <> []).
    { intros X. rewrite X in J. cbn in J. destruct fls as [|l fls]; [congruence|]. cbn [sname flat_map] in J. inversion F as [|? ? [Ll B] _]; subst. pose proof (show_label_ne l ltac:(destruct l; [cbn in Ll; lia|discriminate])) as Q.
      destruct (show_label l) as [|c t] eqn:QQ; [congruence|]. injection J as <- J. destruct t; discriminate. }
    split; intros H.
    + apply from_str_iff in H. destruct H as (k & (T & Fk & Wk) & C).
      assert (k = fls /\ ~ rooted (join_dots fls)) as [-> NR].
      { destruct C as [[_ E]|[NR E]]; [|auto]. exfalso. rewrite E in F. apply Forall_app in F. destruct F as [_ F]. inversion F as [|? ? [X _] _]. cbn in X. lia. }
      assert (ED : ends_dot (join_dots fls) = false). { destruct (ends_dot (join_dots fls)) eqn:ED; auto. exfalso. apply NR. right. apply ends_dot_iff; auto. }
      unfold text_reading in T. destruct (join_dots fls) as [|c t] eqn:JJ; [congruence|]. destruct (list_eq_dec _ _ _) as [e|_]; [rewrite e in ED; discriminate|].
      destruct (list_eq_dec N.eq_dec (c :: t) [64%N]) as [e|_]; [injection T as <-; congruence|].
      apply pieces_plain; auto. rewrite <- J, split_snoc. apply pieces_mono; [apply split_last; [discriminate|exact ED]|exact T].
    + destruct (display_parse_exact fls WL) as (s & D & [_ E]). rewrite name_display_spec in D by auto. injection D as <-. specialize (E H).
      assert (SN : show_name fls = sname fls) by (destruct fls; [congruence|reflexivity]). rewrite SN, <- J in E.
      apply from_str_iff. exists fls.
      assert (PC : forall c, In c (join_dots fls) -> c = 46%N \/ plain_char c).
      { intros c I. assert (I2 : In c (sname fls)) by (rewrite <- J; apply in_or_app; auto). unfold sname in I2. apply in_flat_map in I2. destruct I2 as (l & Il & I2). apply in_app_or in I2. destruct I2 as [I2|[<-|[]]]; [|auto].
        right. unfold plain_labels in H. rewrite Forall_forall in H. specialize (H l Il). unfold show_label in I2. apply in_flat_map in I2. destruct I2 as (d & Id & I2). rewrite Forall_forall in H. specialize (H d Id). destruct H as [Hr Hs].
        rewrite show_plain in I2; [|split; [lia|intros ->; discriminate]|exact Hs]. destruct I2 as [<-|[]]. split; auto. }
      assert (LD : exists r c, join_dots fls = r ++ [c] /\ plain_char c).
      { destruct (@exists_last _ fls NE) as (i & l & ->). unfold plain_labels in H. apply Forall_app in H. destruct H as [_ H]. inversion H as [|? ? Hl _]; subst. apply Forall_app in F. destruct F as [_ F]. inversion F as [|? ? [Ll _] _]; subst.
        destruct (@exists_last _ l) as (l' & c & ->); [destruct l; [cbn in Ll; lia|discriminate]|]. apply Forall_app in Hl. destruct Hl as [_ Hl]. inversion Hl as [|? ? Pc _]; subst.
        assert (SC : show_char c = [c]) by (apply show_plain; [destruct Pc; split; [lia|intros ->; discriminate]|apply Pc]).
        assert (SL : show_label (l' ++ [c]) = show_label l' ++ [c]) by (unfold show_label; rewrite flat_map_app; cbn [flat_map]; rewrite app_nil_r, SC; reflexivity).
        destruct i as [|m i].
        - exists (show_label l'), c. cbn [app join_dots]. split; auto.
        - exists (show_label m ++ dotted i ++ [46%N] ++ show_label l'), c. split; auto. change ((m :: i) ++ [l' ++ [c]]) with (m :: i ++ [l' ++ [c]]). rewrite join_dotted. unfold dotted. rewrite flat_map_app. cbn [flat_map]. rewrite SL, app_nil_r, <- !app_assoc. reflexivity. }
      destruct LD as (r & c & LD & PCc).
      assert (NR : ~ rooted (join_dots fls)).
      { intros [X|(r' & X)].
        - rewrite LD in X. destruct r; [injection X as ->; destruct PCc; discriminate|destruct r; discriminate].
        - rewrite LD in X. apply app_inj_tail in X. destruct X as [_ ->]. destruct PCc; discriminate. }
      split; [|right; auto].
      assert (NB : ~ In 92%N (join_dots fls)). { intros I. destruct (PC _ I) as [X|[_ X]]; discriminate. }
      assert (RP : forall ps, Forall (fun p => ~ In 92%N p) ps -> last ps [] <> [] -> pieces_reading ps = Some ps).
      { assert (EO : forall b t, ~ In 92%N t -> esc_octets b t = Some t). { intros b. induction t as [|x t IH]; intros N; [reflexivity|]. rewrite esc_plain by (intros ->; apply N; left; reflexivity). rewrite IH by (intros X; apply N; right; exact X). reflexivity. }
        assert (LR : forall b t, ~ In 92%N t -> label_reading b t = Some t). { intros b t N. unfold label_reading. destruct t as [|x t]; [reflexivity|]. cbn [hd]. destruct (N.eqb_spec x 92); [subst; exfalso; apply N; left; reflexivity|]. apply EO. exact N. }
        induction ps as [|p ps IH]; intros FP LP; [reflexivity|]. inversion FP as [|? ? Hp FP']; subst. destruct ps as [|q ps].
        - cbn in LP. cbn [pieces_reading]. destruct p; [congruence|]. rewrite LR by exact Hp. reflexivity.
        - change (pieces_reading (p :: q :: ps)) with (match label_reading true p, pieces_reading (q :: ps) with Some l, Some ls => Some (l :: ls) | _, _ => None end). rewrite LR by exact Hp. rewrite IH by auto. reflexivity. }
      assert (SP : split_dots (join_dots fls) = fls).
      { assert (SPN : forall ks, Forall (fun k => ~ In 46%N (show_label k)) ks -> split_dots (sname ks) = map show_label ks ++ [[]]).
        { induction ks as [|k ks IH]; intros FK; [reflexivity|]. inversion FK; subst. cbn [sname flat_map]. rewrite <- app_assoc. cbn [app]. rewrite split_app by auto. fold (sname ks). rewrite IH by auto. reflexivity. }
        assert (ID : forall k, In k fls -> show_label k = k).
        { intros k I. unfold plain_labels in H. rewrite Forall_forall in H. specialize (H k I). clear -H. induction H as [|x k [Px Sx] _ IH]; [reflexivity|]. cbn [show_label flat_map]. fold (show_label k). rewrite IH, show_plain; [reflexivity|split; [lia|intros ->; discriminate]|exact Sx]. }
        assert (FK : Forall (fun k => ~ In 46%N (show_label k)) fls).
        { apply Forall_forall. intros k I. rewrite ID by exact I. intros X. unfold plain_labels in H. rewrite Forall_forall in H. specialize (H k I). rewrite Forall_forall in H. destruct (H _ X). discriminate. }
        specialize (SPN _ FK). rewrite <- J, split_snoc in SPN. apply app_inj_tail in SPN. destruct SPN as [SPN _]. rewrite SPN. rewrite <- (map_id fls) at 2. apply map_ext_in. exact ID. }
      split; [|split; [eapply Forall_impl; [|exact F]; intros l [X _]; exact X|left; exact W']].
      unfold text_reading. destruct (join_dots fls) as [|c0 t] eqn:JJ; [congruence|].
      destruct (list_eq_dec _ _ _) as [e|_]. { exfalso. apply NR. right. exists []. exact e. }
      destruct (list_eq_dec N.eq_dec (c0 :: t) [64%N]) as [e|_]. { exfalso. apply NR. left. exact e. }
      rewrite SP. apply RP.
      * rewrite <- SP. apply Forall_forall. intros p Ip X. apply NB. clear -Ip X. revert Ip. generalize (c0 :: t). clear c0 t. intros s. revert p X. induction s as [|a s IH]; intros p X I; cbn [split_dots] in I.
        -- destruct I as [<-|[]]. contradiction.
        -- destruct (a =? 46)%N; [destruct I as [<-|I]; [contradiction|right; eauto]|]. destruct (split_dots s) as [|l k]; [destruct I as [<-|[]]; destruct X as [X|[]]; left; exact X|].
           destruct I as [<-|I]; [destruct X as [<-|X]; [left; reflexivity|right; eapply IH; [exact X|left; reflexivity]]|right; eapply IH; [exact X|right; exact I]].
      * destruct (@exists_last _ fls NE) as (i & l & EE). rewrite EE, last_last. rewrite EE in F. apply Forall_app in F. destruct F as [_ F]. inversion F as [|? ? [Ll _] _]. destruct l; [cbn in Ll; lia|discriminate].
  - assert (WL : wf_labels ls). { split; auto. change (ls ++ [[]]) with (full ls) in L. rewrite body_full in L. exact L. }
    assert (SS : show_seq (ls ++ [[]]) = show_name ls). { unfold show_seq. rewrite rev_app_distr. cbn [rev app]. rewrite rev_involutive. reflexivity. }
    rewrite SS. assert (PL : plain_labels (ls ++ [[]]) <-> plain_labels ls).
    { unfold plain_labels. rewrite Forall_app. split; [intros [X _]; exact X|intros X; split; [exact X|repeat constructor]]. }
    rewrite PL. destruct (display_parse_exact ls WL) as (s & D & E). rewrite name_display_spec in D by auto. injection D as <-. rewrite <- E, from_str_iff.
    assert (RT : rooted (show_name ls)). { right. destruct ls as [|l ls]; [exists []; reflexivity|]. destruct (sname_ends (l :: ls) ltac:(discriminate)) as (a & EA). exists a. exact EA. }
    destruct (name_new_esc (show_name ls)) as [A B]. split.
    + intros (k & K & [[_ X]|[NR _]]); [|contradiction]. apply app_inj_tail in X. destruct X as [-> _]. apply A. exact K.
    + intros H. exists ls. split; [|left; auto].
      destruct (text_reading (show_name ls)) as [k|] eqn:T.
      * assert (D2 : esc_legal (show_name ls) k \/ ~ esc_legal (show_name ls) k).
        { unfold esc_legal. destruct (Forall_dec (fun l => 1 <= length l <= 63) ltac:(intros x; destruct (le_dec 1 (length x)); [destruct (le_dec (length x) 63); [left; lia|right; lia]|right; lia]) k) as [Fk|Fk]; [|right; intros (_ & X & _); contradiction].
          destruct (le_dec (wire_len k) 255); [left; auto|]. destruct (Nat.eq_dec (wire_len k) 256); [|right; intros (_ & _ & [X|[X _]]); lia].
          destruct (ends_escaped (split_dots (show_name ls))) eqn:EE; [left; rewrite T; auto|right; intros (_ & _ & [X|[_ X]]); [lia|discriminate]]. }
        destruct D2 as [K|K].
        -- rewrite (A k K) in H. injection H as X _. apply enc_inj_any in X. subst. exact K.
        -- exfalso. rewrite B in H; [discriminate|]. intros k' (T' & R'). rewrite T in T'. injection T' as <-. apply K. split; [exact T|exact R'].
      * exfalso. rewrite B in H; [discriminate|]. intros k' (T' & _). rewrite T in T'. discriminate.
Qed.

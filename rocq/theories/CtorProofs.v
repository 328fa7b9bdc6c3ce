(** Constructed messages and builder setters. *)
From Verif Require Import Base NameModel RenderModel CodesModel RDataModel MsgModel TextModel CtorModel SpecName SpecBuf SpecCodes SpecMsg SpecText SpecCtor
  BaseLemmas BitLemmas NameWireProofs NameOpsProofs NameOpsProofs2 RenderProofs RenderProofs2 BufProofs LiveProofs CodesProofs WireProofs
  RDataProofs DecodeProofs MsgProofs MsgProofs2 MsgProofs3 MsgProofs4 MsgProofs5 MsgProofs6 MsgProofs7 IndepProofs FitProofs MsgProofs8 BuildProofs PropName.
Open Scope list_scope.
Open Scope nat_scope.

Lemma name_at_end : forall w, bytes w -> name_from_wire (mkIn w (length w)) = (Err, mkIn w (length w)) \/ exists p, name_from_wire (mkIn w (length w)) = (Err, mkIn w p).
Proof.
  intros w B. right. destruct (C01_from_wire_total w (length w) B (le_n _)) as (r & p & E & _ & Sf). exists p. rewrite E. f_equal.
  destruct r as [n| | |]; auto; try (destruct Sf; congruence). exfalso. apply (C02_from_wire_exact w (length w) n p B (le_n _)) in E. destruct E as (ls & W & _).
  assert (N0 : rd_of w (length w) = None) by (apply nth_error_None; lia). inversion W; congruence.
Qed.
Lemma section_at_end : forall w c typ, bytes w -> c <> 0%N -> exists p, section_from_wire c typ (mkIn w (length w)) = (Err, mkIn w p).
Proof.
  intros w c typ B N0. destruct (name_at_end w B) as [E|(p & E)]; eexists; unfold section_from_wire; rewrite (proj2 (N.eqb_neq c 0) N0); unfold rrset_from_wire, bind; rewrite E; reflexivity.
Qed.
(** Writing a header and a question: what comes back. *)
Lemma head_only : forall dat h q, bytes dat -> header_ok h -> question_ok q -> h_qd h = 1%N ->
  let (a, r') := (header_to_wire h ;; question_to_wire q ;; mr_length) (mr_new dat) in
  if 16 + length (n_raw (q_name q)) <=? length dat
  then a = Ok (length (mr_bytes r')) /\
       response_from_wire (mr_bytes r') = (if (h_an h =? 0)%N && (h_ns h =? 0)%N && (h_ar h =? 0)%N then Ok (mkResponse h q None None None) else Err)
  else a = Err.
Proof.
  intros dat h q B Hk Qk Hq. pose proof Qk as ((ls & W & En) & _).
  pose proof (head_spec all_names dat h q ls B Hk Qk W En (fun s Hs => Logic.I)) as H.
  replace ((header_to_wire h ;; question_to_wire q ;; mr_length) (mr_new dat)) with (((header_to_wire h ;; question_to_wire q) ;; mr_length) (mr_new dat)) by (rewrite bind_assoc; reflexivity).
  unfold bind at 1. destruct ((header_to_wire h ;; question_to_wire q) (mr_new dat)) as [a r1]. destruct H as (I1 & C1 & A1).
  assert (El : length (n_raw (q_name q)) = wire_len ls) by (rewrite En; reflexivity).
  rewrite El. destruct (16 + wire_len ls <=? length dat); [|subst a; reflexivity].
  destruct A1 as (-> & B1 & L1). unfold mr_length. rewrite (mr_bytes_len _ _ I1). split; auto.
  pose proof (mr_bytes_bytes _ _ I1) as Bw. pose proof (mr_bytes_len _ _ I1) as Lw.
  rewrite B1 in *. rewrite <- (app_nil_r (header_octets h ++ question_octets q)) in *.
  destruct (head_question h q [] Hk Qk Bw) as (L & E & Q).
  set (w := (header_octets h ++ question_octets q) ++ []) in *.
  pose proof (question_dec w 12 _ _ Bw L Q) as D.
  assert (Ep : 16 + length (n_raw (q_name q)) = length w) by lia. rewrite Ep in D.
  unfold response_from_wire, response_from_buf, bind, ib_new, ensure. rewrite E, Hq. cbn [N.eqb Pos.eqb]. cbn [ret]. unfold ret. rewrite D.
  destruct (N.eqb_spec (h_an h) 0) as [Ea|Ea]; cbn [andb].
  2:{ destruct (section_at_end w _ SAnswer Bw Ea) as (p & Es). rewrite Es. reflexivity. }
  rewrite Ea. cbn [section_from_wire N.eqb]. unfold ret. 
  destruct (N.eqb_spec (h_ns h) 0) as [Eb|Eb]; cbn [andb].
  2:{ destruct (section_at_end w _ SAuthority Bw Eb) as (p & Es). rewrite Es. reflexivity. }
  rewrite Eb. cbn [section_from_wire N.eqb]. unfold ret. 
  destruct (N.eqb_spec (h_ar h) 0) as [Ec|Ec].
  2:{ destruct (section_at_end w _ SAdditional Bw Ec) as (p & Es). rewrite Es. reflexivity. }
  rewrite Ec. cbn [section_from_wire N.eqb]. unfold ret. reflexivity.
Qed.
Lemma default_ok : forall rnd, (rnd < 65536)%N -> header_ok (header_default rnd).
Proof. intros rnd R. split; [repeat split; auto; cbn; lia|]. intros i H. discriminate. Qed.
Lemma in_ok : class_ok CIN.
Proof. split; vm_compute; reflexivity. Qed.
Lemma soa_ok : type_ok TSOA.
Proof. split; vm_compute; reflexivity. Qed.
Lemma request_new_ok : forall rnd n t, (rnd < 65536)%N -> wf_name n -> type_ok t -> request_ok (request_new rnd n t).
Proof.
  intros rnd n t R W T. split; [apply set_flag_ok; apply default_ok; auto|]. split; [reflexivity|]. split; [reflexivity|]. split; [exact W|]. split; [exact T|exact in_ok].
Qed.
Lemma with_question_ok : forall rnd n t, (rnd < 65536)%N -> wf_name n -> type_ok t -> consistent (response_with_question rnd n t).
Proof.
  intros rnd n t R W T. split; [apply set_flag_ok; apply default_ok; auto|]. split; [reflexivity|]. split; [split; [exact W|split; [exact T|exact in_ok]]|].
  split; [|split]; (split; [reflexivity|exact Logic.I]).
Qed.
Lemma default_flags : forall rnd f g, header_is_set (header_set_flag (header_default rnd) g true) f = same_flag g f.
Proof. intros rnd f g. destruct f, g; reflexivity. Qed.

(** * Builder setters *)
Lemma latest_app : forall A (w : bop -> option A) a b i, latest w (a ++ b) i = latest w b (latest w a i).
Proof. induction a as [|o a IH]; intros b i; cbn [app latest]; auto. Qed.
Lemma add_rest : forall r s rs r', add_rrset r s rs = Ok r' -> exists v, r' = put_section r s v.
Proof.
  intros r s rs r' H. unfold add_rrset in H. destruct (get_section r s) as [l|]; [|inversion H; eauto]. apply rbind_ok in H. destruct H as (i & _ & H). destruct i as [i|]; [|inversion H; eauto].
  apply rbind_ok in H. destruct H as (old & _ & H). apply rbind_ok in H. destruct H as (l' & _ & H). inversion H. eauto.
Qed.
Lemma put_frame : forall r s v, r_header (put_section r s v) = r_header r /\ r_question (put_section r s v) = r_question r /\ forall s', s' <> s -> get_section (put_section r s v) s' = get_section r s'.
Proof. intros r s v. destruct s; (split; [reflexivity|split; [reflexivity|]]); intros [] N0; try reflexivity; congruence. Qed.
Definition counts (h : header) : N * N * N * N := (h_qd h, h_an h, h_ns h, h_ar h).
Lemma setter_step : forall o r r', (h_flag (r_header r) < 65536)%N -> bop_call o r = Ok r' ->
  (h_flag (r_header r') < 65536)%N /\ h_id (r_header r') = latest w_id [o] (h_id (r_header r)) /\ h_opcode (r_header r') = latest w_opcode [o] (h_opcode (r_header r)) /\
  h_rcode (r_header r') = latest w_rcode [o] (h_rcode (r_header r)) /\ r_question r' = latest w_question [o] (r_question r) /\ counts (r_header r') = counts (r_header r) /\
  (forall f, header_is_set (r_header r') f = latest (w_flag f) [o] (header_is_set (r_header r) f)) /\
  forall s, ~ on_section s o -> get_section r' s = get_section r s.
Proof.
  intros o r r' L H.
  assert (P : forall s v, on_section s o -> (forall s', on_section s' o -> s' = s) -> w_id o = None -> w_opcode o = None -> w_rcode o = None -> w_question o = None -> (forall f, w_flag f o = None) -> r' = put_section r s v \/ r' = r ->
    (h_flag (r_header r') < 65536)%N /\ h_id (r_header r') = latest w_id [o] (h_id (r_header r)) /\ h_opcode (r_header r') = latest w_opcode [o] (h_opcode (r_header r)) /\
    h_rcode (r_header r') = latest w_rcode [o] (h_rcode (r_header r)) /\ r_question r' = latest w_question [o] (r_question r) /\ counts (r_header r') = counts (r_header r) /\
    (forall f, header_is_set (r_header r') f = latest (w_flag f) [o] (header_is_set (r_header r) f)) /\
    forall s, ~ on_section s o -> get_section r' s = get_section r s).
  { intros s v ON U E1 E2 E3 E4 E5 D. cbn [latest]. rewrite E1, E2, E3, E4. destruct (put_frame r s v) as (F1 & F2 & F3).
    destruct D as [ -> | -> ]; rewrite ?F1, ?F2; repeat (split; [auto; fail|]); (split; [intros f; rewrite E5; reflexivity|]); auto.
    intros s' N0. apply F3. intros ->. contradiction. }
  assert (FL : forall g b, (forall s, ~ on_section s o) -> w_id o = None -> w_opcode o = None -> w_rcode o = None -> w_question o = None -> (forall f, w_flag f o = if same_flag g f then Some b else None) -> r' = set_rflag g b r ->
    (h_flag (r_header r') < 65536)%N /\ h_id (r_header r') = latest w_id [o] (h_id (r_header r)) /\ h_opcode (r_header r') = latest w_opcode [o] (h_opcode (r_header r)) /\
    h_rcode (r_header r') = latest w_rcode [o] (h_rcode (r_header r)) /\ r_question r' = latest w_question [o] (r_question r) /\ counts (r_header r') = counts (r_header r) /\
    (forall f, header_is_set (r_header r') f = latest (w_flag f) [o] (header_is_set (r_header r) f)) /\
    forall s, ~ on_section s o -> get_section r' s = get_section r s).
  { intros g b ON E1 E2 E3 E4 E5 ->. cbn [latest]. rewrite E1, E2, E3, E4. cbn [set_rflag map_header r_header r_question]. 
    destruct (set_flag_spec (r_header r) g g b L) as (_ & S1 & S2 & S3 & S4 & S5 & S6 & S7 & S8).
    split; [exact S8|]. split; [exact S1|]. split; [exact S2|]. split; [exact S3|]. split; [reflexivity|]. split; [unfold counts; congruence|]. split.
    - intros f. rewrite E5. destruct (set_flag_spec (r_header r) g f b L) as (S9 & _). rewrite S9. unfold same_flag. destruct (N.eqb (flag_bit g) (flag_bit f)); reflexivity.
    - intros s _. destruct s; reflexivity. }
  destruct o as [i|f|f|c|c|q|e| |s rs|s f|s|s f]; cbn [bop_call] in H.
  - inversion H; subst r'. cbn [latest w_id w_opcode w_rcode w_question w_flag]. repeat (split; [auto; fail|]). intros s _. destruct s; reflexivity.
  - apply (FL f true); auto; try (intros s []); congruence.
  - apply (FL f false); auto; try (intros s []); congruence.
  - inversion H; subst r'. cbn [latest w_id w_opcode w_rcode w_question w_flag]. repeat (split; [auto; fail|]). intros s _. destruct s; reflexivity.
  - inversion H; subst r'. cbn [latest w_id w_opcode w_rcode w_question w_flag]. repeat (split; [auto; fail|]). intros s _. destruct s; reflexivity.
  - inversion H; subst r'. cbn [latest w_id w_opcode w_rcode w_question w_flag]. repeat (split; [auto; fail|]). intros s _. destruct s; reflexivity.
  - unfold add_edns in H. destruct (add_rest _ _ _ _ H) as (v & E). apply (P SAdditional v); auto; try reflexivity.
  - apply (FL QR true); auto; try (intros s []); unfold make_response in H; congruence.
  - destruct (add_rest _ _ _ _ H) as (v & E). apply (P s v); auto; try reflexivity.
  - unfold remove_rrset_by in H. destruct (get_section r s) as [l|]; injection H as H; symmetry in H.
    + eapply (P s); [reflexivity|auto|reflexivity|reflexivity|reflexivity|reflexivity|reflexivity|left; exact H].
    + eapply (P s None); [reflexivity|auto|reflexivity|reflexivity|reflexivity|reflexivity|reflexivity|right; exact H].
  - unfold clear_section in H. injection H as H; symmetry in H. eapply (P s); [reflexivity|auto|reflexivity|reflexivity|reflexivity|reflexivity|reflexivity|left; exact H].
  - unfold with_section in H. injection H as H; symmetry in H. eapply (P s); [reflexivity|auto|reflexivity|reflexivity|reflexivity|reflexivity|reflexivity|left; exact H].
Qed.
Theorem setters_last : forall ops r r', (h_flag (r_header r) < 65536)%N -> build ops r = Ok r' ->
  (h_flag (r_header r') < 65536)%N /\ h_id (r_header r') = latest w_id ops (h_id (r_header r)) /\ h_opcode (r_header r') = latest w_opcode ops (h_opcode (r_header r)) /\
  h_rcode (r_header r') = latest w_rcode ops (h_rcode (r_header r)) /\ r_question r' = latest w_question ops (r_question r) /\ counts (r_header r') = counts (r_header r) /\
  (forall f, header_is_set (r_header r') f = latest (w_flag f) ops (header_is_set (r_header r) f)) /\
  forall s, Forall (fun o => ~ on_section s o) ops -> get_section r' s = get_section r s.
Proof.
  induction ops as [|o ops IH]; intros r r' L H; cbn [build] in H.
  - inversion H; subst r'. cbn [latest]. repeat (split; [auto; fail|]). auto.
  - apply rbind_ok in H. destruct H as (r1 & E1 & E2). destruct (setter_step o r r1 L E1) as (L1 & A1 & A2 & A3 & A4 & A5 & A6 & A7).
    destruct (IH r1 r' L1 E2) as (L2 & B1 & B2 & B3 & B4 & B5 & B6 & B7). cbn [latest] in *. rewrite A1 in B1. rewrite A2 in B2. rewrite A3 in B3. rewrite A4 in B4.
    split; [exact L2|]. split; [exact B1|]. split; [exact B2|]. split; [exact B3|]. split; [exact B4|]. split; [congruence|]. split.
    + intros f. rewrite B6, A6. reflexivity.
    + intros s F. inversion F; subst. rewrite B7, A7; auto.
Qed.

(** * Programs with [remove_rrset_by] *)
Lemma tidy_get : forall r s, get_section (tidy r) s = tidy_section (get_section r s).
Proof. intros r []; reflexivity. Qed.
Lemma tidy_put : forall r s v, tidy (put_section r s v) = put_section (tidy r) s (tidy_section v).
Proof. intros r []; reflexivity. Qed.
Lemma tidy_tidy : forall r, tidy (tidy r) = tidy r.
Proof. intros [h q [[|]|] [[|]|] [[|]|]]; reflexivity. Qed.
Lemma put_put : forall r s u v, put_section (put_section r s u) s v = put_section r s v.
Proof. intros r []; reflexivity. Qed.
Lemma put_get : forall r s, put_section r s (get_section r s) = r.
Proof. intros [] []; reflexivity. Qed.
Lemma add_tidy : forall r s rs r1, add_rrset (tidy r) s rs = Ok r1 -> exists r2, add_rrset r s rs = Ok r2 /\ tidy r2 = tidy r1.
Proof.
  intros r s rs r1 H. unfold add_rrset in *. rewrite tidy_get in H. destruct (get_section r s) as [l|].
  2:{ cbn [tidy_section] in H. inversion H. eexists. split; [reflexivity|]. rewrite !tidy_put, tidy_tidy. reflexivity. }
  destruct l as [|x l]; cbn [tidy_section] in H.
  - inversion H. cbn [find_same rbind app]. eexists. split; [reflexivity|]. rewrite !tidy_put, tidy_tidy. reflexivity.
  - apply rbind_ok in H. destruct H as (i & E & H). rewrite E. cbn [rbind]. destruct i as [i|].
    + apply rbind_ok in H. destruct H as (old & E1 & H). rewrite E1. cbn [rbind]. apply rbind_ok in H. destruct H as (l' & E2 & H). rewrite E2. cbn [rbind]. inversion H.
      eexists. split; [reflexivity|]. rewrite !tidy_put, tidy_tidy. reflexivity.
    + inversion H. eexists. split; [reflexivity|]. rewrite !tidy_put, tidy_tidy. reflexivity.
Qed.
Lemma built_tidy : forall r, built r -> tidy r = r.
Proof.
  intros r (_ & _ & S1). assert (T : forall s, tidy_section (get_section r s) = get_section r s).
  { intros s. specialize (S1 s). destruct (get_section r s) as [[|]|]; auto. destruct S1 as (X & _). congruence. }
  pose proof (T SAnswer) as A. pose proof (T SAuthority) as B. pose proof (T SAdditional) as C. destruct r. unfold tidy. cbn in *. rewrite A, B, C. reflexivity.
Qed.
Lemma unique_filter : forall (f : rrset -> bool) l, unique_sets l -> unique_sets (filter f l).
Proof.
  intros f l. induction l as [|a l IH]; intros U; [exact U|].
  assert (U' : unique_sets l). { intros i j x y Hi Hj Sm. assert (E : S i = S j) by (eapply U; eauto; cbn; auto). lia. }
  specialize (IH U'). cbn [filter]. destruct (f a); [|exact IH].
  assert (NA : forall y, In y l -> ~ same_set a y /\ ~ same_set y a).
  { intros y Hy. apply In_nth_error in Hy. destruct Hy as (k & Hk). split; intros Sm.
    - assert (E : 0 = S k) by (eapply U; [|exact Hk|exact Sm]; reflexivity). lia.
    - assert (E : S k = 0) by (eapply (U (S k) 0); [exact Hk| |exact Sm]; reflexivity). lia. }
  intros [|i] [|j] x y Hi Hj Sm; cbn [nth_error] in Hi, Hj; auto.
  - inversion Hi; subst x. apply nth_error_In, filter_In in Hj. destruct (NA y (proj1 Hj)) as [X _]. contradiction.
  - inversion Hj; subst y. apply nth_error_In, filter_In in Hi. destruct (NA x (proj1 Hi)) as [_ X]. contradiction.
  - f_equal. eapply IH; eauto.
Qed.
Lemma fair_step : forall o r, fair_op o -> built (tidy r) -> exists r', bop_call o r = Ok r' /\ built (tidy r').
Proof.
  intros o r F B.
  assert (G : good_op o -> (forall r1, bop_call o (tidy r) = Ok r1 -> exists r2, bop_call o r = Ok r2 /\ tidy r2 = tidy r1) -> exists r', bop_call o r = Ok r' /\ built (tidy r')).
  { intros Go Sim. destruct (good_step o (tidy r) Go B) as (r1 & E & B1). destruct (Sim r1 E) as (r2 & E2 & T). exists r2. split; [exact E2|]. rewrite T, (built_tidy r1 B1). exact B1. }
  destruct o; cbn [fair_op] in F;
    try (apply G; [exact F|]; intros r1 H; cbn [bop_call] in *; injection H as <-; eexists; split; [reflexivity|]; try destruct s; destruct r as [h0 q0 [[|]|] [[|]|] [[|]|]]; reflexivity).
  - apply G; [exact F|]. intros r1 H. cbn [bop_call] in *. apply add_tidy. exact H.
  - apply G; [exact F|]. intros r1 H. cbn [bop_call] in *. apply add_tidy. exact H.
  - eexists. split; [reflexivity|]. unfold remove_rrset_by. destruct (get_section r s) as [l|] eqn:E; [|exact B]. rewrite tidy_put.
    destruct B as (Hh & Hq & Hs). destruct (put_rest (tidy r) s (tidy_section (Some (filter (fun x => negb (f x)) l)))) as [E1 E2].
    split; [rewrite E1; exact Hh|]. split; [rewrite E2; exact Hq|]. intros s'. rewrite get_put. destruct (Nat.eqb_spec (section_index s) (section_index s')) as [Es|Es]; [|apply Hs].
    apply index_inj in Es. subst s'. specialize (Hs s). rewrite tidy_get, E in Hs.
    assert (P : Forall rrset_ok l /\ unique_sets l /\ (add_sec s = false -> Forall (fun rs => rs_type rs <> TOPT) l)).
    { destruct l as [|x l]; [split; [constructor|split; [intros i j a b Hi; destruct i; discriminate|constructor]]|]. apply Hs. }
    destruct P as (P1 & P2 & P3). pose proof (unique_filter (fun x => negb (f x)) l P2) as U.
    assert (Q : forall (P : rrset -> Prop), Forall P l -> Forall P (filter (fun x => negb (f x)) l)) by (intros P H; rewrite Forall_forall in *; intros x Hx; apply filter_In in Hx; apply H, Hx).
    destruct (filter (fun x => negb (f x)) l) as [|y l'] eqn:El; [exact Logic.I|]. cbn [tidy_section sec_good]. split; [discriminate|]. split; [apply Q; exact P1|]. split; [exact U|]. intros Ea. apply Q. auto.
  - destruct F.
Qed.
Lemma fair_build : forall ops r, Forall fair_op ops -> built (tidy r) -> exists r', build ops r = Ok r' /\ built (tidy r').
Proof.
  induction ops as [|o ops IH]; intros r F B; cbn [build]; [eauto|]. apply Forall_cons_iff in F. destruct F as [F1 F2].
  destruct (fair_step o r F1 B) as (r1 & -> & B1). cbn [rbind]. auto.
Qed.
Lemma tidy_done : forall r, tidy (builder_done r) = builder_done (tidy r).
Proof. intros [h q [[|]|] [[|]|] [[|]|]]; reflexivity. Qed.
Lemma tidy_records : forall s, records (tidy_section s) = records s.
Proof. intros [[|]|]; reflexivity. Qed.
Lemma tidy_wire : forall r rd, response_to_wire (tidy r) rd = response_to_wire r rd.
Proof.
  intros r rd. unfold response_to_wire.
  assert (S1 : forall pos rd, sections_to_wire (tidy r) pos [r_answer (tidy r); r_authority (tidy r); r_additional (tidy r)] rd = sections_to_wire r pos [r_answer r; r_authority r; r_additional r] rd).
  { intros pos rd1. destruct r as [h q [[|]|] [[|]|] [[|]|]]; reflexivity. }
  change (r_header (tidy r)) with (r_header r). change (r_question (tidy r)) with (r_question r).
  unfold bind. destruct (header_to_wire (r_header r) rd) as [[[]| | |] rd1]; auto. destruct (question_to_wire (r_question r) rd1) as [[[]| | |] rd2]; auto.
  destruct (mr_length rd2) as [[pos| | |] rd3]; auto. rewrite S1. reflexivity.
Qed.
Theorem fair_round_trip : forall rnd n t ops, (rnd < 65536)%N -> wf_name n -> type_ok t -> Forall fair_op ops ->
  exists r, build ops (response_with_question rnd n t) = Ok r /\
    ((blen (records (r_answer r)) < 65536)%N -> (blen (records (r_authority r)) < 65536)%N -> (blen (records (r_additional r)) < 65536)%N ->
     consistent (tidy (builder_done r)) /\
     forall dat k r', bytes dat -> (N.of_nat (length dat) <= 65535)%N -> response_to_wire (builder_done r) (mr_new dat) = (Ok k, r') ->
       all_records (builder_done r) = [] \/ k <> head_size (builder_done r) ->
       k = length (mr_bytes r') /\ response_from_wire (mr_bytes r') = Ok (tidy (builder_done r))).
Proof.
  intros rnd n t ops R W T F. destruct (fair_build ops (response_with_question rnd n t) F) as (r & E & B); [apply with_question_built; auto|].
  exists r. split; [exact E|]. intros L1 L2 L3.
  assert (C : consistent (tidy (builder_done r))).
  { rewrite tidy_done. apply built_consistent; [exact B| | |]; cbn [tidy r_answer r_authority r_additional]; rewrite tidy_records; auto. }
  split; [exact C|]. intros dat k r' Bd Ld H Tr. rewrite <- tidy_wire in H.
  destruct (response_round_trip dat _ k r' Bd C Ld H) as (A1 & _ & A2); [|split; auto].
  destruct Tr as [Tr|Tr]; [left|right; exact Tr]. rewrite <- Tr. unfold all_records. cbn [tidy r_answer r_authority r_additional]. rewrite !tidy_records. reflexivity.
Qed.

Lemma notify_reply : forall dat rnd zone soa, bytes dat -> (rnd < 65536)%N -> wf_name zone ->
  let p := notify_response_new (notify_new rnd zone soa) in
  let (a, r') := notify_response_to_wire p (mr_new dat) in
  if 16 + length (n_raw zone) <=? length dat
  then a = Ok (length (mr_bytes r')) /\ response_from_wire (mr_bytes r') = match soa with None => Ok (mkResponse (np_header p) (np_question p) None None None) | Some _ => Err end
  else a = Err.
Proof.
  intros dat rnd zone soa B R W p.
  assert (Hk : header_ok (np_header p)).
  { unfold p, notify_response_new. cbn [np_header]. apply CodesProofs.set_flag_ok. unfold notify_new. cbn [nq_header].
    pose proof (CodesProofs.set_flag_ok _ AA true (default_ok rnd R)) as ((A1 & A2 & A3 & A4 & A5) & A6). split; [|exact A6]. destruct soa; repeat split; auto; cbn; lia. }
  assert (Qk : question_ok (np_question p)) by (split; [exact W|split; [exact soa_ok|exact in_ok]]).
  pose proof (head_only dat (np_header p) (np_question p) B Hk Qk eq_refl) as H. unfold notify_response_to_wire.
  destruct ((header_to_wire (np_header p) ;; question_to_wire (np_question p) ;; mr_length) (mr_new dat)) as [a r']. 
  change (n_raw (q_name (np_question p))) with (n_raw zone) in H. destruct (16 + length (n_raw zone) <=? length dat); [|exact H].
  destruct H as [H1 H2]. split; [exact H1|]. rewrite H2. destruct soa; reflexivity.
Qed.

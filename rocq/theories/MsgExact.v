(** The message decoders compute exactly the relation of SpecExact. *)
From Verif Require Import Base NameModel RenderModel CodesModel RDataModel MsgModel SpecName SpecBuf SpecCodes SpecMsg SpecExact
  BaseLemmas BitLemmas NameWireProofs NameOpsProofs NameOpsProofs2 RenderProofs RenderProofs2 BufProofs LiveProofs CodesProofs WireProofs
  RDataProofs DecodeProofs MsgProofs MsgProofs2 MsgProofs3 MsgProofs4 MsgProofs5 MsgProofs6 MsgProofs7 MsgProofs8.

(** ** Grouping *)
Lemma run_wf : forall run rs, run_of run rs -> owners_wf run -> wf_owner rs.
Proof. intros run rs (x & xs & -> & E & _) W. unfold wf_owner. rewrite E. apply Forall_cons_iff in W. apply W. Qed.
Definition collect (x : rr) (ys : list rr) : rrset := mkRRset (rr_owner x) (rr_type x) (rr_class x) (rr_ttl x) (flat_map datas (x :: ys)).
Lemma run_of_collect : forall run rs, run_of run rs -> exists x ys, run = x :: ys /\ rs = collect x ys.
Proof.
  intros run rs (x & ys & -> & A1 & A2 & A3 & A4 & A5). exists x, ys. split; [reflexivity|]. unfold collect.
  destruct rs as [n0 t0 c0 l0 d0]; cbn [rs_name rs_type rs_class rs_ttl rs_rdatas] in *. subst. reflexivity.
Qed.
Lemma collect_single : forall x, collect x [] = single x.
Proof. intros x. unfold collect, single, datas. cbn [flat_map]. rewrite app_nil_r. reflexivity. Qed.
Lemma grow_collect : forall x ys y, grow (collect x ys) y = collect x (ys ++ [y]).
Proof. intros. unfold grow, collect. cbn [rs_name rs_type rs_class rs_ttl rs_rdatas flat_map]. rewrite flat_map_app. cbn [flat_map]. rewrite app_nil_r, app_assoc. reflexivity. Qed.
Lemma grp_run : forall zs x ys rest, owners_wf (x :: zs) -> (forall z, In z zs -> rr_type x = rr_type z /\ same_owner (rr_owner x) (rr_owner z)) ->
  grp (collect x ys) (zs ++ rest) = grp (collect x (ys ++ zs)) rest.
Proof.
  induction zs as [|z zs IH]; intros x ys rest W K; [rewrite app_nil_r; reflexivity|]. cbn [app grp].
  apply Forall_cons_iff in W as [Wx W]. apply Forall_cons_iff in W as [Wz W].
  rewrite sameb_true; [|exact Wx|exact Wz|]. 2:{ destruct (K z ltac:(left; reflexivity)). split; assumption. }
  rewrite grow_collect, IH; [rewrite <- app_assoc; reflexivity|constructor; assumption|]. intros u I. apply K. right. exact I.
Qed.
Lemma grp_grouped : forall runs x ys l, owners_wf (List.concat ((x :: ys) :: runs)) -> Forall one_kind ((x :: ys) :: runs) -> Forall2 run_of runs l ->
  runs_differ (collect x ys :: l) -> grp (single x) (ys ++ List.concat runs) = collect x ys :: l.
Proof.
  induction runs as [|run runs IH]; intros x ys l W K F D; rewrite <- collect_single.
  - inversion F; subst. cbn [List.concat] in *. rewrite grp_run; [cbn [app grp]; reflexivity| |].
    + rewrite app_nil_r in W. exact W.
    + intros z I. apply Forall_inv in K. apply K; [left; reflexivity|right; exact I].
  - inversion F as [|? rs ? l' R F']; subst. cbn [List.concat] in W. apply Forall_app in W as [W1 W2]. apply Forall_cons_iff in K as [K1 K2].
    rewrite grp_run; [|exact W1|intros z I; apply K1; [left; reflexivity|right; exact I]]. cbn [app].
    destruct (run_of_collect _ _ R) as (y & zs & -> & ->). cbn [List.concat app grp].
    cbn [runs_differ] in D. destruct D as [D1 D2]. rewrite sameb_false.
    + f_equal. apply IH; assumption.
    + apply Forall_cons_iff in W1. apply W1.
    + apply Forall_cons_iff in W2. apply W2.
    + intros [A B]. apply D1. split; [exact A|exact B].
Qed.
Lemma grouped_group : forall xs s, owners_wf xs -> grouped xs s -> s = group xs.
Proof.
  intros xs s W (E0 & Ne & runs & E & K & F & D). destruct s as [l|]; [|destruct E0 as [E0 _]; rewrite (E0 eq_refl); reflexivity].
  cbn [sets] in *. inversion F as [|run rs runs' l' R F']; subst; [congruence|].
  destruct (run_of_collect _ _ R) as (x & ys & -> & ->). cbn [List.concat app group]. f_equal. symmetry. apply grp_grouped; assumption.
Qed.

(** The converse. *)
Lemma grp_is_grouped : forall xs x ys, owners_wf (x :: ys ++ xs) -> one_kind (x :: ys) -> exists runs l, grp (collect x ys) xs = l /\ l <> [] /\ 
  List.concat runs = x :: ys ++ xs /\ Forall one_kind runs /\ Forall2 run_of runs l /\ runs_differ l /\ (forall rs l', l = rs :: l' -> rs_name rs = rr_owner x /\ rs_type rs = rr_type x).
Proof.
  induction xs as [|z xs IH]; intros x ys W K; cbn [grp].
  - exists [x :: ys], [collect x ys]. cbn [List.concat]. rewrite !app_nil_r. split; [reflexivity|]. split; [discriminate|]. split; [reflexivity|].
    split; [constructor; [exact K|constructor]|]. split; [constructor; [|constructor]; exists x, ys; repeat split|]. split; [exact Logic.I|].
    intros rs l' E. injection E as <- _. split; reflexivity.
  - assert (Wx : wf_owner (collect x ys)) by (apply Forall_cons_iff in W; apply W).
    assert (Wz : wf_owner (single z)) by (apply Forall_cons_iff in W as [_ W]; apply Forall_app in W as [_ W]; apply Forall_cons_iff in W; apply W).
    pose proof (proj2 (sameb_spec _ _ Wx Wz)) as Sp. destruct (sameb (collect x ys) (single z)).
    + rewrite grow_collect. destruct (IH x (ys ++ [z])) as (runs & l & E & R).
      * rewrite <- app_assoc. exact W.
      * destruct (proj1 Sp eq_refl) as [T O]. cbn [collect single rs_type rs_name] in T, O.
        assert (G : forall a, In a (x :: ys ++ [z]) -> rr_type a = rr_type x /\ same_owner (rr_owner a) (rr_owner x)).
        { intros a [<-|I]; [apply K; left; reflexivity|]. apply in_app_or in I as [I|[<-|[]]]; [apply K; [right; exact I|left; reflexivity]|].
          split; [congruence|apply same_owner_sym; exact O]. }
        intros a b Ia Ib. destruct (G a Ia) as [A1 A2], (G b Ib) as [B1 B2]. split; [congruence|]. eapply same_owner_trans; [exact A2|apply same_owner_sym; exact B2].
      * exists runs, l. rewrite <- app_assoc in R. split; [exact E|exact R].
    + destruct (IH z []) as (runs & l & E & Ne & C & F1 & F2 & D & H).
      * apply Forall_cons_iff in W as [_ W]. apply Forall_app in W as [_ W]. exact W.
      * intros a b [<-|[]] [<-|[]]. split; [reflexivity|]. apply same_owner_refl. exact Wz.
      * rewrite collect_single in E. rewrite E. exists ((x :: ys) :: runs), (collect x ys :: l). split; [reflexivity|]. split; [discriminate|].
        cbn [List.concat app] in *. rewrite C. split; [reflexivity|]. split; [constructor; assumption|].
        split; [constructor; [exists x, ys; repeat split|exact F2]|]. split.
        { destruct l as [|rs l]; [congruence|]. cbn [runs_differ]. split; [|exact D]. destruct (H rs l eq_refl) as [H1 H2]. intros [A B]. rewrite H1 in B. rewrite H2 in A.
          enough (false = true) by discriminate. apply Sp. split; assumption. }
        intros rs l' X. injection X as <- _. split; reflexivity.
Qed.
Lemma group_grouped : forall xs, owners_wf xs -> grouped xs (group xs).
Proof.
  intros [|x xs] W; unfold grouped; cbn [group].
  - split; [split; reflexivity|]. split; [discriminate|]. exists []. repeat split; constructor.
  - destruct (grp_is_grouped xs x []) as (runs & l & E & Ne & C & F1 & F2 & D & _); [exact W| |].
    { intros a b [<-|[]] [<-|[]]. split; [reflexivity|]. apply same_owner_refl. apply Forall_cons_iff in W. apply W. }
    rewrite collect_single in E. rewrite E. split; [split; discriminate|]. split; [congruence|]. exists runs. cbn [sets]. auto.
Qed.

(** ** Header *)
Definition code_check (f : N) : bool :=
  ((as_u8 (N.shiftr (N.land f OPCODE_MASK) OPCODE_SHIFT) =? opcode_field f) && (as_u8 (N.land f RCODE_MASK) =? rcode_field f))%N.
Lemma code_checked : all_lt 65536 code_check = true.
Proof. vm_compute. reflexivity. Qed.
Lemma lt16 : forall v, (v < 16)%N -> In v [0; 1; 2; 3; 4; 5; 6; 7; 8; 9; 10; 11; 12; 13; 14; 15]%N.
Proof. intros v L. cbn [In]. lia. Qed.
Lemma stands_opcode : forall v, (v < 16)%N -> stands_for opcode_u8 (map snd iana_opcodes) OReserved v (opcode_new v).
Proof.
  intros v L. apply lt16 in L. unfold stands_for. cbn [map snd iana_opcodes In] in *.
  repeat (destruct L as [<-|L]; [first [left; split; [tauto|]; split; [reflexivity|discriminate]|right; split; [lia|reflexivity]]|]). destruct L.
Qed.
Lemma stands_rcode : forall v, (v < 16)%N -> stands_for rcode_u8 (map snd iana_rcodes) RReserved v (rcode_new v).
Proof.
  intros v L. apply lt16 in L. unfold stands_for. cbn [map snd iana_rcodes In] in *.
  repeat (destruct L as [<-|L]; [first [left; split; [tauto|]; split; [reflexivity|discriminate]|right; split; [lia|reflexivity]]|]). destruct L.
Qed.
Lemma stands_unique : forall A (number : A -> N) l o v x y, (forall a b, number a = number b -> a = b) ->
  stands_for number l o v x -> stands_for number l o v y -> x = y.
Proof. intros A number l o v x y I [(H1 & H2 & H3)|(H1 & H2)] [(G1 & G2 & G3)|(G1 & G2)]; try contradiction; [apply I|]; congruence. Qed.
Lemma header_at_iff : forall w h, bytes w -> header_at w h <-> header_from_wire (mkIn w 0) = (Ok h, mkIn w 12).
Proof.
  intros w h Bw.
  assert (D : forall h', header_from_wire (mkIn w 0) = (Ok h', mkIn w 12) -> header_at w h').
  { intros h' E. destruct (header_decode_inv w 0 _ _ Bw ltac:(lia) E) as (L & _ & A1 & A2 & A3 & A4 & A5 & Lf & Fl & Op & Rc). cbn [Nat.add] in *.
    destruct (header_decode_spec w 0 _ _ Bw ltac:(lia) E) as (_ & _ & Hk & _ & _ & _ & _ & _ & Fs & _). cbn [Nat.add] in *.
    unfold header_at, u16_at. split; [exact L|]. split; [exact Hk|]. split; [exact A1|]. split; [exact Fs|].
    set (f := be_val (bytes_at w 2 2)) in *. pose proof (all_lt_ok _ _ code_checked f Lf) as C. unfold code_check in C. apply andb_true_iff in C as [C1 C2].
    apply N.eqb_eq in C1, C2. rewrite C1 in Op. rewrite C2 in Rc. split; [|split; [|auto]].
    - rewrite Op. apply stands_opcode. unfold opcode_field. apply N.mod_lt. discriminate.
    - rewrite Rc. apply stands_rcode. unfold rcode_field. apply N.mod_lt. discriminate. }
  split; [|apply D]. intros H. destruct (header_dec_len w Bw (proj1 H)) as (h' & E). enough (h = h') by (subst; exact E). apply D in E.
  destruct H as (_ & (_ & Hk) & A1 & A2 & A3 & A4 & A5 & A6 & A7 & A8), E as (_ & (_ & Hk') & B1 & B2 & B3 & B4 & B5 & B6 & B7 & B8).
  assert (O : h_opcode h = h_opcode h') by (eapply stands_unique; [|exact A3|exact B3]; intros [] []; cbn; congruence).
  assert (R : h_rcode h = h_rcode h') by (eapply stands_unique; [|exact A4|exact B4]; intros [] []; cbn; congruence).
  assert (F : h_flag h = h_flag h').
  { assert (G : forall fl, N.testbit (h_flag h) (flag_bit fl) = N.testbit (h_flag h') (flag_bit fl)).
    { intros fl. specialize (A2 fl). specialize (B2 fl). unfold header_is_set in A2, B2. rewrite hf_is_set_bit in A2, B2. congruence. }
    apply N.bits_inj. intros i. destruct (N.testbit (h_flag h) i) eqn:X.
    - destruct (Hk i X) as (fl & ->). rewrite <- G. congruence.
    - destruct (N.testbit (h_flag h') i) eqn:Y; [|reflexivity]. destruct (Hk' i Y) as (fl & ->). rewrite <- G in Y. congruence. }
  destruct h as [i1 f1 o1 r1 a1 a2 a3 a4], h' as [i2 f2 o2 r2 b1 b2 b3 b4]. cbn [h_id h_flag h_opcode h_rcode h_qd h_an h_ns h_ar] in *. congruence.
Qed.

(** ** Messages *)
Theorem response_exact : forall w r, bytes w -> (response_from_wire w = Ok r <->
  header_at w (r_header r) /\ exists an ns ar, message_at w (r_question r) an ns ar /\ acceptable an ns ar /\
    grouped an (r_answer r) /\ grouped ns (r_authority r) /\ grouped ar (r_additional r)).
Proof.
  intros w r Bw. split.
  - intros H. destruct (response_decoded w r Bw H) as (h & q & an & ns & ar & Eh & _ & _ & Hm & Ha & ->). cbn [decoded r_header r_question r_answer r_authority r_additional].
    split; [apply header_at_iff; assumption|]. exists an, ns, ar. split; [exact Hm|]. split; [exact Ha|].
    destruct Hm as (_ & _ & _ & _ & _ & p0 & p1 & p2 & p3 & _ & H1 & H2 & H3). split; [|split]; apply group_grouped; eauto using rrs_at_owner.
  - intros (Hh & an & ns & ar & Hm & Ha & G1 & G2 & G3). destruct (response_accepts w _ an ns ar Bw Hm Ha) as (h & Eh & E). rewrite E.
    apply header_at_iff in Hh; [|exact Bw]. assert (h = r_header r) as -> by congruence.
    destruct Hm as (_ & _ & _ & _ & _ & p0 & p1 & p2 & p3 & _ & H1 & H2 & H3).
    apply grouped_group in G1, G2, G3; eauto using rrs_at_owner. destruct r as [h0 q0 s1 s2 s3]. cbn [r_header r_question r_answer r_authority r_additional] in *. subst. reflexivity.
Qed.
Theorem response_rejects : forall w, bytes w -> (response_from_wire w = Err <-> ~ exists q an ns ar, message_at w q an ns ar /\ acceptable an ns ar).
Proof.
  intros w Bw. rewrite <- (response_accepts_iff w Bw). pose proof (response_from_wire_total w Bw) as [S1 S2]. destruct (response_from_wire w) as [r| | |].
  - split; [discriminate|]. intros H. destruct H. eauto.
  - split; [|reflexivity]. intros _ (r & H). discriminate.
  - congruence.
  - congruence.
Qed.
Theorem request_exact : forall w r, bytes w -> (request_from_wire w = Ok r <->
  header_at w (rq_header r) /\ u16_at w 4 = 1%N /\ u16_at w 6 = 0%N /\ exists e, question_at w 12 e (rq_question r)).
Proof.
  intros w r Bw. split.
  - intros H. destruct (request_decoded_ok w r Bw H) as (E & _ & A & B & Q). apply header_at_iff in E; auto.
  - intros (Hh & A & B & e & Q). pose proof Hh as (L & _ & _ & _ & _ & _ & Q1 & Q2 & _). apply header_at_iff in Hh; [|exact Bw].
    unfold request_from_wire, request_from_buf, bind, ib_new, ensure. rewrite Hh, Q1, A. cbn [N.eqb Pos.eqb].
    rewrite (question_dec w 12 _ _ Bw L Q), Q2, B. cbn. destruct r; reflexivity.
Qed.
Theorem request_rejects : forall w, bytes w -> (request_from_wire w = Err <-> ~ (12 <= length w /\ u16_at w 4 = 1%N /\ u16_at w 6 = 0%N /\ exists q e, question_at w 12 e q)).
Proof.
  intros w Bw. pose proof (request_from_wire_total w Bw) as [S1 S2]. split.
  - intros H (L & A & B & q & e & Q). destruct (header_dec_len w Bw L) as (h & E). apply header_at_iff in E; [|exact Bw].
    assert (X : request_from_wire w = Ok (mkRequest h q)) by (apply request_exact; [exact Bw|]; cbn [rq_header rq_question]; eauto). congruence.
  - intros H. destruct (request_from_wire w) as [r| | |] eqn:E; try congruence; try reflexivity.
    destruct H. apply request_exact in E as (Hh & A & B & e & Q); [|exact Bw]. destruct Hh as (L & _). eauto 8.
Qed.
Theorem question_exact : forall w p q e, bytes w -> p <= length w -> (question_from_wire (mkIn w p) = (Ok q, mkIn w e) <-> question_at w p e q).
Proof.
  intros w p q e Bw Lp. split; [|apply question_dec; assumption]. intros H. destruct (tdec_question w p Bw Lp) as (r & p' & E & _ & _ & K).
  rewrite H in E. assert (r = Ok q /\ p' = e) as [-> ->] by (split; congruence). apply K. reflexivity.
Qed.
Theorem record_exact : forall w p rs e, bytes w -> p <= length w ->
  (rrset_from_wire (mkIn w p) = (Ok rs, mkIn w e) <-> exists x, rr_at w p e x /\ rr_legal x /\ run_of [x] rs).
Proof.
  intros w p rs e Bw Lp. split.
  - intros H. destruct (tdec_rr w Bw p Lp) as (r & p' & E & _ & _ & K). rewrite H in E. assert (r = Ok rs /\ p' = e) as [-> ->] by (split; congruence).
    destruct (K rs eq_refl) as (_ & _ & x & Hx & Leg & Er). change (rs = single x) in Er. exists x. split; [exact Hx|]. split; [exact Leg|]. subst rs.
    rewrite <- collect_single. exists x, []. repeat split.
  - intros (x & Hx & Leg & R). destruct (run_of_collect _ _ R) as (y & ys & E & ->). injection E as <- <-. rewrite collect_single. apply rr_dec; assumption.
Qed.

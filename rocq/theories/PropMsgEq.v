(** Property theorems C99: [==] on messages.  Model: MsgEqModel.v (with EqModel.v); specification: SpecMsgEq.v. *)
From Coq Require String.
From Coq Require Import Permutation.
From Verif Require Import Base BaseLemmas NameModel RenderModel CodesModel RDataModel MsgModel EqModel MsgEqModel SpecName SpecBuf SpecCodes SpecMsg SpecScope SpecEq SpecMsgEq
  PropMsg PropBuild MsgProofs2 TreeProofs21 MsgEqProofs.
Import String.StringSyntax.
Open Scope string_scope.
Open Scope list_scope.
Open Scope nat_scope.

(** * C99: messages are equal exactly if they say the same *)
Theorem C99_request : forall a b, wf_name (q_name (rq_question a)) -> wf_name (q_name (rq_question b)) ->
  exists e, request_eq a b = Ok e /\ (e = true <-> rq_header a = rq_header b /\ same_question (rq_question a) (rq_question b)).
Proof. exact request_eq_spec. Qed.
Print Assumptions C99_request.
Theorem C99_notify_response : forall a b, wf_name (q_name (np_question a)) -> wf_name (q_name (np_question b)) ->
  exists e, notify_response_eq a b = Ok e /\ (e = true <-> np_header a = np_header b /\ same_question (np_question a) (np_question b)).
Proof. exact notify_response_eq_spec. Qed.
Print Assumptions C99_notify_response.
(** Missing from the full statement: classes are not compared (false of the code, refuted below), and the limits of [==] on
    rrsets (C41): repeated records in small rrsets, and octets whose distance overflows in large ones. *)
Theorem C99_response_partial : forall L md sort, no_overflow L -> (forall t, sorts L md t sort) ->
  forall a b, in_range_response L a -> all_sets no_repeat a -> in_range_response L b -> exists e, response_eq sort a b = Ok e /\ (e = true <-> alike_responses a b).
Proof. exact response_eq_alike. Qed.
Print Assumptions C99_response_partial.
Theorem C99_notify_partial : forall L md sort, no_overflow L -> (forall t, sorts L md t sort) ->
  forall a b, wf_name (q_name (nq_question a)) -> wf_name (q_name (nq_question b)) ->
  (forall rs, nq_soa a = Some rs -> in_range L rs /\ no_repeat rs) -> (forall rs, nq_soa b = Some rs -> in_range L rs) ->
  exists e, notify_eq sort a b = Ok e /\ (e = true <-> nq_header a = nq_header b /\ same_question (nq_question a) (nq_question b) /\
    match nq_soa a, nq_soa b with None, None => True | Some x, Some y => alike x y | _, _ => False end).
Proof. exact notify_eq_alike. Qed.
Print Assumptions C99_notify_partial.
(** Equality is reflexive (repeated records or not), symmetric and transitive. *)
Theorem C99_reflexive_partial : forall L md sort, no_overflow L -> (forall t, sorts L md t sort) -> forall a, in_range_response L a -> response_eq sort a a = Ok true.
Proof. exact response_eq_refl. Qed.
Print Assumptions C99_reflexive_partial.
Theorem C99_equivalence_partial : forall L md sort, no_overflow L -> (forall t, sorts L md t sort) ->
  (forall a b, in_range_response L a -> all_sets no_repeat a -> in_range_response L b -> all_sets no_repeat b -> response_eq sort a b = response_eq sort b a) /\
  (forall a b c, in_range_response L a -> all_sets no_repeat a -> in_range_response L b -> all_sets no_repeat b -> in_range_response L c ->
     response_eq sort a b = Ok true -> response_eq sort b c = Ok true -> response_eq sort a c = Ok true).
Proof.
  intros L md sort NO So. split.
  - intros a b A A' B B'. destruct (C99_response_partial L md sort NO So a b A A' B) as (e & -> & E). destruct (C99_response_partial L md sort NO So b a B B' A) as (f & -> & F).
    f_equal. apply Bool.eq_true_iff_eq. rewrite E, F. split; apply alike_responses_sym.
  - intros a b c A A' B B' C X Y. destruct (C99_response_partial L md sort NO So a b A A' B) as (e & E & E'). destruct (C99_response_partial L md sort NO So b c B B' C) as (f & F & F').
    destruct (C99_response_partial L md sort NO So a c A A' C) as (g & -> & G'). rewrite E in X. rewrite F in Y. injection X as ->. injection Y as ->. f_equal. apply G'. eapply alike_responses_trans; [apply E'|apply F']; reflexivity.
Qed.
Print Assumptions C99_equivalence_partial.
(** What was sent equals what was received. *)
Theorem C99_round_trip_partial : forall L md sort, no_overflow L -> (forall t, sorts L md t sort) -> forall dat r n r', in_range_response L r ->
  bytes dat -> consistent r -> (N.of_nat (length dat) <= 65535)%N -> response_to_wire r (mr_new dat) = (Ok n, r') -> all_records r = [] \/ n <> head_size r ->
  exists r2, response_from_wire (mr_bytes r') = Ok r2 /\ response_eq sort r2 r = Ok true.
Proof.
  intros L md sort NO So dat r n r' I B C Le E H. exists r. split; [eapply C28_round_trip; eauto|]. eapply C99_reflexive_partial; eauto.
Qed.
Print Assumptions C99_round_trip_partial.
(** Class and TTL are not looked at, so neither are the UDP size, the DO bit and the extended rcode of EDNS. *)
Definition opt_response (size ttl : N) : response :=
  mkResponse (mkHeader 7 0 OQuery RNoError 1 0 0 1) (mkQuestion (nm ["a"]) TA CIN) None None (Some [mkRRset (nm []) TOPT (CUnknown size) ttl []]).
Definition class_response (c : rrclass) : response :=
  mkResponse (mkHeader 7 0 OQuery RNoError 1 1 0 0) (mkQuestion (nm ["a"]) TA CIN) (Some [mkRRset (nm ["a"]) TA c 60 [ipv4 192 0 2 1]]) None None.
Theorem C99_refuted : forall sort,
  response_eq sort (opt_response 512 0) (opt_response 4096 32768) = Ok true /\
  (exists e e', get_edns (opt_response 512 0) = Ok (Some e) /\ get_edns (opt_response 4096 32768) = Ok (Some e') /\ e_udp e <> e_udp e' /\ e_do e <> e_do e') /\
  response_eq sort (class_response CIN) (class_response CCH) = Ok true.
Proof.
  intros sort. split; [vm_compute; reflexivity|]. split; [|vm_compute; reflexivity].
  do 2 eexists. split; [vm_compute; reflexivity|]. split; [vm_compute; reflexivity|]. split; discriminate.
Qed.
Print Assumptions C99_refuted.
(** The example message meets the hypotheses, with a sort that exists. *)
Lemma some_inj : forall A (a b : A), Some a = Some b -> b = a. Proof. congruence. Qed.
Example C99_ex : exists L, no_overflow L /\ (forall t, sorts L Release t isort) /\ in_range_response L ex_response /\ all_sets no_repeat ex_response /\ records (r_answer ex_response) <> [] /\
  response_eq isort ex_response ex_response = Ok true /\ response_eq isort ex_response (opt_response 512 0) = Ok false.
Proof.
  exists ascii. split; [exact ascii_no_overflow|]. split; [intros t; apply C41_sorts; exact ascii_no_overflow|].
  assert (R : in_range_response ascii ex_response).
  { pose proof ex_consistent as (_ & _ & (Q & _) & An & Ns & Ar). split; [exact Q|]. intros l rs I J.
    assert (K : rrset_ok rs /\ length (rs_rdatas rs) < 4).
    { cbn [ex_response r_answer r_authority r_additional In] in I. destruct I as [I|[I|[I|[]]]]; apply some_inj in I; subst l.
      - destruct An as (_ & _ & F & _). rewrite Forall_forall in F. split; [apply F; exact J|]. cbn [In] in J. decompose [or] J; subst; try contradiction; cbn; lia.
      - destruct Ns as (_ & _ & F & _). rewrite Forall_forall in F. split; [apply F; exact J|]. cbn [In] in J. decompose [or] J; subst; try contradiction; cbn; lia.
      - destruct Ar as (_ & _ & F & _). rewrite Forall_forall in F. split; [apply F; exact J|]. cbn [In] in J. decompose [or] J; subst; try contradiction; cbn; lia. }
    destruct K as [(K1 & _ & _ & _ & K2 & _) K]. split; [exact K1|]. split; [eapply Forall_impl; [|exact K2]; intros d D; apply D|lia]. }
  split; [exact R|]. split.
  { intros l rs I J _. cbn [ex_response r_answer r_authority r_additional In] in I. destruct I as [I|[I|[I|[]]]]; apply some_inj in I; subst l; cbn [In] in J; decompose [or] J; subst; try contradiction;
      unfold distinct_data; cbn [rs_rdatas map]; repeat constructor; cbn [In]; intuition discriminate. }
  split; [discriminate|]. split; [|vm_compute; reflexivity]. eapply C99_reflexive_partial; [exact ascii_no_overflow|intros t; apply C41_sorts; exact ascii_no_overflow|exact R].
Qed.

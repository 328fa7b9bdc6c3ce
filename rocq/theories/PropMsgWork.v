(** Property theorems for the work of rendering a message: C116.
    Statements use the encoder models (MsgModel.v) and the vocabulary of SpecName.v, SpecMsg.v and SpecMsgWork.v. *)
From Coq Require String. Import String.StringSyntax.
From Verif Require Import Base NameModel RenderModel CodesModel RDataModel MsgModel SpecName SpecCodes SpecMsg SpecRenderWork SpecMsgWork BaseLemmas NameWireProofs MsgWorkProofs PropMsg PropBuild.
Open Scope string_scope. Open Scope list_scope. Open Scope nat_scope.

(** C116: with a budget of the prices of its names (the question's, the owners', and those in record data), rendering a response is
    rendering it without one, for every buffer; also when the message does not fit and is truncated. *)
Theorem C116_response : forall dat r k, bytes dat -> consistent r -> list_sum (map name_price (response_names r)) <= k ->
  response_within k r (mr_new dat) = response_to_wire r (mr_new dat).
Proof. exact response_bounded. Qed.
Print Assumptions C116_response.
Theorem C116_request : forall dat r k, bytes dat -> request_ok r -> name_price (q_name (rq_question r)) <= k ->
  request_within k r (mr_new dat) = request_to_wire r (mr_new dat).
Proof. exact request_bounded. Qed.
Print Assumptions C116_request.
(** The two NOTIFY messages. *)
Theorem C116_notify : forall dat n k, bytes dat -> wf_name (q_name (nq_question n)) -> (forall rs, nq_soa n = Some rs -> rrset_ok rs) ->
  list_sum (map name_price (notify_names n)) <= k -> notify_within k n (mr_new dat) = notify_to_wire n (mr_new dat).
Proof. exact notify_bounded. Qed.
Print Assumptions C116_notify.
Theorem C116_notify_response : forall dat n k, bytes dat -> wf_name (q_name (np_question n)) -> name_price (q_name (np_question n)) <= k ->
  notify_response_within k n (mr_new dat) = notify_response_to_wire n (mr_new dat).
Proof. exact notify_response_bounded. Qed.
Print Assumptions C116_notify_response.
(** C116: no legal name has a price of more than 105728: the work is linear in the number of names. *)
Theorem C116_price : forall n, wf_name n -> (N.of_nat (name_price n) <= 105728)%N.
Proof. exact price_constant. Qed.
Print Assumptions C116_price.

(** Non-vacuous: the response of [C28_ex] (nine names) has the price 3476, and takes 125 steps. *)
Example C116_ex : consistent ex_response /\ length (response_names ex_response) = 9 /\ list_sum (map name_price (response_names ex_response)) = 3476 /\
  fst (response_to_wire ex_response (mr_new (zeros 512))) = Ok 135 /\ fst (response_within 125 ex_response (mr_new (zeros 512))) = Ok 135 /\
  fst (response_within 124 ex_response (mr_new (zeros 512))) = Hang /\
  fst (response_within 125 ex_response (mr_new (zeros 134))) = Ok 33.
Proof.
  split; [exact ex_consistent|]. repeat (split; [vm_compute; reflexivity|]). vm_compute; reflexivity.
Qed.
(** The same for the NOTIFY of [C65_ex], four names. *)
Example C116_notify_ex : let n := notify_new 9 (nm ["b"; "c"]) (Some ex_soa) in
  wf_name (q_name (nq_question n)) /\ rrset_ok ex_soa /\ length (notify_names n) = 4 /\ list_sum (map name_price (notify_names n)) = 1160 /\
  fst (notify_within 23 n (mr_new (zeros 100))) = Ok 65 /\ fst (notify_within 22 n (mr_new (zeros 100))) = Hang /\
  is_ok (fst (notify_response_within 6 (notify_response_new n) (mr_new (zeros 100)))) = true.
Proof.
  cbn zeta. split; [exists [of_string "b"; of_string "c"]; split; [repeat constructor; vm_compute; lia|reflexivity]|].
  split; [exact C65_ex_ok|]. repeat (split; [vm_compute; reflexivity|]). vm_compute; reflexivity.
Qed.

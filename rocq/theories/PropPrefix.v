(** Property theorems for messages rendered behind other octets: C117.
    Statements use the encoder models (MsgModel.v) and the vocabulary of SpecName.v, SpecBuf.v and SpecMsg.v. *)
From Coq Require String. Import String.StringSyntax.
From Verif Require Import Base NameModel RenderModel CodesModel RDataModel MsgModel SpecName SpecBuf SpecCodes SpecMsg MsgProofs4 PrefixProofs PropMsg.
Open Scope string_scope. Open Scope list_scope. Open Scope nat_scope.

(** C117: after any calls on a fresh renderer that write no name (the length prefix of DNS over TCP, say), a request is appended to what is there
    when it fits, the call answers the length of the whole buffer, and the octets appended are, on their own, a message that decodes to the request;
    otherwise the call fails.
    Missing: responses with records, for which the claim is false of the code (see [C117_refuted]), and calls that write names. *)
Theorem C117_request_partial : forall dat h r0 rq, bytes dat -> history (mr_new dat) h r0 -> names_in h = [] -> request_ok rq ->
  let (a, r') := request_to_wire rq r0 in
  if mr_len r0 + (16 + length (n_raw (q_name (rq_question rq)))) <=? length dat
  then exists w, a = Ok (length (mr_bytes r')) /\ mr_bytes r' = mr_bytes r0 ++ w /\ request_from_wire w = Ok rq
  else a = Err.
Proof. exact request_behind. Qed.
Print Assumptions C117_request_partial.
(** The same for a consistent response without records. *)
Theorem C117_response_partial : forall dat h r0 r, bytes dat -> history (mr_new dat) h r0 -> names_in h = [] -> consistent r ->
  r_answer r = None -> r_authority r = None -> r_additional r = None ->
  let (a, r') := response_to_wire r r0 in
  if mr_len r0 + (16 + length (n_raw (q_name (r_question r)))) <=? length dat
  then exists w, a = Ok (length (mr_bytes r')) /\ mr_bytes r' = mr_bytes r0 ++ w /\ response_from_wire w = Ok r
  else a = Err.
Proof. exact response_behind. Qed.
Print Assumptions C117_response_partial.
(** Behind two octets the response of [C28_ex], although it fits, does not decode from the octets appended: the compression pointers count from the
    beginning of the buffer and not of the message. *)
Theorem C117_refuted : exists r1, let r0 := snd (mr_skip 2 (mr_new (zeros 512))) in
  consistent ex_response /\ history (mr_new (zeros 512)) [mkEv (MSkip 2) 0 2 true] r0 /\
  response_to_wire ex_response r0 = (Ok 137, r1) /\ firstn 2 (mr_bytes r1) = [0%N; 0%N] /\ response_from_wire (skipn 2 (mr_bytes r1)) = Err /\
  fst (response_to_wire ex_response (mr_new (zeros 135))) = Ok 135.
Proof.
  eexists. cbn zeta. split; [exact ex_consistent|]. split; [apply (hist_ok (mr_new (zeros 512)) [] (mr_new (zeros 512)) (MSkip 2) (snd (mr_skip 2 (mr_new (zeros 512))))); [constructor|exact I|vm_compute; reflexivity]|].
  repeat (split; [vm_compute; reflexivity|]). vm_compute; reflexivity.
Qed.
Print Assumptions C117_refuted.
(** Where it does not fit, the header is patched at the offsets it would have at the beginning of the buffer: flags at octet 2 and counts at 6, 8 and 10
    of the buffer. Two octets further on that is the identifier (4660 becomes 33536) and the count of questions (1 becomes 0). *)
Theorem C117_truncated_refuted : exists r1, let r0 := snd (mr_skip 2 (mr_new (zeros 134))) in
  history (mr_new (zeros 134)) [mkEv (MSkip 2) 0 2 true] r0 /\
  response_to_wire ex_response r0 = (Ok 35, r1) /\ h_id (r_header ex_response) = 4660%N /\
  u16_at (skipn 2 (mr_bytes r1)) 0 = 33536%N /\ u16_at (skipn 2 (mr_bytes r1)) 4 = 0%N /\ response_from_wire (skipn 2 (mr_bytes r1)) = Err.
Proof.
  eexists. cbn zeta. split; [apply (hist_ok (mr_new (zeros 134)) [] (mr_new (zeros 134)) (MSkip 2) (snd (mr_skip 2 (mr_new (zeros 134))))); [constructor|exact I|vm_compute; reflexivity]|].
  repeat (split; [vm_compute; reflexivity|]). vm_compute; reflexivity.
Qed.
Print Assumptions C117_truncated_refuted.

(** Non-vacuous: the request of [C34_ex] behind its length, in a buffer with just the room. *)
Example C117_ex : exists r1, let r0 := snd (mr_write_u16 33 (mr_new (zeros 35))) in history (mr_new (zeros 35)) [mkEv (M16 33) 0 2 true] r0 /\
  names_in [mkEv (M16 33) 0 2 true] = [] /\
  request_to_wire (request_new 77 (nm ["www"; "example"; "com"]) TAAAA) r0 = (Ok 35, r1) /\
  request_from_wire (skipn 2 (mr_bytes r1)) = Ok (request_new 77 (nm ["www"; "example"; "com"]) TAAAA) /\ u16_at (mr_bytes r1) 0 = 33%N.
Proof.
  eexists. cbn zeta. split; [apply (hist_ok (mr_new (zeros 35)) [] (mr_new (zeros 35)) (M16 33) (snd (mr_write_u16 33 (mr_new (zeros 35))))); [constructor|vm_compute; reflexivity|vm_compute; reflexivity]|].
  repeat (split; [vm_compute; reflexivity|]). vm_compute; reflexivity.
Qed.
(** Likewise a response without records, a refusal say. *)
Example C117_refused_ex : exists r1, let r0 := snd (mr_write_u16 33 (mr_new (zeros 35))) in
  let r := mkResponse (mkHeader 77 (hf_set 0 QR) OQuery RRefused 1 0 0 0) (mkQuestion (nm ["www"; "example"; "com"]) TAAAA CIN) None None None in
  consistent r /\ response_to_wire r r0 = (Ok 35, r1) /\ response_from_wire (skipn 2 (mr_bytes r1)) = Ok r.
Proof.
  eexists. cbn zeta. split; [|split; [vm_compute; reflexivity|vm_compute; reflexivity]].
  match goal with |- consistent ?r => set (m := r) end. set (w := mr_bytes (snd (response_to_wire m (mr_new (zeros 33))))).
  assert (Bw : bytes w) by (vm_compute; repeat constructor). assert (E : response_from_wire w = Ok m) by (vm_compute; reflexivity).
  destruct (response_from_wire_sound w m Bw E) as (an & ns & ar & _ & _ & C & _). exact C.
Qed.

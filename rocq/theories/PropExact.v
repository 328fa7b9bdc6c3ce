(** Property theorems C111: what the message decoders compute, exactly.  Models: MsgModel.v; specification: SpecExact.v, SpecMsg.v. *)
From Coq Require String.
From Verif Require Import Base NameModel RenderModel CodesModel RDataModel MsgModel SpecName SpecBuf SpecCodes SpecMsg SpecExact
  BaseLemmas MsgExact PropMsg.
Import String.StringSyntax.
Open Scope string_scope.
Open Scope list_scope.
Open Scope nat_scope.

(** * C111: [from_wire w = Ok r] says neither more nor less than that the octets of [w] describe [r] *)
Theorem C111_header : forall w h, bytes w -> header_at w h <-> header_from_wire (mkIn w 0) = (Ok h, mkIn w 12).
Proof. exact header_at_iff. Qed.
Print Assumptions C111_header.
Theorem C111_question : forall w p q e, bytes w -> p <= length w -> (question_from_wire (mkIn w p) = (Ok q, mkIn w e) <-> question_at w p e q).
Proof. exact question_exact. Qed.
Print Assumptions C111_question.
Theorem C111_record : forall w p rs e, bytes w -> p <= length w ->
  (rrset_from_wire (mkIn w p) = (Ok rs, mkIn w e) <-> exists x, rr_at w p e x /\ rr_legal x /\ run_of [x] rs).
Proof. exact record_exact. Qed.
Print Assumptions C111_record.
Theorem C111_response : forall w r, bytes w -> (response_from_wire w = Ok r <->
  header_at w (r_header r) /\ exists an ns ar, message_at w (r_question r) an ns ar /\ acceptable an ns ar /\
    grouped an (r_answer r) /\ grouped ns (r_authority r) /\ grouped ar (r_additional r)).
Proof. exact response_exact. Qed.
Print Assumptions C111_response.
(** Everything else is refused with an error. *)
Theorem C111_response_error : forall w, bytes w -> (response_from_wire w = Err <-> ~ exists q an ns ar, message_at w q an ns ar /\ acceptable an ns ar).
Proof. exact response_rejects. Qed.
Print Assumptions C111_response_error.
Theorem C111_request : forall w r, bytes w -> (request_from_wire w = Ok r <->
  header_at w (rq_header r) /\ u16_at w 4 = 1%N /\ u16_at w 6 = 0%N /\ exists e, question_at w 12 e (rq_question r)).
Proof. exact request_exact. Qed.
Print Assumptions C111_request.
Theorem C111_request_error : forall w, bytes w ->
  (request_from_wire w = Err <-> ~ (12 <= length w /\ u16_at w 4 = 1%N /\ u16_at w 6 = 0%N /\ exists q e, question_at w 12 e q)).
Proof. exact request_rejects. Qed.
Print Assumptions C111_request_error.
(** The relation is not empty and not trivial: the example message is described by the octets rendered for it. *)
Example C111_ex : bytes ex_wire /\ header_at ex_wire (r_header ex_response) /\ (exists an ns ar, message_at ex_wire (r_question ex_response) an ns ar /\
  grouped an (r_answer ex_response) /\ length an = 3 /\ length (sets (r_answer ex_response)) = 2).
Proof.
  split; [exact ex_wire_bytes|]. pose proof ex_wire_decodes as H. apply C111_response in H; [|exact ex_wire_bytes].
  destruct H as (A & an & ns & ar & M & _ & G & _). split; [exact A|]. exists an, ns, ar. split; [exact M|]. split; [exact G|]. split; [|reflexivity].
  destruct M as (_ & _ & C & _). apply (f_equal N.to_nat) in C. unfold blen in C. rewrite Nat2N.id in C. rewrite <- C. vm_compute. reflexivity.
Qed.
Example C111_opcode_ex : exists h, header_at [0; 7; 56; 79; 0; 0; 0; 0; 0; 0; 0; 0]%N h /\ h_opcode h = OReserved /\ h_rcode h = RReserved.
Proof.
  eexists. split; [apply header_at_iff; [repeat (apply Forall_cons; [reflexivity|]); apply Forall_nil|vm_compute; reflexivity]|]. split; reflexivity.
Qed.

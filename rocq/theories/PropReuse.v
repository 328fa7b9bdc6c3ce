(** Property theorems for C120: one renderer for many messages.
    Models: RenderModel.v, MsgModel.v; specification: SpecAnyCalls.v, SpecStale.v, SpecReuse.v. *)
From Coq Require String. Import String.StringSyntax.
From Verif Require Import Base NameModel RenderModel CodesModel RDataModel MsgModel SpecName SpecBuf SpecCodes SpecMsg SpecAnyCalls SpecStale SpecReuse BufProofs MsgProofs8 ReuseProofs PropMsg.
Open Scope string_scope. Open Scope list_scope. Open Scope nat_scope.

(** However a renderer was used - calls of its own with arguments in range (truncations and patches anywhere included), responses, requests, each
    complete, truncated, failed or panicked -, after [reset] a response is rendered into it as into a new renderer over the original buffer. *)
Theorem C120_response : forall dat us x, bytes dat -> Forall use_typed us -> consistent x ->
  same_writing (response_to_wire x (snd (mr_reset (after_uses us (mr_new dat))))) (response_to_wire x (mr_new dat)).
Proof. exact reuse_response. Qed.
Print Assumptions C120_response.
Theorem C120_request : forall dat us q, bytes dat -> Forall use_typed us -> question_ok (rq_question q) ->
  same_writing (request_to_wire q (snd (mr_reset (after_uses us (mr_new dat))))) (request_to_wire q (mr_new dat)).
Proof. exact reuse_request. Qed.
Print Assumptions C120_request.
(** [reset] itself never fails, and what it makes is a new renderer over a buffer of the same size. *)
Theorem C120_reset : forall dat us, bytes dat -> Forall use_typed us ->
  exists dat', bytes dat' /\ length dat' = length dat /\ mr_reset (after_uses us (mr_new dat)) = (Ok tt, mr_new dat').
Proof. exact reuse_reset. Qed.
Print Assumptions C120_reset.
(** Used for a message that is complete, one that is cut off behind it, a truncation into its first name and another name; without [reset] the same
    message then does not fit, with [reset] it is complete again. *)
Definition ex_uses : list use := [UResponse ex_response; UResponse ex_response; UCall (ATruncate 14); UCall (ACall (MName [of_string "example"; of_string "com"] true))].
Example C120_ex : Forall use_typed ex_uses /\
  fst (response_to_wire ex_response (after_uses ex_uses (mr_new (zeros 135)))) <> Ok 135 /\
  fst (response_to_wire ex_response (snd (mr_reset (after_uses ex_uses (mr_new (zeros 135)))))) = Ok 135 /\
  ob_data (mr_buf (snd (mr_reset (after_uses ex_uses (mr_new (zeros 135)))))) <> zeros 135.
Proof.
  split. { repeat apply Forall_cons; try exact ex_consistent; try exact I; [|apply Forall_nil]. split; [repeat constructor; vm_compute; try lia; repeat constructor|vm_compute; lia]. }
  split; [vm_compute; discriminate|]. split; [vm_compute; reflexivity|vm_compute; discriminate].
Qed.

(** Property theorems for C119: what a buffer held before does not show in what is written into it.
    Models: RenderModel.v, MsgModel.v; specification: SpecBuf.v, SpecMsg.v, SpecStale.v. *)
From Coq Require String. Import String.StringSyntax.
From Verif Require Import Base NameModel RenderModel CodesModel RDataModel MsgModel SpecName SpecBuf SpecCodes SpecMsg SpecStale BufProofs MsgProofs8 BuildProofs StaleProofs PropMsg PropBuild.
Open Scope string_scope. Open Scope list_scope. Open Scope nat_scope.

(** Two buffers of one length, whatever they hold: [to_wire] has the same outcome in both - complete, truncated, an error or a panic - and where it
    returns a length, both hold the same octets up to it. *)
Theorem C119_response : forall dat dat2 r, bytes dat -> bytes dat2 -> length dat = length dat2 -> consistent r ->
  same_writing (response_to_wire r (mr_new dat)) (response_to_wire r (mr_new dat2)).
Proof. exact stale_response. Qed.
Print Assumptions C119_response.
Theorem C119_request : forall dat dat2 rq, bytes dat -> bytes dat2 -> length dat = length dat2 -> question_ok (rq_question rq) ->
  same_writing (request_to_wire rq (mr_new dat)) (request_to_wire rq (mr_new dat2)).
Proof. exact stale_request. Qed.
Print Assumptions C119_request.
Theorem C119_notify : forall dat dat2 rnd zone soa, bytes dat -> bytes dat2 -> length dat = length dat2 -> (rnd < 65536)%N -> wf_name zone ->
  (forall rs, soa = Some rs -> rrset_ok rs /\ rs_type rs = TSOA /\ length (rs_rdatas rs) = 1) ->
  same_writing (notify_to_wire (notify_new rnd zone soa) (mr_new dat)) (notify_to_wire (notify_new rnd zone soa) (mr_new dat2)).
Proof. exact stale_notify. Qed.
Print Assumptions C119_notify.
(** The same for any sequence of calls that append to a [MessageRender] (names with or without compression, integers, slices), up to the first that fails. *)
Theorem C119_calls : forall dat dat2 os, bytes dat -> bytes dat2 -> length dat = length dat2 -> Forall (mop_ok []) os -> Forall writes_only os ->
  same_writing ((mapM_ mop_call os ;; mr_length) (mr_new dat)) ((mapM_ mop_call os ;; mr_length) (mr_new dat2)).
Proof. exact stale_calls. Qed.
Print Assumptions C119_calls.
(** [skip] is left out for a reason: what it reserves shows the old contents until it is patched. *)
Theorem C119_skip_shows : forall x, fst (mr_skip 1 (mr_new [x; 0%N])) = Ok tt /\ mr_bytes (snd (mr_skip 1 (mr_new [x; 0%N]))) = [x].
Proof. intros x. vm_compute. split; reflexivity. Qed.
Print Assumptions C119_skip_shows.
Example C119_ex : consistent ex_response /\ length (zeros 135) = length (repeat 255%N 135) /\
  fst (response_to_wire ex_response (mr_new (repeat 255%N 135))) = Ok 135 /\ fst (response_to_wire ex_response (mr_new (repeat 255%N 100))) = Ok 33 /\
  fst (response_to_wire ex_response (mr_new (repeat 255%N 33))) = Panic /\ fst (response_to_wire ex_response (mr_new (repeat 255%N 32))) = Err.
Proof. split; [exact ex_consistent|]. vm_compute. repeat split. Qed.
Definition ex_calls : list mop := [M8 7; MName [of_string "a"; of_string "b"] true; MBytes [1; 2]; MName [of_string "c"; of_string "b"] true; M16 513]%N.
Example C119_calls_ex : Forall (mop_ok []) ex_calls /\ Forall writes_only ex_calls /\
  fst ((mapM_ mop_call ex_calls ;; mr_length) (mr_new (repeat 192%N 14))) = Ok 14 /\
  fst ((mapM_ mop_call ex_calls ;; mr_length) (mr_new (repeat 192%N 13))) = Err.
Proof.
  split; [repeat constructor; vm_compute; try lia; repeat constructor|]. split; [repeat constructor|]. vm_compute. split; reflexivity.
Qed.

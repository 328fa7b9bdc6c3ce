(** Property theorems C92-C94: trailing octets, amplification, size of rendered messages.
    Models: RenderModel.v, MsgModel.v; specifications: SpecName.v, SpecBuf.v, SpecMsg.v, SpecLocal.v. *)
From Verif Require Import Base NameModel RenderModel CodesModel RDataModel MsgModel SpecName SpecBuf SpecCodes SpecMsg SpecLocal LocalProofs2.
From Verif Require PropMsg.
Open Scope list_scope.
Open Scope nat_scope.

(** * C92: octets after the message *)
(** Octets appended to a message that decodes change nothing. *)
Theorem C92_response_trailing : forall w junk r, bytes w -> bytes junk -> response_from_wire w = Ok r -> response_from_wire (w ++ junk) = Ok r.
Proof. exact response_trailing. Qed.
Print Assumptions C92_response_trailing.
Theorem C92_request_trailing : forall w junk r, bytes w -> bytes junk -> request_from_wire w = Ok r -> request_from_wire (w ++ junk) = Ok r.
Proof. exact request_trailing. Qed.
Print Assumptions C92_request_trailing.
(** The decoder stops at the end [n] of the message, and octets from [n + 256] on do not matter. *)
Theorem C92_response_window_partial : forall w r, bytes w -> response_from_wire w = Ok r -> exists n, n <= length w /\ response_from_buf (ib_new w) = (Ok r, mkIn w n) /\
  forall w', bytes w' -> same_prefix (n + 256) w w' -> response_from_buf (ib_new w') = (Ok r, mkIn w' n).
Proof. exact response_window. Qed.
Print Assumptions C92_response_window_partial.
Theorem C92_request_window_partial : forall w r, bytes w -> request_from_wire w = Ok r -> exists n, n <= length w /\ request_from_buf (ib_new w) = (Ok r, mkIn w n) /\
  forall w', bytes w' -> same_prefix (n + 256) w w' -> request_from_buf (ib_new w') = (Ok r, mkIn w' n).
Proof. exact request_window. Qed.
Print Assumptions C92_request_window_partial.
(** But octets behind the last record do matter: the owner of this A record points at the middle of the question name, where a 40-octet label
    begins that runs past the end (octet 35) of the message. *)
Definition overrun (trail : list N) : list N :=
  ([0; 9; 128; 0; 0; 1; 0; 1; 0; 0; 0; 0] ++ [1; 40; 0; 0; 1; 0; 1] ++ [192; 13; 0; 1; 0; 1; 0; 0; 0; 7; 0; 4; 1; 2; 3; 4] ++ trail)%N.
Theorem C92_refuted : let a := (repeat 65 19 ++ [0])%N in let b := (repeat 66 19 ++ [0])%N in
  exists ra rb, response_from_buf (ib_new (overrun a)) = (Ok ra, mkIn (overrun a) 35) /\ response_from_buf (ib_new (overrun b)) = (Ok rb, mkIn (overrun b) 35) /\
  firstn 35 (overrun a) = firstn 35 (overrun b) /\ ra <> rb /\ response_from_wire (firstn 35 (overrun a)) = Err.
Proof.
  cbv zeta. eexists. eexists. split; [vm_compute; reflexivity|]. split; [vm_compute; reflexivity|]. split; [vm_compute; reflexivity|]. split; [discriminate|vm_compute; reflexivity].
Qed.
Print Assumptions C92_refuted.
Example C92_ex : response_from_wire PropMsg.ex_wire = Ok PropMsg.ex_response /\ response_from_wire (PropMsg.ex_wire ++ [1; 2; 3]%N) = Ok PropMsg.ex_response /\
  exists n, response_from_buf (ib_new (PropMsg.ex_wire ++ [1; 2; 3]%N)) = (Ok PropMsg.ex_response, mkIn (PropMsg.ex_wire ++ [1; 2; 3]%N) n) /\ n = length PropMsg.ex_wire.
Proof. split; [vm_compute; reflexivity|]. split; [vm_compute; reflexivity|]. eexists. split; vm_compute; reflexivity. Qed.

(** * C93: a decoded message is at most 128 times as large as its octets, and has at most one record per 11 octets *)
Theorem C93_ratio : forall w r, bytes w -> response_from_wire w = Ok r -> 17 + 11 * length (all_records r) <= length w /\ plain_size r <= 128 * length w.
Proof. exact response_ratio. Qed.
Print Assumptions C93_ratio.
(** The header counts are those of the decoded sections, so a short message cannot announce many records. *)
Theorem C93_counts : forall w r, bytes w -> response_from_wire w = Ok r ->
  (17 + 11 * (h_an (r_header r) + h_ns (r_header r) + h_ar (r_header r)) <= blen w)%N.
Proof. exact response_count_bound. Qed.
Print Assumptions C93_counts.
Example C93_ex : 17 + 11 * length (all_records PropMsg.ex_response) <= length PropMsg.ex_wire /\ length (all_records PropMsg.ex_response) = 6 /\
  length PropMsg.ex_wire < plain_size PropMsg.ex_response <= 128 * length PropMsg.ex_wire.
Proof. vm_compute. repeat split; lia. Qed.

(** * C94: compression never lengthens *)
(** Whatever was rendered before, a name takes at most its uncompressed length. *)
Theorem C94_name : forall dat h r, bytes dat -> history (mr_new dat) h r ->
  forall e ls c, In e h -> ev_op e = MName ls c -> ev_ok e = true -> ev_start e < ev_end e <= ev_start e + wire_len ls.
Proof. exact history_sizes. Qed.
Print Assumptions C94_name.
(** A rendered response (truncated or not) is at most as long as its uncompressed form. *)
Theorem C94_response : forall dat r n r', bytes dat -> consistent r -> response_to_wire r (mr_new dat) = (Ok n, r') -> n <= plain_size r.
Proof. exact response_size. Qed.
Print Assumptions C94_response.
Example C94_ex : consistent PropMsg.ex_response /\ (exists r', response_to_wire PropMsg.ex_response (mr_new (PropMsg.zeros 512)) = (Ok 135, r')) /\ plain_size PropMsg.ex_response = 219.
Proof. split; [exact PropMsg.ex_consistent|]. split; [eexists; vm_compute; reflexivity|vm_compute; reflexivity]. Qed.

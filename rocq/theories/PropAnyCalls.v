(** Further property theorems for C60: what a renderer still does after any calls, truncations that cut off names included.
    Statements use the renderer model (RenderModel.v) and the vocabulary of SpecName.v, SpecBuf.v and SpecAnyCalls.v. *)
From Coq Require String. Import String.StringSyntax.
From Verif Require Import Base NameModel RenderModel SpecName SpecBuf SpecAnyCalls BaseLemmas AnyCallsProofs.
Open Scope string_scope. Open Scope list_scope. Open Scope nat_scope.

(** No call panics, whatever calls came before. *)
Theorem C60_any_calls_no_panic_partial : forall dat r o, bytes dat -> reaches (mr_new dat) r -> any_typed o -> fst (any_call o r) <> Panic.
Proof. exact reaches_no_panic. Qed.
Print Assumptions C60_any_calls_no_panic_partial.
(** [reset] makes a fresh renderer over a buffer of the same size, whatever calls came before. *)
Theorem C60_any_calls_reset_partial : forall dat r, bytes dat -> reaches (mr_new dat) r ->
  exists dat', bytes dat' /\ length dat' = length dat /\ mr_reset r = (Ok tt, mr_new dat').
Proof. exact reaches_reset. Qed.
Print Assumptions C60_any_calls_reset_partial.
(** A name written without compression is appended if it fits, and otherwise refused without a trace, whatever calls came before. *)
Theorem C60_any_calls_plain_name_partial : forall dat r ls, bytes dat -> reaches (mr_new dat) r -> wf_labels ls ->
  exists a r', write_name (name_of ls) false r = (a, r') /\
  ((a = Ok tt /\ mr_len r + wire_len ls <= length dat /\ mr_bytes r' = mr_bytes r ++ enc ls) \/
   (a = Err /\ length dat < mr_len r + wire_len ls /\ mr_bytes r' = mr_bytes r)).
Proof. exact reaches_plain. Qed.
Print Assumptions C60_any_calls_plain_name_partial.

(** Non-vacuous: the state of [C60_truncate_refuted], in which b. is refused with compression, is reached, and b. is written without it. *)
Example C60_any_calls_ex : exists r r', reaches (mr_new (repeat 0%N 64)) r /\ fst (write_name (name_of [of_string "b"]) true r) = Err /\
  write_name (name_of [of_string "b"]) false r = (Ok tt, r') /\ mr_bytes r' = [1; 98; 0]%N.
Proof.
  do 2 eexists. split; [|split; [|split]].
  - eapply reaches_call with (o := ATruncate 0); [eapply reaches_call with (o := ACall (MName [of_string "a"; of_string "b"] true)); [apply reaches_nil| |vm_compute; reflexivity|auto]|exact Logic.I|vm_compute; reflexivity|auto].
    repeat constructor; vm_compute; lia.
  - vm_compute. reflexivity.
  - vm_compute. reflexivity.
  - vm_compute. reflexivity.
Qed.

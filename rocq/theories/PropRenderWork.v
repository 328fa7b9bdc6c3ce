(** Property theorems for the work of writing a name: C114.
    Statements use the renderer model (RenderModel.v) and the vocabulary of SpecName.v, SpecBuf.v and SpecRenderWork.v. *)
From Coq Require String. Import String.StringSyntax.
From Verif Require Import Base NameModel RenderModel SpecName SpecBuf SpecRenderWork BaseLemmas NameWireProofs LiveProofs CompProofs RenderWorkProofs PropCompress.
Open Scope string_scope. Open Scope list_scope. Open Scope nat_scope.

(** C114: after any sequence of writer calls (truncation excepted), writing a name with [n] labels and [w] octets looks at no more than
    (n + 1) * (3 * w + 61) octets of the message and items of the compression table, whatever the message: with such a budget
    the call behaves as without one. *)
Theorem C114_bound : forall dat h r ls c k, bytes dat -> history (mr_new dat) h r -> wf_labels ls ->
  (length ls + 1) * (3 * wire_len ls + 61) <= k ->
  write_name_within k (name_of ls) c r = write_name (name_of ls) c r.
Proof. exact write_name_bounded. Qed.
Print Assumptions C114_bound.

(** C114: one constant serves for all names and all messages. *)
Theorem C114_constant : forall dat h r ls c, bytes dat -> history (mr_new dat) h r -> wf_labels ls ->
  write_name_within (N.to_nat 105728) (name_of ls) c r = write_name (name_of ls) c r.
Proof. exact write_name_constant. Qed.
Print Assumptions C114_constant.

(** Non-vacuous: in the message of [C100_ex] (three names) the budget matters: writing ftp.example.org with compression takes 15 steps,
    and the bound is 4 * (3 * 17 + 61) = 448. *)
Example C114_ex : let ls := [of_string "ftp"; of_string "example"; of_string "org"] in let r := snd ex_run in
  history (mr_new (repeat 0%N 60)) (fst ex_run) r /\ wf_labels ls /\ (length ls + 1) * (3 * wire_len ls + 61) = 448 /\
  fst (write_name (name_of ls) true r) = Ok tt /\ fst (write_name_within 15 (name_of ls) true r) = Ok tt /\
  fst (write_name_within 14 (name_of ls) true r) = Hang.
Proof.
  cbn zeta. split; [|split; [|split; [|split; [|split]]]].
  - apply (run_names_history ex_names _ [] (mr_new (repeat 0%N 60))); [exact ex_wf|apply hist_nil|exact ex_run_ok].
  - repeat constructor; vm_compute; lia.
  - vm_compute. reflexivity.
  - vm_compute. reflexivity.
  - vm_compute. reflexivity.
  - vm_compute. reflexivity.
Qed.

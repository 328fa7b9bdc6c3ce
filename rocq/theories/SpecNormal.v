(** Vocabulary for C97: text that was read and is printed again. *)
From Verif Require Import Base NameModel RenderModel CodesModel RDataModel MsgModel TextModel SpecName SpecMsg SpecText SpecCtor.
Open Scope list_scope.
Open Scope nat_scope.

(** All names of an rrset consist of characters that need no escape. *)
Definition plain_names (rs : rrset) : Prop := Forall (fun n => exists ls, wf_labels ls /\ plain_labels ls /\ n = name_of ls) (set_names rs).
(** Neither a CERT rrset nor a signature over one (their mnemonic is printed wrongly, see C24). *)
Definition no_cert (rs : rrset) : Prop := rs_type rs <> TCERT /\ forall rd, In rd (rs_rdatas rs) -> ~ In (VType TCERT) (rd_fields rd).
(** Only the empty text is base64 for nothing. *)
Definition b64_exact (x : ext) : Prop := forall s, x_b64_dec x s = Some [] -> s = [].

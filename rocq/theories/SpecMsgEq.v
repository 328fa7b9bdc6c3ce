(** Specification vocabulary for equality of messages, independent of the derived comparisons. *)
From Coq Require Import Permutation.
From Verif Require Import Base NameModel RenderModel CodesModel RDataModel MsgModel EqModel SpecName SpecBuf SpecCodes SpecMsg SpecScope SpecEq.

(** The same question: the name up to letter case. *)
Definition same_question (a b : question) : Prop := same_owner (q_name a) (q_name b) /\ q_type a = q_type b /\ q_class a = q_class b.
(** The same owner (up to letter case), type and multiset of data; class and TTL are not looked at. *)
Definition alike (a b : rrset) : Prop := same_set a b /\ same_data (rs_rdatas a) (rs_rdatas b).
(** The same rrsets in the same order. *)
Definition alike_sections (a b : section) : Prop :=
  match a, b with None, None => True | Some l, Some l' => Forall2 alike l l' | _, _ => False end.
Definition alike_responses (a b : response) : Prop :=
  r_header a = r_header b /\ same_question (r_question a) (r_question b) /\
  alike_sections (r_answer a) (r_answer b) /\ alike_sections (r_authority a) (r_authority b) /\ alike_sections (r_additional a) (r_additional b).
(** In-range rrsets; names of larger ones have labels from [L]. *)
Definition in_range (L : label -> Prop) (rs : rrset) : Prop :=
  wf_name (rs_name rs) /\ Forall (wf_rdata (rs_type rs)) (rs_rdatas rs) /\ (4 <= length (rs_rdatas rs) -> Forall (rdata_from L) (rs_rdatas rs)).
(** ... and no record twice in a small one. *)
Definition no_repeat (rs : rrset) : Prop := length (rs_rdatas rs) < 4 -> distinct_data (rs_rdatas rs).
(** Every rrset of a message satisfies [P]; its question is in range. *)
Definition all_sets (P : rrset -> Prop) (r : response) : Prop :=
  forall l rs, In (Some l) [r_answer r; r_authority r; r_additional r] -> In rs l -> P rs.
Definition in_range_response (L : label -> Prop) (r : response) : Prop :=
  wf_name (q_name (r_question r)) /\ all_sets (in_range L) r.

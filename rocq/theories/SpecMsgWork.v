(** Vocabulary for C116: counting the steps of the message encoders ([to_wire] of response.rs, request.rs and notify.rs).
    The functions of MsgModel.v once more, with the names written by [write_name_paid] (SpecRenderWork.v): every octet of the message
    that is looked at and every item of the compression table that is tried costs one.  Every octet written is free. *)
From Verif Require Import Base NameModel RenderModel CodesModel RDataModel MsgModel SpecMsg SpecRenderWork.

(** rdatafield/wire_encode.rs:8-60; only a name costs. *)
Definition field_paid (v : fval) : M (render * nat) unit :=
  match v with VName n => write_name_paid n true | _ => free (field_to_wire v) end.
(** rdata-derive/src/expand.rs:51-76 and rdata.rs:65-71 *)
Definition rdata_paid (rd : rdata) : M (render * nat) unit := mapM_ field_paid (rd_fields rd).
(** rrset.rs:98-101, 105-108 *)
Definition rr_prefix_paid (rs : rrset) : M (render * nat) unit :=
  write_name_paid (rs_name rs) true ;; free (rrtype_to_wire (rs_type rs)) ;; free (rrclass_to_wire (rs_class rs)) ;;
  free (mr_write_u32 (rs_ttl rs)).
(** rrset.rs:105-113 *)
Definition rr_paid (rs : rrset) (rd : rdata) : M (render * nat) unit :=
  rr_prefix_paid rs ;;
  let! pos := free mr_length in
  free (mr_skip 2) ;;
  rdata_paid rd ;;
  let! len := free mr_length in
  let! d := lift (csub len pos) in
  let! rdlen := lift (csub d 2) in
  free (mr_write_u16_at pos (as_u16 (N.of_nat rdlen))).
(** rrset.rs:96-117 *)
Definition rrset_paid (rs : rrset) : M (render * nat) unit :=
  match rs_rdatas rs with
  | [] => rr_prefix_paid rs ;; free (mr_write_u16 0)
  | rds => mapM_ (rr_paid rs) rds
  end.
(** response.rs:72-79 *)
Definition section_paid (s : section) : M (render * nat) unit :=
  match s with None => ret tt | Some l => mapM_ rrset_paid l end.
(** question.rs:54-60 *)
Definition question_paid (q : question) : M (render * nat) unit :=
  write_name_paid (q_name q) true ;; free (rrtype_to_wire (q_type q)) ;; free (rrclass_to_wire (q_class q)).
(** response.rs:167-172, with the truncation of response.rs:176-185 *)
Fixpoint sections_paid (r : response) (pos : nat) (ss : list section) : M (render * nat) (option nat) :=
  match ss with
  | [] => ret None
  | s :: ss' => fun rd =>
      match section_paid s rd with
      | (Ok _, rd') => sections_paid r pos ss' rd'
      | (Err, rd') => (free (response_truncate r pos) ;; ret (Some pos)) rd'
      | (Panic, rd') => (Panic, rd')
      | (Hang, rd') => (Hang, rd')
      end
  end.
(** response.rs:161-174 *)
Definition response_paid (r : response) : M (render * nat) nat :=
  free (header_to_wire (r_header r)) ;;
  question_paid (r_question r) ;;
  let! pos := free mr_length in
  let! early := sections_paid r pos [r_answer r; r_authority r; r_additional r] in
  match early with
  | Some n => ret n
  | None => free mr_length
  end.
(** request.rs:53-57 *)
Definition request_paid (r : request) : M (render * nat) nat :=
  free (header_to_wire (rq_header r)) ;; question_paid (rq_question r) ;; free mr_length.
(** notify.rs:64-71, 107-111 *)
Definition notify_paid (n : notify_request) : M (render * nat) nat :=
  free (header_to_wire (nq_header n)) ;; question_paid (nq_question n) ;;
  (match nq_soa n with Some rs => rrset_paid rs | None => ret tt end) ;;
  free mr_length.
Definition notify_response_paid (n : notify_response) : M (render * nat) nat :=
  free (header_to_wire (np_header n)) ;; question_paid (np_question n) ;; free mr_length.
(** [to_wire] with a budget of [k] steps. *)
Definition response_within (k : nat) (r : response) : M render nat := fun rd => let (a, s) := response_paid r (rd, k) in (a, fst s).
Definition request_within (k : nat) (r : request) : M render nat := fun rd => let (a, s) := request_paid r (rd, k) in (a, fst s).
Definition notify_within (k : nat) (n : notify_request) : M render nat := fun rd => let (a, s) := notify_paid n (rd, k) in (a, fst s).
Definition notify_response_within (k : nat) (n : notify_response) : M render nat := fun rd => let (a, s) := notify_response_paid n (rd, k) in (a, fst s).

(** The price of a name: its label count (the root included) times three times its encoded length and 61 more. *)
Definition name_price (n : name) : nat := label_count n * (3 * length (n_raw n) + 61).
Definition response_price (r : response) : nat := list_sum (map name_price (response_names r)).
(** The names of a NOTIFY. *)
Definition notify_names (n : notify_request) : list name :=
  q_name (nq_question n) :: match nq_soa n with Some rs => flat_map rr_names (rrs_of rs) | None => [] end.

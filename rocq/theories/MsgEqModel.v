(** Model of the derived [PartialEq] of messages: src/header.rs, src/question.rs, src/response.rs, src/request.rs, src/notify.rs,
    with [PartialEq for RRset] of EqModel.v.  [sort] stands for [slice::sort_unstable]. *)
From Verif Require Import Base NameModel RenderModel CodesModel RDataModel MsgModel EqModel.

(** opcode.rs:3-11 derived: same variant *)
Definition opcode_index (o : opcode) : nat := match o with OQuery => 0 | OIQuery => 1 | OStatus => 2 | ONotify => 3 | OUpdate => 4 | OReserved => 5 end.
(** rcode.rs:6-20 derived: same variant *)
Definition rcode_index (r : rcode) : nat :=
  match r with RNoError => 0 | RFormErr => 1 | RServFail => 2 | RNXDomain => 3 | RNotImp => 4 | RRefused => 5 | RYXDomain => 6 | RYXRRset => 7
  | RNXRRset => 8 | RNotAuth => 9 | RNotZone => 10 | RReserved => 11 end.
(** rr_class.rs:7-16 derived *)
Definition rrclass_eqb (a b : rrclass) : bool :=
  match a, b with
  | CIN, CIN | CCH, CCH | CHS, CHS | CNONE, CNONE | CANY, CANY => true
  | CUnknown x, CUnknown y => (x =? y)%N
  | _, _ => false
  end.
(** header.rs:14-24 derived *)
Definition header_eq (a b : header) : bool :=
  (h_id a =? h_id b)%N && (h_flag a =? h_flag b)%N && (opcode_index (h_opcode a) =? opcode_index (h_opcode b)) && (rcode_index (h_rcode a) =? rcode_index (h_rcode b)) &&
  (h_qd a =? h_qd b)%N && (h_an a =? h_an b)%N && (h_ns a =? h_ns b)%N && (h_ar a =? h_ar b)%N.
(** A derived comparison stops at the first difference. *)
Definition and_then (a b : res bool) : res bool := let? x := a in if x : bool then b else Ok false.
(** question.rs:9-14 derived *)
Definition question_eq (a b : question) : res bool :=
  and_then (name_eq (q_name a) (q_name b)) (Ok (rrtype_eqb (q_type a) (q_type b) && rrclass_eqb (q_class a) (q_class b))).
Fixpoint rrsets_eq (sort : list rdata -> res (list rdata)) (a b : list rrset) : res bool :=
  match a, b with
  | x :: a', y :: b' => and_then (rrset_eq sort x y) (rrsets_eq sort a' b')
  | _, _ => Ok true
  end.
(** response.rs:21-22 derived: [Option<Vec<RRset>>]; vectors of different length are not compared further *)
Definition section_eq (sort : list rdata -> res (list rdata)) (a b : section) : res bool :=
  match a, b with
  | None, None => Ok true
  | Some l, Some l' => if length l =? length l' then rrsets_eq sort l l' else Ok false
  | _, _ => Ok false
  end.
(** response.rs:101-106 derived *)
Definition response_eq (sort : list rdata -> res (list rdata)) (a b : response) : res bool :=
  and_then (Ok (header_eq (r_header a) (r_header b))) (and_then (question_eq (r_question a) (r_question b))
    (and_then (section_eq sort (r_answer a) (r_answer b)) (and_then (section_eq sort (r_authority a) (r_authority b)) (section_eq sort (r_additional a) (r_additional b))))).
(** request.rs:12-16 derived *)
Definition request_eq (a b : request) : res bool :=
  and_then (Ok (header_eq (rq_header a) (rq_header b))) (question_eq (rq_question a) (rq_question b)).
(** notify.rs:14-19 derived *)
Definition notify_eq (sort : list rdata -> res (list rdata)) (a b : notify_request) : res bool :=
  and_then (Ok (header_eq (nq_header a) (nq_header b))) (and_then (question_eq (nq_question a) (nq_question b))
    (match nq_soa a, nq_soa b with None, None => Ok true | Some x, Some y => rrset_eq sort x y | _, _ => Ok false end)).
(** notify.rs:84-88 derived *)
Definition notify_response_eq (a b : notify_response) : res bool :=
  and_then (Ok (header_eq (np_header a) (np_header b))) (question_eq (np_question a) (np_question b)).

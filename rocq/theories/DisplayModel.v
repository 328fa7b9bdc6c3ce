(** Model of the [Display] implementations of messages and their parts: src/header.rs, src/header_flag.rs, src/question.rs,
    src/edns.rs, src/response.rs, src/request.rs and src/notify.rs.  Text is a list of octets; a [Formatter] that never fails
    (a String) is written to, so the only way to fail is a panic. *)
From Coq Require String.
From Verif Require Import Base NameModel RenderModel CodesModel RDataModel MsgModel TextModel.
Import String.StringSyntax.
Open Scope string_scope.
Open Scope list_scope.
Open Scope nat_scope.

(** header_flag.rs:27-43 *)
Definition hflag_str (f : hflag) : String.string :=
  match f with QR => "qr" | AA => "aa" | TC => "tc" | RD => "rd" | RA => "ra" | AD => "ad" | CD => "cd" end.
(** header.rs:104-121, opcode.rs:48-52 and rcode.rs:75-79 *)
Definition header_display (h : header) : list N :=
  of_string ";; ->>HEADER<<- opcode: " ++ of_string (opcode_str (h_opcode h)) ++ of_string ", status: " ++ of_string (rcode_str (h_rcode h)) ++
  of_string ", id: " ++ dec (h_id h) ++ [10%N] ++
  of_string ";; flags: " ++ flat_map (fun f => 32%N :: of_string (hflag_str f)) (hf_setted (h_flag h)) ++ of_string "; " ++
  of_string "QUERY: " ++ dec (h_qd h) ++ of_string ", " ++ of_string "ANSWER: " ++ dec (h_an h) ++ of_string ", " ++
  of_string "AUTHORITY: " ++ dec (h_ns h) ++ of_string ", " ++ of_string "ADDITIONAL: " ++ dec (h_ar h) ++ of_string ", ".
(** question.rs:39-43 *)
Definition question_display (q : question) : res (list N) :=
  let? n := name_display (q_name q) in
  Ok (n ++ [32%N] ++ of_string (rrclass_str (q_class q)) ++ [32%N] ++ of_string (rrtype_str (q_type q))).
(** edns.rs:78-86 *)
Definition edns_display (e : edns) : list N :=
  of_string "; EDNS: version: " ++ dec (e_version e) ++ of_string ", " ++ (if e_do e then of_string "flags: do; " else []) ++
  of_string "udp: " ++ dec (e_udp e).
(** response.rs:82-99; collecting the results stops at the first error, and a String never gives one. *)
Definition section_display (x : ext) (s : section) : res (list N) :=
  match s with
  | None => Ok []
  | Some l => rfold (fun acc rs => if rrtype_eqb (rs_type rs) TOPT then Ok acc else let? t := rrset_display x rs in Ok (acc ++ t)) l []
  end.
(** response.rs:221-231: one section with its title, if the header's count is positive *)
Definition titled (x : ext) (count : N) (title : String.string) (s : section) (eol : list N) : res (list N) :=
  if (0 <? count)%N then let? t := section_display x s in Ok (of_string title ++ [10%N] ++ t ++ eol) else Ok [].
(** response.rs:212-236 *)
Definition response_display (x : ext) (r : response) : res (list N) :=
  let? e := get_edns r in
  let et := match e with Some e => of_string ";; OPT PSEUDOSECTION:" ++ [10%N] ++ edns_display e | None => [] end in
  let? q := question_display (r_question r) in
  let? an := titled x (h_an (r_header r)) ";; ANSWER SECTION:" (r_answer r) [10%N] in
  let? ns := titled x (h_ns (r_header r)) ";; AUTHORITY SECTION:" (r_authority r) [10%N] in
  let? ar := titled x (h_ar (r_header r)) ";; ADDITIONAL SECTION:" (r_additional r) [] in
  Ok (header_display (r_header r) ++ [10%N] ++ et ++ of_string ";; QUESTION SECTION:" ++ [10%N] ++ q ++ [10; 10]%N ++ an ++ ns ++ ar).
(** request.rs:60-66 *)
Definition request_display (r : request) : res (list N) :=
  let? q := question_display (rq_question r) in
  Ok (header_display (rq_header r) ++ [10%N] ++ of_string ";; QUESTION SECTION:" ++ [10%N] ++ q ++ [10; 10]%N).
(** notify.rs:74-82 *)
Definition notify_display (x : ext) (n : notify_request) : res (list N) :=
  let? z := name_display (q_name (nq_question n)) in
  let? s := match nq_soa n with None => Ok [] | Some rs => let? t := rrset_display x rs in Ok (of_string "soa " ++ t ++ [10%N]) end in
  Ok (of_string "notify for zone " ++ z ++ [10%N] ++ s).

(** Specification vocabulary for the printed form of messages, independent of the [Display] code. *)
From Coq Require String.
From Verif Require Import Base NameModel RenderModel CodesModel RDataModel MsgModel TextModel SpecName SpecBuf SpecCodes SpecMsg SpecText.
Open Scope list_scope.
Open Scope nat_scope.

(** The records of a section that are printed: all but those of OPT pseudo records. *)
Definition printed_records (s : section) : list rr := filter (fun y => negb (rrtype_eqb (rr_type y) TOPT)) (records s).
(** [text] consists of one line per printed record, in order; each line read alone gives that record back. *)
Definition record_lines (x : ext) (s : section) (text : list N) : Prop := exists lines,
  text = flat_map (fun l => l ++ [10%N]) lines /\
  Forall2 (fun line y => ~ In 10%N line /\ exists d, rr_data y = Some d /\
    forall md, rrset_from_str md x line = Ok (mkRRset (rr_owner y) (rr_type y) (rr_class y) (rr_ttl y) [d])) lines (printed_records s).
(** The rrsets other than OPT can be carried by text (see [text_rrset]). *)
Definition text_section (s : section) : Prop := forall l rs, s = Some l -> In rs l -> rs_type rs <> TOPT -> text_rrset rs.
Definition text_question (q : question) : Prop :=
  wf_name (q_name q) /\ (forall v, q_class q <> CUnknown v) /\ readable_type (q_type q).
Definition text_response (r : response) : Prop :=
  text_question (r_question r) /\ text_section (r_answer r) /\ text_section (r_authority r) /\ text_section (r_additional r).
(** No OPT record anywhere. *)
Definition no_opt (r : response) : Prop := forall y, In y (all_records r) -> rr_type y <> TOPT.
(** The text of a section of a message: nothing if there is no record, else the title, the records, and [eol]. *)
Definition section_text (x : ext) (title : String.string) (s : section) (eol text : list N) : Prop :=
  (records s = [] -> text = []) /\
  (records s <> [] -> exists t, record_lines x s t /\ text = of_string title ++ [10%N] ++ t ++ eol).
(** An rrset of exactly one in-range SOA record of an assigned class. *)
Definition soa_set (rs : rrset) : Prop := rs_type rs = TSOA /\ (forall v, rs_class rs <> CUnknown v) /\ (rs_ttl rs < 4294967296)%N /\ wf_name (rs_name rs) /\
  exists rd, rs_rdatas rs = [rd] /\ wf_rdata TSOA rd.

(** The two lines of a header: opcode, response code and id; the flags that are set (each after a space) and the four counts.
    [d] writes a number in decimal. *)
Import String.StringSyntax.
Open Scope string_scope.
Definition flag_words : list (N * String.string) := [(15, "qr"); (10, "aa"); (9, "tc"); (8, "rd"); (7, "ra"); (5, "ad"); (4, "cd")]%N.
Definition header_lines (d : N -> list N) (h : header) : list N :=
  of_string ";; ->>HEADER<<- opcode: " ++ of_string (opcode_str (h_opcode h)) ++ of_string ", status: " ++ of_string (rcode_str (h_rcode h)) ++ of_string ", id: " ++ d (h_id h) ++
  of_string "
;; flags: " ++ List.concat (map (fun w => if N.testbit (h_flag h) (fst w) then of_string " " ++ of_string (snd w) else []) flag_words) ++
  of_string "; QUERY: " ++ d (h_qd h) ++ of_string ", ANSWER: " ++ d (h_an h) ++ of_string ", AUTHORITY: " ++ d (h_ns h) ++ of_string ", ADDITIONAL: " ++ d (h_ar h) ++ of_string ", ".
(** The question: name, class, type. *)
Definition question_line (ls : list label) (q : question) : list N :=
  show_name ls ++ of_string " " ++ of_string (rrclass_str (q_class q)) ++ of_string " " ++ of_string (rrtype_str (q_type q)).
(** What of an EDNS record is printed. *)
Definition edns_shown (e : edns) : N * bool * N := (e_version e, e_do e, e_udp e).
(** Two messages that differ only in what the text does not show: the OPT records beyond version, DO bit and UDP size of the one that
    [get_edns] sees. *)
Definition same_text_content (r r' : response) : Prop :=
  r_header r = r_header r' /\ r_question r = r_question r' /\
  printed_records (r_answer r) = printed_records (r_answer r') /\ printed_records (r_authority r) = printed_records (r_authority r') /\
  printed_records (r_additional r) = printed_records (r_additional r') /\
  (let? e := get_edns r in Ok (option_map edns_shown e)) = (let? e := get_edns r' in Ok (option_map edns_shown e)).

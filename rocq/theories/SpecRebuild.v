(** Vocabulary for C112: a message rebuilt from its own printed text. *)
From Coq Require String.
From Verif Require Import Base NameModel RenderModel CodesModel RDataModel MsgModel TextModel SpecName SpecBuf SpecCodes SpecMsg SpecText SpecCtor SpecNormal SpecDisplay.
Import String.StringSyntax.
Open Scope string_scope.
Open Scope list_scope.
Open Scope nat_scope.

(** Messages of the kind [response_builder::build] makes: a standard query of class IN, answered without error, flags QR and RD; all names free of escapes, all
    records of a kind that text can carry (C58), at most one rrset per owner and type in each section; no OPT record except possibly, at the end of the additional
    section, one that says nothing but a UDP size. *)
Definition text_message (r : response) (size : option N) : Prop :=
  (exists ls, wf_labels ls /\ plain_labels ls /\ q_name (r_question r) = name_of ls) /\ q_class (r_question r) = CIN /\
  h_opcode (r_header r) = OQuery /\ h_rcode (r_header r) = RNoError /\ (forall f, header_is_set (r_header r) f = true <-> f = QR \/ f = RD) /\
  Forall text_rrset (sets (r_answer r)) /\ Forall text_rrset (sets (r_authority r)) /\
  unique_sets (sets (r_answer r)) /\ unique_sets (sets (r_authority r)) /\ unique_sets (sets (r_additional r)) /\
  (forall rs, In rs (sets (r_answer r)) \/ In rs (sets (r_authority r)) -> rs_type rs <> TOPT) /\
  exists l, Forall text_rrset l /\ (forall rs, In rs l -> rs_type rs <> TOPT) /\ (forall u, size = Some u -> u < 65536)%N /\
    sets (r_additional r) = l ++ match size with Some u => [edns_to_rrset (mkEdns 0 0 u false None)] | None => [] end.
(** The printed text of a section whose rrsets have the lines [blocks] (a list of lines for each rrset): nothing if the section has no record, else the title,
    the lines in order, each ended by a line break, and [eol]. *)
Definition block_text (title : String.string) (s : section) (blocks : list (list (list N))) (eol : list N) : list N :=
  match records s with
  | [] => []
  | _ => of_string title ++ [10%N] ++ flat_map (fun line => line ++ [10%N]) (List.concat blocks) ++ eol
  end.
(** Texts of records without escapes in names, and neither OPT nor CERT records. *)
Definition plain_texts (md : mode) (x : ext) (sets : list (list (list N))) : Prop :=
  Forall (Forall str) sets /\ forall ss rs, In ss sets -> rrset_from_strs md x ss = Ok rs -> plain_names rs /\ no_cert rs /\ rs_type rs <> TOPT.
(** [blocks] are the lines printed for the rrsets of [l] other than OPT, in order: a block for each rrset, a line for each of its records, no line break inside a line. *)
Definition printed_blocks (x : ext) (blocks : list (list (list N))) (l : list rrset) : Prop :=
  Forall2 (fun lines rs => rrset_display x rs = Ok (flat_map (fun line => line ++ [10%N]) lines) /\ Forall (fun line => ~ In 10%N line) lines /\ length lines = length (rs_rdatas rs))
    blocks (filter (fun rs => negb (rrtype_eqb (rs_type rs) TOPT)) l).

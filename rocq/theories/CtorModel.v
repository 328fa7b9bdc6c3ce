(** Convenience constructor: response_builder::build (Header::clear is header_clear in CodesModel.v). *)
From Verif Require Import Base NameModel RenderModel CodesModel RDataModel MsgModel TextModel.
Open Scope list_scope.
Open Scope nat_scope.

(** response_builder.rs:115-123: one of the three loops of [build] *)
Definition add_texts (md : mode) (x : ext) (s : section_type) (sets : list (list (list N))) (r : response) : res response :=
  rfold (fun r ss => let? rs := rrset_from_strs md x ss in add_rrset r s rs) sets r.
(** response_builder.rs:105-135; [rnd] is the random id, [udp_size as u16] wraps. *)
Definition build_response (md : mode) (x : ext) (rnd : N) (nm : list N) (typ : rrtype)
    (answers authorities additionals : list (list (list N))) (udp_size : option N) : res response :=
  let? n := name_new nm in
  let r := response_with_question rnd n typ in
  let? r := add_texts md x SAnswer answers r in
  let? r := add_texts md x SAuthority authorities r in
  let? r := add_texts md x SAdditional additionals r in
  let? r := (match udp_size with Some u => add_edns r (mkEdns 0 0 (as_u16 u) false None) | None => Ok r end) in
  Ok (builder_done (make_response r)).

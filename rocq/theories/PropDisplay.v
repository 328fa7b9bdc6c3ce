(** Property theorems C69-C73 and C98: the printed form of names, headers and messages.  Model: DisplayModel.v (with TextModel.v);
    specification: SpecDisplay.v.  [x : ext] stands for the functions of other crates, [ext_ok x] is their contract. *)
From Coq Require String.
From Verif Require Import Base NameModel RenderModel CodesModel RDataModel MsgModel TextModel DisplayModel SpecName SpecBuf SpecCodes SpecMsg SpecText SpecDisplay
  PropMsg PropText ExtInstance DisplayProofs DisplayProofs2 DisplayProofs3 DisplayProofs4 SpecShown ShownProofs.
Import String.StringSyntax.
Open Scope string_scope.
Open Scope list_scope.
Open Scope nat_scope.

(** * C69: printing never panics *)
Theorem C69_decoded_response : forall x w r, bytes w -> response_from_wire w = Ok r -> exists s, response_display x r = Ok s.
Proof. exact decoded_display_total. Qed.
Print Assumptions C69_decoded_response.
Theorem C69_decoded_request : forall w r, bytes w -> request_from_wire w = Ok r -> exists s, request_display r = Ok s.
Proof. exact decoded_request_display_total. Qed.
Print Assumptions C69_decoded_request.
Theorem C69_response : forall x r, consistent r -> exists s, response_display x r = Ok s.
Proof. exact response_display_total. Qed.
Print Assumptions C69_response.
Theorem C69_request : forall r, question_ok (rq_question r) -> exists s, request_display r = Ok s.
Proof. exact request_display_total. Qed.
Print Assumptions C69_request.
Theorem C69_notify : forall x n, wf_name (q_name (nq_question n)) -> (forall rs, nq_soa n = Some rs -> rrset_ok rs) -> exists s, notify_display x n = Ok s.
Proof. exact notify_display_total. Qed.
Print Assumptions C69_notify.
Definition ex_text : list N := of_string ";; ->>HEADER<<- opcode: QUERY, status: NOERROR, id: 4660
;; flags:  qr rd; QUERY: 1, ANSWER: 3, AUTHORITY: 1, ADDITIONAL: 2, 
;; OPT PSEUDOSECTION:
; EDNS: version: 0, flags: do; udp: 4096;; QUESTION SECTION:
www.Example.com. IN A

;; ANSWER SECTION:
www.Example.com.	300	IN	CNAME	web.example.com.
web.example.com.	60	IN	A	192.0.2.1
web.example.com.	60	IN	A	192.0.2.2

;; AUTHORITY SECTION:
example.com.	3600	IN	NS	ns.example.com.

;; ADDITIONAL SECTION:
ns.example.com.	3600	IN	A	192.0.2.53
".
Example C69_ex : consistent ex_response /\ response_from_wire ex_wire = Ok ex_response /\ response_display std_ext ex_response = Ok ex_text.
Proof. split; [exact ex_consistent|]. split; [exact ex_wire_decodes|]. vm_compute. reflexivity. Qed.

(** * C70: names with the same text are equal *)
Theorem C70_name_text_unambiguous : forall a b s, wf_name a -> wf_name b -> name_display a = Ok s -> name_display b = Ok s -> a = b.
Proof. exact name_display_inj. Qed.
Print Assumptions C70_name_text_unambiguous.
Example C70_ex : name_display (name_of [of_string "a.b"]) = Ok (of_string "a\.b.") /\ name_display (name_of [of_string "a"; of_string "b"]) = Ok (of_string "a.b.") /\
  name_display (name_of [[92; 48; 49; 50]%N]) = Ok (of_string "\\012.") /\ name_display (name_of [[12]%N]) = Ok (of_string "\012.").
Proof. vm_compute. auto. Qed.

(** * C71: the text of a header determines all its fields, that of EDNS its version, DO bit and size *)
Theorem C71_header_text_unambiguous : forall h g, header_ok h -> header_ok g -> header_display h = header_display g -> h = g.
Proof. exact header_display_inj. Qed.
Print Assumptions C71_header_text_unambiguous.
Theorem C71_edns_text_unambiguous : forall a b, (e_version a < 256 /\ e_udp a < 65536)%N -> (e_version b < 256 /\ e_udp b < 65536)%N -> edns_display a = edns_display b ->
  e_version a = e_version b /\ e_do a = e_do b /\ e_udp a = e_udp b.
Proof. exact edns_display_inj. Qed.
Print Assumptions C71_edns_text_unambiguous.
Example C71_ex : header_ok (mkHeader 65535 (hf_set (hf_set 0 TC) CD) OUpdate RNotZone 1 0 65535 2) /\
  header_display (mkHeader 65535 (hf_set (hf_set 0 TC) CD) OUpdate RNotZone 1 0 65535 2) =
  of_string ";; ->>HEADER<<- opcode: UPDATE, status: NOTZONE, id: 65535
;; flags:  tc cd; QUERY: 1, ANSWER: 0, AUTHORITY: 65535, ADDITIONAL: 2, ".
Proof.
  split; [|vm_compute; reflexivity]. split; [repeat split; reflexivity|]. intros i H. change (N.testbit (N.lor 512 16) i = true) in H. rewrite N.lor_spec in H. apply Bool.orb_true_iff in H.
  change 512%N with (2 ^ 9)%N in H. change 16%N with (2 ^ 4)%N in H. rewrite !N.pow2_bits_eqb in H. destruct H as [H|H]; apply N.eqb_eq in H; subst i; [exists TC|exists CD]; reflexivity.
Qed.

(** * C72: a printed message shows every record, each on a line that can be read back *)
Theorem C72_message_text_partial : forall x r, ext_ok x -> consistent r -> text_section (r_answer r) -> text_section (r_authority r) -> text_section (r_additional r) ->
  exists e q an ns ar, get_edns r = Ok e /\ question_display (r_question r) = Ok q /\
    section_text x ";; ANSWER SECTION:" (r_answer r) [10%N] an /\ section_text x ";; AUTHORITY SECTION:" (r_authority r) [10%N] ns /\
    section_text x ";; ADDITIONAL SECTION:" (r_additional r) [] ar /\
    response_display x r = Ok (header_display (r_header r) ++ [10%N] ++
      match e with Some e => of_string ";; OPT PSEUDOSECTION:" ++ [10%N] ++ edns_display e | None => [] end ++
      of_string ";; QUESTION SECTION:" ++ [10%N] ++ q ++ [10; 10]%N ++ an ++ ns ++ ar).
Proof. exact response_display_text. Qed.
Print Assumptions C72_message_text_partial.
Lemma some_eq : forall A (a b : A), Some a = Some b -> b = a. Proof. congruence. Qed.
Lemma ex_text_sections : text_section (r_answer ex_response) /\ text_section (r_authority ex_response) /\ text_section (r_additional ex_response).
Proof.
  assert (W : forall l, wf_labels (map of_string l) /\ plain_labels (map of_string l) -> exists ls, wf_labels ls /\ plain_labels ls /\ nm l = name_of ls).
  { intros l [A B]. exists (map of_string l). repeat split; auto; apply A. }
  assert (G : forall rs (o n : list String.string) d, rs_name rs = nm o -> wf_labels (map of_string o) /\ plain_labels (map of_string o) -> (rs_ttl rs < 4294967296)%N -> rs_class rs = CIN -> readable_type (rs_type rs) ->
    Forall (text_rdata (rs_type rs)) (rs_rdatas rs) -> d = tt -> n = [] -> text_rrset rs).
  { intros rs o n d E P T C R F _ _. split; [rewrite E; apply W; exact P|]. split; auto. split; [intros v; rewrite C; discriminate|]. auto. }
  split; [|split]; intros l rs E I N; cbn [ex_response r_answer r_authority r_additional] in E; apply some_eq in E; subst l; cbn [In] in I;
    repeat match goal with H : _ \/ _ |- _ => destruct H as [H|H] | H : False |- _ => destruct H end; subst rs; try (exfalso; apply N; reflexivity).
  - apply (G _ ["www"; "Example"; "com"] [] tt); try reflexivity; [split; vm_compute; repeat constructor; try discriminate|split; discriminate|].
    constructor; [|constructor]. split; [reflexivity|]. split; [eexists; split; [reflexivity|repeat constructor]|]. constructor; [|constructor]. apply (W ["web"; "example"; "com"]). split; vm_compute; repeat constructor; try discriminate.
  - apply (G _ ["web"; "example"; "com"] [] tt); try reflexivity; [split; vm_compute; repeat constructor; try discriminate|split; discriminate|].
    repeat (constructor; [split; [reflexivity|]; split; [eexists; split; [reflexivity|repeat constructor]|repeat constructor]|]). constructor.
  - apply (G _ ["example"; "com"] [] tt); try reflexivity; [split; vm_compute; repeat constructor; try discriminate|split; discriminate|].
    constructor; [|constructor]. split; [reflexivity|]. split; [eexists; split; [reflexivity|repeat constructor]|]. constructor; [|constructor]. apply (W ["ns"; "example"; "com"]). split; vm_compute; repeat constructor; try discriminate.
  - apply (G _ ["ns"; "example"; "com"] [] tt); try reflexivity; [split; vm_compute; repeat constructor; try discriminate|split; discriminate|].
    repeat (constructor; [split; [reflexivity|]; split; [eexists; split; [reflexivity|repeat constructor]|repeat constructor]|]). constructor.
Qed.
Example C72_ex : consistent ex_response /\ text_section (r_answer ex_response) /\ text_section (r_authority ex_response) /\ text_section (r_additional ex_response) /\ ext_ok std_ext.
Proof. split; [exact ex_consistent|]. pose proof ex_text_sections as (A & B & C). auto using std_ext_ok. Qed.
(** The lines of the header and of the question, for every header and question; and the whole text of a request. *)
Theorem C72_header_text : forall h, header_display h = header_lines dec h.
Proof. exact header_text. Qed.
Print Assumptions C72_header_text.
Theorem C72_question_text : forall q ls, wf_labels ls -> q_name q = name_of ls -> question_display q = Ok (question_line ls q).
Proof. exact question_display_ok. Qed.
Print Assumptions C72_question_text.
Theorem C72_request_text : forall r ls, wf_labels ls -> q_name (rq_question r) = name_of ls ->
  request_display r = Ok (header_lines dec (rq_header r) ++ of_string "
;; QUESTION SECTION:
" ++ question_line ls (rq_question r) ++ of_string "

").
Proof. exact request_text. Qed.
Print Assumptions C72_request_text.
(** Every message in range (every message that can be decoded, C69), whatever its records: the whole text, each printed record on its own line ([shown_line],
    SpecShown.v).  Nothing is assumed about names, types, classes or data. *)
Theorem C72_every_message_partial : forall x r, ext_ok x -> x_b64_enc x [] = [] -> consistent r ->
  exists e ls an ns ar, get_edns r = Ok e /\ wf_labels ls /\ q_name (r_question r) = name_of ls /\
    shown_section x ";; ANSWER SECTION:" (r_answer r) [10%N] an /\ shown_section x ";; AUTHORITY SECTION:" (r_authority r) [10%N] ns /\
    shown_section x ";; ADDITIONAL SECTION:" (r_additional r) [] ar /\
    response_display x r = Ok (header_lines dec (r_header r) ++ [10%N] ++ edns_lines dec e ++ of_string ";; QUESTION SECTION:" ++ [10%N] ++
      question_line ls (r_question r) ++ [10; 10]%N ++ an ++ ns ++ ar).
Proof.
  intros x r X B0 C. destruct (response_shown x r X B0 C) as (e & ls & an & ns & ar & A1 & A2 & A3 & A4 & A5 & A6 & E). exists e, ls, an, ns, ar.
  rewrite header_text, edns_part_lines in E. auto 8.
Qed.
Print Assumptions C72_every_message_partial.
(** The same for a single rrset. *)
Theorem C58_every_rrset_partial : forall x rs, ext_ok x -> x_b64_enc x [] = [] -> wf_name (rs_name rs) -> (rs_ttl rs < 4294967296)%N -> Forall (wf_rdata (rs_type rs)) (rs_rdatas rs) ->
  exists lines, rrset_display x rs = Ok (flat_map (fun l => l ++ [10%N]) lines) /\ Forall (fun l => ~ In 10%N l) lines /\
    Forall2 (shown_line x) (map (fun d => mkRR (rs_name rs) (rs_type rs) (rs_class rs) (rs_ttl rs) (Some d)) (rs_rdatas rs)) lines.
Proof. exact rrset_shown. Qed.
Print Assumptions C58_every_rrset_partial.
(** An rrset that text cannot carry: unassigned class, an escaped name, an empty character string. *)
Definition ex_odd : rrset := mkRRset (nm ["a b"]) TTXT (CUnknown 7) 5 [mkRData DTXT [VText [[]; of_string "x"]]].
Example C72_every_ex : x_b64_enc std_ext [] = [] /\ ext_ok std_ext /\ rrset_ok ex_odd /\ rrset_display std_ext ex_odd = Ok (of_string "a\032b.	5	Unknown	TXT	""""""x""
").
Proof.
  split; [reflexivity|]. split; [exact std_ext_ok|]. split; [|vm_compute; reflexivity].
  split; [exists [of_string "a b"]; split; [vm_compute; repeat constructor; try discriminate|reflexivity]|].
  split; [vm_compute; auto|]. split; [vm_compute; auto|]. split; [reflexivity|]. split; [|split; [discriminate|discriminate]].
  constructor; [|constructor]. split.
  - split; [reflexivity|]. eexists. split; [reflexivity|]. constructor; [|constructor]. constructor; [split; [cbn; lia|constructor]|]. constructor; [|constructor]. split; [vm_compute; lia|vm_compute; repeat constructor].
  - split; discriminate.
Qed.
(** The titles do not all start a line: with EDNS that of the question section does not. *)
Theorem C72_title_line_refuted : exists a b, response_display std_ext ex_response = Ok (a ++ of_string "udp: 4096;; QUESTION SECTION:" ++ b).
Proof. eexists (firstn 179 ex_text), (skipn 208 ex_text). vm_compute. reflexivity. Qed.
Print Assumptions C72_title_line_refuted.

(** * C73: messages with the same text are equal *)
Theorem C73_response_text_unambiguous_partial : forall x r r' s, ext_ok x -> consistent r -> consistent r' -> text_response r -> text_response r' -> no_opt r -> no_opt r' ->
  response_display x r = Ok s -> response_display x r' = Ok s -> r = r'.
Proof. exact response_display_inj. Qed.
Print Assumptions C73_response_text_unambiguous_partial.
Theorem C73_request_text_unambiguous_partial : forall r r' s, header_ok (rq_header r) -> header_ok (rq_header r') -> text_question (rq_question r) -> text_question (rq_question r') ->
  request_display r = Ok s -> request_display r' = Ok s -> r = r'.
Proof. exact request_display_inj. Qed.
Print Assumptions C73_request_text_unambiguous_partial.
Definition ex_plain_response : response :=
  mkResponse (mkHeader 7 (hf_set 0 QR) OQuery RNoError 1 2 0 0) (mkQuestion (nm ["web"; "example"; "com"]) TA CIN)
    (Some [mkRRset (nm ["web"; "example"; "com"]) TA CIN 60 [ipv4 192 0 2 1; ipv4 192 0 2 2]]) None None.
Example C73_ex : consistent ex_plain_response /\ text_response ex_plain_response /\ no_opt ex_plain_response /\ exists s, response_display std_ext ex_plain_response = Ok s.
Proof.
  assert (B : bytes (mr_bytes (snd (response_to_wire ex_plain_response (mr_new (zeros 512)))))) by (vm_compute; repeat constructor).
  assert (D : response_from_wire (mr_bytes (snd (response_to_wire ex_plain_response (mr_new (zeros 512))))) = Ok ex_plain_response) by (vm_compute; reflexivity).
  split. { destruct (MsgProofs4.response_from_wire_sound _ _ B D) as (an & ns & ar & _ & _ & C & _). exact C. }
  split; [|split].
  - pose proof ex_text_sections as (T & _). split; [|split; [|split; intros l rs E; discriminate]].
    + split; [exists (map of_string ["web"; "example"; "com"]); split; [vm_compute; repeat constructor; try discriminate|reflexivity]|]. split; [discriminate|split; discriminate].
    + intros l rs E I N. injection E as <-. eapply T; [reflexivity| |exact N]. destruct I as [I|[]]. right. left. exact I.
  - intros y Y. cbn in Y. destruct Y as [<-|[<-|[]]]; discriminate.
  - eexists. vm_compute. reflexivity.
Qed.
(** Unassigned codes and the extended rcode of EDNS are not shown. *)
Definition with_qtype (t : rrtype) : response := mkResponse (r_header ex_plain_response) (mkQuestion (nm ["a"]) t CIN) (r_answer ex_plain_response) None None.
Definition with_ttl (ttl : N) : response := mkResponse (mkHeader 7 0 OQuery RNoError 1 0 0 1) (mkQuestion (nm ["a"]) TA CIN) None None (Some [mkRRset (nm []) TOPT (CUnknown 4096) ttl []]).
Theorem C73_refuted : (with_qtype (TUnknown 1000) <> with_qtype (TUnknown 1001) /\
    exists s, response_display std_ext (with_qtype (TUnknown 1000)) = Ok s /\ response_display std_ext (with_qtype (TUnknown 1001)) = Ok s) /\
  (with_ttl 0 <> with_ttl 16777216 /\ exists s, response_display std_ext (with_ttl 0) = Ok s /\ response_display std_ext (with_ttl 16777216) = Ok s).
Proof.
  split; (split; [intro E; injection E; discriminate|eexists; split; vm_compute; reflexivity]).
Qed.
Print Assumptions C73_refuted.

(** With OPT records too: two messages have the same text exactly if they differ at most in what is not shown of OPT records: everything
    but version, DO bit and UDP size of the one that ends the additional section. *)
Theorem C73_exact_partial : forall x r r' s, ext_ok x -> consistent r -> consistent r' -> text_response r -> text_response r' -> response_display x r = Ok s ->
  (response_display x r' = Ok s <-> same_text_content r r').
Proof. exact display_exact. Qed.
Print Assumptions C73_exact_partial.
(** Two such messages with OPT records, which differ in the extended rcode. *)
Example C73_exact_ex : consistent (with_ttl 0) /\ consistent (with_ttl 16777216) /\ text_response (with_ttl 0) /\ text_response (with_ttl 16777216) /\ same_text_content (with_ttl 0) (with_ttl 16777216) /\
  ~ same_text_content (with_ttl 0) (with_ttl 32768).
Proof.
  assert (C : forall t, (t < 4294967296)%N -> consistent (with_ttl t)).
  { intros t T. split; [split; [repeat split; reflexivity|]; intros i H; rewrite N.bits_0 in H; discriminate|]. split; [reflexivity|]. split.
    - split; [exists [of_string "a"]; split; [vm_compute; repeat constructor; try discriminate|reflexivity]|]. split; split; reflexivity.
    - split; [split; [reflexivity|exact I]|]. split; [split; [reflexivity|exact I]|]. split; [reflexivity|]. split; [discriminate|]. split; [|split; [exact I|discriminate]].
      constructor; [|constructor]. split; [exists []; split; [vm_compute; repeat constructor|reflexivity]|]. split; [split; reflexivity|]. split; [split; reflexivity|]. split; [exact T|]. split; [constructor|]. split; [reflexivity|]. intros _. cbn. lia. }
  assert (Q : forall t, text_response (with_ttl t)).
  { intros t. split; [|split; [|split]].
    - split; [exists [of_string "a"]; split; [vm_compute; repeat constructor; try discriminate|reflexivity]|]. split; [discriminate|split; discriminate].
    - intros l rs E; discriminate E.
    - intros l rs E; discriminate E.
    - intros l rs E J N. injection E as <-. destruct J as [<-|[]]. exfalso. apply N. reflexivity. }
  split; [apply C; reflexivity|]. split; [apply C; reflexivity|]. split; [apply Q|]. split; [apply Q|]. split; [repeat split|]. intros (_ & _ & _ & _ & _ & E). vm_compute in E. discriminate E.
Qed.

(** * C98: a printed NOTIFY request shows its zone and its SOA record, and determines both *)
Theorem C98_notify_text : forall x n, wf_name (q_name (nq_question n)) -> (forall rs, nq_soa n = Some rs -> soa_set rs) ->
  exists zone soa, (exists ls, wf_labels ls /\ q_name (nq_question n) = name_of ls /\ zone = show_name ls) /\
    (nq_soa n = None -> soa = []) /\
    (forall rs, nq_soa n = Some rs -> exists rd line, rs_rdatas rs = [rd] /\ record_line x rs rd line /\ ~ In 10%N line /\ soa = of_string "soa " ++ line ++ [10; 10]%N) /\
    notify_display x n = Ok (of_string "notify for zone " ++ zone ++ [10%N] ++ soa).
Proof. exact notify_text. Qed.
Print Assumptions C98_notify_text.
Theorem C98_unambiguous : forall x n k s, wf_name (q_name (nq_question n)) -> wf_name (q_name (nq_question k)) ->
  (forall rs, nq_soa n = Some rs -> soa_set rs) -> (forall rs, nq_soa k = Some rs -> soa_set rs) ->
  notify_display x n = Ok s -> notify_display x k = Ok s -> q_name (nq_question n) = q_name (nq_question k) /\ nq_soa n = nq_soa k.
Proof. exact notify_text_inj. Qed.
Print Assumptions C98_unambiguous.
Definition ex_soa : rrset := mkRRset (nm ["Example"; "com"]) TSOA CIN 3600
  [mkRData DSOA [VName (nm ["ns"; "example"; "com"]); VName (nm ["host.master"; "example"; "com"]); VU32 4294967295; VU32 1; VU32 2; VU32 3; VU32 0]].
Example C98_ex : soa_set ex_soa /\ wf_name (nm ["Example"; "com"]) /\
  notify_display std_ext (notify_new 7 (nm ["Example"; "com"]) (Some ex_soa)) = Ok (of_string "notify for zone Example.com.
soa Example.com.	3600	IN	SOA	ns.example.com. host\.master.example.com. 4294967295 1 2 3 0

").
Proof.
  assert (W : forall l, wf_labels (map of_string l) -> wf_name (nm l)) by (intros l L; exists (map of_string l); split; [exact L|reflexivity]).
  assert (W1 : wf_name (nm ["Example"; "com"])) by (apply W; vm_compute; repeat constructor; discriminate).
  split; [|split; [exact W1|vm_compute; reflexivity]]. split; [reflexivity|]. split; [discriminate|]. split; [reflexivity|]. split; [exact W1|].
  eexists. split; [reflexivity|]. split; [reflexivity|]. eexists. split; [reflexivity|].
  repeat (constructor; [first [apply W; vm_compute; repeat constructor; discriminate | reflexivity]|]). constructor.
Qed.

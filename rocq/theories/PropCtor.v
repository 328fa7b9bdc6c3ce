(** Property theorems C76-C82: message constructors, NotifyResponse, builder setters, builder programs, Header::clear.
    Models: MsgModel.v, CtorModel.v; specification: SpecMsg.v, SpecCtor.v. *)
From Coq Require String.
From Verif Require Import Base NameModel RenderModel CodesModel RDataModel MsgModel TextModel CtorModel SpecName SpecBuf SpecCodes SpecMsg SpecText SpecCtor
  BufProofs PropBuf PropMsg PropBuild BuildProofs MsgProofs8 CodesProofs CtorProofs ExtInstance TextProofs7 TextRange CtorProofs2 PropNameAux SpecApi.
Import String.StringSyntax.
Open Scope string_scope.
Open Scope list_scope.
Open Scope nat_scope.

(** * C76: Request::new, Response::with_question *)
(** A query for [n]/[t] in class IN: recursion desired and nothing else, counts 1, 0, 0, 0; what was drawn is the id. *)
Definition plain_query (h : header) (q : question) (rnd : N) (n : name) (t : rrtype) : Prop :=
  h_id h = rnd /\ (forall f, header_is_set h f = true <-> f = RD) /\ h_opcode h = OQuery /\ h_rcode h = RNoError /\
  h_qd h = 1%N /\ h_an h = 0%N /\ h_ns h = 0%N /\ h_ar h = 0%N /\ q_name q = n /\ q_type q = t /\ q_class q = CIN.
Theorem C76_request : forall rnd n t dat, (rnd < 65536)%N -> wf_name n -> type_ok t -> bytes dat ->
  let rq := request_new rnd n t in
  plain_query (rq_header rq) (rq_question rq) rnd n t /\
  let (a, r') := request_to_wire rq (mr_new dat) in
  if 16 + length (n_raw n) <=? length dat then a = Ok (length (mr_bytes r')) /\ request_from_wire (mr_bytes r') = Ok rq else a = Err.
Proof.
  intros rnd n t dat R W T B. split; [|exact (request_round_trip dat _ B (request_new_ok rnd n t R W T))].
  repeat (split; [first [reflexivity|intros []; split; first [discriminate|reflexivity]]|]). reflexivity.
Qed.
Print Assumptions C76_request.
Theorem C76_response : forall rnd n t dat, (rnd < 65536)%N -> wf_name n -> type_ok t -> bytes dat ->
  let r := response_with_question rnd n t in
  plain_query (r_header r) (r_question r) rnd n t /\ (forall s, get_section r s = None) /\
  let (a, r') := (header_to_wire (r_header r) ;; question_to_wire (r_question r) ;; mr_length) (mr_new dat) in
  if 16 + length (n_raw n) <=? length dat then a = Ok (length (mr_bytes r')) /\ response_from_wire (mr_bytes r') = Ok r else a = Err.
Proof.
  intros rnd n t dat R W T B. destruct (with_question_ok rnd n t R W T) as (Hk & Hq & Qk & _).
  split; [|split; [intros []; reflexivity|exact (head_only dat _ _ B Hk Qk Hq)]].
  repeat (split; [first [reflexivity|intros []; split; first [discriminate|reflexivity]]|]). reflexivity.
Qed.
(** The three calls in [C76_response] are what [Response::to_wire] does on it. *)
Theorem C76_response_wire : forall rnd n t rd, response_to_wire (response_with_question rnd n t) rd =
  (header_to_wire (r_header (response_with_question rnd n t)) ;; question_to_wire (r_question (response_with_question rnd n t)) ;; mr_length) rd.
Proof.
  intros rnd n t rd. unfold response_to_wire, bind. set (h := r_header _). set (q := r_question _). destruct (header_to_wire h rd) as [[[]| | |] r1]; auto.
Qed.
Print Assumptions C76_response.
Print Assumptions C76_response_wire.
Example C76_ex : wf_name (nm ["www"; "b"]) /\ type_ok TAAAA /\ mr_bytes (snd (request_to_wire (request_new 258 (nm ["www"; "b"]) TAAAA) (mr_new (zeros 64)))) =
  [1; 2; 1; 0; 0; 1; 0; 0; 0; 0; 0; 0; 3; 119; 119; 119; 1; 98; 0; 0; 28; 0; 1]%N.
Proof.
  split; [|split; [split; vm_compute; reflexivity|vm_compute; reflexivity]]. eexists. split; [|reflexivity].
  split; [repeat constructor; vm_compute; lia|vm_compute; lia].
Qed.

(** * C77: NotifyResponse::new *)
(** It takes over everything of the request and sets QR ... *)
Theorem C77_fields : forall n, (h_flag (nq_header n) < 65536)%N -> let h := np_header (notify_response_new n) in
  np_question (notify_response_new n) = nq_question n /\ h_id h = h_id (nq_header n) /\ h_opcode h = h_opcode (nq_header n) /\ h_rcode h = h_rcode (nq_header n) /\
  h_qd h = h_qd (nq_header n) /\ h_an h = h_an (nq_header n) /\ h_ns h = h_ns (nq_header n) /\ h_ar h = h_ar (nq_header n) /\
  forall f, header_is_set h f = true <-> f = QR \/ header_is_set (nq_header n) f = true.
Proof.
  intros n L h. destruct (set_flag_spec (nq_header n) QR QR true L) as (_ & S1 & S2 & S3 & S4 & S5 & S6 & S7 & _). split; [reflexivity|]. do 7 (split; [assumption|]).
  intros f. destruct (set_flag_spec (nq_header n) QR f true L) as (S9 & _). unfold h. cbn [np_header notify_response_new]. rewrite S9.
  destruct f; cbn [flag_bit N.eqb Pos.eqb]; split; auto; intros [X|X]; auto; discriminate.
Qed.
Print Assumptions C77_fields.
(** ... and what [to_wire] writes for the answer to a NOTIFY without SOA is a well-formed response that decodes to the
    same header and question ... *)
Theorem C77_decodes_partial : forall dat rnd zone, bytes dat -> (rnd < 65536)%N -> wf_name zone ->
  let p := notify_response_new (notify_new rnd zone None) in
  let (a, r') := notify_response_to_wire p (mr_new dat) in
  if 16 + length (n_raw zone) <=? length dat
  then a = Ok (length (mr_bytes r')) /\ response_from_wire (mr_bytes r') = Ok (mkResponse (np_header p) (np_question p) None None None)
  else a = Err.
Proof. intros dat rnd zone B R W p. exact (notify_reply dat rnd zone None B R W). Qed.
Print Assumptions C77_decodes_partial.
(** ... but for a NOTIFY that carries an SOA, the answer count it takes over is 1 while no record is written: no decoder of
    the library accepts the bytes, whatever the zone, SOA, id and buffer. *)
Theorem C77_soa_refuted : forall dat rnd zone soa, bytes dat -> (rnd < 65536)%N -> wf_name zone -> 16 + length (n_raw zone) <= length dat ->
  let (a, r') := notify_response_to_wire (notify_response_new (notify_new rnd zone (Some soa))) (mr_new dat) in
  a = Ok (length (mr_bytes r')) /\ response_from_wire (mr_bytes r') = Err.
Proof.
  intros dat rnd zone soa B R W L. pose proof (notify_reply dat rnd zone (Some soa) B R W) as H. cbv zeta in H. destruct (notify_response_to_wire _ _) as [a r'].
  rewrite (proj2 (Nat.leb_le _ _) L) in H. exact H.
Qed.
Print Assumptions C77_soa_refuted.
Example C77_ex : mr_bytes (snd (notify_response_to_wire (notify_response_new (notify_new 258 (nm ["b"]) None)) (mr_new (zeros 64)))) =
  [1; 2; 164; 0; 0; 1; 0; 0; 0; 0; 0; 0; 1; 98; 0; 0; 6; 0; 1]%N /\
  mr_bytes (snd (notify_response_to_wire (notify_response_new (notify_new 258 (nm ["b"]) (Some glue))) (mr_new (zeros 64)))) =
  [1; 2; 164; 0; 0; 1; 0; 1; 0; 0; 0; 0; 1; 98; 0; 0; 6; 0; 1]%N.
Proof. vm_compute. split; reflexivity. Qed.

(** * C78: ResponseBuilder setters *)
(** Whatever was called, each field has the value last given to it (or its old one), the counts are untouched, and a
    section that no call names is untouched. *)
Theorem C78_last_write : forall ops r r', (h_flag (r_header r) < 65536)%N -> build ops r = Ok r' ->
  h_id (r_header r') = latest w_id ops (h_id (r_header r)) /\ h_opcode (r_header r') = latest w_opcode ops (h_opcode (r_header r)) /\
  h_rcode (r_header r') = latest w_rcode ops (h_rcode (r_header r)) /\ r_question r' = latest w_question ops (r_question r) /\
  (forall f, header_is_set (r_header r') f = latest (w_flag f) ops (header_is_set (r_header r) f)) /\
  (h_qd (r_header r'), h_an (r_header r'), h_ns (r_header r'), h_ar (r_header r')) = (h_qd (r_header r), h_an (r_header r), h_ns (r_header r), h_ar (r_header r)) /\
  forall s, Forall (fun o => ~ on_section s o) ops -> get_section r' s = get_section r s.
Proof. intros ops r r' L H. destruct (setters_last ops r r' L H) as (_ & A1 & A2 & A3 & A4 & A5 & A6 & A7). repeat (split; [assumption|]). exact A7. Qed.
Print Assumptions C78_last_write.
(** [remove_rrset_by] drops exactly the rrsets for which the predicate holds and keeps the others in order; [clear_section]
    drops them all; [with_section] stores what the callback returns. *)
Theorem C78_remove : forall r s f, sets (get_section (remove_rrset_by r s f) s) = filter (fun x => negb (f x)) (sets (get_section r s)) /\
  (forall x, In x (sets (get_section (remove_rrset_by r s f) s)) <-> In x (sets (get_section r s)) /\ f x = false).
Proof.
  intros r s f. assert (E : sets (get_section (remove_rrset_by r s f) s) = filter (fun x => negb (f x)) (sets (get_section r s))).
  { unfold remove_rrset_by. destruct (get_section r s) as [l|] eqn:E; [rewrite get_put, Nat.eqb_refl; reflexivity|rewrite E; reflexivity]. }
  split; [exact E|]. intros x. rewrite E, filter_In, negb_true_iff. tauto.
Qed.
Theorem C78_clear_with : forall r s f, get_section (clear_section r s) s = None /\ get_section (with_section r s f) s = f (get_section r s).
Proof. intros r s f. unfold clear_section, with_section. rewrite !get_put, Nat.eqb_refl. auto. Qed.
Print Assumptions C78_remove.
Print Assumptions C78_clear_with.
Example C78_ex : exists r', build [BId 1; BSet AA; BMake; BId 9; BClear RD; BAdd SAnswer glue; BRcode RNXDomain; BOpcode OUpdate; BRemove SAnswer (fun x => rrtype_eqb (rs_type x) TA); BClear AA] start = Ok r' /\
  h_id (r_header r') = 9%N /\ header_is_set (r_header r') AA = false /\ header_is_set (r_header r') QR = true /\ header_is_set (r_header r') RD = false /\ r_answer r' = Some [].
Proof. eexists. split; [reflexivity|]. vm_compute. repeat split. Qed.

(** * C79: what a builder program makes survives the wire *)
(** Programs of calls with arguments in range always succeed.  [done] gives a message that, encoded without truncation,
    decodes to the very same message - when no [remove_rrset_by] was called, ... *)
Theorem C79_round_trip_partial : forall rnd n t ops, (rnd < 65536)%N -> wf_name n -> type_ok t -> Forall good_op ops ->
  exists r, build ops (response_with_question rnd n t) = Ok r /\
    ((blen (records (r_answer r)) < 65536)%N -> (blen (records (r_authority r)) < 65536)%N -> (blen (records (r_additional r)) < 65536)%N ->
     forall dat k r', bytes dat -> (N.of_nat (length dat) <= 65535)%N -> response_to_wire (builder_done r) (mr_new dat) = (Ok k, r') ->
       all_records (builder_done r) = [] \/ k <> head_size (builder_done r) ->
       k = length (mr_bytes r') /\ response_from_wire (mr_bytes r') = Ok (builder_done r)).
Proof.
  intros rnd n t ops R W T F. destruct (C37_consistent rnd n t ops R W T F) as (r & E & C). exists r. split; [exact E|]. intros L1 L2 L3 dat k r' B L H Tr.
  destruct (C28_round_trip dat _ k r' B (C L1 L2 L3) L H Tr) as (A1 & _ & A2). auto.
Qed.
Print Assumptions C79_round_trip_partial.
(** ... and in general to the same message up to sections that [remove_rrset_by] emptied. *)
Theorem C79_tidy_partial : forall rnd n t ops, (rnd < 65536)%N -> wf_name n -> type_ok t -> Forall fair_op ops ->
  exists r, build ops (response_with_question rnd n t) = Ok r /\
    ((blen (records (r_answer r)) < 65536)%N -> (blen (records (r_authority r)) < 65536)%N -> (blen (records (r_additional r)) < 65536)%N ->
     consistent (tidy (builder_done r)) /\
     forall dat k r', bytes dat -> (N.of_nat (length dat) <= 65535)%N -> response_to_wire (builder_done r) (mr_new dat) = (Ok k, r') ->
       all_records (builder_done r) = [] \/ k <> head_size (builder_done r) ->
       k = length (mr_bytes r') /\ response_from_wire (mr_bytes r') = Ok (tidy (builder_done r))).
Proof. exact fair_round_trip. Qed.
Print Assumptions C79_tidy_partial.
(** A section emptied by [remove_rrset_by] is [Some(vec![])]; decoding gives [None], which is not equal to it. *)
Theorem C79_refuted : exists r r' k, build [BAdd SAnswer glue; BRemove SAnswer (fun _ => true)] start = Ok r /\
  response_to_wire (builder_done r) (mr_new (zeros 512)) = (Ok k, r') /\ r_answer (builder_done r) = Some [] /\
  exists r2, response_from_wire (mr_bytes r') = Ok r2 /\ r2 <> builder_done r /\ r_answer r2 = None.
Proof.
  eexists. eexists. eexists. split; [reflexivity|]. split; [vm_compute; reflexivity|]. split; [reflexivity|]. eexists. split; [vm_compute; reflexivity|]. split; [|reflexivity].
  intros H. apply (f_equal r_answer) in H. vm_compute in H. discriminate.
Qed.
Print Assumptions C79_refuted.
Example C79_ex : Forall fair_op [BAdd SAnswer glue; BRemove SAnswer (fun _ => true); BAdd SAuthority glue; BEdns ex_edns; BMake].
Proof.
  assert (G : forall s, good_op (BAdd s glue)) by (intros s; split; [exact glue_ok|discriminate]).
  apply Forall_cons; [apply G|]; apply Forall_cons; [exact Logic.I|]; apply Forall_cons; [apply G|]; apply Forall_cons; [repeat split|]; apply Forall_cons; [exact Logic.I|constructor].
Qed.

(** * C80: Header::clear *)
(** Id, every flag and the four counts are zero afterwards ... *)
Theorem C80_clear_partial : forall h, let c := header_clear h in
  h_id c = 0%N /\ (forall f, header_is_set c f = false) /\ h_qd c = 0%N /\ h_an c = 0%N /\ h_ns c = 0%N /\ h_ar c = 0%N /\ header_ok c.
Proof.
  intros h c. repeat (split; [first [reflexivity|intros []; reflexivity]|]). split; [repeat split; cbn; lia|]. intros i X. discriminate.
Qed.
Print Assumptions C80_clear_partial.
(** ... but opcode and rcode keep their values, so a cleared header still encodes them. *)
Theorem C80_refuted : forall h, h_opcode (header_clear h) = h_opcode h /\ h_rcode (header_clear h) = h_rcode h /\
  (h_opcode h = ONotify -> h_rcode h = RRefused -> mr_bytes (snd (header_to_wire (header_clear h) (mr_new (zeros 12)))) = [0; 0; 32; 5; 0; 0; 0; 0; 0; 0; 0; 0]%N).
Proof. intros h. split; [reflexivity|]. split; [reflexivity|]. intros Eo Er. destruct h. cbn in Eo, Er. subst. vm_compute. reflexivity. Qed.
Print Assumptions C80_refuted.

(** * C81: text that parses is in range *)
(** Whatever [RRset::from_str] accepts is an rrset the wire format can carry, if the text has no backslash (or the names in
    it turn out legal) and the length-prefixed binaries fit their length octet. *)
Theorem C81_one_partial : forall md x s rs, ext_range x -> str s -> rrset_from_str md x s = Ok rs -> Forall wf_name (set_names rs) \/ no_backslash s -> short_binaries rs -> rrset_ok rs.
Proof. exact from_str_ok. Qed.
Print Assumptions C81_one_partial.
Theorem C81_many_partial : forall md x ss rs, ext_range x -> Forall str ss -> rrset_from_strs md x ss = Ok rs -> Forall wf_name (set_names rs) \/ Forall no_backslash ss -> short_binaries rs -> rrset_ok rs.
Proof. exact from_strs_rrset_ok. Qed.
Print Assumptions C81_many_partial.
(** With nothing assumed about the text: what parses is in range exactly if no name has more than 255 octets and no hex field more than its length octet can say. *)
Theorem C81_exact_partial : forall md x s rs, ext_range x -> str s -> rrset_from_str md x s = Ok rs -> (rrset_ok rs <-> short_names rs /\ short_binaries rs).
Proof. exact from_str_exact. Qed.
Print Assumptions C81_exact_partial.
Theorem C81_many_exact_partial : forall md x ss rs, ext_range x -> Forall str ss -> rrset_from_strs md x ss = Ok rs -> (rrset_ok rs <-> short_names rs /\ short_binaries rs).
Proof. exact from_strs_exact. Qed.
Print Assumptions C81_many_exact_partial.
(** A single name: only its total length can be out of range. *)
Theorem C81_name_partial : forall s n, bytes s -> name_new s = Ok n -> (length (n_raw n) <= 255 <-> wf_name n).
Proof. intros s n B E. split; [exact (name_new_sized s n B E)|]. intros (ls & (_ & L) & ->). exact L. Qed.
Print Assumptions C81_name_partial.
(** Without these provisos it fails: an escaped final dot gives an owner of 256 octets, ... *)
Lemma check_bytes : forall s, forallb (fun c => (c <? 256)%N) s = true -> bytes s.
Proof. intros s H. apply Forall_forall. intros c I. rewrite forallb_forall in H. apply N.ltb_lt. apply H. exact I. Qed.
Lemma check_no_backslash : forall s, forallb (fun c => negb (c =? 92)%N) s = true -> no_backslash s.
Proof. intros s H. apply Forall_forall. intros c I. rewrite forallb_forall in H. specialize (H c I). intros ->. discriminate. Qed.
Theorem C81_owner_refuted : exists s rs, str s /\ rrset_from_str Debug std_ext s = Ok rs /\ length (n_raw (rs_name rs)) = 256 /\ ~ rrset_ok rs.
Proof.
  exists (c03_text ++ of_string " 60 IN A 1.2.3.4"). eexists. split; [split; [apply check_bytes; vm_compute; reflexivity|vm_compute; reflexivity]|split; [vm_compute; reflexivity|]].
  split; [vm_compute; reflexivity|]. intros ((ls & Wl & E) & _). apply (f_equal (fun n => length (n_raw n))) in E. cbn [n_raw rs_name name_of] in E.
  destruct Wl as [_ Wl]. unfold wire_len in Wl. rewrite <- E in Wl. revert Wl. vm_compute. lia.
Qed.
Print Assumptions C81_owner_refuted.
(** ... and an NSEC3PARAM salt of 256 octets parses, but does not fit its length octet. *)
Definition long_salt : list N := of_string "example. 60 IN NSEC3PARAM 1 0 5 " ++ List.repeat 97%N 512.
Theorem C81_salt_refuted : exists rs, str long_salt /\ no_backslash long_salt /\ rrset_from_str Debug std_ext long_salt = Ok rs /\ ~ rrset_ok rs.
Proof.
  eexists. split; [split; [apply check_bytes; vm_compute; reflexivity|vm_compute; reflexivity]|]. split; [apply check_no_backslash; vm_compute; reflexivity|]. split; [vm_compute; reflexivity|].
  intros (_ & _ & _ & _ & F & _). cbn [rs_rdatas rs_type] in F. inversion F as [|? ? [W _] _]; subst. clear F. destruct W as (_ & ks & E & F). cbn [rd_fields] in F. cbn [rfc_layout] in E. inversion E; subst ks.
  do 3 (inversion F as [|? ? ? ? _ F1]; subst; clear F; rename F1 into F). inversion F as [|? ? ? ? W _]; subst. destruct W as [W _]. revert W. clear. vm_compute. lia.
Qed.
Print Assumptions C81_salt_refuted.
Example C81_ex : ext_range std_ext /\ str (of_string "a.example. 60 IN MX 10 mail.example.") /\ no_backslash (of_string "a.example. 60 IN MX 10 mail.example.") /\
  rrset_from_str Debug std_ext (of_string "a.example. 60 IN MX 10 mail.example.") =
  Ok (mkRRset (nm ["a"; "example"]) TMX CIN 60 [mkRData DMX [VU16 10; VName (nm ["mail"; "example"])]]).
Proof.
  split; [exact std_ext_range|]. split; [split; [apply check_bytes; vm_compute; reflexivity|vm_compute; reflexivity]|]. split; [apply check_no_backslash; vm_compute; reflexivity|]. vm_compute. reflexivity.
Qed.

(** * C82: response_builder::build *)
(** Exactly when it succeeds and what it then is: the rrsets of the texts, added in order, section by section, an OPT record
    with the given size, QR set, the counts filled in. *)
Theorem C82_program : forall md x rnd nm t an au ad udp r, build_response md x rnd nm t an au ad udp = Ok r <->
  exists n a b c r0, name_new nm = Ok n /\ Forall2 (fun ss rs => rrset_from_strs md x ss = Ok rs) an a /\ Forall2 (fun ss rs => rrset_from_strs md x ss = Ok rs) au b /\
    Forall2 (fun ss rs => rrset_from_strs md x ss = Ok rs) ad c /\ build (program a b c udp) (response_with_question rnd n t) = Ok r0 /\ r = builder_done r0.
Proof. exact build_response_program. Qed.
Print Assumptions C82_program.
(** Question, id, opcode, rcode and flags of the result. *)
Theorem C82_head : forall md x rnd nm t an au ad udp r, build_response md x rnd nm t an au ad udp = Ok r -> exists n, name_new nm = Ok n /\
  r_question r = mkQuestion n t CIN /\ h_id (r_header r) = rnd /\ h_opcode (r_header r) = OQuery /\ h_rcode (r_header r) = RNoError /\
  forall f, header_is_set (r_header r) f = true <-> f = QR \/ f = RD.
Proof. exact build_response_head. Qed.
Print Assumptions C82_head.
(** The advertised size is what [Response::get_edns] gives back, if it fits 16 bits. *)
Theorem C82_edns_partial : forall md x rnd nm t an au ad udp r, ext_range x -> (rnd < 65536)%N -> str nm -> (forall n, name_new nm = Ok n -> length (n_raw n) <= 255) -> type_ok t ->
  texts_ok md x an -> texts_ok md x au -> texts_ok md x ad -> build_response md x rnd nm t an au ad udp = Ok r -> (forall u, udp = Some u -> u < 65536)%N ->
  get_edns r = Ok (match udp with Some u => Some (mkEdns 0 0 u false None) | None => None end).
Proof.
  intros md x rnd nm t an au ad udp r X R Sn Nb T Ta Tb Tc E L. rewrite (build_response_edns md x rnd nm t an au ad udp r X R Sn Nb T Ta Tb Tc E).
  destruct udp as [u|]; [|reflexivity]. specialize (L u eq_refl). unfold as_u16. rewrite N.mod_small by exact L. reflexivity.
Qed.
Print Assumptions C82_edns_partial.
(** It encodes and decodes to itself. *)
Theorem C82_round_trip_partial : forall md x rnd nm t an au ad udp r, ext_range x -> (rnd < 65536)%N -> str nm -> (forall n, name_new nm = Ok n -> length (n_raw n) <= 255) -> type_ok t ->
  texts_ok md x an -> texts_ok md x au -> texts_ok md x ad -> build_response md x rnd nm t an au ad udp = Ok r ->
  (blen (records (r_answer r)) < 65536)%N -> (blen (records (r_authority r)) < 65536)%N -> (blen (records (r_additional r)) < 65536)%N ->
  consistent r /\ forall dat k r', bytes dat -> (N.of_nat (length dat) <= 65535)%N -> response_to_wire r (mr_new dat) = (Ok k, r') -> all_records r = [] \/ k <> head_size r ->
    k = length (mr_bytes r') /\ response_from_wire (mr_bytes r') = Ok r.
Proof.
  intros md x rnd nm t an au ad udp r X R Sn Nb T Ta Tb Tc E L1 L2 L3. pose proof (build_response_ok md x rnd nm t an au ad udp r X R Sn Nb T Ta Tb Tc E L1 L2 L3) as C. split; [exact C|].
  intros dat k r' B L Ew D. destruct (C28_round_trip dat r k r' B C L Ew D) as (A1 & _ & A2). auto.
Qed.
Print Assumptions C82_round_trip_partial.
(** A size of 65536 or more is cut to 16 bits: 66048 is advertised as 512. *)
Theorem C82_refuted : exists r, build_response Debug std_ext 1 (of_string "example.") TA [] [] [] (Some 66048%N) = Ok r /\ get_edns r = Ok (Some (mkEdns 0 0 512 false None)).
Proof. eexists. split; vm_compute; reflexivity. Qed.
Print Assumptions C82_refuted.
Definition ex_ans : list (list (list N)) := [[of_string "a.example. 60 IN A 1.2.3.4"; of_string "a.example. 60 IN A 1.2.3.5"]].
Example C82_ex : texts_ok Debug std_ext ex_ans /\ texts_ok Debug std_ext [] /\ exists r, build_response Debug std_ext 1 (of_string "a.example.") TA ex_ans [] [] (Some 1232%N) = Ok r /\
  length (all_records r) = 3.
Proof.
  split; [|split; [split; [constructor|intros ss rs []]|]].
  - split.
    + apply Forall_cons; [|constructor]. apply Forall_cons; [|apply Forall_cons; [|constructor]]; (split; [apply check_bytes; vm_compute; reflexivity|vm_compute; reflexivity]).
    + intros ss rs [<-|[]] E. assert (E1 : rrset_from_strs Debug std_ext [of_string "a.example. 60 IN A 1.2.3.4"; of_string "a.example. 60 IN A 1.2.3.5"] =
        Ok (mkRRset (nm ["a"; "example"]) TA CIN 60 [mkRData DA [VIpv4 [1; 2; 3; 4]%N]; mkRData DA [VIpv4 [1; 2; 3; 5]%N]])) by (vm_compute; reflexivity).
      rewrite E1 in E. inversion E; subst rs. split; [discriminate|]. split; [constructor; [vm_compute; lia|constructor]|]. intros rd d [<-|[<-|[]]] [H|[]]; discriminate.
  - eexists. split; vm_compute; reflexivity.
Qed.

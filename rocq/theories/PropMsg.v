(** Property theorems C25-C34, C62-C64: rdata and whole messages.  Models: RDataModel.v, MsgModel.v; specification:
    SpecMsg.v (with SpecName, SpecBuf, SpecCodes). *)
From Coq Require String.
From Verif Require Import Base NameModel RenderModel CodesModel RDataModel MsgModel SpecName SpecBuf SpecCodes SpecMsg
  BufProofs LiveProofs PropBuf DecodeProofs RDataProofs MsgProofs MsgProofs4 MsgProofs7 IndepProofs FirstProofs FitProofs MsgProofs8.
From Verif Require Big2Proofs.
Import String.StringSyntax.
Open Scope string_scope.
Open Scope list_scope.
Open Scope nat_scope.

(** * Examples used below *)
Definition nm (l : list String.string) : name := name_of (map of_string l).
Definition ipv4 (a b c d : N) : rdata := mkRData DA [VIpv4 [a; b; c; d]].
Definition cname (n : name) : rdata := mkRData DCName [VName n].
(** www.Example.com. A ?  with a CNAME, two addresses, a name server, its address and an OPT record *)
Definition ex_response : response :=
  mkResponse (mkHeader 4660 (hf_set (hf_set 0 QR) RD) OQuery RNoError 1 3 1 2)
    (mkQuestion (nm ["www"; "Example"; "com"]) TA CIN)
    (Some [mkRRset (nm ["www"; "Example"; "com"]) TCNAME CIN 300 [cname (nm ["web"; "example"; "com"])];
           mkRRset (nm ["web"; "example"; "com"]) TA CIN 60 [ipv4 192 0 2 1; ipv4 192 0 2 2]])
    (Some [mkRRset (nm ["example"; "com"]) TNS CIN 3600 [mkRData DNS [VName (nm ["ns"; "example"; "com"])]]])
    (Some [mkRRset (nm ["ns"; "example"; "com"]) TA CIN 3600 [ipv4 192 0 2 53]; mkRRset (nm []) TOPT (CUnknown 4096) 32768 []]).
Definition zeros (n : nat) : list N := repeat 0%N n.
Lemma zeros_bytes : forall n, bytes (zeros n).
Proof. intros n. apply Forall_forall. intros x H. apply repeat_spec in H. subst. reflexivity. Qed.
Definition ex_wire : list N := mr_bytes (snd (response_to_wire ex_response (mr_new (zeros 512)))).
Lemma ex_wire_bytes : bytes ex_wire.
Proof. unfold ex_wire. vm_compute. repeat constructor. Qed.
Lemma ex_wire_decodes : response_from_wire ex_wire = Ok ex_response.
Proof. vm_compute. reflexivity. Qed.
Lemma ex_consistent : consistent ex_response.
Proof. destruct (response_from_wire_sound ex_wire ex_response ex_wire_bytes ex_wire_decodes) as (an & ns & ar & _ & _ & C & _). exact C. Qed.

(** * C25: decoding is total *)
Theorem C25_response_total : forall w, bytes w -> safe (response_from_wire w).
Proof. exact response_from_wire_total. Qed.
Print Assumptions C25_response_total.
Theorem C25_request_total : forall w, bytes w -> safe (request_from_wire w).
Proof. exact request_from_wire_total. Qed.
Print Assumptions C25_request_total.
Example C25_ex : bytes ex_wire /\ length ex_wire = 135 /\ response_from_wire ex_wire = Ok ex_response /\ response_from_wire (firstn 60 ex_wire) = Err.
Proof. split; [exact ex_wire_bytes|]. vm_compute. repeat split. Qed.

(** * C26: rdata written anywhere in a message decodes to itself and takes exactly its announced length *)
Theorem C26_rdata_round_trip : forall dat hs r t rd r', bytes dat -> history (mr_new dat) hs r -> wf_rdata t rd ->
  rdata_to_wire rd r = (Ok tt, r') ->
  rdata_from_wire t (N.of_nat (mr_len r' - mr_len r)) (mkIn (mr_bytes r') (mr_len r)) = (Ok rd, mkIn (mr_bytes r') (mr_len r')).
Proof. exact rdata_round_trip. Qed.
Print Assumptions C26_rdata_round_trip.
Theorem C26_rdata_write_safe : forall dat hs r t rd, bytes dat -> history (mr_new dat) hs r -> wf_rdata t rd -> safe (fst (rdata_to_wire rd r)).
Proof. exact rdata_to_wire_safe. Qed.
Print Assumptions C26_rdata_write_safe.
Definition ex_naptr : rdata := mkRData DNAPTR [VU16 100; VU16 10; VByteBin (of_string "u"); VByteBin (of_string "sip+E2U"); VByteBin []; VName (nm ["a"; "bc"])].
Example C26_ex : wf_rdata TNAPTR ex_naptr /\ exists hs r r', history (mr_new (zeros 64)) hs r /\ length hs = 1 /\ rdata_to_wire ex_naptr r = (Ok tt, r') /\
  mr_bytes r' = [2; 98; 99; 0;  0; 100; 0; 10; 1; 117; 7; 115; 105; 112; 43; 69; 50; 85; 0; 1; 97; 192; 0]%N.
Proof.
  split.
  - split; [reflexivity|]. eexists. split; [reflexivity|]. unfold ex_naptr. cbn [rd_fields].
    repeat match goal with |- Forall2 _ (_ :: _) _ => constructor | |- Forall2 _ [] _ => constructor end; cbn [wf_field]; try reflexivity;
      try (split; [vm_compute; lia|vm_compute; repeat constructor]).
    exists [of_string "a"; of_string "bc"]. split; [|reflexivity]. split; [repeat constructor; vm_compute; lia|vm_compute; lia].
  - eexists _, _, _. split; [|split; [|split]].
    + apply (hist_step (mr_new (zeros 64)) [] (mr_new (zeros 64)) (MName [of_string "bc"] true)); [apply hist_nil|split; [repeat constructor; vm_compute; lia|vm_compute; lia]|vm_compute; reflexivity].
    + reflexivity.
    + vm_compute. reflexivity.
    + vm_compute. reflexivity.
Qed.

(** * C27: RData::from_wire(t, len) succeeds exactly on len octets that are the layout of a t record *)
Theorem C27_exact_length : forall w p t L rd q, bytes w -> p <= length w -> (L < 65536)%N ->
  (rdata_from_wire t L (mkIn w p) = (Ok rd, mkIn w q) <-> wf_rdata t rd /\ q = p + N.to_nat L /\ fields_at w p q (rd_fields rd)).
Proof. exact rdata_from_wire_iff. Qed.
Print Assumptions C27_exact_length.
Theorem C27_total : forall w p t L, bytes w -> p <= length w -> (L < 65536)%N ->
  exists a q, rdata_from_wire t L (mkIn w p) = (a, mkIn w q) /\ q <= length w /\ safe a.
Proof. exact rdata_from_wire_total. Qed.
Print Assumptions C27_total.
Example C27_ex : rdata_from_wire TMX 4 (mkIn [7; 0; 5; 1; 97; 0]%N 1) = (Err, mkIn [7; 0; 5; 1; 97; 0]%N 6) /\
  rdata_from_wire TMX 5 (mkIn [7; 0; 5; 1; 97; 0]%N 1) = (Ok (mkRData DMX [VU16 5; VName (nm ["a"])]), mkIn [7; 0; 5; 1; 97; 0]%N 6).
Proof. vm_compute. split; reflexivity. Qed.

(** * C62: the layout written *)
Theorem C62_layout : forall dat hs r t rd r', bytes dat -> history (mr_new dat) hs r -> wf_rdata t rd ->
  rdata_to_wire rd r = (Ok tt, r') -> fields_at (mr_bytes r') (mr_len r) (mr_len r') (rd_fields rd).
Proof. exact rdata_wire_layout. Qed.
Print Assumptions C62_layout.

(** * C28: a completely rendered response decodes to itself.
    Truncation is visible in the returned length: it is then that of header and question. *)
Theorem C28_round_trip : forall dat r n r', bytes dat -> consistent r -> (N.of_nat (length dat) <= 65535)%N -> response_to_wire r (mr_new dat) = (Ok n, r') ->
  all_records r = [] \/ n <> head_size r ->
  n = length (mr_bytes r') /\ message_at (mr_bytes r') (r_question r) (records (r_answer r)) (records (r_authority r)) (records (r_additional r)) /\
  response_from_wire (mr_bytes r') = Ok r.
Proof. exact response_round_trip. Qed.
Print Assumptions C28_round_trip.
Example C28_ex : consistent ex_response /\ fst (response_to_wire ex_response (mr_new (zeros 512))) = Ok 135 /\ head_size ex_response = 33.
Proof. split; [exact ex_consistent|]. vm_compute. split; reflexivity. Qed.

(** * C29: decode, encode, decode again *)
Theorem C29_reencode : forall w r dat n r', bytes w -> bytes dat -> (N.of_nat (length dat) <= 65535)%N -> response_from_wire w = Ok r ->
  response_to_wire r (mr_new dat) = (Ok n, r') -> all_records r = [] \/ n <> head_size r -> response_from_wire (mr_bytes r') = Ok r.
Proof. exact reencode. Qed.
Print Assumptions C29_reencode.
Example C29_ex : response_from_wire ex_wire = Ok ex_response /\ fst (response_to_wire ex_response (mr_new (zeros 135))) = Ok 135.
Proof. vm_compute. split; reflexivity. Qed.

(** * C30: what to_wire leaves in the buffer when it returns: everything, or header and question with TC set; an error only if not even these fit.
    (The panic is the subject of C31.) *)
Theorem C30_outcome : forall dat r a r', bytes dat -> consistent r -> (N.of_nat (length dat) <= 65535)%N -> response_to_wire r (mr_new dat) = (a, r') -> a <> Panic ->
  if head_size r <=? length dat
  then (a = Ok (mr_len r') /\ message_at (mr_bytes r') (r_question r) (records (r_answer r)) (records (r_authority r)) (records (r_additional r)) /\
        length (mr_bytes r') = mr_len r' /\ response_from_wire (mr_bytes r') = Ok r /\ (all_records r <> [] -> head_size r < mr_len r')) \/
       (all_records r <> [] /\ a = Ok (head_size r) /\ truncated r (mr_bytes r') /\ response_from_wire (mr_bytes r') = Ok (tc_only r))
  else a = Err.
Proof.
  intros dat r a r' B C L E N. pose proof (response_outcome dat r a r' B C L E) as H. destruct (head_size r <=? length dat); [|exact H].
  destruct H as [H|(R & [H|H])]; [left; exact H|right; auto|contradiction].
Qed.
Print Assumptions C30_outcome.
Example C30_ex : fst (response_to_wire ex_response (mr_new (zeros 134))) = Ok 33 /\
  mr_bytes (snd (response_to_wire ex_response (mr_new (zeros 134)))) =
    ([18; 52; 131; 0; 0; 1; 0; 0; 0; 0; 0; 0] ++ n_raw (nm ["www"; "Example"; "com"]) ++ [0; 1; 0; 1])%N.
Proof. vm_compute. split; reflexivity. Qed.

(** * C31: to_wire panics exactly when the buffer ends between the question and the end of the first thing written after it *)
Theorem C31_panic_window_partial : forall r, consistent r -> exists k, k <= 255 /\ (k = 0 <-> all_records r = []) /\
  forall dat, bytes dat -> (fst (response_to_wire r (mr_new dat)) = Panic <-> head_size r <= length dat < head_size r + k).
Proof. exact panic_window. Qed.
Print Assumptions C31_panic_window_partial.
Theorem C31_refuted : exists r dat, consistent r /\ bytes dat /\ length dat = head_size r /\ fst (response_to_wire r (mr_new dat)) = Panic.
Proof. exists ex_response, (zeros 33). split; [exact ex_consistent|]. split; [apply zeros_bytes|]. vm_compute. split; reflexivity. Qed.
Print Assumptions C31_refuted.

(** * C32: the sections hold the records on the wire, in order *)
Theorem C32_sections_partial : forall w r, bytes w -> response_from_wire w = Ok r -> exists an ns ar,
  message_at w (r_question r) an ns ar /\ acceptable an ns ar /\ consistent r /\ header_from_wire (mkIn w 0) = (Ok (r_header r), mkIn w 12) /\
  (Forall2 rr_like an (records (r_answer r)) /\ Forall2 rr_like ns (records (r_authority r)) /\ Forall2 rr_like ar (records (r_additional r))) /\
  (collects an (r_answer r) /\ collects ns (r_authority r) /\ collects ar (r_additional r)) /\
  (uniform an -> records (r_answer r) = an) /\ (uniform ns -> records (r_authority r) = ns) /\ (uniform ar -> records (r_additional r) = ar).
Proof. exact response_sections. Qed.
Print Assumptions C32_sections_partial.
(** TTL and class of a record after the first of its rrset are lost: these two messages decode alike. *)
Definition two_as (class2 : list N) (ttl2 : list N) : list N :=
  ([0; 9; 128; 0; 0; 1; 0; 2; 0; 0; 0; 0] ++ [1; 97; 0; 0; 1; 0; 1] ++ [192; 12; 0; 1; 0; 1; 0; 0; 0; 7; 0; 4; 1; 2; 3; 4] ++
   [192; 12; 0; 1] ++ class2 ++ ttl2 ++ [0; 4; 5; 6; 7; 8])%N.
Theorem C32_refuted : response_from_wire (two_as [0; 1]%N [0; 0; 0; 7]%N) = response_from_wire (two_as [0; 3]%N [0; 0; 0; 99]%N) /\
  exists r, response_from_wire (two_as [0; 3]%N [0; 0; 0; 99]%N) = Ok r /\
    r_answer r = Some [mkRRset (nm ["a"]) TA CIN 7 [ipv4 1 2 3 4; ipv4 5 6 7 8]].
Proof. split; [vm_compute; reflexivity|]. eexists. vm_compute. split; reflexivity. Qed.
Print Assumptions C32_refuted.
Example C32_ex : exists an ns ar, message_at ex_wire (r_question ex_response) an ns ar /\ length an = 3 /\ length ns = 1 /\ length ar = 2.
Proof.
  destruct (C32_sections_partial ex_wire ex_response ex_wire_bytes ex_wire_decodes) as (an & ns & ar & Hm & _ & _ & _ & (L1 & L2 & L3) & _).
  exists an, ns, ar. split; auto. clear Hm.
  repeat match goal with H : Forall2 _ _ _ |- _ => vm_compute in H; repeat (let H' := fresh in inversion H as [|? ? ? ? _ H']; subst; clear H; rename H' into H) end.
  repeat match goal with H : Forall2 _ _ _ |- _ => inversion H; subst; clear H end. auto.
Qed.

(** * C33: which messages are accepted *)
Theorem C33_accepted_partial : forall w, bytes w -> ((exists r, response_from_wire w = Ok r) <-> exists q an ns ar, message_at w q an ns ar /\ acceptable an ns ar).
Proof. exact response_accepts_iff. Qed.
Print Assumptions C33_accepted_partial.
Definition a_rr : list N := [0; 0; 1; 0; 1; 0; 0; 0; 0; 0; 4; 1; 2; 3; 4]%N.
Definition opt_rr : list N := ([0; 0; 41; 16; 0; 0; 0; 0; 0; 0; 0])%N.
Definition msg (an ns ar : N) (rrs : list N) : list N := ([0; 9; 128; 0; 0; 1; 0; an; 0; ns; 0; ar] ++ [0; 0; 1; 0; 1] ++ rrs)%N.
Theorem C33_opt_in_answer_refuted : exists r l rs, response_from_wire (msg 2 0 0 (a_rr ++ opt_rr)) = Ok r /\
  r_answer r = Some l /\ In rs l /\ rs_type rs = TOPT.
Proof. eexists _, _, _. split; [vm_compute; reflexivity|]. split; [reflexivity|]. split; [right; left; reflexivity|reflexivity]. Qed.
Print Assumptions C33_opt_in_answer_refuted.
Theorem C33_two_opts_refuted : exists r o1 a o2, response_from_wire (msg 0 0 3 (opt_rr ++ a_rr ++ opt_rr)) = Ok r /\
  r_additional r = Some [o1; a; o2] /\ rs_type o1 = TOPT /\ rs_type o2 = TOPT.
Proof. eexists _, _, _, _. split; [vm_compute; reflexivity|]. repeat split. Qed.
Print Assumptions C33_two_opts_refuted.
Example C33_ex : response_from_wire (msg 1 0 0 (opt_rr)) = Err /\ response_from_wire (msg 0 1 0 (opt_rr)) = Err /\
  response_from_wire (msg 0 0 2 (opt_rr ++ opt_rr)) = Err /\ exists r, response_from_wire (msg 1 0 1 (a_rr ++ opt_rr)) = Ok r.
Proof. split; [vm_compute; reflexivity|]. split; [vm_compute; reflexivity|]. split; [vm_compute; reflexivity|]. eexists. vm_compute. reflexivity. Qed.

(** * C34: requests *)
Theorem C34_round_trip : forall dat rq, bytes dat -> request_ok rq ->
  let (a, r') := request_to_wire rq (mr_new dat) in
  if 16 + length (n_raw (q_name (rq_question rq))) <=? length dat
  then a = Ok (length (mr_bytes r')) /\ request_from_wire (mr_bytes r') = Ok rq else a = Err.
Proof. exact request_round_trip. Qed.
Print Assumptions C34_round_trip.
Theorem C34_decoded_partial : forall w r, bytes w -> request_from_wire w = Ok r ->
  header_from_wire (mkIn w 0) = (Ok (rq_header r), mkIn w 12) /\ request_ok r /\
  u16_at w 4 = 1%N /\ u16_at w 6 = 0%N /\ exists e, question_at w 12 e (rq_question r).
Proof. exact request_decoded_ok. Qed.
Print Assumptions C34_decoded_partial.
(** The authority count is never looked at (request.rs checks the answer count twice). *)
Theorem C34_refuted : exists r, request_from_wire (msg 0 1 0 a_rr) = Ok r /\ h_ns (rq_header r) = 1%N.
Proof. eexists. vm_compute. split; reflexivity. Qed.
Print Assumptions C34_refuted.
Example C34_ex : exists r', request_to_wire (request_new 77 (nm ["www"; "example"; "com"]) TAAAA) (mr_new (zeros 40)) = (Ok 33, r') /\
  request_from_wire (mr_bytes r') = Ok (request_new 77 (nm ["www"; "example"; "com"]) TAAAA).
Proof. eexists. vm_compute. split; reflexivity. Qed.

(** * C63: once complete, more room changes nothing *)
Theorem C63_capacity_independent : forall dat dat2 r n r1 a2 r2, bytes dat -> bytes dat2 -> consistent r ->
  response_to_wire r (mr_new dat) = (Ok n, r1) -> response_from_wire (mr_bytes r1) = Ok r ->
  response_to_wire r (mr_new dat2) = (a2, r2) -> n <= length dat2 -> a2 = Ok n /\ mr_bytes r2 = mr_bytes r1.
Proof. exact Big2Proofs.response_indep_any. Qed.
Print Assumptions C63_capacity_independent.
Example C63_ex : fst (response_to_wire ex_response (mr_new (zeros 135))) = Ok 135 /\ mr_bytes (snd (response_to_wire ex_response (mr_new (zeros 135)))) = ex_wire.
Proof. vm_compute. split; reflexivity. Qed.

(** * C64: a response that fits without compression is rendered completely (with compression), unless names collide *)
Theorem C64_fits_partial : forall dat r nss, bytes dat -> consistent r -> response_names r = map name_of nss -> collision_free nss -> plain_size r <= length dat ->
  exists r', response_to_wire r (mr_new dat) = (Ok (mr_len r'), r') /\ mr_len r' <= plain_size r /\
    (N.of_nat (length dat) <= 65535 -> response_from_wire (mr_bytes r') = Ok r)%N.
Proof. exact response_fits. Qed.
Print Assumptions C64_fits_partial.
Definition ex_nss : list (list (list N)) := map (map of_string)
  [["www"; "Example"; "com"]; ["www"; "Example"; "com"]; ["web"; "example"; "com"]; ["web"; "example"; "com"]; ["web"; "example"; "com"];
   ["example"; "com"]; ["ns"; "example"; "com"]; ["ns"; "example"; "com"]; []].
Example C64_ex : response_names ex_response = map name_of ex_nss /\ collision_free ex_nss /\ plain_size ex_response = 219.
Proof. split; [vm_compute; reflexivity|]. split; [apply collision_freeb_ok; vm_compute; reflexivity|vm_compute; reflexivity]. Qed.
(** bafz. and bagd. collide: 122 octets do not fit into 512. *)
Definition ex_collide : response :=
  mkResponse (mkHeader 1 (hf_set 0 QR) OQuery RNoError 1 5 0 0) (mkQuestion (nm ["bafz"]) TA CIN)
    (Some [mkRRset (nm ["bagd"]) TA CIN 1 [ipv4 1 1 1 1; ipv4 1 1 1 2; ipv4 1 1 1 3; ipv4 1 1 1 4; ipv4 1 1 1 5]]) None None.
Definition ex_collide_wire : list N :=
  [0; 1; 128; 0; 0; 1; 0; 5; 0; 0; 0; 0; 4; 98; 97; 102; 122; 0; 0; 1; 0; 1]%N ++
  flat_map (fun i => [4; 98; 97; 103; 100; 0; 0; 1; 0; 1; 0; 0; 0; 1; 0; 4; 1; 1; 1; i]%N) [1; 2; 3; 4; 5]%N.
Lemma ex_collide_consistent : consistent ex_collide.
Proof.
  assert (B : bytes ex_collide_wire) by (vm_compute; repeat constructor).
  assert (D : response_from_wire ex_collide_wire = Ok ex_collide) by (vm_compute; reflexivity).
  destruct (response_from_wire_sound _ _ B D) as (an & ns & ar & _ & _ & C & _). exact C.
Qed.
Theorem C64_refuted : exists r, consistent r /\ plain_size r = 122 /\ fst (response_to_wire r (mr_new (zeros 512))) = Ok (head_size r) /\
  header_is_set (r_header r) TC = false /\ truncated r (mr_bytes (snd (response_to_wire r (mr_new (zeros 512))))).
Proof.
  exists ex_collide. split; [exact ex_collide_consistent|]. split; [vm_compute; reflexivity|]. split; [vm_compute; reflexivity|]. split; [vm_compute; reflexivity|].
  destruct (response_to_wire ex_collide (mr_new (zeros 512))) as [a r'] eqn:E. cbn [snd].
  pose proof (response_outcome _ _ _ _ (zeros_bytes 512) ex_collide_consistent ltac:(vm_compute; discriminate) E) as H.
  assert (Ea : a = Ok 22) by (change a with (fst (a, r')); rewrite <- E; vm_compute; reflexivity).
  change (head_size ex_collide <=? length (zeros 512)) with true in H. change (head_size ex_collide) with 22 in H.
  destruct H as [(H1 & H2 & H3 & H4 & H5)|(_ & [(_ & H & _)|H])]; [exfalso|exact H|congruence].
  assert (22 < mr_len r') by (apply H5; vm_compute; discriminate). rewrite H1 in Ea. inversion Ea. lia.
Qed.
Print Assumptions C64_refuted.

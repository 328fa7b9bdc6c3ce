(** Property theorems for messages beyond 64 KiB: C118.
    Statements use the encoder and decoder models (MsgModel.v) and the vocabulary of SpecName.v, SpecMsg.v and SpecBig.v. *)
From Coq Require String. Import String.StringSyntax.
From Verif Require Import Base NameModel RenderModel CodesModel RDataModel MsgModel SpecName SpecBuf SpecCodes SpecMsg SpecBig BaseLemmas LiveProofs RenderProofs MsgProofs5 BigProofs Big2Proofs PropMsg.
Open Scope string_scope. Open Scope list_scope. Open Scope nat_scope.

(** C118: the truncation contract (C30) and the round trip (C28) in buffers of any size, beyond 65535 octets too, for responses of any size
    each record of which has data that RDLENGTH can count.
    Missing: records with longer data, for which the claim is false of the code (see [C118_refuted]). *)
Theorem C118_outcome_partial : forall dat r a r', bytes dat -> consistent r -> Forall data_fits (all_records r) ->
  response_to_wire r (mr_new dat) = (a, r') -> a <> Panic ->
  if head_size r <=? length dat
  then (a = Ok (mr_len r') /\ message_at (mr_bytes r') (r_question r) (records (r_answer r)) (records (r_authority r)) (records (r_additional r)) /\
        length (mr_bytes r') = mr_len r' /\ response_from_wire (mr_bytes r') = Ok r) \/
       (all_records r <> [] /\ a = Ok (head_size r) /\ truncated r (mr_bytes r') /\ response_from_wire (mr_bytes r') = Ok (tc_only r))
  else a = Err.
Proof. exact outcome_any. Qed.
Print Assumptions C118_outcome_partial.

(** Without hash collisions such a response is written in full whenever it fits without compression. *)
Theorem C118_fits_partial : forall dat r nss, bytes dat -> consistent r -> response_names r = map name_of nss -> collision_free nss -> plain_size r <= length dat ->
  Forall data_fits (all_records r) ->
  exists r', response_to_wire r (mr_new dat) = (Ok (mr_len r'), r') /\ bytes (mr_bytes r') /\ length (mr_bytes r') = mr_len r' /\
    message_at (mr_bytes r') (r_question r) (records (r_answer r)) (records (r_authority r)) (records (r_additional r)) /\ response_from_wire (mr_bytes r') = Ok r.
Proof. intros dat r nss B C N F P D. destruct (fits_any dat r nss B C N F P) as (r' & E & _ & H). exists r'. split; [exact E|exact (H D)]. Qed.
Print Assumptions C118_fits_partial.
(** Octets never decode to a response with a record whose data RDLENGTH cannot count ... *)
Theorem C118_decoded_partial : forall w r, bytes w -> response_from_wire w = Ok r -> Forall (fun x => ~ data_over x) (all_records r).
Proof. exact decoded_not_over. Qed.
Print Assumptions C118_decoded_partial.
(** ... but [to_wire] renders such responses without an error and without TC: any DNSKEY with a key of more than 65531 octets, in any buffer it fits
    in, is reported as written in full (RDLENGTH is cut to 16 bits), and what was written does not decode to it. *)
Definition key_of (n : nat) : rdata := mkRData DDNSKey [VU16 256; VU8 3; VU8 8; VBin (repeat 7%N n)].
Definition keys_response (ks : list rdata) : response :=
  mkResponse (mkHeader 9 (hf_set 0 QR) OQuery RNoError 1 (N.of_nat (length ks)) 0 0) (mkQuestion (nm ["a"]) TDNSKEY CIN)
    (Some [mkRRset (nm ["a"]) TDNSKEY CIN 60 ks]) None None.
Lemma key_wf : forall n, wf_rdata TDNSKEY (key_of n) /\ has_octets (key_of n).
Proof.
  intros n. split.
  - split; [reflexivity|]. eexists. split; [reflexivity|]. repeat constructor.
    apply Forall_forall. intros x Hx. apply repeat_spec in Hx. subst. reflexivity.
  - split; discriminate.
Qed.
Lemma wf_a : wf_name (nm ["a"]).
Proof. exists [of_string "a"]. split; [repeat constructor; vm_compute; lia|reflexivity]. Qed.
Lemma key_consistent : forall n, consistent (keys_response [key_of n]).
Proof.
  intros n. split.
  { split; [repeat split|]. intros i Hi. exists QR. destruct (N.eq_dec i 15) as [->|Ne]; [reflexivity|exfalso].
    change (N.testbit (2 ^ 15) i = true) in Hi. rewrite N.pow2_bits_false in Hi by congruence. discriminate. }
  split; [reflexivity|]. split; [split; [exact wf_a|split; split; reflexivity]|].
  split; [|split; split; [reflexivity|exact I|reflexivity|exact I]].
  split; [reflexivity|]. split; [discriminate|]. split; [|split; [exact I|intros _ rs l' E; inversion E; discriminate]].
  constructor; [|constructor]. split; [exact wf_a|]. split; [split; reflexivity|]. split; [split; reflexivity|]. split; [reflexivity|].
  split; [constructor; [apply key_wf|constructor]|]. split; discriminate.
Qed.
Lemma keys_consistent : forall n m, consistent (keys_response [key_of n; key_of m]).
Proof.
  intros n m. split.
  { split; [repeat split|]. intros i Hi. exists QR. destruct (N.eq_dec i 15) as [->|Ne]; [reflexivity|exfalso].
    change (N.testbit (2 ^ 15) i = true) in Hi. rewrite N.pow2_bits_false in Hi by congruence. discriminate. }
  split; [reflexivity|]. split; [split; [exact wf_a|split; split; reflexivity]|].
  split; [|split; split; [reflexivity|exact I|reflexivity|exact I]].
  split; [reflexivity|]. split; [discriminate|]. split; [|split; [exact I|intros _ rs l' E; inversion E; discriminate]].
  constructor; [|constructor]. split; [exact wf_a|]. split; [split; reflexivity|]. split; [split; reflexivity|]. split; [reflexivity|].
  split; [constructor; [apply key_wf|constructor; [apply key_wf|constructor]]|]. split; discriminate.
Qed.
Theorem C118_refuted : forall n dat, (65531 < N.of_nat n)%N -> bytes dat -> plain_size (keys_response [key_of n]) <= length dat ->
  consistent (keys_response [key_of n]) /\
  exists r', response_to_wire (keys_response [key_of n]) (mr_new dat) = (Ok (mr_len r'), r') /\
    forall w, bytes w -> response_from_wire w <> Ok (keys_response [key_of n]).
Proof.
  intros n dat Hn B P. split; [apply key_consistent|].
  destruct (C64_fits_partial dat (keys_response [key_of n]) [[of_string "a"]; [of_string "a"]] B (key_consistent n) ltac:(reflexivity) ltac:(apply collision_freeb_ok; vm_compute; reflexivity) P) as (r' & E & _).
  exists r'. split; [exact E|]. intros w Bw H. apply decoded_not_over in H; [|exact Bw]. inversion H as [|x l H1 H2 E1]; subst. apply H1.
  unfold data_over. cbn [rr_data key_of rd_fields map field_least field_size list_sum fold_right]. rewrite repeat_length. lia.
Qed.
Print Assumptions C118_refuted.
(** The premise is met by every [n] above 65531: a buffer of [n] + 36 octets will do. *)
Example C118_refuted_size : forall n, plain_size (keys_response [key_of n]) = n + 36.
Proof.
  intros n. unfold plain_size. cbn [all_records records keys_response r_answer r_authority r_additional flat_map rrs_of rs_rdatas map app list_sum fold_right].
  unfold rr_size. cbn [rr_data rd_fields key_of map list_sum fold_right field_size]. rewrite repeat_length.
  change (head_size _) with 19. change (length (n_raw _)) with 3. lia.
Qed.

(** Non-vacuous: two keys of 65531 octets, or of any [n] up to that, make a message of more than 2 n octets that decodes to them. *)
Example C118_ex : forall n dat, (N.of_nat n <= 65531)%N -> bytes dat -> plain_size (keys_response [key_of n; key_of n]) <= length dat ->
  consistent (keys_response [key_of n; key_of n]) /\ Forall data_fits (all_records (keys_response [key_of n; key_of n])) /\
  exists r', response_to_wire (keys_response [key_of n; key_of n]) (mr_new dat) = (Ok (mr_len r'), r') /\
    response_from_wire (mr_bytes r') = Ok (keys_response [key_of n; key_of n]) /\ 2 * n < mr_len r'.
Proof.
  intros n dat Hn B P. split; [apply keys_consistent|].
  assert (F : Forall data_fits (all_records (keys_response [key_of n; key_of n]))).
  { assert (G : forall o t c l, data_fits (mkRR o t c l (Some (key_of n)))).
    { intros o t c l. unfold data_fits. cbn [rr_data key_of rd_fields map]. unfold field_room. cbn [field_size list_sum fold_right]. rewrite repeat_length. lia. }
    constructor; [apply G|constructor; [apply G|constructor]]. }
  split; [exact F|].
  destruct (C118_fits_partial dat (keys_response [key_of n; key_of n]) [[of_string "a"]; [of_string "a"]; [of_string "a"]] B (keys_consistent n n) ltac:(reflexivity) ltac:(apply collision_freeb_ok; vm_compute; reflexivity) P F) as (r' & E & Bw & L & M & D).
  exists r'. split; [exact E|]. split; [exact D|]. apply message_least in M; [|exact Bw]. rewrite L in M. revert M. unfold data_least.
  cbn [records keys_response r_answer r_authority r_additional flat_map rrs_of rs_rdatas map app rr_data rd_fields key_of field_least field_size list_sum fold_right].
  rewrite repeat_length. lia.
Qed.
(** C29 in any buffer: a received message of at most 65000 octets (so any that a 16-bit length prefix can carry, but for the last 535 octets), whatever
    its record types, decodes to a response that, encoded into any buffer, decodes to itself, or is cut to header and question with TC.  Beyond that the
    data of a decoded signature can be longer, once its signer is written out, than RDLENGTH can say. *)
Theorem C118_reencode_partial : forall w r dat a r', bytes w -> bytes dat -> (N.of_nat (length w) <= 65000)%N -> response_from_wire w = Ok r ->
  response_to_wire r (mr_new dat) = (a, r') -> a <> Panic ->
  if head_size r <=? length dat
  then (a = Ok (length (mr_bytes r')) /\ response_from_wire (mr_bytes r') = Ok r) \/
       (all_records r <> [] /\ a = Ok (head_size r) /\ truncated r (mr_bytes r') /\ response_from_wire (mr_bytes r') = Ok (tc_only r))
  else a = Err.
Proof. exact reencode_any. Qed.
Print Assumptions C118_reencode_partial.
Example C118_reencode_ex : bytes ex_wire /\ length ex_wire = 135 /\ response_from_wire ex_wire = Ok ex_response.
Proof. split; [apply Forall_forall; intros x Hx; revert x Hx; apply Forall_forall; vm_compute; repeat constructor|]. vm_compute. split; reflexivity. Qed.
(** Where the data of the records holds no names, the bound on each record is exactly the condition under which what was written in full decodes to the response. *)
Theorem C118_exact_partial : forall dat r n r', bytes dat -> consistent r -> (forall x rd, In x (all_records r) -> rr_data x = Some rd -> Forall no_name (rd_fields rd)) ->
  response_to_wire r (mr_new dat) = (Ok n, r') -> all_records r = [] \/ n <> head_size r ->
  (response_from_wire (mr_bytes r') = Ok r <-> Forall data_fits (all_records r)).
Proof. exact exact_nameless. Qed.
Print Assumptions C118_exact_partial.
(** Both sides occur: keys of 65531 and of 65532 octets. *)
Example C118_exact_ex : forall n, consistent (keys_response [key_of n]) /\
  (forall x rd, In x (all_records (keys_response [key_of n])) -> rr_data x = Some rd -> Forall no_name (rd_fields rd)) /\
  (Forall data_fits (all_records (keys_response [key_of n])) <-> (N.of_nat n <= 65531)%N).
Proof.
  intros n. split; [apply key_consistent|]. split.
  - intros x rd [<-|[]] E. injection E as <-. repeat constructor.
  - assert (E : data_fits (mkRR (nm ["a"]) TDNSKEY CIN 60 (Some (key_of n))) <-> (N.of_nat n <= 65531)%N).
    { unfold data_fits. cbn [rr_data key_of rd_fields map]. unfold field_room. cbn [field_size list_sum fold_right]. rewrite repeat_length. lia. }
    rewrite <- E. split; [intros F; exact (Forall_inv F)|intros F; constructor; [exact F|constructor]].
Qed.

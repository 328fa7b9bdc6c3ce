(** Property theorems C105, C107 and C108: small accessors; more of C65 and C78.  Models: MsgModel.v, AccessModel.v; specification: SpecAccess.v. *)
From Verif Require Import Base BaseLemmas NameModel RenderModel CodesModel RDataModel MsgModel TextModel AccessModel SpecName SpecBuf SpecCodes SpecMsg SpecText SpecAccess SpecBuild BuildProofs TextProofs2 TextProofs3 AccessProofs NotifyProofs Big2Proofs.
From Coq Require String. Import String.StringSyntax. Open Scope string_scope. Open Scope list_scope. Open Scope nat_scope.

(** * C105: [Edns::rr_count] is the number of records that [Edns::to_wire] writes *)
(** What [to_wire] writes is one record, in any message, whatever the options. *)
Theorem C105_one_record : forall dat hs r e r', bytes dat -> history (mr_new dat) hs r -> edns_ok e -> edns_to_wire e r = (Ok tt, r') ->
  forall n, records_at (mr_bytes r') (mr_len r) (mr_len r') n <-> n = 1.
Proof. exact edns_one_record_any. Qed.
Print Assumptions C105_one_record.
(** So [rr_count] is right exactly without options or with a single one... *)
Theorem C105_count_partial : forall dat hs r e r', bytes dat -> history (mr_new dat) hs r -> edns_ok e -> edns_to_wire e r = (Ok tt, r') ->
  (records_at (mr_bytes r') (mr_len r) (mr_len r') (edns_rr_count e) <-> e_options e = None \/ e_options e = Some 1).
Proof.
  intros dat hs r e r' B H He Q. rewrite (edns_one_record_any dat hs r e r' B H He Q). unfold edns_rr_count. destruct (e_options e) as [k|]; split; auto.
  intros [X|X]; congruence.
Qed.
Print Assumptions C105_count_partial.
(** ... which is so for every [Edns] that was decoded. *)
Theorem C105_decoded_partial : forall rs e, edns_from_rrset rs = Ok e -> edns_rr_count e = 1.
Proof.
  intros rs e H. unfold edns_from_rrset in H. destruct (assert_r _); try discriminate H. apply Ok_inj in H. rewrite <- H. reflexivity.
Qed.
Print Assumptions C105_decoded_partial.
Definition two_opts : edns := mkEdns 0 0 1232 true (Some 2).
Theorem C105_options_refuted : exists e r', edns_ok e /\ edns_to_wire e (mr_new (repeat 0%N 64)) = (Ok tt, r') /\
  ~ records_at (mr_bytes r') 0 (mr_len r') (edns_rr_count e).
Proof.
  exists two_opts, (snd (edns_to_wire two_opts (mr_new (repeat 0%N 64)))). assert (He : edns_ok two_opts) by (unfold edns_ok; cbn; lia). split; [exact He|].
  assert (Q : edns_to_wire two_opts (mr_new (repeat 0%N 64)) = (Ok tt, snd (edns_to_wire two_opts (mr_new (repeat 0%N 64))))) by (vm_compute; reflexivity).
  split; [exact Q|]. intros R. assert (B : bytes (repeat 0%N 64)) by (unfold bytes; repeat constructor).
  assert (H : history (mr_new (repeat 0%N 64)) [] (mr_new (repeat 0%N 64))) by constructor.
  pose proof (proj1 (edns_one_record _ _ _ _ _ B ltac:(rewrite repeat_length; lia) H He Q _) R) as X. discriminate X.
Qed.
Print Assumptions C105_options_refuted.
Example C105_ex : edns_ok two_opts /\ edns_rr_count (mkEdns 0 0 1232 true None) = 1 /\ fst (edns_to_wire two_opts (mr_new (repeat 0%N 64))) = Ok tt.
Proof. split; [unfold edns_ok; cbn; lia|]. split; reflexivity. Qed.

(** * C107: time-to-live values survive the text and the wire form *)
Theorem C107_text_round_trip : forall t, (t < 4294967296)%N -> ttl_from_str (ttl_display t) = Ok t.
Proof. intros t H. unfold ttl_from_str, ttl_display. unfold parse_u32. rewrite (parse_dec 4294967296 t) by lia. reflexivity. Qed.
Print Assumptions C107_text_round_trip.
(** The accepted texts are the decimal numbers below 2^32 (C57's [number_text]), each with its value; all others are an error. *)
Theorem C107_accepts : forall s t, ttl_from_str s = Ok t <-> number_text s t /\ (t < 4294967296)%N.
Proof.
  intros s t. rewrite <- (parse_uint_iff 4294967296 s t) by reflexivity. unfold ttl_from_str. destruct (parse_u32 s) eqn:P; unfold parse_u32 in P; rewrite ?P; split; congruence.
Qed.
Print Assumptions C107_accepts.
Theorem C107_no_trap : forall s, ttl_from_str s <> Panic /\ ttl_from_str s <> Hang.
Proof. intros s. unfold ttl_from_str. pose proof (parse_uint_err 4294967296 s eq_refl) as HE. pose proof (parse_uint_iff 4294967296 s) as HI.
  unfold parse_u32. destruct (parse_uint 4294967296 s) eqn:P; try (split; discriminate).
  all: exfalso; assert (X : parse_uint 4294967296 s = Err) by (rewrite P; apply HE; intros (v & Hv); apply HI in Hv; [discriminate Hv|reflexivity]); congruence. Qed.
Print Assumptions C107_no_trap.
Theorem C107_wire : forall dat hs r t, bytes dat -> history (mr_new dat) hs r -> (t < 4294967296)%N ->
  let (a, r') := ttl_to_wire t r in
  if mr_len r + 4 <=? length dat
  then a = Ok tt /\ mr_bytes r' = mr_bytes r ++ u32_bytes t /\ ttl_from_wire (mkIn (mr_bytes r') (mr_len r)) = (Ok t, mkIn (mr_bytes r') (mr_len r'))
  else a = Err.
Proof. exact ttl_written_any. Qed.
Print Assumptions C107_wire.
Example C107_ex : ttl_display 4294967295 = of_string "4294967295" /\ ttl_from_str (of_string "4294967296") = Err /\ ttl_from_str (of_string "+007") = Ok 7%N /\ ttl_from_str (of_string "7s") = Err.
Proof. repeat split; vm_compute; reflexivity. Qed.

(** * C108: buffers can be refilled and drained *)
(** After [set_data] an [InputBuffer] is as a new one over these data, whatever was done with it before. *)
Theorem C108_set_data : forall cs cs' w b, after_calls (cs ++ ISetData w :: cs') b = after_calls cs' (mkIn w 0).
Proof. exact set_data_fresh. Qed.
Print Assumptions C108_set_data.
(** [is_empty] says whether the buffer was given no data, not whether data are left. *)
Theorem C108_is_empty : forall w p, ib_is_empty (mkIn w p) = true <-> w = [].
Proof. intros w p. unfold ib_is_empty, ib_len. cbn [ib_data]. rewrite Nat.eqb_eq. destruct w; cbn; split; congruence. Qed.
Print Assumptions C108_is_empty.
(** [n] words taken with [next], then [left_str]: exactly the text not consumed. *)
Theorem C108_words_then_left : forall pre l rest, taken pre l -> blank_next rest -> valid_utf8 (pre ++ rest) = true ->
  exists b, next_n (length l) (mkSB (pre ++ rest) 0) = (Ok (map Some l), b) /\ left_str b = Ok (match rest with [] => None | r => Some r end).
Proof. exact words_then_left. Qed.
Print Assumptions C108_words_then_left.
Example C108_ex : taken (of_string " 10 a.b") [of_string "10"; of_string "a.b"] /\ blank_next (of_string "  rest of it ") /\
  fst (next_n 2 (mkSB (of_string " 10 a.b  rest of it ") 0)) = Ok [Some (of_string "10"); Some (of_string "a.b")].
Proof.
  split; [|split; [right; exists 32%N; eexists; split; reflexivity|vm_compute; reflexivity]].
  apply (taken_cons (of_string " ") (of_string "10") (of_string " a.b")); try reflexivity; try discriminate; [right; exists 32%N; eexists; split; reflexivity|].
  apply (taken_cons (of_string " ") (of_string "a.b") []); try reflexivity; try discriminate; [left; reflexivity|constructor].
Qed.

(** * C65: the crate's own notify decoder *)
(** On every message that Response::from_wire accepts: it takes the header and the question as they are; with exactly one answer record it
    takes that record if it is a SOA and fails otherwise; with any other answer count it ignores the answers. *)
Theorem C65_decode : forall w r, response_from_wire w = Ok r ->
  (h_an (r_header r) <> 1%N -> notify_read w = Ok (mkNotifyReq (r_header r) (r_question r) None)) /\
  (h_an (r_header r) = 1%N -> exists rs, r_answer r = Some [rs] /\
     (rs_type rs = TSOA -> notify_read w = Ok (mkNotifyReq (r_header r) (r_question r) (Some rs))) /\ (rs_type rs <> TSOA -> notify_read w = Err)).
Proof. exact notify_read_typed. Qed.
Print Assumptions C65_decode.
(** It reads back what NotifyRequest::to_wire wrote. *)
Theorem C65_round_trip : forall dat rnd zone soa, bytes dat -> (rnd < 65536)%N -> wf_name zone ->
  (forall rs, soa = Some rs -> rrset_ok rs /\ rs_type rs = TSOA /\ length (rs_rdatas rs) = 1) ->
  let (a, r') := notify_to_wire (notify_new rnd zone soa) (mr_new dat) in
  a = Err \/ notify_read (mr_bytes r') = Ok (notify_new rnd zone soa).
Proof. exact notify_decode_round_any. Qed.
Print Assumptions C65_round_trip.
Definition nm1 := name_of [of_string "b"; of_string "c"].
Definition soa1 : rrset := mkRRset nm1 TSOA CIN 3600 [mkRData DSOA [VName nm1; VName nm1; VU32 1; VU32 2; VU32 3; VU32 4; VU32 5]].
Example C65_read_ex : notify_read (mr_bytes (snd (notify_to_wire (notify_new 9 nm1 (Some soa1)) (mr_new (repeat 0%N 100))))) = Ok (notify_new 9 nm1 (Some soa1)) /\
  notify_read (mr_bytes (snd (notify_to_wire (notify_new 9 nm1 (Some (mkRRset nm1 TNS CIN 5 [mkRData DNS [VName nm1]]))) (mr_new (repeat 0%N 100))))) = Err.
Proof. split; vm_compute; reflexivity. Qed.

(** * C78: [remove_rrset_by] with a predicate that keeps a state *)
(** It is asked exactly once about each rrset of the section, in order; what it answers [true] to is dropped, the rest stays in order. *)
Theorem C78_remove_mut : forall S (f : S -> rrset -> bool * S) r s st l ds st', get_section r s = Some l -> asked f st l ds st' ->
  remove_rrset_by_mut r s f st = (put_section r s (Some (kept_by l ds)), st').
Proof. exact remove_mut_exact. Qed.
Print Assumptions C78_remove_mut.
(** Such answers always exist, one for each rrset; an absent section is left alone and the predicate is not called; without a state this is
    [remove_rrset_by]. *)
Theorem C78_remove_mut_total : forall S (f : S -> rrset -> bool * S),
  (forall l st, exists ds st', asked f st l ds st' /\ length ds = length l) /\
  (forall r s st, get_section r s = None -> remove_rrset_by_mut r s f st = (r, st)).
Proof. intros S f. split; [exact (remove_mut_total S f)|]. intros r s st G. unfold remove_rrset_by_mut. rewrite G. reflexivity. Qed.
Print Assumptions C78_remove_mut_total.
Theorem C78_remove_mut_pure : forall (f : rrset -> bool) r s, fst (remove_rrset_by_mut r s (fun (st : unit) x => (f x, st)) tt) = remove_rrset_by r s f.
Proof. exact remove_mut_pure. Qed.
Print Assumptions C78_remove_mut_pure.
(** Dropping all but the first rrset with a counter. *)
Example C78_mut_ex : let rs n := mkRRset nm1 (TUnknown n) CIN 5 [] in
  asked (fun k (_ : rrset) => (0 <? k, k + 1)) 0 [rs 1%N; rs 2%N; rs 3%N] [false; true; true] 3 /\
  kept_by [rs 1%N; rs 2%N; rs 3%N] [false; true; true] = [rs 1%N].
Proof. cbv zeta. split; [repeat (econstructor; [reflexivity|]); constructor|reflexivity]. Qed.

(** Property theorems C21-C24: header, flags, numeric codes, mnemonics.  Model: CodesModel.v; specification: SpecCodes.v. *)
From Coq Require Import String.
From Verif Require Import Base NameModel RenderModel CodesModel SpecName SpecBuf SpecCodes BufProofs CodesProofs WireProofs PropBuf.
Open Scope list_scope.
Open Scope nat_scope.

(** C21: whatever has been rendered before, a rendered header takes 12 bytes and decodes to itself. *)
Theorem C21_header_round_trip : forall dat hs r h r', bytes dat -> history (mr_new dat) hs r -> header_ok h ->
  header_to_wire h r = (Ok tt, r') ->
  header_from_wire (mkIn (mr_bytes r') (mr_len r)) = (Ok h, mkIn (mr_bytes r') (mr_len r')) /\ mr_len r' = mr_len r + 12.
Proof. exact header_round_trip. Qed.
Print Assumptions C21_header_round_trip.
(** Decoding any bytes and encoding the result again keeps id, counts, the seven flags and every assigned opcode and rcode. *)
Theorem C21_header_reencode : forall w p h b dat hs r r', bytes w -> p <= List.length w -> header_from_wire (mkIn w p) = (Ok h, b) ->
  bytes dat -> history (mr_new dat) hs r -> header_to_wire h r = (Ok tt, r') ->
  let x := mr_bytes r' in let q := mr_len r in
  bytes_at x q 2 = bytes_at w p 2 /\
  (forall k, In k [4; 6; 8; 10] -> bytes_at x (q + k) 2 = bytes_at w (p + k) 2) /\
  let f := be_val (bytes_at w (p + 2) 2) in
  let f' := be_val (bytes_at x (q + 2) 2) in
  (forall fl, N.testbit f' (flag_bit fl) = N.testbit f (flag_bit fl)) /\
  (In (opcode_field f) [0; 1; 2; 4; 5]%N -> opcode_field f' = opcode_field f) /\
  (rcode_field f <= 10 -> rcode_field f' = rcode_field f)%N.
Proof. exact header_reencode. Qed.
Print Assumptions C21_header_reencode.
(** The fields a decoded header reports are those of the wire format. *)
Theorem C21_header_decode : forall w p h b, bytes w -> p <= List.length w -> header_from_wire (mkIn w p) = (Ok h, b) ->
  p + 12 <= List.length w /\ b = mkIn w (p + 12) /\ header_ok h /\
  h_id h = be_val (bytes_at w p 2) /\ h_qd h = be_val (bytes_at w (p + 4) 2) /\ h_an h = be_val (bytes_at w (p + 6) 2) /\
  h_ns h = be_val (bytes_at w (p + 8) 2) /\ h_ar h = be_val (bytes_at w (p + 10) 2) /\
  let f := be_val (bytes_at w (p + 2) 2) in
  (forall fl, header_is_set h fl = N.testbit f (flag_bit fl)) /\
  (forall s, In (s, opcode_field f) iana_opcodes -> opcode_u8 (h_opcode h) = opcode_field f) /\
  (forall s, In (s, rcode_field f) iana_rcodes -> rcode_u8 (h_rcode h) = rcode_field f).
Proof. exact header_decode_spec. Qed.
Print Assumptions C21_header_decode.
Definition ex_header : header :=
  header_set_flag (header_set_flag (header_set_flag (header_set_flag (mkHeader 4660 0 ONotify RNXDomain 1 2 3 65535) QR true) AA true) RD true) RA true.
Example C21_ex : header_ok ex_header /\ exists r', header_to_wire ex_header ex_render = (Ok tt, r').
Proof.
  split.
  - do 4 apply set_flag_ok. split; [repeat split; reflexivity|]. intros i H. cbn [h_flag] in H. rewrite N.bits_0 in H. discriminate.
  - eexists. vm_compute. reflexivity.
Qed.

(** C22 *)
Theorem C22_set_flag : forall h f g b, (h_flag h < 65536)%N ->
  header_is_set (header_set_flag h f b) g = (if N.eqb (flag_bit f) (flag_bit g) then b else header_is_set h g) /\
  h_id (header_set_flag h f b) = h_id h /\ h_opcode (header_set_flag h f b) = h_opcode h /\
  h_rcode (header_set_flag h f b) = h_rcode h /\ h_qd (header_set_flag h f b) = h_qd h /\ h_an (header_set_flag h f b) = h_an h /\
  h_ns (header_set_flag h f b) = h_ns h /\ h_ar (header_set_flag h f b) = h_ar h /\ (h_flag (header_set_flag h f b) < 65536)%N.
Proof. exact set_flag_spec. Qed.
Print Assumptions C22_set_flag.
Theorem C22_flags_distinct : forall f g, flag_bit f = flag_bit g -> f = g.
Proof. exact flag_bit_inj. Qed.
Print Assumptions C22_flags_distinct.
Theorem C22_setted_flags : forall w f, (In f (hf_setted w) <-> hf_is_set w f = true) /\ NoDup (hf_setted w).
Proof. exact setted_spec. Qed.
Print Assumptions C22_setted_flags.
(** Headers keep using only flag bits, so C21 applies to every header the API can build. *)
Theorem C22_closed : forall h f b, header_ok h -> header_ok (header_set_flag h f b).
Proof. exact set_flag_ok. Qed.
Print Assumptions C22_closed.
Example C22_ex : header_is_set (header_set_flag ex_header TC true) TC = true /\ header_is_set ex_header TC = false
  /\ hf_setted (h_flag ex_header) = [QR; AA; RD; RA].
Proof. repeat split. Qed.

(** C23 *)
Theorem C23_type_code : forall v, rrtype_u16 (rrtype_new v) = v.
Proof. exact rrtype_num. Qed.
Print Assumptions C23_type_code.
Theorem C23_type_of_code : forall t, (forall v, t = TUnknown v -> forall s, ~ In (s, v) iana_types) -> rrtype_new (rrtype_u16 t) = t.
Proof. exact rrtype_of_code. Qed.
Print Assumptions C23_type_of_code.
Theorem C23_type_iana : forall s v, In (s, v) iana_types -> rrtype_from_str s = Ok (rrtype_new v) /\ forall x, rrtype_new v <> TUnknown x.
Proof. exact rrtype_iana. Qed.
Print Assumptions C23_type_iana.
Theorem C23_class_code : forall v, rrclass_u16 (rrclass_new v) = v.
Proof. exact rrclass_num. Qed.
Print Assumptions C23_class_code.
Theorem C23_class_of_code : forall t, (forall v, t = CUnknown v -> forall s, ~ In (s, v) iana_classes) -> rrclass_new (rrclass_u16 t) = t.
Proof. exact rrclass_of_code. Qed.
Print Assumptions C23_class_of_code.
Theorem C23_class_iana : forall s v, In (s, v) iana_classes -> rrclass_from_str s = Ok (rrclass_new v) /\ rrclass_str (rrclass_new v) = s.
Proof. exact rrclass_iana. Qed.
Print Assumptions C23_class_iana.
Theorem C23_opcode : (forall o, opcode_new (opcode_u8 o) = o) /\
  forall s v, In (s, v) iana_opcodes -> opcode_u8 (opcode_new v) = v /\ opcode_str (opcode_new v) = s.
Proof. exact opcode_iana. Qed.
Print Assumptions C23_opcode.
Theorem C23_rcode : (forall o, rcode_new (rcode_u8 o) = o) /\
  forall s v, In (s, v) iana_rcodes -> rcode_u8 (rcode_new v) = v /\ rcode_str (rcode_new v) = s.
Proof. exact rcode_iana. Qed.
Print Assumptions C23_rcode.
Example C23_ex : rrtype_new 99 = TUnknown 99 /\ rrtype_u16 (TUnknown 99) = 99%N /\ rrtype_new 257 = TCAA.
Proof. repeat split. Qed.

(** C24 *)
Theorem C24_type_text_partial : forall t s, (forall v, t <> TUnknown v) -> t <> TCERT -> same_text s (rrtype_str t) -> rrtype_from_str s = Ok t.
Proof. exact rrtype_text. Qed.
Print Assumptions C24_type_text_partial.
(** CERT prints as URI. *)
Theorem C24_cert_refuted : rrtype_from_str (rrtype_str TCERT) = Ok TURI.
Proof. reflexivity. Qed.
Print Assumptions C24_cert_refuted.
Theorem C24_class_text : forall t s, (forall v, t <> CUnknown v) -> same_text s (rrclass_str t) -> rrclass_from_str s = Ok t.
Proof. exact rrclass_text. Qed.
Print Assumptions C24_class_text.
Theorem C24_rcode_text : forall t s, same_text s (rcode_str t) -> rcode_from_str s = Ok t.
Proof. exact rcode_text. Qed.
Print Assumptions C24_rcode_text.
(** Exactly which texts parse as a given code: the spellings of its IANA mnemonic ([spells]: any case, and the two non-ASCII
    characters whose upper-case forms are S and I). *)
Theorem C24_type_accepts : forall s t, type_ok t ->
  (rrtype_from_str s = Ok t <-> exists m, In (m, rrtype_u16 t) iana_types /\ spells (of_string s) (of_string m)).
Proof. exact rrtype_accepts. Qed.
Print Assumptions C24_type_accepts.
Theorem C24_class_accepts : forall s c, class_ok c ->
  (rrclass_from_str s = Ok c <-> exists m, In (m, rrclass_u16 c) iana_classes /\ spells (of_string s) (of_string m)).
Proof. exact rrclass_accepts. Qed.
Print Assumptions C24_class_accepts.
Theorem C24_rcode_accepts : forall s r, r <> RReserved ->
  (rcode_from_str s = Ok r <-> exists m, In (m, rcode_u8 r) iana_rcodes /\ spells (of_string s) (of_string m)).
Proof. exact rcode_accepts. Qed.
Print Assumptions C24_rcode_accepts.
(** Only the mnemonics, in any letter case, are accepted among ASCII texts. *)
Theorem C24_type_only_ascii_partial : forall s t, Forall (fun c => (c < 128)%N) (of_string s) -> rrtype_from_str s = Ok t ->
  exists m, In (m, rrtype_u16 t) iana_types /\ same_text s m.
Proof. exact rrtype_only_ascii. Qed.
Print Assumptions C24_type_only_ascii_partial.
(** The restriction is needed: N followed by U+017F (long s) parses as NS. *)
Definition long_s : string := String (Ascii.ascii_of_N 78) (String (Ascii.ascii_of_N 197) (String (Ascii.ascii_of_N 191) EmptyString)).
Theorem C24_long_s_refuted : rrtype_from_str long_s = Ok TNS /\ forall m, In m iana_types -> ~ same_text long_s (fst m).
Proof.
  split; [reflexivity|]. intros m I. unfold iana_types in I. cbn [In] in I.
  repeat (destruct I as [<-|I]; [cbn; intro H; discriminate H|]). destruct I.
Qed.
Print Assumptions C24_long_s_refuted.
Example C24_spells_ex : type_ok TNS /\ spells (of_string long_s) (of_string "NS").
Proof. split; [split; reflexivity|]. apply spl_char; [reflexivity|]. apply spl_long_s, spl_nil. Qed.
Example C24_ex : same_text "nsec3ParaM" "NSEC3PARAM" /\ rrtype_from_str "nsec3ParaM" = Ok TNSEC3PARAM.
Proof. split; reflexivity. Qed.

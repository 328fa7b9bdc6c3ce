(** Property theorems C19 (text part), C42-C44, C56-C59, C66, C67: text formats.  Model: TextModel.v; specification: SpecText.v.
    The functions taken from other crates (std::net, base64, time) are a parameter [x : ext]; [ext_ok x] is their contract
    and ExtInstance.v gives an implementation that meets it. *)
From Coq Require String.
From Verif Require Import Base NameModel RenderModel CodesModel RDataModel MsgModel TextModel SpecName SpecBuf SpecCodes SpecMsg SpecText
  TextProofs TextProofs2 TextProofs3 TextProofs4 TextProofs5 TextProofs6 RandProofs ExtInstance SpecUtf8 Utf8Proofs SpecPanic PanicProofs.
Import String.StringSyntax.
Open Scope string_scope.
Open Scope list_scope.
Open Scope nat_scope.

(** * C19 (character strings and hex): the output is ASCII *)
Theorem C19_string_ascii : forall d, bytes d -> Forall (fun c => 32 <= c <= 126)%N (string_to_str d).
Proof. exact string_to_str_ascii. Qed.
Print Assumptions C19_string_ascii.
Theorem C19_hex_ascii : forall d, bytes d -> exists t, to_hex d = Ok t /\ Forall (fun c => 33 <= c <= 126)%N t.
Proof. intros d B. destruct (to_from_hex d B) as (t & E & A & _). exists t. auto. Qed.
Print Assumptions C19_hex_ascii.
Example C19_text_ex : string_to_str [0; 34; 92; 255; 97]%N = of_string """\000\""\\\255a""" /\ to_hex [0; 171]%N = Ok (of_string "00ab").
Proof. split; vm_compute; reflexivity. Qed.

(** * C42: hex *)
Theorem C42_round_trip : forall d, bytes d -> exists t, to_hex d = Ok t /\ from_hex t = Some d.
Proof. intros d B. destruct (to_from_hex d B) as (t & E & _ & R). exists t. auto. Qed.
Print Assumptions C42_round_trip.
Theorem C42_from_hex : forall s d, from_hex s = Some d <-> map hex_value (hex_digits s) = map Some (flat_map nibbles d) /\ bytes d.
Proof. exact from_hex_iff. Qed.
Print Assumptions C42_from_hex.
Theorem C42_from_hex_none : forall s, from_hex s = None <->
  (exists c, In c s /\ hex_space c = false /\ hex_value c = None) \/ Nat.odd (length (hex_digits s)) = true.
Proof. exact from_hex_none. Qed.
Print Assumptions C42_from_hex_none.
Example C42_ex : from_hex (of_string "De aD") = Some [222; 173]%N /\ from_hex (of_string "abc") = None /\ from_hex (of_string "0g") = None.
Proof. repeat split; vm_compute; reflexivity. Qed.

(** * C43: quoted character strings *)
(** What is accepted, and what it denotes. *)
Theorem C43_string_accepts : forall raw pos gap t rest d, skipn pos raw = gap ++ 34%N :: t ++ 34%N :: rest -> pos <= length raw ->
  forallb is_ws gap = true -> quoted t d -> 1 <= length d <= 255 ->
  read_char_string (mkSB raw pos) = (Ok d, mkSB raw (pos + length gap + length t + 2)).
Proof. exact read_char_string_complete. Qed.
Print Assumptions C43_string_accepts.
Theorem C43_string_sound : forall raw pos d b', pos <= length raw -> read_char_string (mkSB raw pos) = (Ok d, b') ->
  exists gap t rest, skipn pos raw = gap ++ 34%N :: t ++ 34%N :: rest /\ forallb is_ws gap = true /\ quoted t d /\
    1 <= length d <= 255 /\ b' = mkSB raw (pos + length gap + length t + 2).
Proof. exact read_char_string_sound. Qed.
Print Assumptions C43_string_sound.
Theorem C43_string_total : forall raw pos, pos <= length raw -> safe (fst (read_char_string (mkSB raw pos))).
Proof. exact read_char_string_safe. Qed.
Print Assumptions C43_string_total.
(** Reading what the formatter wrote. *)
Theorem C43_string_round_trip : forall raw pos gap d rest, skipn pos raw = gap ++ string_to_str d ++ rest -> pos <= length raw ->
  forallb is_ws gap = true -> bytes d -> 1 <= length d <= 255 ->
  read_char_string (mkSB raw pos) = (Ok d, mkSB raw (pos + length gap + length (string_to_str d))).
Proof. exact string_round_trip. Qed.
Print Assumptions C43_string_round_trip.
Theorem C43_text_iff : forall raw pos ds b', pos <= length raw ->
  read_text (mkSB raw pos) = (Ok ds, b') <-> texts (skipn pos raw) ds /\ b' = mkSB raw (length raw).
Proof. exact read_text_iff. Qed.
Print Assumptions C43_text_iff.
Theorem C43_text_total : forall raw pos, pos <= length raw -> safe (fst (read_text (mkSB raw pos))).
Proof. exact read_text_safe. Qed.
Print Assumptions C43_text_total.
Theorem C43_text_round_trip : forall ds, ds <> [] -> Forall (fun d => bytes d /\ 1 <= length d <= 255) ds ->
  fst (read_text (mkSB (text_to_str ds) 0)) = Ok ds.
Proof.
  intros ds Nn F. assert (E : read_text (mkSB (text_to_str ds) 0) = (Ok ds, mkSB (text_to_str ds) (length (text_to_str ds)))).
  { apply read_text_iff; [lia|]. split; [|reflexivity]. apply text_to_str_texts; auto. }
  rewrite E. reflexivity.
Qed.
Print Assumptions C43_text_round_trip.
Example C43_ex : fst (read_text (mkSB (of_string " ""a\""\066c"" ""x""") 0)) = Ok [of_string "a""Bc"; of_string "x"].
Proof. vm_compute. reflexivity. Qed.
(** Limits: the empty string is refused although the formatter writes it, and so is white space after the last string. *)
Theorem C43_empty_refused : fst (read_char_string (mkSB (string_to_str []) 0)) = Err.
Proof. vm_compute. reflexivity. Qed.
Theorem C43_trailing_space_refused : fst (read_text (mkSB (of_string """a"" ") 0)) = Err.
Proof. vm_compute. reflexivity. Qed.

(** * C44: the tokenizer *)
(** White space, here and in C43: space, tab, line feed, form feed, carriage return. *)
Theorem C44_white : forall c, is_ws c = true <-> (c = 32 \/ c = 9 \/ c = 10 \/ c = 12 \/ c = 13)%N.
Proof.
  intros c. unfold is_ws. rewrite !orb_true_iff, !N.eqb_eq. tauto.
Qed.
Print Assumptions C44_white.
Theorem C44_next_words : forall s l, valid_utf8 s = true -> words s l -> nexts l (mkSB s 0).
Proof. intros s l V W. apply words_nexts with (s := s); auto. lia. Qed.
Print Assumptions C44_next_words.
(** From any position that is a character boundary. *)
Theorem C44_next_words_from : forall raw pos l, pos <= length raw -> valid_utf8 (skipn pos raw) = true -> words (skipn pos raw) l ->
  nexts l (mkSB raw pos).
Proof. intros raw pos l L V W. apply words_nexts with (s := skipn pos raw); auto. Qed.
Print Assumptions C44_next_words_from.
Theorem C44_words_exist_unique : forall s, exists l, words s l /\ forall l', words s l' -> l' = l.
Proof. intros s. destruct (words_exist s) as [l W]. exists l. split; auto. intros l' W'. eapply words_det; eauto. Qed.
Print Assumptions C44_words_exist_unique.
Example C44_ex : words (of_string " ab  c ") [of_string "ab"; of_string "c"] /\ valid_utf8 (of_string " ab  c ") = true.
Proof.
  split; [|vm_compute; reflexivity].
  apply (words_cons [32%N] (of_string "ab") (of_string "  c ") [of_string "c"]); [reflexivity|discriminate|reflexivity|right; exists 32%N, (of_string " c "); split; reflexivity|].
  apply (words_cons [32;32]%N (of_string "c") (of_string " ") []); [reflexivity|discriminate|reflexivity|right; exists 32%N, []; split; reflexivity|].
  apply words_nil. reflexivity.
Qed.

(** * C56: random names *)
Theorem C56_random_name : forall r, exists ls r', gen_next r = (Ok (name_of ls), r') /\ wf_labels ls /\ ls <> [] /\ Forall (Forall ldh) ls.
Proof. exact gen_next_ok. Qed.
Print Assumptions C56_random_name.
Example C56_ex : exists n r', gen_next (fun i => i) = (Ok n, r').
Proof. destruct (gen_next_ok (fun i => i)) as (ls & r' & E & _). eauto. Qed.

(** * C57: decimal numbers *)
Theorem C57_round_trip_u8 : forall n, (n < 256)%N -> parse_u8 (dec n) = Ok n.
Proof. intros n H. apply parse_dec; lia. Qed.
Print Assumptions C57_round_trip_u8.
Theorem C57_round_trip_u16 : forall n, (n < 65536)%N -> parse_u16 (dec n) = Ok n.
Proof. intros n H. apply parse_dec; lia. Qed.
Print Assumptions C57_round_trip_u16.
Theorem C57_round_trip_u32 : forall n, (n < 4294967296)%N -> parse_u32 (dec n) = Ok n.
Proof. intros n H. apply parse_dec; lia. Qed.
Print Assumptions C57_round_trip_u32.
Theorem C57_printed : forall n, (n < 4294967296)%N -> canonical_dec (dec n) /\ dec_val (dec n) = n.
Proof. exact dec_spec. Qed.
Print Assumptions C57_printed.
Theorem C57_accepts : forall s v,
  (parse_u8 s = Ok v <-> number_text s v /\ (v < 256)%N) /\ (parse_u16 s = Ok v <-> number_text s v /\ (v < 65536)%N) /\
  (parse_u32 s = Ok v <-> number_text s v /\ (v < 4294967296)%N).
Proof. intros s v. split; [|split]; apply parse_uint_iff; reflexivity. Qed.
Print Assumptions C57_accepts.
Theorem C57_refuses : forall s,
  (parse_u8 s = Err <-> ~ exists v, number_text s v /\ (v < 256)%N) /\ (parse_u16 s = Err <-> ~ exists v, number_text s v /\ (v < 65536)%N) /\
  (parse_u32 s = Err <-> ~ exists v, number_text s v /\ (v < 4294967296)%N).
Proof. intros s. split; [|split]; apply parse_uint_err; reflexivity. Qed.
Print Assumptions C57_refuses.
Example C57_ex : dec 4294967295 = of_string "4294967295" /\ parse_u32 (of_string "+4294967295") = Ok 4294967295%N /\ parse_u32 (of_string "4294967296") = Err
  /\ parse_u16 (of_string "065535") = Ok 65535%N /\ parse_u8 (of_string "") = Err.
Proof. repeat split; vm_compute; reflexivity. Qed.

(** * C58: records in master-file form *)
Theorem C58_rrset_text_partial : forall x rs, ext_ok x -> text_rrset rs -> exists lines,
  rrset_display x rs = Ok (flat_map (fun l => l ++ [10%N]) lines) /\
  Forall2 (fun line rd => record_line x rs rd line /\ ~ In 10%N line /\
    forall md a b, forallb is_ws a = true -> forallb is_ws b = true ->
      rrset_from_str md x (a ++ line ++ b) = Ok (mkRRset (rs_name rs) (rs_type rs) (rs_class rs) (rs_ttl rs) [rd])) lines (rs_rdatas rs).
Proof. exact rrset_display_lines. Qed.
Print Assumptions C58_rrset_text_partial.
Definition tnm (l : list String.string) : name := name_of (map of_string l).
Definition ex_sig : rrset :=
  mkRRset (tnm ["host"; "example"; "com"]) TRRSIG CIN 86400
    [mkRData DRRSig [VType TA; VU8 5; VU8 3; VU32 86400; VU32 1048354263; VU32 4294967295; VU16 2642; VName (tnm ["example"; "com"]); VBin [10; 255; 0; 7]%N]].
Definition ex_txt : rrset := mkRRset (tnm ["a_b"; "c"]) TTXT CCH 7 [mkRData DTXT [VText [[34; 92; 0; 200]%N; of_string "x y"]]; mkRData DTXT [VText [of_string "z"]]].
Lemma wf_text_rrset_ex : text_rrset ex_sig /\ text_rrset ex_txt.
Proof.
  assert (W : forall l, wf_labels (map of_string l) /\ plain_labels (map of_string l) -> exists ls, wf_labels ls /\ plain_labels ls /\ tnm l = name_of ls).
  { intros l [A B]. exists (map of_string l). repeat split; auto; apply A. }
  split.
  - split; [apply W; split; vm_compute; repeat constructor; try discriminate|]. split; [reflexivity|]. split; [discriminate|]. split; [split; discriminate|].
    constructor; [|constructor]. split; [reflexivity|]. split; [eexists; split; [reflexivity|repeat constructor]|].
    constructor; [split; discriminate|]. do 6 (constructor; [vm_compute; reflexivity|]). constructor; [apply W; split; vm_compute; repeat constructor; try discriminate|].
    constructor; [|constructor]. split; [repeat constructor|]. split; [discriminate|]. intros [E|[E|E]]; discriminate.
  - split; [apply W; split; vm_compute; repeat constructor; try discriminate|]. split; [reflexivity|]. split; [discriminate|]. split; [split; discriminate|].
    constructor; [|constructor; [|constructor]]; (split; [reflexivity|]; split; [eexists; split; [reflexivity|repeat constructor]|]; constructor; [|constructor]; split; [discriminate|]).
    + constructor; [split; [vm_compute; repeat constructor|vm_compute; lia]|]. constructor; [|constructor]. split; [vm_compute; repeat constructor|vm_compute; lia].
    + constructor; [|constructor]. split; [vm_compute; repeat constructor|vm_compute; lia].
Qed.
Example C58_ext_ex : ext_ok std_ext.
Proof. exact std_ext_ok. Qed.
Example C58_ex : text_rrset ex_sig /\ text_rrset ex_txt /\
  rrset_display std_ext ex_sig = Ok (of_string "host.example.com.	86400	IN	RRSIG	A 5 3 86400 20030322173103 21060207062815 2642 example.com. Cv8ABw==
") /\ rrset_display std_ext ex_txt = Ok (of_string "a_b.c.	7	CH	TXT	""\""\\\000\200""""x y""
a_b.c.	7	CH	TXT	""z""
").
Proof. destruct wf_text_rrset_ex. repeat split; try apply H; try apply H0; vm_compute; reflexivity. Qed.
(** The property without the restrictions of [text_rrset] is false of the code. *)
Definition text_round_trip (x : ext) : Prop := forall rs rd, wf_name (rs_name rs) -> wf_rdata (rs_type rs) rd -> rs_rdatas rs = [rd] ->
  exists line, rrset_display x rs = Ok line /\ rrset_from_str Release x line = Ok rs.
(** An NSEC3PARAM record without salt prints an empty field, which cannot be read back. *)
Definition ex_nosalt : rrset := mkRRset (tnm ["a"]) TNSEC3PARAM CIN 1 [mkRData DNSEC3Param [VU8 1; VU8 0; VU16 0; VByteBin []]].
(** The mnemonic of CERT is not accepted by the parser of types. *)
Definition ex_cert : rrset := mkRRset (tnm ["a"]) TCERT CIN 1 [mkRData DCERT [VU16 1; VU16 2; VU8 3; VBin [1%N]]].
(** An empty character string prints as two quotes, which the reader refuses. *)
Definition ex_emptytxt : rrset := mkRRset (tnm ["a"]) TTXT CIN 1 [mkRData DTXT [VText [[]]]].
(** A class without mnemonic. *)
Definition ex_class : rrset := mkRRset (tnm ["a"]) TA (CUnknown 77) 1 [mkRData DA [VIpv4 [1;2;3;4]%N]].
Theorem C58_refuted : ~ text_round_trip std_ext /\
  Forall (fun rs => exists line, rrset_display std_ext rs = Ok line /\ rrset_from_str Release std_ext line = Err) [ex_nosalt; ex_cert; ex_emptytxt; ex_class].
Proof.
  split.
  - intro H. destruct (H ex_nosalt (mkRData DNSEC3Param [VU8 1; VU8 0; VU16 0; VByteBin []])) as (line & E1 & E2).
    + exists (map of_string ["a"]). split; [vm_compute; repeat constructor; try discriminate|reflexivity].
    + split; [reflexivity|]. eexists. split; [reflexivity|]. repeat constructor.
    + reflexivity.
    + vm_compute in E1. apply BaseLemmas.Ok_inj in E1. subst line. vm_compute in E2. discriminate.
  - repeat constructor; eexists; (split; [vm_compute; reflexivity|vm_compute; reflexivity]).
Qed.
Print Assumptions C58_refuted.

(** * C59: from_strs *)
Theorem C59_from_strs_partial : forall md x ss rs, ss <> [] -> rrset_from_strs md x ss = Ok rs <->
  exists sets r0, Forall2 (fun s r => rrset_from_str md x s = Ok r) ss sets /\ nth_error sets 0 = Some r0 /\
    Forall (fun r => rs_type r = rs_type r0) sets /\ (length ss > 1 -> rs_type r0 <> TOPT) /\
    rs = mkRRset (rs_name r0) (rs_type r0) (rs_class r0) (rs_ttl r0) (flat_map rs_rdatas sets).
Proof. exact from_strs_ok. Qed.
Print Assumptions C59_from_strs_partial.
Example C59_ex : rrset_from_strs Debug std_ext [of_string "a.b. 5 IN A 1.2.3.4"; of_string "a.b. 5 IN A 4.3.2.1"] =
  Ok (mkRRset (tnm ["a"; "b"]) TA CIN 5 [mkRData DA [VIpv4 [1;2;3;4]%N]; mkRData DA [VIpv4 [4;3;2;1]%N]]).
Proof. vm_compute. reflexivity. Qed.
(** Owner names, classes and ttls of the later lines are not looked at, and no line at all is a panic. *)
Theorem C59_same_owner_class_refuted :
  rrset_from_strs Debug std_ext [of_string "a.b. 5 IN A 1.2.3.4"; of_string "x.y. 9 CH A 4.3.2.1"] =
  Ok (mkRRset (tnm ["a"; "b"]) TA CIN 5 [mkRData DA [VIpv4 [1;2;3;4]%N]; mkRData DA [VIpv4 [4;3;2;1]%N]]) /\
  forall md x, rrset_from_strs md x [] = Panic.
Proof. split; [vm_compute; reflexivity|reflexivity]. Qed.
Print Assumptions C59_same_owner_class_refuted.

(** * C66: parsing text never panics *)
(** The inputs C66 ranges over are exactly the Rust strings: [valid_utf8] holds of the encodings of sequences of Unicode scalar
    values and of nothing else; what parsing skips as blank space is exactly Unicode's white space. *)
Theorem C66_str : forall s, valid_utf8 s = true <-> exists cs, Forall scalar cs /\ s = flat_map utf8 cs.
Proof. exact utf8_spec. Qed.
Print Assumptions C66_str.
Theorem C66_white : ws_chars = map utf8 white_space.
Proof. reflexivity. Qed.
Print Assumptions C66_white.
Theorem C66_rrset_from_str_ascii_partial : forall md x s, ascii s -> md = Release \/ trim s <> [] -> safe (rrset_from_str md x s).
Proof. exact rrset_from_str_safe. Qed.
Print Assumptions C66_rrset_from_str_ascii_partial.
Theorem C66_rrset_from_str_panics_partial : forall md x s, valid_utf8 s = true -> ~ safe (rrset_from_str md x s) ->
  md = Debug /\ trim s = [] \/ exists w, occurs w (trim s) /\ spells (of_string (string_of w)) (of_string "RRSIG").
Proof. exact rrset_from_str_panic. Qed.
Print Assumptions C66_rrset_from_str_panics_partial.
Theorem C66_rdata_from_str_partial : forall md x t s, valid_utf8 s = true /\ t <> TRRSIG \/ ascii s -> md = Release \/ s <> [] -> safe (rdata_from_str md x t s).
Proof. exact rdata_from_str_safe. Qed.
Print Assumptions C66_rdata_from_str_partial.
(** Exactly when: in a build with debug assertions an all-blank text, and in any build a line whose owner, ttl, class, type RRSIG and first fields are in order
    and whose expiration or inception time has 14 bytes with a character lying across the end of a group of digits ([torn_line], SpecPanic.v). *)
Theorem C66_rrset_from_str_exact_partial : forall md x s ws, valid_utf8 s = true -> words (trim s) ws ->
  (rrset_from_str md x s = Panic <-> (md = Debug /\ trim s = []) \/ torn_line x ws) /\ rrset_from_str md x s <> Hang.
Proof. exact rrset_panics. Qed.
Print Assumptions C66_rrset_from_str_exact_partial.
Theorem C66_rdata_from_str_exact_partial : forall md x t s ws, valid_utf8 s = true -> words s ws ->
  (rdata_from_str md x t s = Panic <-> (md = Debug /\ s = []) \/ (t = TRRSIG /\ torn_rrsig x ws)) /\ rdata_from_str md x t s <> Hang.
Proof. exact rdata_panics. Qed.
Print Assumptions C66_rdata_from_str_exact_partial.
Theorem C66_rrset_from_strs_exact_partial : forall md x ss, rrset_from_strs md x ss = Panic <->
  ss = [] \/ exists pre s post, ss = pre ++ s :: post /\ rrset_from_str md x s = Panic /\ (pre = [] \/ exists rs, rrset_from_strs md x pre = Ok rs /\ rs_type rs <> TOPT).
Proof. exact from_strs_panics. Qed.
Print Assumptions C66_rrset_from_strs_exact_partial.
Theorem C66_rrset_from_strs_ends : forall md x ss, Forall (fun s => valid_utf8 s = true) ss -> rrset_from_strs md x ss <> Hang.
Proof. exact from_strs_ends. Qed.
Print Assumptions C66_rrset_from_strs_ends.
(** The time field itself: which words are times and which time they are; which panic; all others are errors. *)
Theorem C66_time_field_partial : forall x s w ws, valid_utf8 s = true -> words s (w :: ws) ->
  (forall t, fst (timestamp_from_str x (mkSB s 0)) = Ok t <-> time_text x w t) /\ (fst (timestamp_from_str x (mkSB s 0)) = Panic <-> torn_time x w) /\
  fst (timestamp_from_str x (mkSB s 0)) <> Hang.
Proof. exact time_field. Qed.
Print Assumptions C66_time_field_partial.
(** A time; a torn time (the character lies across the end of the day); the same with a year that is no number, an error. *)
Example C66_time_ex : fst (timestamp_from_str std_ext (mkSB (of_string " 20030322173103 x") 0)) = Ok 1048354263%N /\
  fst (timestamp_from_str std_ext (mkSB (of_string "2003032" ++ [195; 169]%N ++ of_string "73103") 0)) = Panic /\
  fst (timestamp_from_str std_ext (mkSB (of_string "20x3032" ++ [195; 169]%N ++ of_string "73103") 0)) = Err.
Proof. repeat split; vm_compute; reflexivity. Qed.
Example C66_ex : ascii (of_string "!! not a record") /\ trim (of_string "!! not a record") <> [] /\ rrset_from_str Debug std_ext (of_string "!! not a record") = Err.
Proof. split; [vm_compute; repeat constructor|]. split; [vm_compute; discriminate|vm_compute; reflexivity]. Qed.
(** An RRSIG record whose time field has 14 bytes but not 14 characters: slicing it panics. *)
Definition bad_rrsig : list N := of_string "a. 1 IN RRSIG A 5 3 86400 123" ++ [195; 169]%N ++ of_string "567890123 20030322173103 1 b. Cg==".
Theorem C66_rrsig_time_refuted : valid_utf8 bad_rrsig = true /\ rrset_from_str Release std_ext bad_rrsig = Panic.
Proof. split; vm_compute; reflexivity. Qed.
Print Assumptions C66_rrsig_time_refuted.
Theorem C66_blank_debug_refuted : forall x, rrset_from_str Debug x (of_string "  ") = Panic /\ rrset_from_str Release x (of_string "  ") = Err.
Proof. intros x. split; vm_compute; reflexivity. Qed.
Print Assumptions C66_blank_debug_refuted.

(** * C67: Display of records never panics *)
Theorem C67_display_total : forall x rs, wf_name (rs_name rs) -> Forall (wf_rdata (rs_type rs)) (rs_rdatas rs) -> exists s, rrset_display x rs = Ok s.
Proof. exact rrset_display_total. Qed.
Print Assumptions C67_display_total.
Example C67_ex : wf_name (rs_name ex_nosalt) /\ Forall (wf_rdata (rs_type ex_nosalt)) (rs_rdatas ex_nosalt).
Proof.
  split; [exists (map of_string ["a"]); split; [vm_compute; repeat constructor; try discriminate|reflexivity]|].
  constructor; [|constructor]. split; [reflexivity|]. eexists. split; [reflexivity|]. repeat constructor.
Qed.

(** Property theorems for domain names (C01-C04, C06-C20).  Every theorem is about the model of
    src/name.rs, src/label_slice.rs, src/label_sequence.rs in NameModel.v and is stated with SpecName.v / SpecApi.v. *)
From Coq Require String.
Import String.StringSyntax.
From Verif Require Import Base BaseLemmas NameModel SpecName SpecApi NameWireProofs NameOpsProofs NameOpsProofs2
  NameCmpProofs NameCmpProofs2 NameTextProofs NameTextProofs2 NameApiProofs SpecEsc EscProofs EscProofs2 PropNameAux.

(** C01: no panic, no endless loop, cursor stays inside, buffer untouched. *)
Theorem C01_from_wire_total : forall w p, bytes w -> p <= length w ->
  exists r p', name_from_wire (mkIn w p) = (r, mkIn w p') /\ p' <= length w /\ safe r.
Proof. exact aux_from_wire_total. Qed.
Print Assumptions C01_from_wire_total.
(** A pointer to itself and two mutually recursive pointers. *)
Example C01_ex_loop : name_from_wire (mkIn [192; 0]%N 0) = (Err, mkIn [192; 0]%N 2)
  /\ fst (name_from_wire (mkIn [192; 2; 192; 0]%N 2)) = Err.
Proof. split; vm_compute; reflexivity. Qed.

(** C02: soundness, completeness and end position. *)
Theorem C02_from_wire_exact : forall w p n p', bytes w -> p <= length w ->
  (name_from_wire (mkIn w p) = (Ok n, mkIn w p') <->
   exists ls, wname (rd_of w) p p ls p' /\ wire_len ls <= 255 /\ n = name_of ls).
Proof. exact aux_from_wire_exact. Qed.
Print Assumptions C02_from_wire_exact.
Example C02_ex : name_from_wire (mkIn [1; 97; 0; 1; 98; 192; 0; 9]%N 3) = (Ok (name_of [[98%N]; [97%N]]), mkIn [1; 97; 0; 1; 98; 192; 0; 9]%N 7).
Proof. vm_compute. reflexivity. Qed.

(** C03: every name obtained from the API is well formed (restrictions in [api_name]: parsed text does not end in backslash, dot;
    truthful [is_absolute] and at least one suffix in LabelSequence::concat_all). *)
Theorem C03_api_names_well_formed_partial : forall n, api_name n -> exists ls,
  n = name_of ls /\ Forall wf_label ls /\ length (n_raw n) <= 255 /\ length (n_offsets n) <= 128.
Proof. exact api_name_ok. Qed.
Print Assumptions C03_api_names_well_formed_partial.
Example C03_ex : api_name (name_of [of_string "www"; of_string "com"]) /\ api_name (name_of [of_string "a."; of_string "b\2"; of_string "\cc"]).
Proof.
  split.
  - eapply an_new with (s := of_string "www.com"); [vm_compute; repeat constructor| |vm_compute; reflexivity].
    intros r E. apply (f_equal (@rev _)) in E. rewrite rev_app_distr in E. vm_compute in E. discriminate.
  - eapply an_new with (s := of_string "a\.b\\092.\c"); [vm_compute; repeat constructor| |vm_compute; reflexivity].
    intros r E. apply (f_equal (@rev _)) in E. rewrite rev_app_distr in E. vm_compute in E. discriminate.
Qed.
(** Without those restrictions it is false: text ending in an escaped dot gives a name of 256 bytes ... *)
Theorem C03_refuted_text : exists s n, name_new s = Ok n /\ length (n_raw n) = 256.
Proof. exact aux_c03_text. Qed.
Print Assumptions C03_refuted_text.
(** ... and concat_all(&[]) on a relative sequence gives a name without root label ... *)
Theorem C03_refuted_relative : exists a s n, into_label_sequence (name_of a) 0 0 = Ok s /\ wf_labels a /\
  seq_concat_all s [] = Ok n /\ ~ wf_name n.
Proof. exact aux_c03_rel. Qed.
Print Assumptions C03_refuted_relative.
(** ... and so does a label ending in a NUL byte, which [is_absolute] mistakes for the root. *)
Theorem C03_refuted_nul : exists a s n, into_label_sequence (name_of a) 0 0 = Ok s /\ wf_labels a /\
  is_absolute s = Ok true /\ seq_concat_all s [] = Ok n /\ ~ wf_name n.
Proof. exact aux_c03_nul. Qed.
Print Assumptions C03_refuted_nul.

(** C04 *)
Theorem C04_raw_round_trip : forall ls pre post, wf_labels ls -> bytes pre -> bytes post ->
  name_from_wire (mkIn (pre ++ n_raw (name_of ls) ++ post) (length pre)) =
  (Ok (name_of ls), mkIn (pre ++ n_raw (name_of ls) ++ post) (length pre + name_len (name_of ls))).
Proof. exact aux_raw_round_trip. Qed.
Print Assumptions C04_raw_round_trip.
Example C04_ex : wf_labels [of_string "WwW"; [0; 255; 46]%N].
Proof. split; [repeat constructor; vm_compute; lia|vm_compute; lia]. Qed.

(** C06 *)
Theorem C06_eq_is_case_insensitive : forall a b, wf_labels a -> wf_labels b ->
  exists r, name_eq (name_of a) (name_of b) = Ok r /\ (r = true <-> same_name a b).
Proof. exact aux_name_eq. Qed.
Print Assumptions C06_eq_is_case_insensitive.
Theorem C06_eq_equivalence :
  (forall a, wf_name a -> name_eq a a = Ok true) /\
  (forall a b, wf_name a -> wf_name b -> name_eq a b = name_eq b a) /\
  (forall a b c, wf_name a -> wf_name b -> wf_name c -> name_eq a b = Ok true -> name_eq b c = Ok true -> name_eq a c = Ok true).
Proof. exact aux_name_eq_equiv. Qed.
Print Assumptions C06_eq_equivalence.
Example C06_ex : name_eq (name_of [of_string "WWW"]) (name_of [of_string "www"]) = Ok true /\
  name_eq (name_of [of_string "ab"; of_string "c"]) (name_of [of_string "a"; of_string "bc"]) = Ok false.
Proof. split; vm_compute; reflexivity. Qed.

(** C07 *)
Theorem C07_hash_agrees_with_eq : forall a b, wf_name a -> wf_name b ->
  (name_hash_bytes a = name_hash_bytes b <-> name_eq a b = Ok true).
Proof. exact aux_hash. Qed.
Print Assumptions C07_hash_agrees_with_eq.
Example C07_ex : name_hash_bytes (name_of [of_string "wWw"]) = name_hash_bytes (name_of [of_string "Www"]).
Proof. vm_compute. reflexivity. Qed.

(** C08: for names of ASCII bytes, in debug and release arithmetic. *)
Theorem C08_cmp_is_canonical_order_partial : forall md a b, wf_labels a -> wf_labels b -> ascii_labels a -> ascii_labels b ->
  name_cmp md (name_of a) (name_of b) = Ok (canonical_cmp a b).
Proof. exact name_cmp_spec. Qed.
Print Assumptions C08_cmp_is_canonical_order_partial.
Theorem C08_canonical_order_total :
  (forall a b, canonical_cmp a b = Eq <-> same_name a b) /\
  (forall a b, canonical_cmp b a = CompOpp (canonical_cmp a b)) /\
  (forall a b c, canonical_cmp a b = Lt -> canonical_cmp b c = Lt -> canonical_cmp a c = Lt).
Proof. exact aux_canonical. Qed.
Print Assumptions C08_canonical_order_total.
(** RFC 4034 6.1 example order. *)
Example C08_ex : canonical_cmp [of_string "yljkjljk"; of_string "a"; of_string "example"] [of_string "Z"; of_string "a"; of_string "example"] = Lt
  /\ canonical_cmp [of_string "zABC"; of_string "a"; of_string "EXAMPLE"] [of_string "z"; of_string "example"] = Lt.
Proof. split; vm_compute; reflexivity. Qed.
(** With bytes above 127: panic in debug builds, and a cycle in release builds. *)
Theorem C08_refuted : (exists a b, wf_labels a /\ wf_labels b /\ name_cmp Debug (name_of a) (name_of b) = Panic) /\
  (exists a b c, wf_labels a /\ wf_labels b /\ wf_labels c /\
     name_cmp Release (name_of a) (name_of b) = Ok Lt /\ name_cmp Release (name_of b) (name_of c) = Ok Lt /\
     name_cmp Release (name_of c) (name_of a) = Ok Lt).
Proof. exact aux_c08. Qed.
Print Assumptions C08_refuted.

(** C09: all bytes in release arithmetic; ASCII names in debug arithmetic. *)
Theorem C09_get_relation_partial : forall md a b, wf_labels a -> wf_labels b ->
  (md = Release \/ (ascii_labels a /\ ascii_labels b)) ->
  exists r, get_relation md (name_of a) (name_of b) = Ok r /\
    N.to_nat (cr_common r) = common_labels a b /\
    (cr_relation r = Equal <-> same_name a b) /\
    (cr_relation r = SubDomain <-> subdomain a b /\ ~ same_name a b) /\
    (cr_relation r = SuperDomain <-> subdomain b a /\ ~ same_name a b) /\
    (cr_relation r = CommonAncestor <-> ~ subdomain a b /\ ~ subdomain b a).
Proof. exact aux_get_relation. Qed.
Print Assumptions C09_get_relation_partial.
Example C09_ex : exists r, get_relation Debug (name_of [of_string "a"; of_string "C"]) (name_of [of_string "c"]) = Ok r /\ cr_relation r = SubDomain /\ cr_common r = 2%N.
Proof. eexists. split; [vm_compute; reflexivity|split; reflexivity]. Qed.
(** Meaning of [common_labels]: the longest common run of trailing labels, plus the root. *)
Theorem C09_common_labels_spec : forall a b,
  exists x y s, lc_labels a = x ++ s /\ lc_labels b = y ++ s /\ common_labels a b = length s + 1 /\
   (forall x' y' s', lc_labels a = x' ++ s' -> lc_labels b = y' ++ s' -> length s' <= length s).
Proof. exact aux_common_labels. Qed.
Print Assumptions C09_common_labels_spec.
Theorem C09_refuted_debug : exists a b, wf_labels a /\ wf_labels b /\ get_relation Debug (name_of a) (name_of b) = Panic.
Proof. exact aux_c09. Qed.
Print Assumptions C09_refuted_debug.

(** C10: one direction holds; the other fails because label boundaries are not checked. *)
Theorem C10_is_subdomain_complete_partial : forall a b, wf_labels a -> wf_labels b ->
  subdomain a b -> is_subdomain (name_of a) (name_of b) = Ok true.
Proof. exact is_subdomain_complete. Qed.
Print Assumptions C10_is_subdomain_complete_partial.
(** What it decides exactly: [b]'s bytes after its first length byte are the tail of [a]'s. *)
Theorem C10_is_subdomain_exact_partial : forall a b,
  (is_subdomain (name_of a) (name_of b) = Ok true \/ is_subdomain (name_of a) (name_of b) = Ok false) /\
  (is_subdomain (name_of a) (name_of b) = Ok true <->
   wire_len b <= wire_len a /\ length b <= length a /\
   forall k, 1 <= k < wire_len b ->
     option_map lc (nth_error (enc b) k) = option_map lc (nth_error (enc a) (wire_len a - wire_len b + k))).
Proof. exact is_subdomain_exact. Qed.
Print Assumptions C10_is_subdomain_exact_partial.
Example C10_ex : subdomain [of_string "a"; of_string "B"] [of_string "b"].
Proof. exists [of_string "a"]. reflexivity. Qed.
Theorem C10_refuted : exists a b, wf_labels a /\ wf_labels b /\ is_subdomain (name_of a) (name_of b) = Ok true /\ ~ subdomain a b.
Proof. exact aux_c10. Qed.
Print Assumptions C10_refuted.

(** C11 *)
Theorem C11_concat_all : forall a s ss, wf_labels a -> Forall wf_labels (s :: ss) ->
  concat_all (name_of a) (map name_of (s :: ss)) =
  if wire_len (a ++ List.concat (s :: ss)) <=? 255 then Ok (name_of (a ++ List.concat (s :: ss))) else Err.
Proof. exact concat_all_spec. Qed.
Print Assumptions C11_concat_all.
Theorem C11_concat : forall a b, wf_labels a -> wf_labels b ->
  concat (name_of a) (name_of b) = if wire_len (a ++ b) <=? 255 then Ok (name_of (a ++ b)) else Err.
Proof. exact aux_concat. Qed.
Print Assumptions C11_concat.
Example C11_ex : concat_all (name_of [of_string "a"]) [name_of [of_string "b"]; name_of []; name_of [of_string "c"]] =
  Ok (name_of [of_string "a"; of_string "b"; of_string "c"]).
Proof. vm_compute. reflexivity. Qed.
(** The empty list is outside the property (the code panics on it). *)
Theorem C11_empty_list_panics : forall a, wf_labels a -> concat_all (name_of a) [] = Panic.
Proof. exact concat_all_nil_panics. Qed.
Print Assumptions C11_empty_list_panics.

(** C12 *)
Theorem C12_split : forall ls i k, wf_labels ls ->
  split (name_of ls) i k = if i <=? length ls then Ok (name_of (firstn k (skipn i ls))) else Err.
Proof. exact split_spec. Qed.
Print Assumptions C12_split.
Theorem C12_parent : forall ls k, wf_labels ls ->
  parent Release (name_of ls) k = if k <=? length ls then Ok (name_of (skipn k ls)) else Err.
Proof. exact aux_parent_release. Qed.
Print Assumptions C12_parent.
Theorem C12_parent_debug_partial : forall md ls k, wf_labels ls -> k <= length ls + 1 ->
  parent md (name_of ls) k = if k <=? length ls then Ok (name_of (skipn k ls)) else Err.
Proof. exact aux_parent. Qed.
Print Assumptions C12_parent_debug_partial.
(** In a debug build parent(level) with level > label_count() panics instead of returning an error. *)
Theorem C12_parent_refuted : forall ls k, wf_labels ls -> length ls + 1 < k -> parent Debug (name_of ls) k = Panic.
Proof. exact aux_parent_panic. Qed.
Print Assumptions C12_parent_refuted.
Theorem C12_strip_left : forall ls k, wf_labels ls ->
  strip_left (name_of ls) k = if k <=? length ls then Ok (name_of (skipn k ls)) else Panic.
Proof. exact strip_left_spec. Qed.
Print Assumptions C12_strip_left.
Theorem C12_into_ancestor : forall ls k, wf_labels ls ->
  into_ancestor (name_of ls) k = if k <=? length ls then Ok (name_of (skipn k ls)) else Panic.
Proof. exact into_ancestor_spec. Qed.
Print Assumptions C12_into_ancestor.
Theorem C12_strip_right : forall ls k, wf_labels ls ->
  strip_right (name_of ls) k = if k <=? length ls then Ok (name_of (firstn (length ls - k) ls)) else Panic.
Proof. exact strip_right_spec. Qed.
Print Assumptions C12_strip_right.
Theorem C12_into_child : forall ls k, wf_labels ls ->
  into_child (name_of ls) k = if k <=? length ls then Ok (name_of (firstn (length ls - k) ls)) else Panic.
Proof. exact into_child_spec. Qed.
Print Assumptions C12_into_child.
Theorem C12_cut_and_concat : forall ls i a b, wf_labels ls -> i <= length ls ->
  split (name_of ls) 0 i = Ok a -> split (name_of ls) i (length ls + 1) = Ok b -> concat a b = Ok (name_of ls).
Proof. exact aux_cut_concat. Qed.
Print Assumptions C12_cut_and_concat.
Example C12_ex : split (name_of [of_string "a"; of_string "b"; of_string "c"]) 1 1 = Ok (name_of [of_string "b"]) /\
  parent Debug (name_of [of_string "a"; of_string "b"]) 2 = Ok (name_of []) /\ parent Release (name_of [of_string "a"; of_string "b"]) 9 = Err.
Proof. repeat split; vm_compute; reflexivity. Qed.

(** C13 *)
Theorem C13_reverse : forall ls, wf_labels ls -> reverse (name_of ls) = Ok (name_of (rev ls)).
Proof. exact reverse_spec. Qed.
Print Assumptions C13_reverse.
Theorem C13_reverse_involutive : forall n, wf_name n -> exists m, reverse n = Ok m /\ reverse m = Ok n.
Proof. exact aux_reverse_twice. Qed.
Print Assumptions C13_reverse_involutive.
Example C13_ex : reverse (name_of [of_string "www"; of_string "c"]) = Ok (name_of [of_string "c"; of_string "www"]).
Proof. vm_compute. reflexivity. Qed.

(** C14 *)
Theorem C14_as_lowercase : forall ls, as_lowercase (name_of ls) = Ok (name_of (lc_labels ls)).
Proof. exact as_lowercase_spec. Qed.
Print Assumptions C14_as_lowercase.
Theorem C14_canonical_form :
  (forall n, wf_name n -> exists m, as_lowercase n = Ok m /\ name_eq m n = Ok true /\ as_lowercase m = Ok m) /\
  (forall a b, wf_name a -> wf_name b -> (name_eq a b = Ok true <-> as_lowercase a = as_lowercase b)).
Proof. exact aux_lowercase. Qed.
Print Assumptions C14_canonical_form.
Example C14_ex : as_lowercase (name_of [of_string "WwW-[09"]) = Ok (name_of [of_string "www-[09"]).
Proof. vm_compute. reflexivity. Qed.

(** C15 *)
Theorem C15_predicates : forall ls, wf_labels ls ->
  (exists b, is_wildcard (name_of ls) = Ok b /\ (b = true <-> exists r, ls = [42%N] :: r)) /\
  (is_root (name_of ls) = true <-> ls = []) /\
  label_count (name_of ls) = length ls + 1 /\
  name_len (name_of ls) = wire_len ls.
Proof. exact aux_predicates. Qed.
Print Assumptions C15_predicates.
Example C15_ex : is_wildcard (name_of [[42%N]; of_string "c"]) = Ok true /\ is_wildcard (name_of [[42; 42]%N]) = Ok false.
Proof. split; vm_compute; reflexivity. Qed.

(** C16 *)
Theorem C16_new_never_panics : forall s, safe (name_new s).
Proof. exact name_new_safe. Qed.
Print Assumptions C16_new_never_panics.
Theorem C16_label_sequence_never_panics : forall s, safe (seq_from_str s).
Proof. exact aux_seq_from_str_safe. Qed.
Print Assumptions C16_label_sequence_never_panics.

(** C17: text without backslash. *)
Theorem C17_grammar_partial : forall s, no_backslash s ->
  (text_legal s -> name_new s = Ok (name_of (text_labels s))) /\
  (~ text_legal s -> name_new s = Err).
Proof. exact name_new_plain. Qed.
Print Assumptions C17_grammar_partial.
Example C17_ex : text_legal (of_string "www.knet.cn") /\ text_labels (of_string "www.knet.cn.") = [of_string "www"; of_string "knet"; of_string "cn"]
  /\ ~ text_legal (of_string "a..b").
Proof. exact aux_c17_ex. Qed.
(** Escapes do not mean what they should: "a\.b" denotes two labels, "a\066" the characters "a6", and at the start of a
    label the backslash itself is stored too. *)
Theorem C17_refuted : name_new (of_string "a\.b") = Ok (name_of [of_string "a."; of_string "b"]) /\
  name_new (of_string "a\066") = Ok (name_of [of_string "a6"]) /\
  name_new (of_string "\a") = Ok (name_of [of_string "\aa"]).
Proof. repeat split; vm_compute; reflexivity. Qed.
Print Assumptions C17_refuted.

(** Exactly what every text, with or without backslashes, gives: [esc_legal] (SpecEsc.v) is the reading rule. *)
Theorem C17_escapes_exact_partial : forall s,
  (forall ls, esc_legal s ls -> name_new s = Ok (name_of ls)) /\
  ((forall ls, ~ esc_legal s ls) -> name_new s = Err).
Proof. exact name_new_esc. Qed.
Print Assumptions C17_escapes_exact_partial.
Example C17_esc_ex : esc_legal (of_string "a\.b\066c.\;") [of_string "a."; of_string "b6c"; of_string "\;;"] /\
  (forall ls, ~ esc_legal (of_string "a\06") ls).
Proof.
  split.
  - split; [vm_compute; reflexivity|]. split; [repeat constructor|left; vm_compute; repeat constructor].
  - intros ls [X _]. vm_compute in X. discriminate.
Qed.

(** C18: a name survives Display and Name::new exactly when none of its characters needs an escape. *)
Theorem C18_round_trip_exact_partial : forall ls, wf_labels ls ->
  exists s, name_display (name_of ls) = Ok s /\ (name_new s = Ok (name_of ls) <-> plain_labels ls).
Proof. exact display_parse_exact. Qed.
Print Assumptions C18_round_trip_exact_partial.
(** C18: names whose characters need no escape. *)
Theorem C18_display_parse_round_trip_partial : forall ls, wf_labels ls -> plain_labels ls ->
  exists s, name_display (name_of ls) = Ok s /\ name_new s = Ok (name_of ls).
Proof. exact display_parse_plain. Qed.
Print Assumptions C18_display_parse_round_trip_partial.
Theorem C18_display_text : forall ls, wf_labels ls -> name_display (name_of ls) = Ok (show_name ls).
Proof. exact name_display_spec. Qed.
Print Assumptions C18_display_text.
Example C18_ex : plain_labels [of_string "www"; of_string "k-t_"].
Proof. repeat constructor; vm_compute; intuition congruence. Qed.
Theorem C18_refuted : exists ls s, wf_labels ls /\ name_display (name_of ls) = Ok s /\ name_new s <> Ok (name_of ls).
Proof. exact aux_c18. Qed.
Print Assumptions C18_refuted.

(** C19, names: see PropText.v for character strings and hex. *)
Theorem C19_name_display_ascii : forall ls, wf_labels ls ->
  exists s, name_display (name_of ls) = Ok s /\ Forall (fun b => (32 < b < 127)%N) s.
Proof. exact aux_display_ascii. Qed.
Print Assumptions C19_name_display_ascii.
Example C19_ex : name_display (name_of [[0; 200; 34; 97]%N]) = Ok (of_string "\000\200\""a.").
Proof. vm_compute. reflexivity. Qed.

(** C20 *)
Theorem C20_from_name : forall ls i j, wf_labels ls ->
  into_label_sequence (name_of ls) i j =
  if (i <=? j) && (j <=? length ls)
  then Ok (seqf (firstn (j - i + 1) (skipn i (ls ++ [[]])))) else Panic.
Proof. exact into_label_sequence_spec. Qed.
Print Assumptions C20_from_name.
Theorem C20_split : forall fls i k, length (body fls) <= 255 ->
  seq_split (seqf fls) i k =
  if (i <? length fls) && (0 <? k)
  then Ok (seqf (firstn k (skipn i fls)), seqf (firstn i fls ++ skipn (i + k) fls)) else Err.
Proof. exact seq_split_spec. Qed.
Print Assumptions C20_split.
Theorem C20_concat_all_partial : forall m ms ls, rel_piece m -> Forall rel_piece ms -> Forall wf_label ls ->
  seq_concat_all (seq_of m false) (map (fun p => seq_of p false) ms ++ [seq_of ls true]) =
  if wire_len (m ++ List.concat ms ++ ls) <=? 255 then Ok (name_of (m ++ List.concat ms ++ ls)) else Err.
Proof. exact aux_seq_concat. Qed.
Print Assumptions C20_concat_all_partial.
Theorem C20_violations_are_errors : forall s ss, (forall x, In x (s :: ss) -> wf_seq x /\ ls_data x <> []) ->
  (is_absolute s = Ok true /\ ss <> []) \/
  (exists a x b, ss = a ++ x :: b /\ b <> [] /\ is_absolute x = Ok true) \/
  (exists a x, ss = a ++ [x] /\ is_absolute x = Ok false) ->
  seq_concat_all s ss = Err.
Proof. exact seq_concat_all_err. Qed.
Print Assumptions C20_violations_are_errors.
Theorem C20_no_panic : forall s ss, (forall x, In x (s :: ss) -> wf_seq x /\ ls_data x <> []) -> safe (seq_concat_all s ss).
Proof. exact seq_concat_all_safe. Qed.
Print Assumptions C20_no_panic.
Example C20_ex : exists s x y, into_label_sequence (name_of [of_string "a"; of_string "b"; of_string "c"]) 0 3 = Ok s /\
  seq_split s 0 1 = Ok (x, y) /\ seq_concat_all x [y] = Ok (name_of [of_string "a"; of_string "b"; of_string "c"]).
Proof. do 3 eexists. split; [vm_compute; reflexivity|]. split; vm_compute; reflexivity. Qed.
(** The empty sequence (everything split off) makes concat_all panic. *)
Theorem C20_refuted_empty : exists s x y, into_label_sequence (name_of []) 0 0 = Ok s /\ seq_split s 0 1 = Ok (x, y) /\ seq_concat_all y [x] = Panic.
Proof. do 3 eexists. split; [vm_compute; reflexivity|]. split; vm_compute; reflexivity. Qed.
Print Assumptions C20_refuted_empty.

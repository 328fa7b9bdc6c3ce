(** Property theorems C86-C88: LabelSlice views, their comparison, and the text form of LabelSequence.
    Models: NameModel.v, SliceModel.v; specification: SpecName.v, SpecOrd.v, SpecEsc.v, SpecSlice.v. *)
From Coq Require String.
From Verif Require Import Base NameModel SliceModel SpecName SpecOrd SpecEsc SpecSlice SliceProofs SliceProofs2.
Import String.StringSyntax.
Open Scope string_scope.
Open Scope list_scope.
Open Scope nat_scope.

(** * C86: a label slice shows the labels that the strips left *)
(** However often a slice of a name or label sequence is stripped on either side: if a label would not remain, the call
    panics; else the slice shows exactly the labels left, by every accessor and by Display. *)
Theorem C86_views : forall fls s0 os, seq_shape fls -> slice_source fls s0 ->
  match strips_labels fls os with
  | None => sl_strips s0 os = Panic
  | Some vs => exists s p q, sl_strips s0 os = Ok s /\ fls = p ++ vs ++ q /\ sl_first_label s = length p /\ sl_last_label s = length p + length vs - 1 /\
      sl_label_count s = length vs /\ sl_len s = Ok (length (body vs)) /\ sl_is_empty s = Ok false /\ sl_bytes s = Ok (body vs) /\
      sl_offs s = Ok (obody (length (body p)) vs) /\ sl_display s = Ok (show_seq vs)
  end.
Proof. exact slice_views. Qed.
Print Assumptions C86_views.
(** Two slices are [equals] exactly if they show the same labels (up to ASCII case, unless case-sensitive). *)
Theorem C86_equals : forall fa a0 oa a fb b0 ob b cs, seq_shape fa -> slice_source fa a0 -> sl_strips a0 oa = Ok a -> seq_shape fb -> slice_source fb b0 -> sl_strips b0 ob = Ok b ->
  exists va vb e, strips_labels fa oa = Some va /\ strips_labels fb ob = Some vb /\ sl_equals a b cs = Ok e /\ (e = true <-> fold_case cs va = fold_case cs vb).
Proof. exact slice_equals. Qed.
Print Assumptions C86_equals.
(** Every name and every non-empty label sequence has such a slice. *)
Theorem C86_source : (forall fls, fls <> [] -> exists s, slice_of_seq (seqf fls) = Ok s /\ slice_source fls s) /\
  (forall ls, exists s, slice_of_name (name_of ls) = Ok s /\ slice_source (ls ++ [[]]) s).
Proof. exact slice_exists. Qed.
Print Assumptions C86_source.
Example C86_ex : exists s0 s, let fls := [of_string "www"; of_string "eX"; of_string "org"; []] in
  slice_of_name (name_of (removelast fls)) = Ok s0 /\ sl_strips s0 [StripRight 1; StripLeft 1] = Ok s /\
  strips_labels fls [StripRight 1; StripLeft 1] = Some [of_string "eX"; of_string "org"] /\ sl_display s = Ok (of_string "eX.org") /\
  sl_strips s0 [StripRight 3; StripLeft 1] = Panic.
Proof. do 2 eexists. split; [reflexivity|]. split; [reflexivity|]. repeat split; vm_compute; reflexivity. Qed.

(** * C87: comparing slices *)
(** All octets, both builds, with and without regard to case. *)
Theorem C87_compare_exact_partial : forall md cs fa a0 oa a fb b0 ob b, seq_shape fa -> slice_source fa a0 -> sl_strips a0 oa = Ok a -> seq_shape fb -> slice_source fb b0 -> sl_strips b0 ob = Ok b ->
  exists va vb, strips_labels fa oa = Some va /\ strips_labels fb ob = Some vb /\
  match slice_order md cs va vb with
  | Ok c => exists r, sl_compare md cs a b = Ok r /\ (cr_order r ?= 0)%Z = c /\ N.to_nat (cr_common r) = common_tail cs va vb /\
      (cr_relation r = Equal <-> fold_case cs va = fold_case cs vb) /\
      (cr_relation r = SubDomain <-> tail_of cs vb va /\ fold_case cs va <> fold_case cs vb) /\
      (cr_relation r = SuperDomain <-> tail_of cs va vb /\ fold_case cs va <> fold_case cs vb) /\
      (cr_relation r = CommonAncestor <-> ~ tail_of cs vb va /\ ~ tail_of cs va vb /\ 0 < common_tail cs va vb) /\
      (cr_relation r = NoRelation <-> common_tail cs va vb = 0)
  | _ => sl_compare md cs a b = Panic
  end.
Proof. exact slice_compare. Qed.
Print Assumptions C87_compare_exact_partial.
(** On ASCII octets neither build panics and the order is the canonical one. *)
Theorem C87_ascii_partial : forall md cs va vb, ascii_labels va -> ascii_labels vb -> slice_order md cs va vb = Ok (lex_labels (rev (fold_case cs va)) (rev (fold_case cs vb))).
Proof. exact slice_order_ascii. Qed.
Print Assumptions C87_ascii_partial.
(** Meaning of [common_tail]: the longest common run of trailing labels. *)
Theorem C87_common_tail_spec : forall cs a b, exists x y s, fold_case cs a = x ++ s /\ fold_case cs b = y ++ s /\ common_tail cs a b = length s /\
  forall x' y' s', fold_case cs a = x' ++ s' -> fold_case cs b = y' ++ s' -> length s' <= length s.
Proof. exact common_tail_spec. Qed.
Print Assumptions C87_common_tail_spec.
(** With other octets a debug build may panic, and a release build put each of two slices below the other. *)
Theorem C87_refuted : exists a b, slice_source [[0]]%N a /\ slice_source [[128]]%N b /\ sl_compare Debug true a b = Panic /\
  exists r r', sl_compare Release true a b = Ok r /\ sl_compare Release true b a = Ok r' /\ (cr_order r < 0)%Z /\ (cr_order r' < 0)%Z.
Proof.
  do 2 eexists. split; [left; vm_compute; reflexivity|]. split; [left; vm_compute; reflexivity|]. split; [vm_compute; reflexivity|].
  do 2 eexists. split; [vm_compute; reflexivity|]. split; [vm_compute; reflexivity|]. split; reflexivity.
Qed.
Print Assumptions C87_refuted.
Example C87_ex : slice_order Debug false [of_string "www"; of_string "cOm"] [of_string "com"; of_string "Com"] = Ok Gt /\
  common_tail false [of_string "www"; of_string "cOm"] [of_string "com"; of_string "Com"] = 1 /\ common_tail true [of_string "www"; of_string "cOm"] [of_string "com"; of_string "Com"] = 0.
Proof. repeat split; vm_compute; reflexivity. Qed.

(** * C88: the text form of label sequences *)
Theorem C88_display_partial : forall fls, seq_shape fls -> seq_display (seqf fls) = match fls with [] => Panic | _ => Ok (show_seq fls) end.
Proof. exact seq_display_spec. Qed.
Print Assumptions C88_display_partial.
(** What [from_str] takes, and what it makes of it. *)
Theorem C88_from_str : forall s,
  (forall fls, seq_from_str s = Ok (seqf fls) <-> seq_reading s fls) /\ ((forall fls, ~ seq_reading s fls) -> seq_from_str s = Err).
Proof. intros s. split; [exact (from_str_iff s)|exact (proj2 (seq_from_str_spec s))]. Qed.
Print Assumptions C88_from_str.
(** The round trip holds exactly if no character needs an escape. *)
Theorem C88_round_trip_exact_partial : forall fls, seq_shape fls -> fls <> [] -> (Forall wf_label fls -> length (body fls) <= 254) ->
  (seq_from_str (show_seq fls) = Ok (seqf fls) <-> plain_labels fls).
Proof. exact seq_round_trip. Qed.
Print Assumptions C88_round_trip_exact_partial.
Example C88_ex : seq_from_str (of_string "www.eX") = Ok (seqf [of_string "www"; of_string "eX"]) /\ seq_from_str (of_string "www.eX.") = Ok (seqf [of_string "www"; of_string "eX"; []]) /\
  show_seq [of_string "www"; of_string "eX"] = of_string "www.eX" /\ show_seq [of_string "www"; of_string "eX"; []] = of_string "www.eX." /\ plain_labels [of_string "www"; of_string "eX"].
Proof. repeat split; try (vm_compute; reflexivity). repeat constructor; vm_compute; intuition congruence. Qed.
(** The relative sequence of the one label "a." comes back as an absolute one, and printing the
    empty sequence (all that [split] may leave) panics. *)
Theorem C88_refuted : (exists fls s, seq_shape fls /\ Forall wf_label fls /\ seq_display (seqf fls) = Ok s /\ seq_from_str s = Ok (seqf (fls ++ [[]]))) /\
  exists s x y, into_label_sequence (name_of []) 0 0 = Ok s /\ seq_split s 0 1 = Ok (x, y) /\ seq_display y = Panic.
Proof.
  split.
  - exists [of_string "a."]. eexists. split; [split; [vm_compute; lia|left; repeat constructor; vm_compute; lia]|]. split; [repeat constructor; vm_compute; lia|]. split; [vm_compute; reflexivity|].
    vm_compute. reflexivity.
  - do 3 eexists. split; [vm_compute; reflexivity|]. split; [vm_compute; reflexivity|]. vm_compute. reflexivity.
Qed.
Print Assumptions C88_refuted.

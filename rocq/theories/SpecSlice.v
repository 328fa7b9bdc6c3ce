(** Specification of label slices (views of some consecutive labels of a name or label sequence), on lists of labels.
    A list of labels includes the root, if it is there, as a final empty label. *)
From Verif Require Import Base NameModel SliceModel SpecName SpecOrd SpecEsc.
Open Scope list_scope.
Open Scope nat_scope.

(** What stripping leaves of the labels; at least one must remain. *)
Definition strip_labels (fls : list label) (o : strip) : option (list label) :=
  match o with
  | StripLeft k => if k <? length fls then Some (skipn k fls) else None
  | StripRight k => if k <? length fls then Some (firstn (length fls - k) fls) else None
  end.
Fixpoint strips_labels (fls : list label) (os : list strip) : option (list label) :=
  match os with
  | [] => Some fls
  | o :: os' => match strip_labels fls o with Some f => strips_labels f os' | None => None end
  end.

(** Text: the labels with dots between them; after the last label, the root adds a dot; the root alone is a dot. *)
Fixpoint join_dots (ls : list label) : list N :=
  match ls with
  | [] => []
  | [l] => show_label l
  | l :: r => show_label l ++ [46%N] ++ join_dots r
  end.
Definition show_seq (fls : list label) : list N :=
  match rev fls with [] :: r => show_name (rev r) | _ => join_dots fls end.

(** Comparing with or without regard to case. *)
Definition fold_case (cs : bool) (ls : list label) : list label := if cs then ls else lc_labels ls.
(** The longest common run of trailing labels. *)
Definition common_tail (cs : bool) (a b : list label) : nat := common_prefix (rev (fold_case cs a)) (rev (fold_case cs b)).
(** [b]'s labels are the last ones of [a]. *)
Definition tail_of (cs : bool) (b a : list label) : Prop := suffix_of (fold_case cs b) (fold_case cs a).
(** The sign of the order, as [signed_order] of SpecOrd. *)
Definition slice_order (md : mode) (cs : bool) (a b : list label) : res comparison :=
  let a := rev (fold_case cs a) in let b := rev (fold_case cs b) in
  match clash_labels a b with
  | None => Ok (lex_labels a b)
  | Some (x, y) =>
      if overflows (x, y) then match md with Debug => Panic | Release => Ok (CompOpp (signed x ?= signed y)%Z) end
      else Ok (signed x ?= signed y)%Z
  end.

(** Text that LabelSequence::from_str takes: read as Name::new reads it (SpecEsc), but the root is included only if the
    text ends in a dot (or is "@"). *)
Definition rooted (s : list N) : Prop := s = [64%N] \/ exists r, s = r ++ [46%N].
Definition seq_reading (s : list N) (fls : list label) : Prop :=
  exists ls, esc_legal s ls /\ (rooted s /\ fls = ls ++ [[]] \/ ~ rooted s /\ fls = ls).

(** The slice that LabelSlice::from_name / from_label_sequence makes of a name or sequence with these labels. *)
Definition slice_source (fls : list label) (s : labelslice) : Prop :=
  slice_of_seq (seqf fls) = Ok s \/ exists ls, fls = ls ++ [[]] /\ slice_of_name (name_of ls) = Ok s.

(** Model of the rest of src/label_slice.rs, and of the text form of src/label_sequence.rs. *)
From Verif Require Import Base NameModel.

(** label_slice.rs:35-38; [&self.offsets[first..=last]] *)
Definition sl_offs (s : labelslice) : res (list N) := slice (sl_offsets s) (sl_first s) (sl_last s + 1).
(** label_slice.rs:52-55 *)
Definition sl_is_empty (s : labelslice) : res bool := let? n := sl_len s in Ok (n =? 0).
(** label_slice.rs:57-60 *)
Definition sl_first_label (s : labelslice) : nat := sl_first s.
(** label_slice.rs:62-65 *)
Definition sl_last_label (s : labelslice) : nat := sl_last s.

(** A call of label_slice.rs:153-157 [strip_left] or 159-163 [strip_right]. *)
Inductive strip := StripLeft (k : nat) | StripRight (k : nat).
Definition sl_strip (s : labelslice) (o : strip) : res labelslice :=
  match o with StripLeft k => sl_strip_left s k | StripRight k => sl_strip_right s k end.
(** A sequence of such calls on one slice. *)
Fixpoint sl_strips (s : labelslice) (os : list strip) : res labelslice :=
  match os with
  | [] => Ok s
  | o :: os' => let? s' := sl_strip s o in sl_strips s' os'
  end.

(** label_sequence.rs:182-186 [Display for LabelSequence] (the bytes written) *)
Definition seq_display (s : labelseq) : res (list N) := let? sl := slice_of_seq s in sl_display sl.

(** Vocabulary for C96: counting the passes of the decoder's loop. *)
From Verif Require Import Base NameModel.

(** [Name::from_wire] (name.rs:244-308) given up after [k] passes of its [while] loop (name.rs:258): the answer is then [Hang];
    otherwise the answer of the uninterrupted call. *)
Definition name_from_wire_within (k : nat) : M inbuf name :=
  let! pos_beg := position in
  let! s := fw_loop (S k) (mkFw 0 0 0 false [] [] false WStart pos_beg pos_beg 0) in
  ensure (fw_done s) ;;
  set_position (pos_beg + fw_cused s) ;;
  ret (mkName (fw_data s) (fw_offsets s)).

(** A root label at 0 and [m] pointers, at 1, 3, .., each to the one before it (the first to 0). *)
Definition target (i : nat) : nat := 2 * i - 1.
Definition pointer_chain (m : nat) : list N :=
  0%N :: flat_map (fun i => [192 + N.of_nat (target i) / 256; N.of_nat (target i) mod 256]%N) (seq 0 m).

(** Property theorems for the work of decoding a message: C115.
    Statements use the decoder models (MsgModel.v) and the vocabulary of SpecName.v and SpecDecodeWork.v. *)
From Verif Require Import Base NameModel RenderModel CodesModel RDataModel MsgModel SpecName SpecDecodeWork BaseLemmas DecodeWorkProofs.

(** C115: decoding [w] with a budget of (length + 1) * (257 + 2 * min length 16384) steps is decoding it without one, for every sequence of
    octets, whether it is a message or not. *)
Theorem C115_bound : forall w k, bytes w -> (length w + 1) * (257 + 2 * Nat.min (length w) (64 * 256)) <= k ->
  response_from_wire_within k w = response_from_wire w /\ request_from_wire_within k w = request_from_wire w.
Proof. exact decode_work. Qed.
Print Assumptions C115_bound.

(** Non-vacuous, and the length alone is not a bound: a response of 1033 octets (a DS record whose digest is a chain of a hundred pointers,
    and fifty A records whose owner points at the end of the chain) is decoded, but not in ten steps per octet. *)
Definition chained : list N :=
  [0; 0; 128; 0; 0; 1; 0; 51; 0; 0; 0; 0]%N ++ [0; 0; 1; 0; 1]%N ++
  ([0; 0; 43; 0; 1; 0; 0; 0; 0; 0; 205; 0; 0; 0; 0]%N ++
   [0%N] ++ flat_map (fun i => [192; N.of_nat (match i with O => 32 | S j => 33 + 2 * j end)]%N) (seq 0 100)) ++
  flat_map (fun i => [192; 231; 0; 1; 0; 1; 0; 0; 0; 0; 0; 4; 10; 0; 0; N.of_nat i]%N) (seq 0 50).
Example C115_ex : bytes chained /\ length chained = 1033 /\ is_ok (response_from_wire chained) = true /\
  response_from_wire_within (10 * length chained) chained = Hang /\ is_ok (response_from_wire_within (11 * length chained) chained) = true.
Proof.
  split; [|split; [|split; [|split]]]; try (vm_compute; reflexivity).
  apply Forall_forall. intros x Hx. assert (F : forallb (fun x => x <? 256)%N chained = true) by (vm_compute; reflexivity).
  rewrite forallb_forall in F. apply N.ltb_lt, F, Hx.
Qed.

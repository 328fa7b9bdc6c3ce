(** The order of names whatever their octets: by the first differing octet, read as a signed number. *)
From Verif Require Import Base NameModel SpecName.
Open Scope list_scope.
Open Scope nat_scope.

(** The first position (within the common length) where two octet strings differ. *)
Fixpoint clash_octets (x y : list N) : option (N * N) :=
  match x, y with
  | a :: x', b :: y' => if (a =? b)%N then clash_octets x' y' else Some (a, b)
  | _, _ => None
  end.
(** ... and two lists of labels, up to the first pair of labels that differ. *)
Fixpoint clash_labels (a b : list label) : option (N * N) :=
  match a, b with
  | x :: a', y :: b' => match clash_octets x y with Some p => Some p | None => if length x =? length y then clash_labels a' b' else None end
  | _, _ => None
  end.
(** For names: from the root, in lower case. *)
Definition clash (a b : list label) : option (N * N) := clash_labels (rev (lc_labels a)) (rev (lc_labels b)).
(** An octet as a signed number, and whether the difference of two of them leaves eight bits. *)
Definition signed (c : N) : Z := if (c <? 128)%N then Z.of_N c else (Z.of_N c - 256)%Z.
Definition overflows (p : N * N) : bool := let d := (signed (fst p) - signed (snd p))%Z in negb ((-128 <=? d) && (d <=? 127))%Z.
(** The outcome of comparing: [canonical_cmp] if no octets differ (the shorter one first), else the signed order of the
    first differing octets - reversed, or a panic, if their difference overflows. *)
Definition signed_order (md : mode) (a b : list label) : res comparison :=
  match clash a b with
  | None => Ok (canonical_cmp a b)
  | Some (x, y) =>
      if overflows (x, y) then match md with Debug => Panic | Release => Ok (CompOpp (signed x ?= signed y)%Z) end
      else Ok (signed x ?= signed y)%Z
  end.

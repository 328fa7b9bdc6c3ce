(** Octets ordered as signed numbers, and the label sets on which the comparison is used. *)
From Verif Require Import Base NameModel SpecName SpecOrd.
Open Scope list_scope.
Open Scope nat_scope.

(** A rank of octets that orders them as signed eight-bit numbers (-128 first). *)
Definition okey (c : N) : N := (if c <? 128 then c + 128 else if c <? 256 then c - 128 else c)%N.
(** Octet strings, lexicographically by that rank. *)
Definition slex (x y : list N) : comparison := lex_bytes (map okey x) (map okey y).
(** Which labels are considered, and whether a run over them may stop in the overflow check of the comparison: it may as soon as
    two of them first differ in octets whose difference overflows. *)
Class scope := {
  sc_in : label -> Prop;
  sc_panic : Prop;
  sc_root : sc_in [];
  sc_ok : forall x y p, sc_in x -> sc_in y -> clash_octets (lc_label x) (lc_label y) = Some p -> overflows p = true -> sc_panic }.
Definition scoped {SC : scope} (ls : list label) : Prop := Forall sc_in ls.
(** A set of labels on which the comparison is an order: no two of them (lower-cased) first differ in octets whose signed difference
    exceeds eight bits.  All sets of ASCII labels, and all sets of labels over the octets 128-255, are of this kind. *)
Definition no_overflow (L : label -> Prop) : Prop := forall x y p, L x -> L y -> clash_octets (lc_label x) (lc_label y) = Some p -> overflows p = false.
(** Labels of ASCII octets. *)
Definition ascii : label -> Prop := Forall (fun c => c < 128)%N.
(** The order in which such labels come: names from the root label by label, labels lexicographically by octets read as signed. *)
Definition signed_cmp (a b : list label) : comparison := lex_labels (map (map okey) (rev (lc_labels a))) (map (map okey) (rev (lc_labels b))).
(** The same order on lists of labels already in lower case and root first. *)
Definition olex (a b : list label) : comparison := lex_labels (map (map okey) a) (map (map okey) b).

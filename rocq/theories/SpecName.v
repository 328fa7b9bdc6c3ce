(** Specification vocabulary for domain names, independent of the code:
    a name is its list of labels (root not listed), RFC 1034/1035. *)
From Verif Require Import Base NameModel.

Notation label := (list N).

(** RFC 1035 2.3.4: a label has 1..63 octets. *)
Definition wf_label (l : label) : Prop := 1 <= length l <= 63 /\ bytes l.

(** Encoded form of the labels without the final root label. *)
Definition enc_label (l : label) : list N := blen l :: l.
Definition body (ls : list label) : list N := flat_map enc_label ls.
(** RFC 1035 3.1: the wire form of a name. *)
Definition enc (ls : list label) : list N := body ls ++ [0%N].
Definition wire_len (ls : list label) : nat := length (enc ls).

Definition wf_labels (ls : list label) : Prop := Forall wf_label ls /\ wire_len ls <= 255.

(** Position of each label's length octet when the first one stands at [p]. *)
Fixpoint obody (p : nat) (ls : list label) : list N :=
  match ls with
  | [] => []
  | l :: r => N.of_nat p :: obody (p + 1 + length l) r
  end.
Definition offs_from (p : nat) (ls : list label) : list N := obody p ls ++ [N.of_nat (p + length (body ls))].

(** The representation (bytes and offset table) that the API's [Name] must have for given labels. *)
Definition name_of (ls : list label) : name := mkName (enc ls) (offs_from 0 ls).
(** A well formed [Name]: it represents some legal list of labels. *)
Definition wf_name (n : name) : Prop := exists ls, wf_labels ls /\ n = name_of ls.

(** Relative (non-rooted) or rooted label sequence, as held by [LabelSequence].
    [abs] tells whether the root label is included. *)
Definition seq_of (ls : list label) (abs : bool) : labelseq :=
  if abs then mkSeq (enc ls) (offs_from 0 ls) else mkSeq (body ls) (obody 0 ls).

(** The label sequence holding the given labels; the root, if included, is a final empty label. *)
Definition seqf (fls : list label) : labelseq := mkSeq (body fls) (obody 0 fls).
(** A non-empty relative piece whose last byte is not NUL. *)
Definition no_trailing_nul (ls : list label) : Prop := forall i l x, ls = i ++ [l ++ [x]] -> x <> 0%N.
Definition rel_piece (ls : list label) : Prop := Forall wf_label ls /\ ls <> [] /\ no_trailing_nul ls.
(** A well formed label sequence: legal labels, possibly followed by the root label, at most 255 bytes. *)
Definition seq_shape (fls : list label) : Prop :=
  length (body fls) <= 255 /\ (Forall wf_label fls \/ exists ls, Forall wf_label ls /\ fls = ls ++ [[]]).
Definition wf_seq (s : labelseq) : Prop := exists fls, s = seqf fls /\ seq_shape fls.

(** ** Case-insensitivity (ASCII letters only, RFC 4343) *)
Definition lc (c : N) : N := if ((65 <=? c) && (c <=? 90))%N then (c + 32)%N else c.
Definition lc_label (l : label) : label := map lc l.
Definition lc_labels (ls : list label) : list label := map lc_label ls.
Definition same_label (a b : label) : Prop := lc_label a = lc_label b.
Definition same_name (a b : list label) : Prop := lc_labels a = lc_labels b.

(** [b] is [a] or an ancestor of [a]: its labels are a suffix of those of [a]. *)
Definition suffix_of (b a : list label) : Prop := exists p, a = p ++ b.
Definition subdomain (a b : list label) : Prop := suffix_of (lc_labels b) (lc_labels a).

(** Number of trailing labels (root included) two names have in common. *)
Fixpoint common_prefix (a b : list label) : nat :=
  match a, b with
  | x :: a', y :: b' => if list_eq_dec N.eq_dec x y then S (common_prefix a' b') else 0
  | _, _ => 0
  end.
Definition common_labels (a b : list label) : nat :=
  1 + common_prefix (rev (lc_labels a)) (rev (lc_labels b)).

(** ** Canonical DNS name order (RFC 4034 6.1): compare label by label from the root, each label as
    an octet string of its lower-case form, a shorter (prefix) one first. *)
Fixpoint lex_bytes (a b : list N) : comparison :=
  match a, b with
  | [], [] => Eq
  | [], _ :: _ => Lt
  | _ :: _, [] => Gt
  | x :: a', y :: b' => match (x ?= y)%N with Eq => lex_bytes a' b' | c => c end
  end.
Fixpoint lex_labels (a b : list label) : comparison :=
  match a, b with
  | [], [] => Eq
  | [], _ :: _ => Lt
  | _ :: _, [] => Gt
  | x :: a', y :: b' => match lex_bytes x y with Eq => lex_labels a' b' | c => c end
  end.
Definition canonical_cmp (a b : list label) : comparison :=
  lex_labels (rev (lc_labels a)) (rev (lc_labels b)).
Definition ascii_labels (ls : list label) : Prop := Forall (Forall (fun c => c < 128)%N) ls.

(** ** Wire format with compression (RFC 1035 4.1.4) over a partial reader [rd] of the message.
    [wname rd lim pos ls e]: at [pos] the message denotes the labels [ls] and the name's own octets end
    just before [e]; every pointer target is below [lim] and, inside the target, below the target itself. *)
Inductive wname (rd : nat -> option N) : nat -> nat -> list label -> nat -> Prop :=
| wn_root : forall lim pos,
    rd pos = Some 0%N -> wname rd lim pos [] (pos + 1)
| wn_label : forall lim pos l ls e,
    1 <= length l <= 63 ->
    rd pos = Some (blen l) ->
    (forall i c, nth_error l i = Some c -> rd (pos + 1 + i) = Some c) ->
    wname rd lim (pos + 1 + length l) ls e ->
    wname rd lim pos (l :: ls) e
| wn_ptr : forall lim pos hi lo t ls e,
    rd pos = Some (192 + hi)%N -> (hi < 64)%N ->
    rd (pos + 1) = Some lo ->
    t = N.to_nat (256 * hi + lo) ->
    t < lim ->
    wname rd t t ls e ->
    wname rd lim pos ls (pos + 2).
(** Reader of a complete message. *)
Definition rd_of (w : list N) : nat -> option N := nth_error w.

(** ** Presentation format without escapes *)
(** Split at every dot: "a.b" gives [a; b], "a." gives [a; ""], "" gives [""]. *)
Fixpoint split_dots (s : list N) : list label :=
  match s with
  | [] => [[]]
  | c :: s' =>
      if (c =? 46)%N then [] :: split_dots s'
      else match split_dots s' with
           | l :: ls => (c :: l) :: ls
           | [] => [[c]]
           end
  end.
Definition drop_last_empty (ls : list label) : list label :=
  match rev ls with [] :: r => rev r | _ => ls end.
(** Labels denoted by escape-free text: "." and "@" are the root, one trailing dot is optional. *)
Definition text_labels (s : list N) : list label :=
  match s with
  | [46%N] => []
  | [64%N] => []
  | _ => drop_last_empty (split_dots s)
  end.
Definition text_legal (s : list N) : Prop :=
  s = [46%N] \/ s = [64%N] \/
  (s <> [] /\ drop_last_empty (split_dots s) <> [] /\
   Forall (fun l => 1 <= length l <= 63) (text_labels s) /\ wire_len (text_labels s) <= 255).

(** Display form: printable characters other than the eight special ones stand for themselves, special ones
    get a backslash, all others become \DDD; every label is followed by a dot; the root alone is ".". *)
Definition special (c : N) : bool := existsb (N.eqb c) [34; 40; 41; 46; 59; 92; 64; 36]%N.
Definition printable (c : N) : bool := ((33 <=? c) && (c <=? 126))%N.
Definition digit (n : N) : N := (48 + n)%N.
Definition show_char (c : N) : list N :=
  if special c then [92%N; c]
  else if printable c then [c]
  else [92%N; digit (c / 100); digit (c / 10 mod 10); digit (c mod 10)].
Definition show_label (l : label) : list N := flat_map show_char l.
Definition show_name (ls : list label) : list N :=
  match ls with [] => [46%N] | _ => flat_map (fun l => show_label l ++ [46%N]) ls end.
(** Labels whose characters all stand for themselves. *)
Definition plain_char (c : N) : Prop := (33 <= c <= 126)%N /\ special c = false.
Definition plain_labels (ls : list label) : Prop := Forall (Forall plain_char) ls.

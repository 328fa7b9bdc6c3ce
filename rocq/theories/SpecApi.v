(** Specification vocabulary: everything a program can obtain from the Name / LabelSequence API. *)
From Verif Require Import Base NameModel SpecName.

(** The text contains no backslash. *)
Definition no_backslash (s : list N) : Prop := Forall (fun c => c <> 92%N) s.
(** The text does not end in the two characters backslash, dot. *)
Definition plain_end (s : list N) : Prop := forall r, s <> r ++ [92; 46]%N.
(** A sequence that claims to be absolute really ends in the root label. *)
Definition honest (s : labelseq) : Prop := is_absolute s = Ok true -> exists ls, s = seq_of ls true.

(** Names and label sequences reachable by finitely many API calls.  Name::new and LabelSequence::from_str are
    restricted to text that does not end in backslash, dot; LabelSequence::concat_all to sequences whose [is_absolute] is truthful
    and, for a relative receiver, to a non-empty list of suffixes (see C03 in DESIGN.md for why). *)
Inductive api_name : name -> Prop :=
| an_root : api_name root_name
| an_new : forall s n, bytes s -> plain_end s -> name_new s = Ok n -> api_name n
| an_wire : forall w p n b, bytes w -> p <= length w -> name_from_wire (mkIn w p) = (Ok n, b) -> api_name n
| an_concat_all : forall a ss n, api_name a -> (forall s, In s ss -> api_name s) -> concat_all a ss = Ok n -> api_name n
| an_reverse : forall a n, api_name a -> reverse a = Ok n -> api_name n
| an_split : forall a i k n, api_name a -> split a i k = Ok n -> api_name n
| an_parent : forall md a k n, api_name a -> parent md a k = Ok n -> api_name n
| an_strip_left : forall a k n, api_name a -> strip_left a k = Ok n -> api_name n
| an_strip_right : forall a k n, api_name a -> strip_right a k = Ok n -> api_name n
| an_into_ancestor : forall a k n, api_name a -> into_ancestor a k = Ok n -> api_name n
| an_into_child : forall a k n, api_name a -> into_child a k = Ok n -> api_name n
| an_lowercase : forall a n, api_name a -> as_lowercase a = Ok n -> api_name n
| an_seq_concat_all : forall s ss n, api_seq s -> (forall x, In x ss -> api_seq x) ->
    honest s -> (forall x, In x ss -> honest x) ->
    (ss <> [] \/ is_absolute s = Ok true) -> seq_concat_all s ss = Ok n -> api_name n
with api_seq : labelseq -> Prop :=
| as_of_name : forall a i j s, api_name a -> into_label_sequence a i j = Ok s -> api_seq s
| as_from_str : forall t s, bytes t -> plain_end t -> seq_from_str t = Ok s -> api_seq s
| as_split_l : forall s i k x y, api_seq s -> seq_split s i k = Ok (x, y) -> api_seq x
| as_split_r : forall s i k x y, api_seq s -> seq_split s i k = Ok (x, y) -> api_seq y.

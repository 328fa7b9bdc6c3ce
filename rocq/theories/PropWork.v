(** Property theorems C96, C102: the work of decoding a name and of looking one up in a tree.
    Models: NameModel.v, TreeModel.v; specification: SpecWork.v, SpecTreeWork.v (SpecHist.v for histories of calls). *)
From Verif Require Import Base NameModel TreeModel SpecName SpecTree SpecHist SpecWork SpecTreeWork WorkProofs TreeWorkProofs TreeWorkProofs2 TreeWorkProofs3.
Open Scope list_scope.
Open Scope nat_scope.

(** * C96 *)
(** The loop is left after at most 256 + 2 min(position, 16384) passes (each reads one octet): giving up later than that never changes the answer. *)
Theorem C96_bound : forall w p, bytes w -> p <= length w ->
  fst (name_from_wire_within (256 + 2 * Nat.min p (64 * 256)) (mkIn w p)) <> Hang /\
  forall k, 256 + 2 * Nat.min p (64 * 256) <= k -> name_from_wire_within k (mkIn w p) = name_from_wire (mkIn w p).
Proof. exact name_work. Qed.
Print Assumptions C96_bound.
(** In particular a fixed number of passes is enough for every input, whatever its size. *)
Theorem C96_constant : forall w p, bytes w -> p <= length w -> name_from_wire_within (129 * 256) (mkIn w p) = name_from_wire (mkIn w p).
Proof. intros w p B L. apply name_work; auto. lia. Qed.
Print Assumptions C96_constant.
(** The dependence on the position is real: behind a chain of [m] pointers (2 m + 1 octets) the decoder takes more than [2 m] passes. *)
Theorem C96_chain : forall m k, 1 <= m <= 32 * 256 -> k <= 2 * m ->
  bytes (pointer_chain m) /\ length (pointer_chain m) = 2 * m + 1 /\ fst (name_from_wire_within k (mkIn (pointer_chain m) (2 * m - 1))) = Hang.
Proof. exact chain_work. Qed.
Print Assumptions C96_chain.

Example C96_case : pointer_chain 3 = [0; 192; 0; 192; 1; 192; 3]%N /\
  name_from_wire (mkIn (pointer_chain 3) 5) = (Ok (name_of []), mkIn (pointer_chain 3) 7) /\
  name_from_wire_within 7 (mkIn (pointer_chain 3) 5) = (Ok (name_of []), mkIn (pointer_chain 3) 7) /\
  fst (name_from_wire_within 6 (mkIn (pointer_chain 3) 5)) = Hang.
Proof. repeat split; vm_compute; reflexivity. Qed.

(** * C102 *)
(** In every tree that calls with names of any octets have built, looking up a name (with any callback and chain) is over after at most
    2 log2 (len + 1) passes of the search loop per label of the name, the root label included: giving up later never changes the answer. *)
Theorem C102_bound : forall V md (ops : list (op V)) s ls, any_names ops -> reached md ops s -> wf_labels ls ->
  forall md' P ch (cb : option (callback P)) (p : P) k, S (length ls) * (2 * Nat.log2 (S (dt_len s))) <= k ->
  find_node_ext_within k md' (name_of ls) ch cb p s = find_node_ext md' (name_of ls) ch cb p s.
Proof. intros V md ops s ls W R WL md'. exact (find_passes md md' ops s ls W R WL). Qed.
Print Assumptions C102_bound.
(** ... and that answer exists: [find] ends, within as many passes. *)
Theorem C102_find : forall V md (ops : list (op V)) s ls, any_names ops -> reached md ops s -> wf_labels ls ->
  find_within (S (length ls) * (2 * Nat.log2 (S (dt_len s)))) md (name_of ls) s = find md (name_of ls) s /\ fst (find md (name_of ls) s) <> Hang.
Proof.
  intros V md ops s ls W R WL. split; [|exact (find_ends md ops s ls W R WL)]. unfold find_within, find, find_node, bind.
  rewrite (find_passes md md ops s ls W R WL unit chain_new None tt) by lia. destruct (find_node_ext _ _ _ _ _ _) as [[[[r c] u]| | |] s1]; reflexivity.
Qed.
Print Assumptions C102_find.
(** Seven names under one parent: the seventh is found on the third pass of its level (fifth altogether), not after seven. *)
Definition seven : list (op nat) := map (fun c => OInsert [[c]; [122%N]] (Some 1)) [97; 98; 99; 100; 101; 102; 103]%N.
Definition seven_tree : dtree nat := snd (history Release seven tree_new).
Example C102_case : any_names seven /\ reached Release seven seven_tree /\ dt_len seven_tree = 8 /\
  fst (find_within 5 Release (name_of [[103%N]; [122%N]]) seven_tree) = fst (find Release (name_of [[103%N]; [122%N]]) seven_tree) /\
  fst (find_within 4 Release (name_of [[103%N]; [122%N]]) seven_tree) = Hang.
Proof.
  split; [repeat constructor; cbn; unfold byte; try lia|]. split; [unfold reached, seven_tree; vm_compute; reflexivity|]. repeat split; vm_compute; reflexivity.
Qed.
(** [insert] likewise: its search is over after at most that many passes and two more, its repair loop after at most 2 log2 (len + 2) + 1 passes; giving up later changes
    neither answer nor tree, and the answer exists. *)
Theorem C102_insert : forall V md (ops : list (op V)) s ls, any_names ops -> reached md ops s -> wf_labels ls ->
  forall md' v k j, S (length ls) * (2 * Nat.log2 (S (dt_len s))) + 2 <= k -> 2 * Nat.log2 (S (S (dt_len s))) < j ->
  insert_within k j md' (name_of ls) v s = insert md' (name_of ls) v s /\ fst (insert md' (name_of ls) v s) <> Hang.
Proof. intros V md ops s ls W R WL md' v k j K J. exact (insert_passes md md' ops s ls v k j W R WL K J). Qed.
Print Assumptions C102_insert.
(** The eighth name under that parent: five passes of the search and two of the repair suffice, one less of either does not. *)
Example C102_insert_case : fst (insert Release (name_of [[104%N]; [122%N]]) (Some 2) seven_tree) = Ok (9, None) /\
  fst (insert_within 5 2 Release (name_of [[104%N]; [122%N]]) (Some 2) seven_tree) = Ok (9, None) /\
  fst (insert_within 4 2 Release (name_of [[104%N]; [122%N]]) (Some 2) seven_tree) = Hang /\
  fst (insert_within 5 1 Release (name_of [[104%N]; [122%N]]) (Some 2) seven_tree) = Hang.
Proof. repeat split; vm_compute; reflexivity. Qed.
(** [remove] likewise: its search within the same number of passes; then at most 128 rounds (one per level, and a name has at most 128 labels), in each of which the walk up
    its level, the walk to the predecessor and the repair are each over after at most 2 log2 (len + 1) passes. *)
Theorem C102_remove : forall V md (ops : list (op V)) s ls, any_names ops -> reached md ops s -> wf_labels ls ->
  forall md' kf k m, S (length ls) * (2 * Nat.log2 (S (dt_len s))) <= kf -> 2 * Nat.log2 (S (dt_len s)) <= k -> 128 <= m ->
  remove_within kf k m md' (name_of ls) s = remove md' (name_of ls) s /\ fst (remove md' (name_of ls) s) <> Hang.
Proof. intros V md ops s ls W R WL md' kf k m KF K M. exact (remove_passes md md' ops s ls kf k m W R WL KF K M). Qed.
Print Assumptions C102_remove.
(** Removing one of the seven: five passes of the search, two of each walk, one round; one pass less of the walks is not enough.  And a chain of empty nodes above the
    removed name goes with it, one round each. *)
Example C102_remove_case : fst (remove Release (name_of [[100%N]; [122%N]]) seven_tree) = Ok (Some 1) /\
  fst (remove_within 5 2 1 Release (name_of [[100%N]; [122%N]]) seven_tree) = Ok (Some 1) /\
  fst (remove_within 5 1 1 Release (name_of [[100%N]; [122%N]]) seven_tree) = Hang /\
  fst (remove_within 5 2 0 Release (name_of [[100%N]; [122%N]]) seven_tree) = Hang.
Proof. repeat split; vm_compute; reflexivity. Qed.

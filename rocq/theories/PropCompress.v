(** Property theorems for the effectiveness of name compression: C100.
    Statements use the renderer model (RenderModel.v) and the vocabulary of SpecName.v, SpecBuf.v and SpecCompress.v. *)
From Coq Require String. Import String.StringSyntax.
From Verif Require Import Base NameModel RenderModel SpecName SpecBuf SpecCompress BaseLemmas NameWireProofs LiveProofs CompProofs UncompProofs.
Open Scope string_scope. Open Scope list_scope. Open Scope nat_scope.

(** C100: whatever was rendered before, a name written with compression takes the least number of octets possible, given
    the names already in the message; provided the message is still within the reach of pointers, no two different
    names collide, and no bucket of the table has overflowed. *)
Theorem C100_cheapest_partial : forall dat h r ls r', bytes dat -> history (mr_new dat) h r -> wf_labels ls ->
  collision_free (ls :: names_in h) -> light h -> (N.of_nat (mr_len r) <= 16384)%N ->
  write_name (name_of ls) true r = (Ok tt, r') -> exists n, cheapest h ls n /\ mr_len r' = mr_len r + n.
Proof. exact name_cheapest. Qed.
Print Assumptions C100_cheapest_partial.
(** In a longer message, names standing in its first 16384 octets still serve. *)
Theorem C100_low_partial : forall dat h r ls r' pre s, bytes dat -> history (mr_new dat) h r -> wf_labels ls ->
  collision_free (ls :: names_in h) -> light h -> write_name (name_of ls) true r = (Ok tt, r') ->
  ls = pre ++ s -> written_low h s -> mr_len r' <= mr_len r + length (body pre) + 2.
Proof. exact name_upper. Qed.
Print Assumptions C100_low_partial.
(** Even with full buckets, what is written is the whole name, or labels and one pointer to a name written before. *)
Theorem C100_shape_partial : forall dat h r ls c r', bytes dat -> history (mr_new dat) h r -> wf_labels ls ->
  collision_free (ls :: names_in h) -> write_name (name_of ls) c r = (Ok tt, r') ->
  mr_len r' = mr_len r + wire_len ls \/
  (c = true /\ exists pre s, ls = pre ++ s /\ written h s /\ mr_len r' = mr_len r + length (body pre) + 2).
Proof. exact name_lower. Qed.
Print Assumptions C100_shape_partial.
(** Without compression a name is written if and only if it fits, and then as its plain encoding, whatever was rendered before. *)
Theorem C100_plain_exact : forall dat h r ls, bytes dat -> history (mr_new dat) h r -> wf_labels ls ->
  let (a, r') := write_name (name_of ls) false r in
  if mr_len r + wire_len ls <=? length dat then a = Ok tt /\ mr_bytes r' = mr_bytes r ++ enc ls else a = Err /\ mr_bytes r' = mr_bytes r.
Proof. exact plain_exact. Qed.
Print Assumptions C100_plain_exact.
(** Without compression the name takes exactly its encoded length. *)
Theorem C100_plain : forall dat h r ls r', bytes dat -> history (mr_new dat) h r -> wf_labels ls ->
  write_name (name_of ls) false r = (Ok tt, r') -> mr_len r' = mr_len r + wire_len ls.
Proof. exact name_plain. Qed.
Print Assumptions C100_plain.

(** The hypotheses are met by a history with three levels of sharing. *)
Definition ex_names : list (list label) :=
  [[of_string "example"; of_string "org"]; [of_string "www"; of_string "example"; of_string "org"]; [of_string "mail"; of_string "org"]].
Lemma ex_wf : Forall wf_labels ex_names.
Proof. repeat constructor; vm_compute; lia. Qed.
Definition ex_run := match run_names ex_names [] (mr_new (repeat 0%N 60)) with Some x => x | None => ([], mr_new []) end.
Lemma ex_run_ok : run_names ex_names [] (mr_new (repeat 0%N 60)) = Some (fst ex_run, snd ex_run).
Proof. vm_compute. reflexivity. Qed.
Example C100_ex : history (mr_new (repeat 0%N 60)) (fst ex_run) (snd ex_run) /\ length (fst ex_run) = 3 /\ mr_len (snd ex_run) = 26 /\
  light (fst ex_run) /\ collision_free ([of_string "ftp"; of_string "example"; of_string "org"] :: names_in (fst ex_run)) /\
  exists r', write_name (name_of [of_string "ftp"; of_string "example"; of_string "org"]) true (snd ex_run) = (Ok tt, r') /\ mr_len r' = mr_len (snd ex_run) + 6.
Proof.
  split; [|split; [|split; [|split; [|split]]]].
  - apply (run_names_history ex_names _ [] (mr_new (repeat 0%N 60))); [exact ex_wf|apply hist_nil|exact ex_run_ok].
  - vm_compute. reflexivity.
  - vm_compute. reflexivity.
  - apply light_few. vm_compute. lia.
  - apply collision_freeb_ok. vm_compute. reflexivity.
  - eexists. split; [vm_compute; reflexivity|vm_compute; reflexivity].
Qed.

(** The claim as a user states it, without the proviso about buckets, is false: after fifteen names that fall into the same
    bucket, a sixteenth one is never found again, and is written out in full each time. *)
Definition full_names : list (list label) :=
  map (fun s => [of_string s]) ["fa"; "im"; "it"; "kl"; "l0"; "l1"; "mo"; "mp"; "og"; "qw"; "sf"; "wa"; "x6"; "ya"; "yh"; "14"].
Definition full_run := match run_names full_names [] (mr_new (repeat 0%N 100)) with Some x => x | None => ([], mr_new []) end.
Lemma full_wf : Forall wf_labels full_names.
Proof. repeat constructor; vm_compute; lia. Qed.
Lemma full_run_ok : run_names full_names [] (mr_new (repeat 0%N 100)) = Some (fst full_run, snd full_run).
Proof. vm_compute. reflexivity. Qed.
Lemma full_again : write_name (name_of [of_string "14"]) true (snd full_run) = (Ok tt, snd (write_name (name_of [of_string "14"]) true (snd full_run))).
Proof. vm_compute. reflexivity. Qed.
Theorem C100_bucket_refuted : exists dat h r ls r', bytes dat /\ history (mr_new dat) h r /\ wf_labels ls /\
  collision_free (ls :: names_in h) /\ (N.of_nat (mr_len r) <= 16384)%N /\ written h ls /\
  write_name (name_of ls) true r = (Ok tt, r') /\ mr_len r' = mr_len r + wire_len ls /\ ~ (exists n, cheapest h ls n /\ mr_len r' = mr_len r + n).
Proof.
  exists (repeat 0%N 100), (fst full_run), (snd full_run), [of_string "14"], (snd (write_name (name_of [of_string "14"]) true (snd full_run))).
  assert (W : written (fst full_run) [of_string "14"]).
  { assert (E : hd_error (fst full_run) = Some (mkEv (MName [of_string "14"] true) 60 64 true)) by (vm_compute; reflexivity).
    destruct (fst full_run) as [|e t]; [discriminate E|]. cbn [hd_error] in E.
    split; [discriminate|]. exists e, true, []. assert (Ee : e = mkEv (MName [of_string "14"] true) 60 64 true) by congruence. subst e.
    split; [left; reflexivity|]. split; reflexivity. }
  split; [repeat constructor|]. split.
  { apply (run_names_history full_names _ [] (mr_new (repeat 0%N 100))); [exact full_wf|apply hist_nil|exact full_run_ok]. }
  split; [split; [repeat constructor; vm_compute; lia|vm_compute; lia]|].
  split; [apply collision_freeb_ok; vm_compute; reflexivity|].
  split; [vm_compute; discriminate|].
  split; [exact W|].
  split; [exact full_again|].
  split; [vm_compute; reflexivity|].
  intros (n & (_ & _ & Q) & L). specialize (Q [] [of_string "14"] eq_refl W). cbn [body flat_map length] in Q.
  assert (E : mr_len (snd (write_name (name_of [of_string "14"]) true (snd full_run))) = 68) by (vm_compute; reflexivity).
  assert (E0 : mr_len (snd full_run) = 64) by (vm_compute; reflexivity). lia.
Qed.
Print Assumptions C100_bucket_refuted.

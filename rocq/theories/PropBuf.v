(** Property theorems for the byte buffers and name compression: C05, C45, C46, C60, C61.
    Models: NameModel.v (InputBuffer), RenderModel.v (OutputBuffer, MessageRender); specification: SpecBuf.v. *)
From Coq Require String.
Import String.StringSyntax.
From Verif Require Import Base NameModel RenderModel SpecName SpecBuf BufProofs LiveProofs TruncProofs.

(** C45: every read behaves as [read_spec] says: it returns the big-endian value (or the slice) of the bytes at the
    cursor and advances, or fails without moving; so the cursor never leaves the data. *)
Theorem C45_reads_exact : forall o w p, bytes w -> p <= length w ->
  read_call o (mkIn w p) = match read_spec w p o with
                           | Some (v, p') => (Ok v, mkIn w p')
                           | None => (Err, mkIn w p)
                           end.
Proof. exact read_call_spec. Qed.
Print Assumptions C45_reads_exact.
Theorem C45_cursor_stays_inside : forall o w p v p', read_spec w p o = Some (v, p') -> p' <= length w.
Proof. exact read_spec_in. Qed.
Print Assumptions C45_cursor_stays_inside.
Example C45_ex : read_call R32 (mkIn [9; 1; 2; 3; 4]%N 1) = (Ok (RNum 16909060), mkIn [9; 1; 2; 3; 4]%N 5)
  /\ read_call R16 (mkIn [9; 1; 2; 3; 4]%N 4) = (Err, mkIn [9; 1; 2; 3; 4]%N 4).
Proof. split; reflexivity. Qed.

(** C46: every call on an OutputBuffer acts on the log of written bytes as [write_spec] says, never panics, and keeps
    the log within the capacity, so the same holds after any number of calls. *)
Theorem C46_bounded_log : forall o b, wop_ok o -> ob_len b <= ob_capacity b ->
  exists (ok : bool) b', write_call o b = ((if ok then Ok tt else Err), b') /\
    write_spec (ob_capacity b) (ob_bytes b) o ok (ob_bytes b') /\
    ob_capacity b' = ob_capacity b /\ ob_len b' <= ob_capacity b'.
Proof. exact write_call_spec. Qed.
Print Assumptions C46_bounded_log.
Example C46_ex : exists b, write_call (W16 258) (ob_new [7; 7; 7]%N) = (Ok tt, b) /\ ob_bytes b = [1; 2]%N
  /\ fst (write_call (W16 258) b) = Err /\ snd (write_call (W16 258) b) = b.
Proof. eexists. split; [reflexivity|]. repeat split. Qed.

(** C05: whatever calls follow, a name written successfully decodes where it was written to exactly itself, and the
    decoder stops where the renderer stopped. *)
Theorem C05_names_decode : forall dat h r e ls c, bytes dat -> history (mr_new dat) h r ->
  In e h -> ev_op e = MName ls c -> ev_ok e = true ->
  name_from_wire (mkIn (mr_bytes r) (ev_start e)) = (Ok (name_of ls), mkIn (mr_bytes r) (ev_end e)).
Proof. exact hist_names. Qed.
Print Assumptions C05_names_decode.
(** Payload written between the names is not disturbed either. *)
Theorem C05_payload_kept : forall dat h r e l, bytes dat -> history (mr_new dat) h r -> In e h -> ev_ok e = true ->
  (ev_op e = MBytes l \/ exists d, l = [d] /\ ev_op e = M8 d \/ l = u16_bytes d /\ ev_op e = M16 d \/ l = u32_bytes d /\ ev_op e = M32 d) ->
  bytes_at (mr_bytes r) (ev_start e) (ev_end e - ev_start e) = l /\ ev_end e = ev_start e + length l.
Proof. exact hist_payload. Qed.
Print Assumptions C05_payload_kept.
(** No call panics or loops for ever. *)
Theorem C05_no_panic : forall dat h r o, bytes dat -> history (mr_new dat) h r -> mop_ok h o -> safe (fst (mop_call o r)).
Proof. exact hist_no_panic. Qed.
Print Assumptions C05_no_panic.

(** A history with compression in it: the second name is written as one label and a pointer into the first. *)
Definition ex_r0 := mr_new (repeat 0%N 40).
Definition ex_ops := [MName [of_string "a"; of_string "bc"] true; MSkip 2; M16 77; MName [of_string "Xy"; of_string "bc"] true; MAt16 6 9].
Definition ex_render := fold_left (fun r o => snd (mop_call o r)) ex_ops ex_r0.
Example C05_ex_bytes : mr_bytes ex_render = [1; 97; 2; 98; 99; 0; 0; 9; 0; 77; 2; 88; 121; 192; 2]%N.
Proof. vm_compute. reflexivity. Qed.
Lemma hist_step : forall r0 h r o, history r0 h r -> mop_ok h o -> fst (mop_call o r) = Ok tt ->
  history r0 (mkEv o (mr_len r) (mr_len (snd (mop_call o r))) true :: h) (snd (mop_call o r)).
Proof. intros r0 h r o H V E. apply hist_ok; auto. rewrite <- E. apply surjective_pairing. Qed.
Example C05_ex : exists h, history ex_r0 h ex_render /\ length h = 5 /\ Forall (fun e => ev_ok e = true) h.
Proof.
  unfold ex_render, ex_ops. cbn [fold_left].
  eexists. split; [|split].
  - apply hist_step; [apply hist_step; [apply hist_step; [apply hist_step; [apply hist_step; [apply hist_nil|..]|..]|..]|..]|..].
    all: match goal with
         | |- fst _ = _ => vm_compute; reflexivity
         | _ => idtac
         end.
    + split; [repeat constructor; vm_compute; lia|vm_compute; lia].
    + exact Logic.I.
    + reflexivity.
    + split; [repeat constructor; vm_compute; lia|vm_compute; lia].
    + split; [reflexivity|]. eexists _, 2. split; [right; right; left; reflexivity|]. split; [reflexivity|]. split; [reflexivity|].
      cbn [ev_start ev_end]. vm_compute. lia.
  - reflexivity.
  - repeat constructor.
Qed.

(** C60: after [reset] the renderer is a new one over the same memory, so C05 applies again from there. *)
Theorem C60_reset_is_fresh_partial : forall dat h r, bytes dat -> history (mr_new dat) h r ->
  exists dat', bytes dat' /\ length dat' = length dat /\ mr_reset r = (Ok tt, mr_new dat').
Proof. exact hist_reset. Qed.
Print Assumptions C60_reset_is_fresh_partial.
(** A [truncate] that cuts off no name leaves a renderer that could have been reached without truncating: all theorems about histories apply to it,
    and the octets left are the first [p] of those written. *)
Theorem C60_truncate_partial : forall dat h r p r', bytes dat -> history (mr_new dat) h r -> (forall e ls c, In e h -> ev_op e = MName ls c -> ev_end e <= p) -> mr_truncate p r = (Ok tt, r') ->
  mr_len r' = p /\ mr_bytes r' = firstn p (mr_bytes r) /\ exists dat' h', bytes dat' /\ length dat' = length dat /\ history (mr_new dat') h' r' /\ names_in h' = names_in h.
Proof. exact truncate_history. Qed.
Print Assumptions C60_truncate_partial.
(** In particular names can be written again as long as they fit (with the proviso of C61). *)
Theorem C60_truncate_names_partial : forall dat h r p r' ls c, bytes dat -> history (mr_new dat) h r -> (forall e ls c, In e h -> ev_op e = MName ls c -> ev_end e <= p) -> mr_truncate p r = (Ok tt, r') ->
  wf_labels ls -> collision_free (ls :: names_in h) -> p + wire_len ls <= length dat -> exists r2, write_name (name_of ls) c r' = (Ok tt, r2).
Proof. exact truncate_name_fits. Qed.
Print Assumptions C60_truncate_names_partial.
(** A name, then a payload that is cut in the middle. *)
Example C60_truncate_ex : exists h r r', history (mr_new (repeat 0%N 64)) h r /\ (forall e ls c, In e h -> ev_op e = MName ls c -> ev_end e <= 4) /\ names_in h = [[of_string "a"]] /\
  mr_truncate 4 r = (Ok tt, r') /\ mr_bytes r' = [1; 97; 0; 7]%N.
Proof.
  do 3 eexists. split; [|split; [|split; [|split]]].
  - eapply hist_ok with (o := MBytes [7; 8; 9]%N); [eapply hist_ok with (o := MName [of_string "a"] true); [apply hist_nil| |vm_compute; reflexivity]| |vm_compute; reflexivity].
    + split; [repeat constructor; vm_compute; intuition discriminate|vm_compute; lia].
    + repeat constructor.
  - intros e ls c [<-|[<-|[]]] Eo; [discriminate|]. vm_compute. lia.
  - reflexivity.
  - vm_compute. reflexivity.
  - vm_compute. reflexivity.
Qed.
(** Not so after a [truncate] that cuts a name off, which keeps the offsets of the names it cuts off.  Writing b. after a.b. was cut off
    fails although the buffer is empty, ... *)
Theorem C60_truncate_refuted : exists r1 r2,
  write_name (name_of [of_string "a"; of_string "b"]) true ex_r0 = (Ok tt, r1) /\
  mr_truncate 0 r1 = (Ok tt, r2) /\ mr_len r2 = 0 /\
  fst (write_name (name_of [of_string "b"]) true r2) = Err.
Proof. eexists _, _. split; [vm_compute; reflexivity|]. split; [vm_compute; reflexivity|]. split; vm_compute; reflexivity. Qed.
Print Assumptions C60_truncate_refuted.
(** ... and a pointer-like payload written over the cut-off name makes the renderer loop for ever. *)
Theorem C60_truncate_refuted_hang : exists r1 r2 r3,
  write_name (name_of [of_string "a"]) true ex_r0 = (Ok tt, r1) /\
  mr_truncate 0 r1 = (Ok tt, r2) /\ mr_write_bytes [192; 0]%N r2 = (Ok tt, r3) /\
  fst (write_name (name_of [of_string "a"]) true r3) = Hang.
Proof. eexists _, _, _. split; [vm_compute; reflexivity|]. split; [vm_compute; reflexivity|]. split; vm_compute; reflexivity. Qed.
Print Assumptions C60_truncate_refuted_hang.
(** ... and another such payload makes the next name unreadable although writing it succeeds: it becomes a pointer to a pointer that goes forward. *)
Theorem C60_truncate_refuted_corrupt : exists r1 r2 r3 r4,
  write_name (name_of [of_string "a"]) true ex_r0 = (Ok tt, r1) /\
  mr_truncate 0 r1 = (Ok tt, r2) /\ mr_write_bytes [192; 2; 1; 97; 0]%N r2 = (Ok tt, r3) /\
  write_name (name_of [of_string "a"]) true r3 = (Ok tt, r4) /\ mr_bytes r4 = [192; 2; 1; 97; 0; 192; 0]%N /\
  fst (name_from_wire (mkIn (mr_bytes r4) 5)) = Err.
Proof. eexists _, _, _, _. split; [vm_compute; reflexivity|]. split; [vm_compute; reflexivity|]. split; [vm_compute; reflexivity|]. split; [vm_compute; reflexivity|]. split; vm_compute; reflexivity. Qed.
Print Assumptions C60_truncate_refuted_corrupt.
(** The loop is real, not a matter of fuel: in that state the pointer chain never reaches a label. *)
Theorem C60_hang_any_fuel : forall fuel, next_label_loop fuel (mkOut [192; 0]%N 2) 0 = Hang.
Proof. induction fuel; [reflexivity|]. exact IHfuel. Qed.
Print Assumptions C60_hang_any_fuel.

(** C61: as long as no two different names among those written (and their ancestors) have the same 32-bit hash and the
    same length, a name whose encoding fits into the rest of the buffer is written, compressed or not. *)
Theorem C61_fitting_name_written_partial : forall dat h r ls c, bytes dat -> history (mr_new dat) h r -> wf_labels ls ->
  collision_free (ls :: names_in h) -> mr_len r + wire_len ls <= length dat ->
  exists r', write_name (name_of ls) c r = (Ok tt, r').
Proof. exact hist_name_fits. Qed.
Print Assumptions C61_fitting_name_written_partial.
(** The proviso is needed: "bafz." and "bagd." have the same hash and length.  After both are in the table, "bagd." is
    never found again, is registered again each time, and the fourth time writing it fails in an almost empty buffer. *)
Theorem C61_hash_collision_refuted : exists r0 r1 r2 r3, let w l r r' := write_name (name_of [l]) true r = (Ok tt, r') in
  w (of_string "bafz") (mr_new (repeat 0%N 512)) r0 /\ w (of_string "bagd") r0 r1 /\ w (of_string "bagd") r1 r2 /\
  w (of_string "bagd") r2 r3 /\ fst (write_name (name_of [of_string "bagd"]) true r3) = Err /\ mr_len r3 = 24.
Proof.
  eexists _, _, _, _. cbv zeta.
  split; [vm_compute; reflexivity|]. split; [vm_compute; reflexivity|]. split; [vm_compute; reflexivity|]. split; [vm_compute; reflexivity|].
  split; vm_compute; reflexivity.
Qed.
Print Assumptions C61_hash_collision_refuted.
Example C61_ex : collision_free ([of_string "a"; of_string "bc"] :: [of_string "XY"; of_string "bc"] :: [of_string "www"; of_string "example"; of_string "org"] :: []).
Proof. apply collision_freeb_ok. vm_compute. reflexivity. Qed.

(** Vocabulary for C114: counting the steps of [MessageRender::write_name].
    The functions of message_render.rs:76-224 once more, with a budget: every octet of the message that is looked at (OutputBuffer::at)
    and every item of the compression table that is tried costs one; the call is given up, with the answer [Hang], when the budget is spent.
    Everything else is as in RenderModel.v. *)
From Verif Require Import Base NameModel RenderModel.

Definition pay {S} : M (S * nat) unit := fun s => match snd s with O => (Hang, s) | S k => (Ok tt, (fst s, k)) end.
(** A step that costs nothing. *)
Definition free {S A} (m : M S A) : M (S * nat) A := fun s => let (a, s') := m (fst s) in (a, (s', snd s)).
(** Looking at an octet of the message. *)
Definition look {S} (b : outbuf) (p : nat) : M (S * nat) N := pay ;; lift (ob_at b p).

(** message_render.rs:105-114 *)
Fixpoint next_label_paid (fuel : nat) (b : outbuf) (next_pos : nat) : M (inbuf * nat) (N * N) :=
  match fuel with
  | O => lift Hang
  | S f =>
      let! c := look b next_pos in
      if (N.land c COMPRESS_POINTER_MARK8 =? COMPRESS_POINTER_MARK8)%N then
        let! nb := look b (next_pos + 1) in
        next_label_paid f b (N.to_nat (N.land c 63 * 256 + nb))
      else ret (c, as_u16 (N.of_nat (next_pos + 1)))
  end.
(** message_render.rs:92-100 *)
Fixpoint nc_bytes_paid (b : outbuf) (n : nat) (p : N) : M (inbuf * nat) (option N) :=
  match n with
  | O => ret (Some p)
  | S n' =>
      let! ch1 := look b (N.to_nat p) in
      let! ch2 := free read_u8 in
      if (ch1 =? ch2)%N then
        (let! p' := lift (if (p + 1 <? 65536)%N then Ok (p + 1)%N else Panic) in
         nc_bytes_paid b n' p')
      else ret None
  end.
(** message_render.rs:82-102 *)
Fixpoint nc_loop_paid (fuel : nat) (b : outbuf) (p : N) : M (inbuf * nat) bool :=
  match fuel with
  | O => lift Hang
  | S f =>
      let! (llen, lpos) := next_label_paid (S (S (ob_len b))) b (N.to_nat p) in
      let! n := free read_u8 in
      if negb (n =? llen)%N then ret false
      else if (n =? 0)%N then ret true
      else
        let! r := nc_bytes_paid b (N.to_nat n) lpos in
        match r with
        | None => ret false
        | Some p' => nc_loop_paid f b p'
        end
  end.
(** message_render.rs:76-103 *)
Definition nc_compare_paid (b : outbuf) (hash : N) (item : N) : M (inbuf * nat) bool :=
  let! (nb, _) := get in
  if negb (item_hash item =? hash)%N || negb (item_len item =? as_u8 (N.of_nat (ib_len nb)))%N
  then ret false
  else nc_loop_paid (S (ib_len nb)) b (item_pos item).
(** message_render.rs:146-151 *)
Fixpoint fo_loop_paid (b : outbuf) (hash : N) (items : list N) : M (inbuf * nat) N :=
  match items with
  | [] => ret NO_OFFSET
  | it :: rest =>
      pay ;;
      let! eq := nc_compare_paid b hash it in
      if eq : bool then ret (item_pos it) else fo_loop_paid b hash rest
  end.
(** message_render.rs:138-152 *)
Definition find_offset_paid (raw : list N) (hash : N) : M (render * nat) N := fun s =>
  let (r, k) := s in
  let bucket := N.to_nat (hash mod 64) in
  let items := (let? items := idx (mr_table r) bucket in
                let? count := idx (mr_counts r) bucket in
                slice items 0 count) in
  match items with
  | Ok used => let (a, s') := fo_loop_paid (mr_buf r) hash used (ib_new raw, k) in (a, (r, snd s'))
  | Err => (Err, s) | Panic => (Panic, s) | Hang => (Hang, s)
  end.
(** message_render.rs:170-191 *)
Fixpoint wn_search_paid (k : nat) (compress : bool) (nm : name) (lu : nat) (level : nat) : M (render * nat) (nat * N) :=
  match k with
  | O => ret (lu, NO_OFFSET)
  | S k' =>
      let level := if 0 <? lu then level + 1 else level in
      let parent := mkRef level nm in
      let! root := lift (nr_is_root parent) in
      if root : bool then ret (lu + 1, NO_OFFSET)
      else
        let! h := lift (nr_hash parent) in
        free (modify_r (fun r => let? hs := upd_r (mr_hashes r) lu h in
                                 Ok (mkRender (mr_buf r) (mr_table r) (mr_counts r) hs))) ;;
        if compress then
          let! raw := lift (nr_raw parent) in
          let! off := find_offset_paid raw h in
          if negb (off =? NO_OFFSET)%N then ret (lu, off)
          else wn_search_paid k' compress nm (lu + 1) level
        else wn_search_paid k' compress nm (lu + 1) level
  end.
(** message_render.rs:208-222 *)
Fixpoint wn_register_paid (n i : nat) (name_pos name_len : nat) : M (render * nat) unit :=
  match n with
  | O => ret tt
  | S n' =>
      let! (r, _) := get in
      let! ll := look (mr_buf r) name_pos in
      if (ll =? 0)%N then ret tt
      else if MAX_COMPRESS_POINTER <? name_pos then ret tt
      else
        let! hash := lift (idx (mr_hashes r) i) in
        free (modify_r (add_offset hash (as_u16 (N.of_nat name_pos)) (as_u8 (N.of_nat name_len)))) ;;
        let! step := lift (u8_add ll 1) in
        let! name_len' := lift (csub name_len (N.to_nat step)) in
        wn_register_paid n' (i + 1) (name_pos + N.to_nat step) name_len'
  end.
(** message_render.rs:165-224 *)
Definition write_name_paid (nm : name) (compress : bool) : M (render * nat) unit :=
  let lc := label_count nm in
  let! (lu, offset) := wn_search_paid lc compress nm 0 0 in
  let! (r, _) := get in
  let name_pos := ob_len (mr_buf r) in
  free (if negb compress || (lu =? lc) then on_buf (ob_write_bytes (n_raw nm))
        else if 0 <? lu then
          let! pos := lift (idx (n_offsets nm) lu) in
          let! pre := lift (slice (n_raw nm) 0 (N.to_nat pos)) in
          on_buf (ob_write_bytes pre)
        else ret tt) ;;
  free (if compress && negb (offset =? NO_OFFSET)%N
        then on_buf (ob_write_u16 (N.lor offset COMPRESS_POINTER_MARK16)) else ret tt) ;;
  wn_register_paid lu 0 name_pos (name_len nm).
(** [write_name] with a budget of [k] steps. *)
Definition write_name_within (k : nat) (nm : name) (compress : bool) : M render unit := fun r =>
  let (a, s) := write_name_paid nm compress (r, k) in (a, fst s).

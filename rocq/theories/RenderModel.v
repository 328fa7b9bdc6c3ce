(** Model of src/util/output_buffer.rs and src/message_render.rs. *)
From Verif Require Import Base NameModel.

(* ------------------------------------------------------------------ *)
(** * src/util/output_buffer.rs *)

(** output_buffer.rs:3-6 [OutputBuffer].  [ob_data] is the whole borrowed slice (its length is the capacity),
    [ob_len] the number of bytes written. *)
Record outbuf := mkOut { ob_data : list N; ob_len : nat }.
(** output_buffer.rs:9-11 *)
Definition ob_new (d : list N) : outbuf := mkOut d 0.
(** output_buffer.rs:24-26 *)
Definition ob_capacity (b : outbuf) : nat := length (ob_data b).
(** output_buffer.rs:28-34 *)
Definition ob_at (b : outbuf) (pos : nat) : res N :=
  if pos <? ob_len b then idx (ob_data b) pos else Err.
(** output_buffer.rs:36-43 *)
Definition ob_skip (n : nat) : M outbuf unit := fun b =>
  if ob_len b + n <? ob_capacity b then (Ok tt, mkOut (ob_data b) (ob_len b + n)) else (Err, b).
(** Not in the source: the effect of a sequence of checked stores [data[p] = v], all in range or a panic. *)
Fixpoint store (d : list N) (p : nat) (vs : list N) : res (list N) :=
  match vs with
  | [] => Ok d
  | v :: vs' => let? d' := upd_r d p v in store d' (p + 1) vs'
  end.
Definition ob_append (vs : list N) : M outbuf unit := fun b =>
  match store (ob_data b) (ob_len b) vs with
  | Ok d => (Ok tt, mkOut d (ob_len b + length vs))
  | Err => (Err, b) | Panic => (Panic, b) | Hang => (Hang, b)
  end.
Definition ob_store (p : nat) (vs : list N) : M outbuf unit := fun b =>
  match store (ob_data b) p vs with
  | Ok d => (Ok tt, mkOut d (ob_len b))
  | Err => (Err, b) | Panic => (Panic, b) | Hang => (Hang, b)
  end.
(** output_buffer.rs:45-54 *)
Definition ob_write_u8 (d : N) : M outbuf unit := fun b =>
  if ob_len b <? ob_capacity b then ob_append [d] b else (Err, b).
(** output_buffer.rs:56-63 *)
Definition ob_write_u8_at (pos : nat) (d : N) : M outbuf unit := fun b =>
  if pos <? ob_len b then ob_store pos [d] b else (Err, b).
(** output_buffer.rs:68-69, 79-80: the two bytes stored for a u16 *)
Definition be16 (d : N) : list N :=
  [as_u8 (N.shiftr (N.land d 65280) 8); as_u8 (N.land d 255)].
(** output_buffer.rs:90-93 *)
Definition be32 (d : N) : list N :=
  [as_u8 (N.shiftr (N.land d 4278190080) 24); as_u8 (N.shiftr (N.land d 16711680) 16);
   as_u8 (N.shiftr (N.land d 65280) 8); as_u8 (N.land d 255)].
(** output_buffer.rs:65-75 *)
Definition ob_write_u16 (d : N) : M outbuf unit := fun b =>
  if ob_len b + 2 <=? ob_capacity b then ob_append (be16 d) b else (Err, b).
(** output_buffer.rs:77-85 *)
Definition ob_write_u16_at (pos : nat) (d : N) : M outbuf unit := fun b =>
  if pos + 2 <=? ob_len b then ob_store pos (be16 d) b else (Err, b).
(** output_buffer.rs:87-99 *)
Definition ob_write_u32 (d : N) : M outbuf unit := fun b =>
  if ob_len b + 4 <=? ob_capacity b then ob_append (be32 d) b else (Err, b).
(** output_buffer.rs:101-110 *)
Definition ob_write_bytes (data : list N) : M outbuf unit := fun b =>
  if ob_len b + length data <=? ob_capacity b then ob_append data b else (Err, b).
(** output_buffer.rs:112-119 *)
Definition ob_truncate (pos : nat) : M outbuf unit := fun b =>
  if pos <? ob_len b then (Ok tt, mkOut (ob_data b) pos) else (Err, b).
(** output_buffer.rs:121-123 *)
Definition ob_reset : M outbuf unit := fun b => (Ok tt, mkOut (ob_data b) 0).
(** output_buffer.rs:125-127 [data()].  The slice is always in range ([ob_len <= capacity], proved). *)
Definition ob_bytes (b : outbuf) : list N := firstn (ob_len b) (ob_data b).

(* ------------------------------------------------------------------ *)
(** * src/message_render.rs *)

(** message_render.rs:6-7 *)
Definition MAX_COMPRESS_POINTER : nat := N.to_nat 16383.
Definition HASH_SEED : N := 2654435769.

(** message_render.rs:9-31 [OffSetItem]: hash, position and length packed in one u64. *)
Definition item_new (len pos hash : N) : N := N.lor (N.lor (N.shiftl hash 32) (N.shiftl pos 16)) len.
Definition item_len (i : N) : N := as_u8 (N.land i 255).
Definition item_pos (i : N) : N := as_u16 (N.shiftr (N.land i 4294901760) 16).
Definition item_hash (i : N) : N := as_u32 (N.shiftr i 32).

(** message_render.rs:39-42 [NameRef] *)
Record nameref := mkRef { nr_level : nat; nr_name : name }.
(** message_render.rs:56-58.  [parent_level] is a u8; 255 + 1 would overflow. *)
Definition nr_is_root (r : nameref) : res bool :=
  if nr_level r + 1 <? 256 then
    Ok (N.eqb (N.of_nat (nr_level r + 1)) (as_u8 (N.of_nat (label_count (nr_name r)))))
  else Panic.
(** message_render.rs:60-63 *)
Definition nr_raw (r : nameref) : res (list N) :=
  let? o := idx (n_offsets (nr_name r)) (nr_level r) in
  slice (n_raw (nr_name r)) (N.to_nat o) (length (n_raw (nr_name r))).
(** message_render.rs:65-72: one step of the fold, in wrapping u32 arithmetic; [<<] drops high bits. *)
Definition hash_step (h c : N) : N :=
  N.lxor h (as_u32 (as_u32 (as_u32 (c + HASH_SEED) + as_u32 (N.shiftl h 6)) + N.shiftr h 2)).
Definition nr_hash (r : nameref) : res N :=
  let? raw := nr_raw r in Ok (fold_left hash_step raw 0%N).

(** message_render.rs:105-114 [next_label].  The fuel bounds the number of pointers followed. *)
Fixpoint next_label_loop (fuel : nat) (b : outbuf) (next_pos : nat) : res (N * N) :=
  match fuel with
  | O => Hang
  | S f =>
      let? c := ob_at b next_pos in
      if (N.land c COMPRESS_POINTER_MARK8 =? COMPRESS_POINTER_MARK8)%N then
        let? nb := ob_at b (next_pos + 1) in
        (* [b & !0xC0] *)
        next_label_loop f b (N.to_nat (N.land c 63 * 256 + nb))
      else Ok (c, as_u16 (N.of_nat (next_pos + 1)))
  end.
Definition next_label (b : outbuf) (pos : N) : res (N * N) :=
  next_label_loop (S (S (ob_len b))) b (N.to_nat pos).

(** message_render.rs:92-100: compare [n] bytes; [None] is [return Ok(false)], [Some p] the final [item_pos].
    [item_pos += 1] on u16 may overflow. *)
Fixpoint nc_bytes (b : outbuf) (n : nat) (p : N) : M inbuf (option N) :=
  match n with
  | O => ret (Some p)
  | S n' =>
      let! ch1 := lift (ob_at b (N.to_nat p)) in
      let! ch2 := read_u8 in
      if (ch1 =? ch2)%N then
        (let! p' := lift (if (p + 1 <? 65536)%N then Ok (p + 1)%N else Panic) in
         nc_bytes b n' p')
      else ret None
  end.
(** message_render.rs:82-102: the loop of [compare]. *)
Fixpoint nc_loop (fuel : nat) (b : outbuf) (p : N) : M inbuf bool :=
  match fuel with
  | O => lift Hang
  | S f =>
      let! (llen, lpos) := lift (next_label b p) in
      let! n := read_u8 in
      if negb (n =? llen)%N then ret false
      else if (n =? 0)%N then ret true
      else
        let! r := nc_bytes b (N.to_nat n) lpos in
        match r with
        | None => ret false
        | Some p' => nc_loop f b p'
        end
  end.
(** message_render.rs:76-103.  Every pass of the loop consumes at least one byte of the name buffer. *)
Definition nc_compare (b : outbuf) (hash : N) (item : N) : M inbuf bool :=
  let! nb := get in
  if negb (item_hash item =? hash)%N || negb (item_len item =? as_u8 (N.of_nat (ib_len nb)))%N
  then ret false
  else nc_loop (S (ib_len nb)) b (item_pos item).

(** message_render.rs:117-119 *)
Definition BUCKETS : nat := 64.
Definition RESERVED_ITEMS : nat := 16.
Definition NO_OFFSET : N := 65535.

(** message_render.rs:121-126 *)
Record render := mkRender
  { mr_buf : outbuf; mr_table : list (list N); mr_counts : list nat; mr_hashes : list N }.
(** message_render.rs:129-136 *)
Definition mr_new (d : list N) : render :=
  mkRender (ob_new d) (repeat (repeat 0%N RESERVED_ITEMS) BUCKETS) (repeat 0 BUCKETS) (repeat 0%N MAX_LABEL_COUNT).

(** message_render.rs:146-151: the loop of [find_offset]; all items share one name buffer. *)
Fixpoint fo_loop (b : outbuf) (hash : N) (items : list N) : M inbuf N :=
  match items with
  | [] => ret NO_OFFSET
  | it :: rest =>
      let! eq := nc_compare b hash it in
      if eq : bool then ret (item_pos it) else fo_loop b hash rest
  end.
(** message_render.rs:138-152 *)
Definition find_offset (r : render) (raw : list N) (hash : N) : res N :=
  let bucket := N.to_nat (hash mod 64) in
  let? items := idx (mr_table r) bucket in
  let? count := idx (mr_counts r) bucket in
  let? used := slice items 0 count in
  fst (fo_loop (mr_buf r) hash used (ib_new raw)).
(** message_render.rs:154-163 *)
Definition add_offset (hash offset len : N) (r : render) : res render :=
  let bucket := N.to_nat (hash mod 64) in
  let? count := idx (mr_counts r) bucket in
  if count + 1 =? RESERVED_ITEMS then Ok r
  else
    let? items := idx (mr_table r) bucket in
    let? items := upd_r items count (item_new len offset hash) in
    let? table := upd_r (mr_table r) bucket items in
    let? counts := upd_r (mr_counts r) bucket (count + 1) in
    Ok (mkRender (mr_buf r) table counts (mr_hashes r)).

(** Run a buffer operation inside the renderer. *)
Definition on_buf {A} (m : M outbuf A) : M render A := fun r =>
  let (a, b) := m (mr_buf r) in (a, mkRender b (mr_table r) (mr_counts r) (mr_hashes r)).
(** Run a pure step that replaces the renderer. *)
Definition modify_r {S} (f : S -> res S) : M S unit := fun s =>
  match f s with Ok s' => (Ok tt, s') | Err => (Err, s) | Panic => (Panic, s) | Hang => (Hang, s) end.

(** message_render.rs:170-191: the search loop.  [k] iterations remain ([label_count - label_uncompressed]).
    Result: final [label_uncompressed] and [offset]. *)
Fixpoint wn_search (k : nat) (compress : bool) (nm : name) (lu : nat) (level : nat) : M render (nat * N) :=
  match k with
  | O => ret (lu, NO_OFFSET)
  | S k' =>
      let level := if 0 <? lu then level + 1 else level in
      let parent := mkRef level nm in
      let! root := lift (nr_is_root parent) in
      if root : bool then ret (lu + 1, NO_OFFSET)
      else
        let! h := lift (nr_hash parent) in
        modify_r (fun r => let? hs := upd_r (mr_hashes r) lu h in
                           Ok (mkRender (mr_buf r) (mr_table r) (mr_counts r) hs)) ;;
        if compress then
          let! r := get in
          let! raw := lift (nr_raw parent) in
          let! off := lift (find_offset r raw h) in
          if negb (off =? NO_OFFSET)%N then ret (lu, off)
          else wn_search k' compress nm (lu + 1) level
        else wn_search k' compress nm (lu + 1) level
  end.

(** message_render.rs:208-222: the registration loop; [n] iterations remain, the next index is [i].
    [label_len + 1] is u8 arithmetic, [name_len -=] usize arithmetic. *)
Fixpoint wn_register (n i : nat) (name_pos name_len : nat) : M render unit :=
  match n with
  | O => ret tt
  | S n' =>
      let! r := get in
      let! ll := lift (ob_at (mr_buf r) name_pos) in
      if (ll =? 0)%N then ret tt
      else if MAX_COMPRESS_POINTER <? name_pos then ret tt
      else
        let! hash := lift (idx (mr_hashes r) i) in
        modify_r (add_offset hash (as_u16 (N.of_nat name_pos)) (as_u8 (N.of_nat name_len))) ;;
        let! step := lift (u8_add ll 1) in
        let! name_len' := lift (csub name_len (N.to_nat step)) in
        wn_register n' (i + 1) (name_pos + N.to_nat step) name_len'
  end.

(** message_render.rs:165-224 *)
Definition write_name (nm : name) (compress : bool) : M render unit :=
  let lc := label_count nm in
  let! (lu, offset) := wn_search lc compress nm 0 0 in
  let! r := get in
  let name_pos := ob_len (mr_buf r) in
  (if negb compress || (lu =? lc) then on_buf (ob_write_bytes (n_raw nm))
   else if 0 <? lu then
     let! pos := lift (idx (n_offsets nm) lu) in
     let! pre := lift (slice (n_raw nm) 0 (N.to_nat pos)) in
     on_buf (ob_write_bytes pre)
   else ret tt) ;;
  (if compress && negb (offset =? NO_OFFSET)%N
   then on_buf (ob_write_u16 (N.lor offset COMPRESS_POINTER_MARK16)) else ret tt) ;;
  wn_register lu 0 name_pos (name_len nm).

(** message_render.rs:226-228 *)
Definition mr_len (r : render) : nat := ob_len (mr_buf r).
Definition mr_length : M render nat := fun r => (Ok (mr_len r), r).
(** message_render.rs:234-264: delegation to the buffer *)
Definition mr_skip (n : nat) : M render unit := on_buf (ob_skip n).
Definition mr_write_u8 (d : N) : M render unit := on_buf (ob_write_u8 d).
Definition mr_write_u8_at (p : nat) (d : N) : M render unit := on_buf (ob_write_u8_at p d).
Definition mr_write_u16 (d : N) : M render unit := on_buf (ob_write_u16 d).
Definition mr_write_u16_at (p : nat) (d : N) : M render unit := on_buf (ob_write_u16_at p d).
Definition mr_write_u32 (d : N) : M render unit := on_buf (ob_write_u32 d).
Definition mr_write_bytes (l : list N) : M render unit := on_buf (ob_write_bytes l).
Definition mr_truncate (pos : nat) : M render unit := on_buf (ob_truncate pos).
(** message_render.rs:267-272 *)
Definition mr_reset : M render unit := fun r =>
  (Ok tt, mkRender (mkOut (ob_data (mr_buf r)) 0)
            (map (fun v => map (fun _ => 0%N) v) (mr_table r))
            (map (fun _ => 0) (mr_counts r)) (map (fun _ => 0%N) (mr_hashes r))).
(** message_render.rs:274-276 *)
Definition mr_bytes (r : render) : list N := ob_bytes (mr_buf r).
(** name.rs:325-327 [Name::to_wire] *)
Definition name_to_wire (nm : name) : M render unit := write_name nm true.

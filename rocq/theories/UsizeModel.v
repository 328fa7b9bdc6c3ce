(** The functions whose [usize] arguments come straight from the caller, with the arithmetic of a machine whose [usize] has [W] values
    (2^32 or 2^64): an addition that does not fit panics in a debug build and wraps in a release build.
    (In NameModel.v and RenderModel.v the same functions use unbounded [nat].) *)
From Verif Require Import Base NameModel RenderModel.

(** [a + b], [a - b] on usize *)
Definition uadd (W : N) (md : mode) (a b : nat) : res nat :=
  if (N.of_nat a + N.of_nat b <? W)%N then Ok (a + b)
  else match md with Debug => Panic | Release => Ok (N.to_nat (N.of_nat a + N.of_nat b - W)) end.
Definition usub (W : N) (md : mode) (a b : nat) : res nat :=
  if b <=? a then Ok (a - b)
  else match md with Debug => Panic | Release => Ok (N.to_nat (N.of_nat a + W - N.of_nat b)) end.
(** [Vec::<u8>::with_capacity(n)]: panics ("capacity overflow") above isize::MAX *)
Definition vec_cap (W : N) (n : nat) : res unit := if (N.of_nat n <? W / 2)%N then Ok tt else Panic.
(** [a - b], [a + b] on u8 *)
Definition u8_subm (md : mode) (a b : N) : res N :=
  if (b <=? a)%N then Ok (a - b)%N else match md with Debug => Panic | Release => Ok (a + 256 - b)%N end.
Definition u8_addm (md : mode) (a b : N) : res N :=
  if (a + b <? 256)%N then Ok (a + b)%N else match md with Debug => Panic | Release => Ok (as_u8 (a + b)) end.

(* ------------------------------------------------------------------ *)
(** * src/util/input_buffer.rs *)

(** input_buffer.rs:45-53 *)
Definition u_read_u8 (W : N) (md : mode) : M inbuf N := fun b =>
  if ib_pos b <? ib_len b then
    match (let? v := idx (ib_data b) (ib_pos b) in let? p := uadd W md (ib_pos b) 1 in Ok (v, p)) with
    | Ok (v, p) => (Ok v, mkIn (ib_data b) p) | Err => (Err, b) | Panic => (Panic, b) | Hang => (Hang, b) end
  else (Err, b).
(** input_buffer.rs:55-64 *)
Definition u_read_u16 (W : N) (md : mode) : M inbuf N := fun b =>
  match (let? e := uadd W md (ib_pos b) 1 in
         if e <? ib_len b then
           let? h := idx (ib_data b) (ib_pos b) in
           let? q := uadd W md (ib_pos b) 1 in
           let? l := idx (ib_data b) q in
           let? p := uadd W md (ib_pos b) 2 in
           Ok (N.lor (N.shiftl h 8) l, p)
         else Err) with
  | Ok (v, p) => (Ok v, mkIn (ib_data b) p) | Err => (Err, b) | Panic => (Panic, b) | Hang => (Hang, b) end.
(** input_buffer.rs:66-77 *)
Definition u_read_u32 (W : N) (md : mode) : M inbuf N := fun b =>
  match (let? e := uadd W md (ib_pos b) 3 in
         if e <? ib_len b then
           let? b0 := idx (ib_data b) (ib_pos b) in
           let? q := uadd W md (ib_pos b) 1 in
           let? b1 := idx (ib_data b) q in
           let? q := uadd W md (ib_pos b) 2 in
           let? b2 := idx (ib_data b) q in
           let? q := uadd W md (ib_pos b) 3 in
           let? b3 := idx (ib_data b) q in
           let? p := uadd W md (ib_pos b) 4 in
           Ok (N.lor (N.lor (N.lor (N.shiftl b0 24) (N.shiftl b1 16)) (N.shiftl b2 8)) b3, p)
         else Err) with
  | Ok (v, p) => (Ok v, mkIn (ib_data b) p) | Err => (Err, b) | Panic => (Panic, b) | Hang => (Hang, b) end.
(** input_buffer.rs:79-88 *)
Definition u_read_bytes (W : N) (md : mode) (n : nat) : M inbuf (list N) := fun b =>
  match (let? e := uadd W md (ib_pos b) n in
         if e <=? ib_len b then
           let? e := uadd W md (ib_pos b) n in
           let? data := slice (ib_data b) (ib_pos b) e in
           let? p := uadd W md (ib_pos b) n in
           Ok (data, p)
         else Err) with
  | Ok (v, p) => (Ok v, mkIn (ib_data b) p) | Err => (Err, b) | Panic => (Panic, b) | Hang => (Hang, b) end.

(* ------------------------------------------------------------------ *)
(** * src/util/output_buffer.rs *)

(** Not in the source: run [f] on the buffer; on a failure the buffer is as before.  (A panic half-way through the stores of
    write_u16 etc. leaves the first byte changed; such a panic is proved not to happen.) *)
Definition ob_do (f : outbuf -> res outbuf) : M outbuf unit := fun b =>
  match f b with Ok b' => (Ok tt, b') | Err => (Err, b) | Panic => (Panic, b) | Hang => (Hang, b) end.
(** Not in the source: the stores [data[pos] = v0; data[pos + 1] = v1; ...], the first at [pos], the k-th at [pos + k]. *)
Fixpoint u_store (W : N) (md : mode) (d : list N) (pos k : nat) (vs : list N) : res (list N) :=
  match vs with
  | [] => Ok d
  | v :: vs' =>
      let? q := (if k =? 0 then Ok pos else uadd W md pos k) in
      let? d' := upd_r d q v in u_store W md d' pos (k + 1) vs'
  end.
(** output_buffer.rs:36-43 *)
Definition u_skip (W : N) (md : mode) (n : nat) : M outbuf unit := ob_do (fun b =>
  let? e := uadd W md (ob_len b) n in
  if e <? ob_capacity b then let? l := uadd W md (ob_len b) n in Ok (mkOut (ob_data b) l) else Err).
(** output_buffer.rs:45-54 *)
Definition u_write_u8 (W : N) (md : mode) (d : N) : M outbuf unit := ob_do (fun b =>
  if ob_len b <? ob_capacity b then
    let? dat := u_store W md (ob_data b) (ob_len b) 0 [d] in
    let? l := uadd W md (ob_len b) 1 in Ok (mkOut dat l)
  else Err).
(** output_buffer.rs:65-75, 87-99: [n] is 2 or 4 *)
Definition u_write_num (W : N) (md : mode) (n : nat) (vs : list N) : M outbuf unit := ob_do (fun b =>
  let? e := uadd W md (ob_len b) n in
  if e <=? ob_capacity b then
    let? dat := u_store W md (ob_data b) (ob_len b) 0 vs in
    let? l := uadd W md (ob_len b) n in Ok (mkOut dat l)
  else Err).
Definition u_write_u16 (W : N) (md : mode) (d : N) : M outbuf unit := u_write_num W md 2 (be16 d).
Definition u_write_u32 (W : N) (md : mode) (d : N) : M outbuf unit := u_write_num W md 4 (be32 d).
(** output_buffer.rs:77-85 *)
Definition u_write_u16_at (W : N) (md : mode) (pos : nat) (d : N) : M outbuf unit := ob_do (fun b =>
  let? e := uadd W md pos 2 in
  if e <=? ob_len b then
    let? dat := u_store W md (ob_data b) pos 0 (be16 d) in Ok (mkOut dat (ob_len b))
  else Err).
(** output_buffer.rs:101-110; [copy_from_slice] into [data[pos..pos + len]] *)
Definition u_write_bytes (W : N) (md : mode) (data : list N) : M outbuf unit := ob_do (fun b =>
  let? e := uadd W md (ob_len b) (length data) in
  if e <=? ob_capacity b then
    let? e := uadd W md (ob_len b) (length data) in
    let? _ := slice (ob_data b) (ob_len b) e in
    let? dat := store (ob_data b) (ob_len b) data in
    let? l := uadd W md (ob_len b) (length data) in Ok (mkOut dat l)
  else Err).

(* ------------------------------------------------------------------ *)
(** * src/name.rs, src/label_sequence.rs *)

(** name.rs:417-451.  [start..=end] on a slice is [start..end + 1]. *)
Definition u_split (W : N) (md : mode) (nm : name) (start_label label_count_ : nat) : res name :=
  let max := label_count nm in
  let? _ := ensure_r (start_label <? max) in
  let? e := uadd W md start_label label_count_ in
  let? lc := (if max <? e then usub W md max start_label else Ok label_count_) in
  let? e := uadd W md start_label lc in
  if e =? max then
    let? _ := vec_cap W lc in
    let? first_offset := idx (n_offsets nm) start_label in
    let? offsets := slice (n_offsets nm) start_label (length (n_offsets nm)) in
    let? start_pos := idx offsets 0 in
    let? c := usub W md (name_len nm) (N.to_nat start_pos) in
    let? _ := vec_cap W c in
    let? raw := slice (n_raw nm) (N.to_nat start_pos) (name_len nm) in
    let? head := rmap (fun o => u8_subm md o first_offset) (firstn lc offsets) in
    Ok (mkName raw (head ++ skipn lc offsets))
  else
    let? c := uadd W md lc 1 in
    let? _ := vec_cap W c in
    let? e := uadd W md start_label lc in
    let? e := uadd W md e 1 in
    let? offsets := slice (n_offsets nm) start_label e in
    let? ol := idx offsets lc in
    let? of_ := idx offsets 0 in
    let? c := u8_subm md ol of_ in
    let? c := u8_addm md c 1 in
    let? _ := vec_cap W (N.to_nat c) in
    let? raw := slice (n_raw nm) (N.to_nat of_) (N.to_nat ol) in
    let? first_offset := idx (n_offsets nm) start_label in
    let? k := uadd W md lc 1 in
    let? head := rmap (fun o => u8_subm md o first_offset) (firstn k offsets) in
    Ok (mkName (raw ++ [0%N]) (head ++ skipn k offsets)).
(** name.rs:453-455 *)
Definition u_parent (W : N) (md : mode) (nm : name) (level : nat) : res name :=
  let? k := usub W md (label_count nm) level in u_split W md nm level k.

(** label_sequence.rs:51-90 *)
Definition u_seq_split (W : N) (md : mode) (s : labelseq) (start_label label_count_ : nat) : res (labelseq * labelseq) :=
  let max := length (ls_offsets s) in
  let? _ := ensure_r ((start_label <? max) && (0 <? label_count_)) in
  let? e := uadd W md start_label label_count_ in
  let? lc := (if max <? e then usub W md max start_label else Ok label_count_) in
  let? e := uadd W md start_label lc in
  let? last_label := usub W md e 1 in
  let? ol := idx (ls_offsets s) last_label in
  let? rl := idx (ls_data s) (N.to_nat ol) in
  let? last_len := u8_addm md rl 1 in
  let? data_length := u8_addm md ol last_len in
  let? os := idx (ls_offsets s) start_label in
  let? data_offset := u8_subm md data_length os in
  let? data := slice (ls_data s) (N.to_nat os) (N.to_nat data_length) in
  let self_data := firstn (N.to_nat os) (ls_data s) ++ skipn (N.to_nat data_length) (ls_data s) in
  let? e := uadd W md last_label 1 in
  let? offsets := slice (ls_offsets s) start_label e in
  let self_offsets := firstn start_label (ls_offsets s) ++ skipn e (ls_offsets s) in
  if start_label =? 0 then
    let? self_offsets := rmap (fun v => u8_subm md v data_offset) self_offsets in
    Ok (mkSeq data offsets, mkSeq self_data self_offsets)
  else
    let? tail := rmap (fun v => u8_subm md v data_offset) (skipn start_label self_offsets) in
    let self_offsets := firstn start_label self_offsets ++ tail in
    let? cur := idx offsets 0 in
    let? offsets := rmap (fun v => u8_subm md v cur) offsets in
    Ok (mkSeq data offsets, mkSeq self_data self_offsets).

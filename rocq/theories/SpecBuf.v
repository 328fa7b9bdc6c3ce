(** Specification vocabulary for the byte buffers (C45, C46) and for histories of renderer calls (C05). *)
From Verif Require Import Base NameModel RenderModel SpecName.

(** Big-endian value of a byte string. *)
Definition be_val (l : list N) : N := fold_left (fun a b => (256 * a + b)%N) l 0%N.
(** The [n] bytes of [w] from position [p]. *)
Definition bytes_at (w : list N) (p n : nat) : list N := firstn n (skipn p w).

(** ** Reading: what each InputBuffer call must do on data [w] with the cursor at [p]. *)
Inductive rop := R8 | R16 | R32 | RBytes (n : nat) | RSeek (p : nat).
Inductive rval := RNum (v : N) | RData (l : list N) | RUnit.
Definition read_spec (w : list N) (p : nat) (o : rop) : option (rval * nat) :=
  match o with
  | R8 => if p + 1 <=? length w then Some (RNum (be_val (bytes_at w p 1)), p + 1) else None
  | R16 => if p + 2 <=? length w then Some (RNum (be_val (bytes_at w p 2)), p + 2) else None
  | R32 => if p + 4 <=? length w then Some (RNum (be_val (bytes_at w p 4)), p + 4) else None
  | RBytes n => if p + n <=? length w then Some (RData (bytes_at w p n), p + n) else None
  | RSeek q => if q <=? length w then Some (RUnit, q) else None
  end.
(** The call of the API an [rop] stands for. *)
Definition read_call (o : rop) : M inbuf rval :=
  match o with
  | R8 => let! v := read_u8 in ret (RNum v)
  | R16 => let! v := read_u16 in ret (RNum v)
  | R32 => let! v := read_u32 in ret (RNum v)
  | RBytes n => let! l := read_bytes n in ret (RData l)
  | RSeek q => set_position q ;; ret RUnit
  end.

(** ** Writing: an OutputBuffer is a log of at most [cap] bytes. *)
Inductive wop := W8 (d : N) | W16 (d : N) | W32 (d : N) | WBytes (l : list N) | WSkip (n : nat)
  | WAt8 (p : nat) (d : N) | WAt16 (p : nat) (d : N) | WTrunc (p : nat) | WReset.
(** Arguments within the range of their Rust types. *)
Definition wop_ok (o : wop) : Prop :=
  match o with
  | W8 d | WAt8 _ d => (d < 256)%N
  | W16 d | WAt16 _ d => (d < 65536)%N
  | W32 d => (d < 4294967296)%N
  | WBytes l => bytes l
  | WSkip _ | WTrunc _ | WReset => True
  end.
(** Big-endian bytes of a number. *)
Definition u16_bytes (d : N) : list N := [(d / 256)%N; (d mod 256)%N].
Definition u32_bytes (d : N) : list N :=
  [(d / 16777216)%N; (d / 65536 mod 256)%N; (d / 256 mod 256)%N; (d mod 256)%N].
(** Replace the bytes of [log] from [p] on. *)
Definition overwrite (log : list N) (p : nat) (vs : list N) : list N :=
  firstn p log ++ vs ++ skipn (p + length vs) log.
(** [write_spec cap log o ok log']: the call succeeds iff [ok] and turns the log into [log'].
    [skip] adds arbitrary bytes; it and [truncate] refuse the boundary case. *)
Inductive write_spec (cap : nat) (log : list N) : wop -> bool -> list N -> Prop :=
| ws_append : forall o vs, (exists d, (o = W8 d /\ vs = [d]) \/ (o = W16 d /\ vs = u16_bytes d) \/ (o = W32 d /\ vs = u32_bytes d)) \/ o = WBytes vs ->
    length log + length vs <= cap -> write_spec cap log o true (log ++ vs)
| ws_append_full : forall o vs, (exists d, (o = W8 d /\ vs = [d]) \/ (o = W16 d /\ vs = u16_bytes d) \/ (o = W32 d /\ vs = u32_bytes d)) \/ o = WBytes vs ->
    cap < length log + length vs -> write_spec cap log o false log
| ws_skip : forall n vs, length vs = n -> length log + n < cap -> write_spec cap log (WSkip n) true (log ++ vs)
| ws_skip_full : forall n, cap <= length log + n -> write_spec cap log (WSkip n) false log
| ws_at : forall o p vs, (exists d, (o = WAt8 p d /\ vs = [d]) \/ (o = WAt16 p d /\ vs = u16_bytes d)) ->
    p + length vs <= length log -> write_spec cap log o true (overwrite log p vs)
| ws_at_out : forall o p vs, (exists d, (o = WAt8 p d /\ vs = [d]) \/ (o = WAt16 p d /\ vs = u16_bytes d)) ->
    length log < p + length vs -> write_spec cap log o false log
| ws_trunc : forall p, p < length log -> write_spec cap log (WTrunc p) true (firstn p log)
| ws_trunc_out : forall p, length log <= p -> write_spec cap log (WTrunc p) false log
| ws_reset : write_spec cap log WReset true [].
Definition write_call (o : wop) : M outbuf unit :=
  match o with
  | W8 d => ob_write_u8 d | W16 d => ob_write_u16 d | W32 d => ob_write_u32 d | WBytes l => ob_write_bytes l
  | WSkip n => ob_skip n | WAt8 p d => ob_write_u8_at p d | WAt16 p d => ob_write_u16_at p d
  | WTrunc p => ob_truncate p | WReset => ob_reset
  end.

(** ** Histories of renderer calls. *)
Inductive mop := MName (ls : list label) (compress : bool) | M8 (d : N) | M16 (d : N) | M32 (d : N)
  | MBytes (l : list N) | MSkip (n : nat) | MAt8 (p : nat) (d : N) | MAt16 (p : nat) (d : N).
Definition mop_call (o : mop) : M render unit :=
  match o with
  | MName ls c => write_name (name_of ls) c
  | M8 d => mr_write_u8 d | M16 d => mr_write_u16 d | M32 d => mr_write_u32 d | MBytes l => mr_write_bytes l
  | MSkip n => mr_skip n | MAt8 p d => mr_write_u8_at p d | MAt16 p d => mr_write_u16_at p d
  end.
(** One executed call: what was called, the buffer length before and after, and whether it returned Ok. *)
Record event := mkEv { ev_op : mop; ev_start : nat; ev_end : nat; ev_ok : bool }.
(** The bytes from [a] up to [b] lie inside one stretch reserved by an earlier successful [skip]. *)
Definition reserved (h : list event) (a b : nat) : Prop :=
  exists e n, In e h /\ ev_op e = MSkip n /\ ev_ok e = true /\ ev_start e <= a /\ b <= ev_end e.
(** A call that respects the types, and patches ([write_*_at]) only bytes reserved with [skip]. *)
Definition mop_ok (h : list event) (o : mop) : Prop :=
  match o with
  | MName ls _ => wf_labels ls
  | M8 d => (d < 256)%N
  | M16 d => (d < 65536)%N
  | M32 d => (d < 4294967296)%N
  | MBytes l => bytes l
  | MSkip _ => True
  | MAt8 p d => (d < 256)%N /\ reserved h p (p + 1)
  | MAt16 p d => (d < 65536)%N /\ reserved h p (p + 2)
  end.
(** [history r0 h r]: the calls recorded in [h] (most recent first), each returning Ok or Err, lead from [r0] to [r]. *)
Inductive history (r0 : render) : list event -> render -> Prop :=
| hist_nil : history r0 [] r0
| hist_ok : forall h r o r', history r0 h r -> mop_ok h o -> mop_call o r = (Ok tt, r') ->
    history r0 (mkEv o (mr_len r) (mr_len r') true :: h) r'
| hist_err : forall h r o r', history r0 h r -> mop_ok h o -> mop_call o r = (Err, r') ->
    history r0 (mkEv o (mr_len r) (mr_len r') false :: h) r'.
(** The 32-bit hash the compression table uses (message_render.rs:65-72), of a name given by its labels. *)
Definition hash_of (ls : list label) : N := fold_left hash_step (enc ls) 0%N.
(** Some name of the list, or an ancestor of it. *)
Definition among (names : list (list label)) (s : list label) : Prop := exists ls, In ls names /\ suffix_of s ls.
(** No two different names of that family agree in both hash and encoded length. *)
Definition collision_free (names : list (list label)) : Prop := forall a b, among names a -> among names b ->
  wire_len a = wire_len b -> hash_of a = hash_of b -> a = b.
(** The names written in a history. *)
Definition names_in (h : list event) : list (list label) :=
  flat_map (fun e => match ev_op e with MName ls _ => [ls] | _ => [] end) h.

(** Vocabulary for machine-sized arguments: a [usize] has [W] values; a slice or vector holds at most isize::MAX bytes. *)
From Verif Require Import Base NameModel RenderModel SpecName SpecBuf UsizeModel.

(** 16-, 32- and 64-bit targets *)
Definition machine (W : N) : Prop := (W = 2 ^ 16 \/ W = 2 ^ 32 \/ W = 2 ^ 64)%N.
(** A value of type usize. *)
Definition usize (W : N) (n : nat) : Prop := (N.of_nat n < W)%N.
(** The length of something in memory. *)
Definition in_memory (W : N) (n : nat) : Prop := (N.of_nat n < W / 2)%N.

(** The usize arguments of a call, and the number added to each of them by the function (the cursor, or a constant). *)
Definition rop_usize (W : N) (o : rop) : Prop := match o with RBytes n | RSeek n => usize W n | _ => True end.
(** The sum the call computes first fits. *)
Definition rop_fits (W : N) (p : nat) (o : rop) : Prop := match o with RBytes n => usize W (p + n) | _ => True end.
Definition wop_usize (W : N) (o : wop) : Prop :=
  match o with WSkip n | WTrunc n | WAt8 n _ | WAt16 n _ => usize W n | WBytes l => in_memory W (length l) | _ => True end.
Definition wop_fits (W : N) (len : nat) (o : wop) : Prop :=
  match o with WSkip n => usize W (len + n) | WAt16 p _ => usize W (p + 2) | _ => True end.

(** The calls with machine arithmetic; set_position, write_u8_at, truncate and reset do not add. *)
Definition u_read_call (W : N) (md : mode) (o : rop) : M inbuf rval :=
  match o with
  | R8 => let! v := u_read_u8 W md in ret (RNum v)
  | R16 => let! v := u_read_u16 W md in ret (RNum v)
  | R32 => let! v := u_read_u32 W md in ret (RNum v)
  | RBytes n => let! l := u_read_bytes W md n in ret (RData l)
  | RSeek q => set_position q ;; ret RUnit
  end.
Definition u_write_call (W : N) (md : mode) (o : wop) : M outbuf unit :=
  match o with
  | W8 d => u_write_u8 W md d | W16 d => u_write_u16 W md d | W32 d => u_write_u32 W md d | WBytes l => u_write_bytes W md l
  | WSkip n => u_skip W md n | WAt8 p d => ob_write_u8_at p d | WAt16 p d => u_write_u16_at W md p d
  | WTrunc p => ob_truncate p | WReset => ob_reset
  end.

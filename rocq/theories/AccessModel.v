(** Model of small functions of src/util/input_buffer.rs, src/util/string_buffer.rs, src/rrset.rs, src/notify.rs and src/response_builder.rs not needed elsewhere. *)
From Verif Require Import Base NameModel RenderModel CodesModel RDataModel MsgModel TextModel.
Open Scope list_scope.
Open Scope nat_scope.

(** input_buffer.rs:18-22; the field [len] is always the length of [data] *)
Definition ib_set_data (w : list N) : M inbuf unit := fun _ => (Ok tt, mkIn w 0).
(** input_buffer.rs:28-30 *)
Definition ib_is_empty (b : inbuf) : bool := ib_len b =? 0.
(** string_buffer.rs:118-120: takes the buffer, so only the result is left *)
Definition left_str (b : sbuf) : res (option (list N)) := fst (read_left b).
(** string_buffer.rs:128-133: [next] called [n] times *)
Fixpoint next_n (n : nat) : M sbuf (list (option (list N))) :=
  match n with O => ret [] | S n' => let! w := read_str in let! l := next_n n' in ret (w :: l) end.
(** rrset.rs:11-12: an [RRTtl] is its number.  rrset.rs:15-17 *)
Definition ttl_from_wire : M inbuf N := read_u32.
(** rrset.rs:19-21 *)
Definition ttl_to_wire (t : N) : M render unit := mr_write_u32 t.
(** rrset.rs:26-31 *)
Definition ttl_from_str (s : list N) : res N := match parse_u32 s with Ok n => Ok n | Err => Err | Panic => Panic | Hang => Hang end.
(** rrset.rs:35-37 *)
Definition ttl_display (t : N) : list N := dec t.
(** notify.rs:44-62 as it would be called (it is private and nothing in the crate calls it): header and question are read first. *)
Definition notify_read (w : list N) : res notify_request :=
  fst ((let! h := header_from_wire in let! q := question_from_wire in notify_from_wire h q) (ib_new w)).
(** response_builder.rs:74-83 with a predicate that keeps a state ([FnMut]); [Vec::retain] calls it once per element, in order. *)
Fixpoint retain_mut {S : Type} (f : S -> rrset -> bool * S) (st : S) (l : list rrset) : list rrset * S :=
  match l with
  | [] => ([], st)
  | x :: l' => let (b, st1) := f st x in let (k, st2) := retain_mut f st1 l' in ((if negb b then x :: k else k), st2)
  end.
Definition remove_rrset_by_mut {S : Type} (r : response) (s : section_type) (f : S -> rrset -> bool * S) (st : S) : response * S :=
  match get_section r s with
  | Some l => let (k, st') := retain_mut f st l in (put_section r s (Some k), st')
  | None => (r, st)
  end.

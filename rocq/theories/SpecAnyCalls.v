(** Vocabulary for C60: sequences of renderer calls with truncations and resets anywhere, and patches ([write_*_at]) anywhere. *)
From Verif Require Import Base NameModel RenderModel SpecName SpecBuf.

(** Any call a user can make. *)
Inductive anyop := ACall (o : mop) | ATruncate (p : nat) | AReset.
Definition any_call (o : anyop) : M render unit :=
  match o with ACall o => mop_call o | ATruncate p => mr_truncate p | AReset => mr_reset end.
(** Arguments within the range of their Rust types; names are legal names. *)
Definition any_typed (o : anyop) : Prop :=
  match o with
  | ACall (MName ls _) => wf_labels ls
  | ACall (M8 d) | ACall (MAt8 _ d) => (d < 256)%N
  | ACall (M16 d) | ACall (MAt16 _ d) => (d < 65536)%N
  | ACall (M32 d) => (d < 4294967296)%N
  | ACall (MBytes l) => bytes l
  | ACall (MSkip _) | ATruncate _ | AReset => True
  end.
(** [reaches r0 r]: some sequence of calls, each returning Ok or Err, leads from [r0] to [r]. *)
Inductive reaches (r0 : render) : render -> Prop :=
| reaches_nil : reaches r0 r0
| reaches_call : forall r o a r', reaches r0 r -> any_typed o -> any_call o r = (a, r') -> a = Ok tt \/ a = Err -> reaches r0 r'.

(** Specification vocabulary for what old buffer contents may show (C119). *)
From Verif Require Import Base NameModel RenderModel RDataModel MsgModel SpecName SpecBuf SpecMsg.

(** Two runs of an encoder came to the same outcome, and where this is a length, both buffers hold the same octets. *)
Definition same_writing (x y : res nat * render) : Prop :=
  fst x = fst y /\ forall n, fst x = Ok n -> mr_bytes (snd x) = mr_bytes (snd y).
(** The call appends octets (it neither skips nor patches). *)
Definition writes_only (o : mop) : Prop := match o with MSkip _ | MAt8 _ _ | MAt16 _ _ => False | _ => True end.

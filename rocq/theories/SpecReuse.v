(** Specification vocabulary for one renderer used for many messages (C120). *)
From Verif Require Import Base NameModel RenderModel RDataModel MsgModel SpecName SpecBuf SpecMsg SpecAnyCalls SpecStale.

(** What a user does with a renderer: a call of its own, or rendering a message. *)
Inductive use := UCall (o : anyop) | UResponse (r : response) | URequest (q : request).
Definition use_typed (u : use) : Prop :=
  match u with UCall o => any_typed o | UResponse r => consistent r | URequest q => question_ok (rq_question q) end.
Definition use_effect (u : use) (s : render) : render :=
  match u with UCall o => snd (any_call o s) | UResponse r => snd (response_to_wire r s) | URequest q => snd (request_to_wire q s) end.
(** The renderer after these uses, whatever each returned (an error, or a panic that was caught, included). *)
Definition after_uses (us : list use) (s : render) : render := fold_left (fun s u => use_effect u s) us s.

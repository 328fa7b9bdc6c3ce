(** Vocabulary for C103: which builder call decides what. *)
From Verif Require Import Base NameModel CodesModel MsgModel SpecMsg.

(** The value a run of calls leaves when each call [o] sets it ([sel o = Some x]) or leaves it alone ([None]): that of the last call
    that sets it, else the value before the run. *)
Fixpoint final {A} (sel : bop -> option A) (calls : list bop) (before : A) : A :=
  match calls with
  | [] => before
  | o :: calls' => final sel calls' (match sel o with Some x => x | None => before end)
  end.
Definition sets_id (o : bop) : option N := match o with BId id => Some id | _ => None end.
Definition sets_opcode (o : bop) : option opcode := match o with BOpcode c => Some c | _ => None end.
Definition sets_rcode (o : bop) : option rcode := match o with BRcode c => Some c | _ => None end.
Definition sets_question (o : bop) : option question := match o with BQuestion q => Some q | _ => None end.
Definition same_flag (f g : hflag) : bool :=
  match f, g with QR, QR | AA, AA | TC, TC | RD, RD | RA, RA | AD, AD | CD, CD => true | _, _ => false end.
(** [make_response] sets QR. *)
Definition sets_flag (f : hflag) (o : bop) : option bool :=
  match o with
  | BSet g => if same_flag f g then Some true else None
  | BClear g => if same_flag f g then Some false else None
  | BMake => if same_flag f QR then Some true else None
  | _ => None
  end.
Definition same_section (a b : section_type) : bool :=
  match a, b with SAnswer, SAnswer | SAuthority, SAuthority | SAdditional, SAdditional => true | _, _ => false end.
(** The calls that work on section [s]; [edns] works on the additional section. *)
Definition works_on (s : section_type) (o : bop) : bool :=
  match o with
  | BAdd s' _ | BRemove s' _ | BClearSection s' | BWith s' _ => same_section s s'
  | BEdns _ => same_section s SAdditional
  | _ => false
  end.

(** Vocabulary for C105, C107, C108. *)
From Verif Require Import Base NameModel RenderModel CodesModel RDataModel MsgModel TextModel SpecName SpecBuf SpecText AccessModel.
Open Scope list_scope.
Open Scope nat_scope.

(** [records_at w p e n]: the octets of [w] from [p] to [e] are exactly [n] records that decode one after the other. *)
Inductive records_at (w : list N) : nat -> nat -> nat -> Prop :=
| ra_none p : records_at w p p 0
| ra_more p q e n rs : rrset_from_wire (mkIn w p) = (Ok rs, mkIn w q) -> records_at w q e n -> records_at w p e (S n).
(** Calls on an [InputBuffer], now with [set_data]. *)
Inductive icall := ICall (o : rop) | ISetData (w : list N).
Definition icall_run (c : icall) : M inbuf rval := match c with ICall o => read_call o | ISetData w => ib_set_data w ;; ret RUnit end.
(** The state after calls, whatever they answered. *)
Fixpoint after_calls (cs : list icall) (b : inbuf) : inbuf := match cs with [] => b | c :: cs' => after_calls cs' (snd (icall_run c b)) end.
(** [pre] is made of the words [l], each with the blanks before it, and ends with the last word. *)
Inductive taken : list N -> list (list N) -> Prop :=
| taken_nil : taken [] []
| taken_cons gap w pre l : forallb is_ws gap = true -> w <> [] -> forallb (fun c => negb (is_ws c)) w = true ->
    (pre = [] \/ exists c r, pre = c :: r /\ is_ws c = true) -> taken pre l -> taken (gap ++ w ++ pre) (w :: l).
(** Nothing more, or a blank first. *)
Definition blank_next (s : list N) : Prop := s = [] \/ exists c r, s = c :: r /\ is_ws c = true.
(** A stateful predicate asked once about each rrset, in order: its answers and its final state. *)
Inductive asked {S : Type} (f : S -> rrset -> bool * S) : S -> list rrset -> list bool -> S -> Prop :=
| asked_nil st : asked f st [] [] st
| asked_cons st x l b st1 ds st2 : f st x = (b, st1) -> asked f st1 l ds st2 -> asked f st (x :: l) (b :: ds) st2.
(** What is kept when the answers are [ds]: the rrsets answered [false], in order. *)
Definition kept_by (l : list rrset) (ds : list bool) : list rrset := map fst (filter (fun p => negb (snd p)) (combine l ds)).

(** What a domain name in text form denotes when it contains backslashes, as this library reads it.  This is not
    RFC 1035 (see C17_refuted for where it differs); it is a reading rule given here independently of the state
    machine in name.rs, against which that machine is proved (C17_escapes_exact). *)
From Verif Require Import Base NameModel SpecName.
Open Scope list_scope.
Open Scope nat_scope.

Definition dec_digit (c : N) : bool := ((48 <=? c) && (c <=? 57))%N.
Definition opt_cons (b : N) (o : option (list N)) : option (list N) :=
  match o with Some l => Some (b :: l) | None => None end.

(** The octets of a stretch of label text (no dots in it).  [closed] says that a dot follows.
    - an ordinary character stands for itself;
    - a backslash and three digits (value at most 255) stand for the last of the digits;
    - a backslash before any other character puts in that character, which is then read once more;
    - a backslash just before the closing dot puts in a dot (and the dot closes the label all the same);
    - anything else is no reading. *)
Fixpoint esc_octets (closed : bool) (t : list N) : option (list N) :=
  match t with
  | [] => Some []
  | c :: t1 =>
      if (c =? 92)%N then
        match t1 with
        | [] => if closed then Some [46%N] else None
        | x :: t2 =>
            if dec_digit x then
              match t2 with
              | y :: z :: t3 =>
                  if dec_digit y && dec_digit z && ((x - 48) * 100 + (y - 48) * 10 + (z - 48) <=? 255)%N
                  then opt_cons z (esc_octets closed t3) else None
              | _ => None
              end
            else opt_cons x (esc_octets closed t1)
        end
      else opt_cons c (esc_octets closed t1)
  end.
(** A backslash at the start of a label is also put in itself. *)
Definition label_reading (closed : bool) (t : list N) : option (list N) :=
  if (hd 0%N t =? 92)%N then opt_cons 92%N (esc_octets closed t) else esc_octets closed t.

(** The text is cut at every dot; every piece but the last is closed by a dot; after a final dot nothing remains. *)
Fixpoint pieces_reading (ps : list (list N)) : option (list label) :=
  match ps with
  | [] => Some []
  | [p] => match p with
           | [] => Some []
           | _ => match label_reading false p with Some l => Some [l] | None => None end
           end
  | p :: ps' =>
      match label_reading true p, pieces_reading ps' with
      | Some l, Some ls => Some (l :: ls)
      | _, _ => None
      end
  end.
(** "." and "@" are the root, the empty text is not a name. *)
Definition text_reading (s : list N) : option (list label) :=
  match s with
  | [] => None
  | _ => if list_eq_dec N.eq_dec s [46%N] then Some []
         else if list_eq_dec N.eq_dec s [64%N] then Some []
         else pieces_reading (split_dots s)
  end.

(** The piece ends in a backslash that is still waiting for its character. *)
Fixpoint open_escape (t : list N) : bool :=
  match t with
  | [] => false
  | c :: t1 =>
      if (c =? 92)%N then
        match t1 with
        | [] => true
        | x :: t2 => if dec_digit x then match t2 with _ :: _ :: t3 => open_escape t3 | _ => false end
                     else open_escape t1
        end
      else open_escape t1
  end.
(** The text's very last dot is an escaped one. *)
Fixpoint ends_escaped (ps : list (list N)) : bool :=
  match ps with
  | [] => false
  | p :: ps' => match ps' with [[]] => open_escape p | _ => ends_escaped ps' end
  end.
(** The names Name::new makes: labels of 1..63 octets, 255 octets in all — or 256 if the last dot is escaped. *)
Definition esc_legal (s : list N) (ls : list label) : Prop :=
  text_reading s = Some ls /\ Forall (fun l => 1 <= length l <= 63) ls /\
  (wire_len ls <= 255 \/ wire_len ls = 256 /\ ends_escaped (split_dots s) = true).

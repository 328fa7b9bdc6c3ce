(** Specification vocabulary: what exactly stands in the way of reading a presentation-format time, and the lines on which reading panics. *)
From Coq Require Import String ZArith.
From Verif Require Import Base NameModel RenderModel CodesModel RDataModel MsgModel TextModel SpecName SpecBuf SpecCodes SpecMsg SpecText.
Open Scope list_scope.
Open Scope nat_scope.

(** The bytes of [w] from position [a] up to position [b]. *)
Definition part (w : list N) (a b : nat) : list N := firstn (b - a) (skipn a w).
(** A decimal number with an optional sign. *)
Definition signed_text (s : list N) (v : Z) : Prop :=
  (exists n, number_text s n /\ v = Z.of_N n) \/
  (exists ds, s = 45%N :: ds /\ ds <> [] /\ Forall is_dec ds /\ v = (- Z.of_N (dec_val ds))%Z).
(** [w] is a time YYYYMMDDHHmmSS: a date and a time of day; [t] is its UNIX time, modulo 2^32. *)
Definition time_text (x : ext) (w : list N) (t : N) : Prop :=
  length w = 14 /\ exists y mo d h mi se,
    signed_text (part w 0 4) y /\ number_text (part w 4 6) mo /\ number_text (part w 6 8) d /\ x_ymd x y mo d = true /\
    number_text (part w 8 10) h /\ number_text (part w 10 12) mi /\ number_text (part w 12 14) se /\ x_hms x h mi se = true /\
    t = Z.to_N (x_unix x y mo d h mi se mod 4294967296).
(** A word of 14 bytes in which a character lies across the end (byte [k]) of one of the groups YYYY MM DD HH mm, everything before that group
    being what a time has there. *)
Definition torn_time (x : ext) (w : list N) : Prop :=
  length w = 14 /\ exists k y mo d h, In k [4; 6; 8; 10; 12] /\ valid_utf8 (firstn k w) = false /\
    (4 < k -> signed_text (part w 0 4) y) /\ (6 < k -> number_text (part w 4 6) mo) /\
    (8 < k -> number_text (part w 6 8) d /\ x_ymd x y mo d = true) /\ (10 < k -> number_text (part w 8 10) h).
(** A word that is a number below [bound]. *)
Definition is_number (bound : N) (w : list N) : Prop := exists v, number_text w v /\ (v < bound)%N.
(** The words of RRSIG record data: type covered, algorithm, labels, original ttl are in order; the expiration time is torn, or
    is a time and the inception time is torn. *)
Definition torn_rrsig (x : ext) (ws : list (list N)) : Prop :=
  exists ty alg lab ottl exp rest, ws = ty :: alg :: lab :: ottl :: exp :: rest /\
    (exists t, rrtype_from_str (string_of ty) = Ok t) /\ is_number 256 alg /\ is_number 256 lab /\ is_number 4294967296 ottl /\
    (torn_time x exp \/ (exists t, time_text x exp t) /\ exists inc rest', rest = inc :: rest' /\ torn_time x inc).
(** The words of a record line: owner, ttl, optional class, the type RRSIG, and such record data. *)
Definition torn_line (x : ext) (ws : list (list N)) : Prop :=
  exists owner ttl tail data, ws = owner :: ttl :: tail /\ (exists n, name_new owner = Ok n) /\ is_number 4294967296 ttl /\
    (exists ty, rrtype_from_str (string_of ty) = Ok TRRSIG /\
      (tail = ty :: data \/ exists c cls, tail = c :: ty :: data /\ rrclass_from_str (string_of c) = Ok cls)) /\
    torn_rrsig x data.

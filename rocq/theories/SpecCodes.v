(** Specification vocabulary for codes and the message header. *)
From Coq Require Import String.
From Verif Require Import Base SpecName CodesModel.
Open Scope list_scope.
Open Scope nat_scope.

(** IANA registry: mnemonic and number of the resource record types this library names. *)
Definition iana_types : list (string * N) :=
  [("A", 1); ("NS", 2); ("CNAME", 5); ("SOA", 6); ("PTR", 12); ("MX", 15); ("TXT", 16); ("RP", 17); ("AAAA", 28);
   ("SRV", 33); ("NAPTR", 35); ("CERT", 37); ("DNAME", 39); ("OPT", 41); ("DS", 43); ("RRSIG", 46); ("NSEC", 47);
   ("DNSKEY", 48); ("NSEC3", 50); ("NSEC3PARAM", 51); ("TSIG", 250); ("IXFR", 251); ("AXFR", 252); ("ANY", 255);
   ("URI", 256); ("CAA", 257)]%string%N.
Definition iana_classes : list (string * N) := [("IN", 1); ("CH", 3); ("HS", 4); ("NONE", 254); ("ANY", 255)]%string%N.
Definition iana_rcodes : list (string * N) :=
  [("NOERROR", 0); ("FORMERR", 1); ("SERVFAIL", 2); ("NXDOMAIN", 3); ("NOTIMP", 4); ("REFUSED", 5); ("YXDOMAIN", 6);
   ("YXRRSET", 7); ("NXRRSET", 8); ("NOTAUTH", 9); ("NOTZONE", 10)]%string%N.
Definition iana_opcodes : list (string * N) := [("QUERY", 0); ("IQUERY", 1); ("STATUS", 2); ("NOTIFY", 4); ("UPDATE", 5)]%string%N.

(** The two texts differ at most in ASCII letter case. *)
Definition same_text (a b : string) : Prop := map lc (of_string a) = map lc (of_string b).

(** Rust's spellings of a mnemonic [m], in UTF-8: every character in upper or lower case, and, since they have the upper-case forms S and I
    in Unicode, a long s (U+017F) for an S and a dotless i (U+0131) for an I. *)
Inductive spells : list N -> list N -> Prop :=
| spl_nil : spells [] []
| spl_char : forall c d s m, lc c = lc d -> spells s m -> spells (c :: s) (d :: m)
| spl_long_s : forall s m, spells s m -> spells (197 :: 191 :: s)%N (83 :: m)%N
| spl_dotless_i : forall s m, spells s m -> spells (196 :: 177 :: s)%N (73 :: m)%N.

(** RFC 1035 4.1.1 / RFC 4035: position (from the least significant bit) of each flag in the second header word. *)
Definition flag_bit (f : hflag) : N :=
  match f with QR => 15 | AA => 10 | TC => 9 | RD => 8 | RA => 7 | AD => 5 | CD => 4 end%N.
Definition all_flags := [QR; AA; TC; RD; RA; AD; CD].
(** Fields of the second header word. *)
Definition opcode_field (w : N) : N := (w / 2048 mod 16)%N.
Definition rcode_field (w : N) : N := (w mod 16)%N.

(** A header as the API can build it: 16-bit numbers, no bit set outside the seven flags. *)
Definition header_ok (h : header) : Prop :=
  (h_id h < 65536 /\ h_qd h < 65536 /\ h_an h < 65536 /\ h_ns h < 65536 /\ h_ar h < 65536)%N /\
  forall i, N.testbit (h_flag h) i = true -> exists f, i = flag_bit f.

(** A type / class code as [RRType::new] / [RRClass::new] produce it: a 16-bit number, and no Unknown around an
    assigned number. *)
Definition type_ok (t : rrtype) : Prop := (rrtype_u16 t < 65536)%N /\ rrtype_new (rrtype_u16 t) = t.
Definition class_ok (c : rrclass) : Prop := (rrclass_u16 c < 65536)%N /\ rrclass_new (rrclass_u16 c) = c.

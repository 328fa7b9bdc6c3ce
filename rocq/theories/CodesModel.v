(** Model of src/opcode.rs, src/rcode.rs, src/rr_class.rs, src/rr_type.rs, src/header_flag.rs,
    src/header.rs and src/question.rs.  Numbers are [N]; u8/u16 ranges are explicit where they matter. *)
From Verif Require Import Base NameModel RenderModel.
From Coq Require Import String Ascii.
Open Scope list_scope.
Open Scope nat_scope.

(* ------------------------------------------------------------------ *)
(** * opcode.rs *)
(** opcode.rs:4-11 *)
Inductive opcode := OQuery | OIQuery | OStatus | ONotify | OUpdate | OReserved.
(** opcode.rs:14-23 *)
Definition opcode_new (v : N) : opcode :=
  match v with
  | 0 => OQuery | 1 => OIQuery | 2 => OStatus | 4 => ONotify | 5 => OUpdate | _ => OReserved
  end%N.
(** opcode.rs:25-34 *)
Definition opcode_u8 (o : opcode) : N :=
  match o with OQuery => 0 | OIQuery => 1 | OStatus => 2 | ONotify => 4 | OUpdate => 5 | OReserved => 6 end%N.
(** opcode.rs:36-45 *)
Definition opcode_str (o : opcode) : string :=
  match o with OQuery => "QUERY" | OIQuery => "IQUERY" | OStatus => "STATUS" | ONotify => "NOTIFY"
  | OUpdate => "UPDATE" | OReserved => "RESERVED" end%string.

(* ------------------------------------------------------------------ *)
(** * rcode.rs *)
(** rcode.rs:7-20 *)
Inductive rcode := RNoError | RFormErr | RServFail | RNXDomain | RNotImp | RRefused | RYXDomain | RYXRRset
  | RNXRRset | RNotAuth | RNotZone | RReserved.
(** rcode.rs:23-38 *)
Definition rcode_new (v : N) : rcode :=
  match v with
  | 0 => RNoError | 1 => RFormErr | 2 => RServFail | 3 => RNXDomain | 4 => RNotImp | 5 => RRefused
  | 6 => RYXDomain | 7 => RYXRRset | 8 => RNXRRset | 9 => RNotAuth | 10 => RNotZone | _ => RReserved
  end%N.
(** rcode.rs:40-55 *)
Definition rcode_u8 (r : rcode) : N :=
  match r with
  | RNoError => 0 | RFormErr => 1 | RServFail => 2 | RNXDomain => 3 | RNotImp => 4 | RRefused => 5
  | RYXDomain => 6 | RYXRRset => 7 | RNXRRset => 8 | RNotAuth => 9 | RNotZone => 10 | RReserved => 11
  end%N.
(** rcode.rs:57-72 *)
Definition rcode_str (r : rcode) : string :=
  match r with
  | RNoError => "NOERROR" | RFormErr => "FORMERR" | RServFail => "SERVFAIL" | RNXDomain => "NXDOMAIN"
  | RNotImp => "NOTIMP" | RRefused => "REFUSED" | RYXDomain => "YXDOMAIN" | RYXRRset => "YXRRSET"
  | RNXRRset => "NXRRSET" | RNotAuth => "NOTAUTH" | RNotZone => "NOTZONE" | RReserved => "RESERVED"
  end%string.

(** [char::to_uppercase] on ASCII characters. *)
Definition upper_ascii (c : ascii) : ascii :=
  let n := N_of_ascii c in if ((97 <=? n) && (n <=? 122))%N then ascii_of_N (n - 32) else c.
(** The non-ASCII characters (in UTF-8) whose upper-case form consists of ASCII letters: U+00DF, U+0131, U+017F, U+FB00 - U+FB06
    (Unicode's UnicodeData and SpecialCasing).  All others have an upper-case form with a non-ASCII character. *)
Definition upper2 (a b : ascii) : option string :=
  let '(x, y) := (N_of_ascii a, N_of_ascii b) in
  if (x =? 195)%N && (y =? 159)%N then Some "SS"%string
  else if (x =? 196)%N && (y =? 177)%N then Some "I"%string
  else if (x =? 197)%N && (y =? 191)%N then Some "S"%string
  else None.
Definition upper3 (a b c : ascii) : option string :=
  if (N_of_ascii a =? 239)%N && (N_of_ascii b =? 172)%N then
    match N_of_ascii c with
    | 128 => Some "FF" | 129 => Some "FI" | 130 => Some "FL" | 131 => Some "FFI" | 132 => Some "FFL" | 133 | 134 => Some "ST" | _ => None
    end%N%string
  else None.
(** [str::to_uppercase] on UTF-8 (std).  Simplification: non-ASCII characters whose upper-case form is not all ASCII are kept as they
    are; the result is only ever compared with ASCII literals, and differs from all of them either way. *)
Fixpoint to_uppercase (s : string) : string :=
  match s with
  | EmptyString => EmptyString
  | String a s1 =>
      match s1 with
      | EmptyString => String (upper_ascii a) EmptyString
      | String b s2 =>
          match upper2 a b with
          | Some u => append u (to_uppercase s2)
          | None =>
              match s2 with
              | EmptyString => String (upper_ascii a) (to_uppercase s1)
              | String c s3 =>
                  match upper3 a b c with
                  | Some u => append u (to_uppercase s3)
                  | None => String (upper_ascii a) (to_uppercase s1)
                  end
              end
          end
      end
  end.
(** A Rust [match s.to_uppercase().as_ref() { "..." => Ok(..), ..., _ => bail! }]. *)
Definition match_str {A} (tbl : list (string * A)) (s : string) : res A :=
  match find (fun p => String.eqb (fst p) (to_uppercase s)) tbl with
  | Some p => Ok (snd p)
  | None => Err
  end.
(** rcode.rs:83-99 *)
Definition rcode_table : list (string * rcode) :=
  [("NOERROR", RNoError); ("FORMERR", RFormErr); ("SERVFAIL", RServFail); ("NXDOMAIN", RNXDomain);
   ("NOTIMP", RNotImp); ("REFUSED", RRefused); ("YXDOMAIN", RYXDomain); ("YXRRSET", RYXRRset);
   ("NXRRSET", RNXRRset); ("NOTAUTH", RNotAuth); ("NOTZONE", RNotZone); ("RESERVED", RReserved)]%string.
Definition rcode_from_str (s : string) : res rcode := match_str rcode_table s.

(* ------------------------------------------------------------------ *)
(** * rr_class.rs *)
(** rr_class.rs:9-16 *)
Inductive rrclass := CIN | CCH | CHS | CNONE | CANY | CUnknown (v : N).
(** rr_class.rs:19-28 *)
Definition rrclass_new (v : N) : rrclass :=
  match v with 1 => CIN | 3 => CCH | 4 => CHS | 254 => CNONE | 255 => CANY | _ => CUnknown v end%N.
(** rr_class.rs:30-39 *)
Definition rrclass_u16 (c : rrclass) : N :=
  match c with CIN => 1 | CCH => 3 | CHS => 4 | CNONE => 254 | CANY => 255 | CUnknown v => v end%N.
(** rr_class.rs:41-50 *)
Definition rrclass_str (c : rrclass) : string :=
  match c with CIN => "IN" | CCH => "CH" | CHS => "HS" | CNONE => "NONE" | CANY => "ANY" | CUnknown _ => "Unknown" end%string.
(** rr_class.rs:52-54 *)
Definition rrclass_from_wire : M inbuf rrclass := let! v := read_u16 in ret (rrclass_new v).
(** rr_class.rs:56-58 *)
Definition rrclass_to_wire (c : rrclass) : M render unit := mr_write_u16 (rrclass_u16 c).
(** rr_class.rs:63-72 *)
Definition rrclass_table : list (string * rrclass) :=
  [("IN", CIN); ("CH", CCH); ("HS", CHS); ("NONE", CNONE); ("ANY", CANY)]%string.
Definition rrclass_from_str (s : string) : res rrclass := match_str rrclass_table s.

(* ------------------------------------------------------------------ *)
(** * rr_type.rs *)
(** rr_type.rs:10-38 *)
Inductive rrtype := TA | TNS | TCNAME | TSOA | TPTR | TMX | TTXT | TRP | TAAAA | TSRV | TNAPTR | TCERT | TDNAME | TOPT
  | TDS | TRRSIG | TNSEC | TDNSKEY | TNSEC3 | TNSEC3PARAM | TTSIG | TIXFR | TAXFR | TANY | TURI | TCAA | TUnknown (v : N).
(** rr_type.rs:41-71 *)
Definition rrtype_new (v : N) : rrtype :=
  match v with
  | 1 => TA | 2 => TNS | 5 => TCNAME | 6 => TSOA | 12 => TPTR | 15 => TMX | 17 => TRP | 28 => TAAAA | 16 => TTXT
  | 33 => TSRV | 35 => TNAPTR | 37 => TCERT | 39 => TDNAME | 41 => TOPT | 43 => TDS | 46 => TRRSIG | 47 => TNSEC
  | 48 => TDNSKEY | 50 => TNSEC3 | 51 => TNSEC3PARAM | 250 => TTSIG | 251 => TIXFR | 252 => TAXFR | 255 => TANY
  | 256 => TURI | 257 => TCAA | _ => TUnknown v
  end%N.
(** rr_type.rs:73-103 *)
Definition rrtype_u16 (t : rrtype) : N :=
  match t with
  | TA => 1 | TNS => 2 | TCNAME => 5 | TSOA => 6 | TPTR => 12 | TMX => 15 | TTXT => 16 | TRP => 17 | TAAAA => 28
  | TSRV => 33 | TNAPTR => 35 | TCERT => 37 | TDNAME => 39 | TOPT => 41 | TDS => 43 | TRRSIG => 46 | TNSEC => 47
  | TDNSKEY => 48 | TNSEC3 => 50 | TNSEC3PARAM => 51 | TTSIG => 250 | TIXFR => 251 | TAXFR => 252 | TANY => 255
  | TURI => 256 | TCAA => 257 | TUnknown c => c
  end%N.
(** rr_type.rs:105-135 *)
Definition rrtype_str (t : rrtype) : string :=
  match t with
  | TA => "A" | TNS => "NS" | TCNAME => "CNAME" | TSOA => "SOA" | TPTR => "PTR" | TMX => "MX" | TTXT => "TXT"
  | TRP => "RP" | TAAAA => "AAAA" | TSRV => "SRV" | TNAPTR => "NAPTR" | TCERT => "URI" | TDNAME => "DNAME"
  | TOPT => "OPT" | TDS => "DS" | TRRSIG => "RRSIG" | TNSEC => "NSEC" | TDNSKEY => "DNSKEY" | TNSEC3 => "NSEC3"
  | TNSEC3PARAM => "NSEC3PARAM" | TTSIG => "TSIG" | TIXFR => "IXFR" | TAXFR => "AXFR" | TANY => "ANY"
  | TURI => "URI" | TCAA => "CAA" | TUnknown _ => "Unknown"
  end%string.
(** rr_type.rs:137-139 *)
Definition rrtype_from_wire : M inbuf rrtype := let! v := read_u16 in ret (rrtype_new v).
(** rr_type.rs:141-143 *)
Definition rrtype_to_wire (t : rrtype) : M render unit := mr_write_u16 (rrtype_u16 t).
(** rr_type.rs:154-184 *)
Definition rrtype_table : list (string * rrtype) :=
  [("A", TA); ("NS", TNS); ("CNAME", TCNAME); ("SOA", TSOA); ("PTR", TPTR); ("MX", TMX); ("TXT", TTXT); ("RP", TRP);
   ("AAAA", TAAAA); ("SRV", TSRV); ("NAPTR", TNAPTR); ("CERT", TCERT); ("DNAME", TDNAME); ("OPT", TOPT); ("DS", TDS);
   ("RRSIG", TRRSIG); ("NSEC", TNSEC); ("DNSKEY", TDNSKEY); ("NSEC3", TNSEC3); ("NSEC3PARAM", TNSEC3PARAM);
   ("TSIG", TTSIG); ("IXFR", TIXFR); ("AXFR", TAXFR); ("ANY", TANY); ("URI", TURI); ("CAA", TCAA)]%string.
Definition rrtype_from_str (s : string) : res rrtype := match_str rrtype_table s.
(** rr_type.rs:8 derived [PartialEq] *)
Definition rrtype_eqb (a b : rrtype) : bool :=
  match a, b with
  | TUnknown x, TUnknown y => (x =? y)%N
  | TUnknown _, _ | _, TUnknown _ => false
  | _, _ => (rrtype_u16 a =? rrtype_u16 b)%N
  end.
(** rr_type.rs:187-197 [Ord] *)
Definition rrtype_cmp (a b : rrtype) : comparison := (rrtype_u16 a ?= rrtype_u16 b)%N.

(* ------------------------------------------------------------------ *)
(** * header_flag.rs *)
(** header_flag.rs:4-12 *)
Inductive hflag := QR | AA | TC | RD | RA | AD | CD.
(** header_flag.rs:15-25 *)
Definition flag_mask (f : hflag) : N :=
  match f with QR => 32768 | AA => 1024 | TC => 512 | RD => 256 | RA => 128 | AD => 32 | CD => 16 end%N.
(** header_flag.rs:46-48 *)
Definition hf_set (flags : N) (f : hflag) : N := N.lor flags (flag_mask f).
(** header_flag.rs:50-52: [flags &= !mask] on u16 *)
Definition hf_clear (flags : N) (f : hflag) : N := N.land flags (N.lxor 65535 (flag_mask f)).
(** header_flag.rs:54-56 *)
Definition hf_is_set (flags : N) (f : hflag) : bool := negb (N.land flags (flag_mask f) =? 0)%N.
(** header_flag.rs:58-70 *)
Definition hf_setted (flags : N) : list hflag := filter (hf_is_set flags) [QR; AA; TC; RD; RA; AD; CD].

(* ------------------------------------------------------------------ *)
(** * header.rs *)
(** header.rs:9-12 *)
Definition HEADERFLAG_MASK : N := 34736.
Definition OPCODE_MASK : N := 30720.
Definition OPCODE_SHIFT : N := 11.
Definition RCODE_MASK : N := 15.
(** header.rs:15-24 *)
Record header := mkHeader
  { h_id : N; h_flag : N; h_opcode : opcode; h_rcode : rcode;
    h_qd : N; h_an : N; h_ns : N; h_ar : N }.
(** header.rs:27-44 *)
Definition header_from_wire : M inbuf header :=
  let! id := read_u16 in
  let! flag := read_u16 in
  let! qd := read_u16 in
  let! an := read_u16 in
  let! ns := read_u16 in
  let! ar := read_u16 in
  ret (mkHeader id (N.land flag HEADERFLAG_MASK)
         (opcode_new (as_u8 (N.shiftr (N.land flag OPCODE_MASK) OPCODE_SHIFT)))
         (rcode_new (as_u8 (N.land flag RCODE_MASK))) qd an ns ar).
(** header.rs:46-53 *)
Definition header_clear (h : header) : header := mkHeader 0 0 (h_opcode h) (h_rcode h) 0 0 0 0.
(** header.rs:63-70 *)
Definition header_set_flag (h : header) (f : hflag) (set : bool) : header :=
  mkHeader (h_id h) (if set then hf_set (h_flag h) f else hf_clear (h_flag h) f)
    (h_opcode h) (h_rcode h) (h_qd h) (h_an h) (h_ns h) (h_ar h).
(** header.rs:59-61 *)
Definition header_is_set (h : header) (f : hflag) : bool := hf_is_set (h_flag h) f.
(** header.rs:81-86 *)
Definition header_flag (h : header) : N :=
  let flag := N.land (as_u16 (N.shiftl (opcode_u8 (h_opcode h)) OPCODE_SHIFT)) OPCODE_MASK in
  let flag := N.lor flag (N.land (rcode_u8 (h_rcode h)) RCODE_MASK) in
  N.lor flag (N.land (h_flag h) HEADERFLAG_MASK).
(** header.rs:72-79 *)
Definition header_to_wire (h : header) : M render unit :=
  mr_write_u16 (h_id h) ;; mr_write_u16 (header_flag h) ;; mr_write_u16 (h_qd h) ;;
  mr_write_u16 (h_an h) ;; mr_write_u16 (h_ns h) ;; mr_write_u16 (h_ar h).
(** header.rs:90-101 [Default]; the random id is an argument. *)
Definition header_default (rnd : N) : header := mkHeader rnd 0 OQuery RNoError 1 0 0 0.

(* ------------------------------------------------------------------ *)
(** * question.rs *)
(** question.rs:10-14 *)
Record question := mkQuestion { q_name : name; q_type : rrtype; q_class : rrclass }.
(** question.rs:17-23 *)
Definition question_new (n : name) (t : rrtype) : question := mkQuestion n t CIN.
(** question.rs:25-30 *)
Definition question_from_wire : M inbuf question :=
  let! n := name_from_wire in
  let! t := rrtype_from_wire in
  let! c := rrclass_from_wire in
  ret (mkQuestion n t c).
(** question.rs:32-36 *)
Definition question_to_wire (q : question) : M render unit :=
  name_to_wire (q_name q) ;; rrtype_to_wire (q_type q) ;; rrclass_to_wire (q_class q).

(** Specification vocabulary for rdata and messages, independent of the codecs' code. *)
From Verif Require Import Base NameModel RenderModel CodesModel RDataModel MsgModel SpecName SpecBuf SpecCodes.

(** ** Values that respect their Rust types (and the length octet of character strings). *)
Definition wf_string (t : list N) : Prop := length t <= 255 /\ bytes t.
Definition wf_field (k : codec) (v : fval) : Prop :=
  match k, v with
  | KIpv4, VIpv4 o => length o = 4 /\ bytes o
  | KIpv6, VIpv6 o => length o = 16 /\ bytes o
  | KName, VName n => wf_name n
  | KU8, VU8 x => (x < 256)%N
  | KU16, VU16 x => (x < 65536)%N
  | KU32, VU32 x => (x < 4294967296)%N
  | KType, VType t => type_ok t
  | KText, VText d => Forall wf_string d
  | KByteBin, VByteBin d => wf_string d
  | KBin, VBin d => bytes d
  | _, _ => False
  end.
(** The wire format of each record type, field by field (RFC 1035 3.3/3.4, 1183, 2782, 3403, 3596, 4034, 4398, 5155,
    6672, 6844, 6891, 7553).  [KText]: one or more character strings; [KByteBin]: one length octet and that many octets;
    [KBin]: the octets up to the end of the rdata. *)
Definition rfc_layout (t : rrtype) : option (list codec) :=
  match t with
  | TA => Some [KIpv4]                                     (* 4 address octets *)
  | TNS | TCNAME | TPTR | TDNAME => Some [KName]
  | TSOA => Some [KName; KName; KU32; KU32; KU32; KU32; KU32]  (* mname rname serial refresh retry expire minimum *)
  | TMX => Some [KU16; KName]                              (* preference exchange *)
  | TTXT => Some [KText]
  | TRP => Some [KName; KName]                             (* mbox txt *)
  | TAAAA => Some [KIpv6]
  | TSRV => Some [KU16; KU16; KU16; KName]                 (* priority weight port target *)
  | TNAPTR => Some [KU16; KU16; KByteBin; KByteBin; KByteBin; KName]  (* order preference flags services regexp replacement *)
  | TCERT => Some [KU16; KU16; KU8; KBin]                  (* type tag algorithm certificate *)
  | TOPT => Some [KBin]
  | TDS => Some [KU16; KU8; KU8; KBin]                     (* tag algorithm digest-type digest *)
  | TRRSIG => Some [KType; KU8; KU8; KU32; KU32; KU32; KU16; KName; KBin]  (* covered algorithm labels ttl expiration inception tag signer signature *)
  | TNSEC => Some [KName; KBin]                            (* next types *)
  | TDNSKEY => Some [KU16; KU8; KU8; KBin]                 (* flags protocol algorithm key *)
  | TNSEC3 => Some [KU8; KU8; KU16; KByteBin; KByteBin; KBin]  (* algorithm flags iterations salt next types *)
  | TNSEC3PARAM => Some [KU8; KU8; KU16; KByteBin]
  | TURI => Some [KU16; KU16; KBin]                        (* priority weight target *)
  | TCAA => Some [KU8; KByteBin; KBin]                     (* flags tag value *)
  | TTSIG | TIXFR | TAXFR | TANY | TUnknown _ => None
  end.
(** The variant of [RData] that holds data of a type (by name). *)
Definition data_of (t : rrtype) : option variant :=
  match t with
  | TA => Some DA | TNS => Some DNS | TCNAME => Some DCName | TSOA => Some DSOA | TPTR => Some DPTR | TMX => Some DMX
  | TTXT => Some DTXT | TRP => Some DRP | TAAAA => Some DAAAA | TSRV => Some DSRV | TNAPTR => Some DNAPTR
  | TCERT => Some DCERT | TDNAME => Some DDNAME | TOPT => Some DOPT | TDS => Some DDS | TRRSIG => Some DRRSig
  | TNSEC => Some DNSEC | TDNSKEY => Some DDNSKey | TNSEC3 => Some DNSEC3 | TNSEC3PARAM => Some DNSEC3Param
  | TURI => Some DURI | TCAA => Some DCAA
  | TTSIG | TIXFR | TAXFR | TANY | TUnknown _ => None
  end.
(** Rdata of type [t] whose fields are in range. *)
Definition wf_rdata (t : rrtype) (rd : rdata) : Prop :=
  data_of t = Some (rd_var rd) /\ exists ks, rfc_layout t = Some ks /\ Forall2 wf_field ks (rd_fields rd).

(** ** What the octets of a field / an rdata must be (names possibly compressed). *)
Definition octets (w : list N) (s e : nat) (l : list N) : Prop := e = s + length l /\ bytes_at w s (length l) = l /\ e <= length w.
Definition string_octets (t : list N) : list N := blen t :: t.
Definition field_at (w : list N) (s e : nat) (v : fval) : Prop :=
  match v with
  | VIpv4 o | VIpv6 o | VBin o => octets w s e o
  | VName n => exists ls, wf_labels ls /\ n = name_of ls /\ wname (rd_of w) s s ls e
  | VU8 x => octets w s e [x]
  | VU16 x => octets w s e (u16_bytes x)
  | VU32 x => octets w s e (u32_bytes x)
  | VType t => octets w s e (u16_bytes (rrtype_u16 t))
  | VText d => octets w s e (flat_map string_octets d)
  | VByteBin d => octets w s e (string_octets d)
  end.
Fixpoint fields_at (w : list N) (s e : nat) (vs : list fval) : Prop :=
  match vs with
  | [] => e = s
  | v :: vs' => exists m, field_at w s m v /\ fields_at w m e vs'
  end.

(** ** Resource records on the wire (RFC 1035 4.1.3); [rr_data = None] means RDLENGTH 0. *)
Record rr := mkRR { rr_owner : name; rr_type : rrtype; rr_class : rrclass; rr_ttl : N; rr_data : option rdata }.
Definition rr_at (w : list N) (s e : nat) (x : rr) : Prop :=
  exists ls m L, wf_labels ls /\ rr_owner x = name_of ls /\ wname (rd_of w) s s ls m /\
    type_ok (rr_type x) /\ octets w m (m + 2) (u16_bytes (rrtype_u16 (rr_type x))) /\
    class_ok (rr_class x) /\ octets w (m + 2) (m + 4) (u16_bytes (rrclass_u16 (rr_class x))) /\
    (rr_ttl x < 4294967296)%N /\ octets w (m + 4) (m + 8) (u32_bytes (rr_ttl x)) /\
    (L < 65536)%N /\ octets w (m + 8) (m + 10) (u16_bytes L) /\
    e = m + 10 + N.to_nat L /\
    match rr_data x with
    | None => L = 0%N
    | Some rd => L <> 0%N /\ wf_rdata (rr_type x) rd /\ fields_at w (m + 10) e (rd_fields rd)
    end.
(** Records the decoder supports: only OPT may have empty rdata. *)
Definition rr_legal (x : rr) : Prop := rr_data x = None -> rr_type x = TOPT.
Fixpoint rrs_at (w : list N) (s e : nat) (xs : list rr) : Prop :=
  match xs with
  | [] => e = s
  | x :: xs' => exists m, rr_at w s m x /\ rrs_at w m e xs'
  end.
(** The records an rrset stands for. *)
Definition rrs_of (rs : rrset) : list rr :=
  match rs_rdatas rs with
  | [] => [mkRR (rs_name rs) (rs_type rs) (rs_class rs) (rs_ttl rs) None]
  | l => map (fun d => mkRR (rs_name rs) (rs_type rs) (rs_class rs) (rs_ttl rs) (Some d)) l
  end.

(** ** Messages *)
(** Names equal up to ASCII case. *)
Definition same_owner (a b : name) : Prop := exists x y, wf_labels x /\ wf_labels y /\ a = name_of x /\ b = name_of y /\ same_name x y.
(** Two rrsets the wire format cannot keep apart when they are adjacent. *)
Definition same_set (a b : rrset) : Prop := rs_type a = rs_type b /\ same_owner (rs_name a) (rs_name b).
Fixpoint runs_differ (l : list rrset) : Prop :=
  match l with
  | a :: ((b :: _) as l') => ~ same_set a b /\ runs_differ l'
  | _ => True
  end.
(** Rdata with an empty encoding: TXT without strings, OPT without data. *)
Definition has_octets (rd : rdata) : Prop := rd_fields rd <> [VText []] /\ rd_fields rd <> [VBin []].
(** An rrset whose fields are in range; only OPT may be without rdata, and has at most one. *)
Definition rrset_ok (rs : rrset) : Prop :=
  wf_name (rs_name rs) /\ type_ok (rs_type rs) /\ class_ok (rs_class rs) /\ (rs_ttl rs < 4294967296)%N /\
  Forall (fun rd => wf_rdata (rs_type rs) rd /\ has_octets rd) (rs_rdatas rs) /\
  (rs_rdatas rs = [] -> rs_type rs = TOPT) /\ (rs_type rs = TOPT -> length (rs_rdatas rs) <= 1).
Definition records (s : section) : list rr := match s with None => [] | Some l => flat_map rrs_of l end.
(** A section as [to_wire] / [from_wire] can carry it; [count] is the header's count for it. *)
Definition section_ok (additional : bool) (count : N) (s : section) : Prop :=
  count = blen (records s) /\
  match s with
  | None => True
  | Some l => l <> [] /\ Forall rrset_ok l /\ runs_differ l /\
              (additional = false -> forall rs l', l = rs :: l' -> rs_type rs <> TOPT)
  end.
Definition question_ok (q : question) : Prop := wf_name (q_name q) /\ type_ok (q_type q) /\ class_ok (q_class q).
(** A consistent response: the counts in the header are those of the sections. *)
Definition consistent (r : response) : Prop :=
  header_ok (r_header r) /\ h_qd (r_header r) = 1%N /\ question_ok (r_question r) /\
  section_ok false (h_an (r_header r)) (r_answer r) /\ section_ok false (h_ns (r_header r)) (r_authority r) /\
  section_ok true (h_ar (r_header r)) (r_additional r).

(** A request as [to_wire] / [from_wire] can carry it. *)
Definition request_ok (rq : request) : Prop :=
  header_ok (rq_header rq) /\ h_qd (rq_header rq) = 1%N /\ h_an (rq_header rq) = 0%N /\ question_ok (rq_question rq).

(** ** A whole message on the wire (RFC 1035 4.1) *)
Definition question_at (w : list N) (s e : nat) (q : question) : Prop :=
  exists ls m, wf_labels ls /\ q_name q = name_of ls /\ wname (rd_of w) s s ls m /\
    type_ok (q_type q) /\ octets w m (m + 2) (u16_bytes (rrtype_u16 (q_type q))) /\
    class_ok (q_class q) /\ octets w (m + 2) (m + 4) (u16_bytes (rrclass_u16 (q_class q))) /\ e = m + 4.
(** The 16-bit number at octet [i]. *)
Definition u16_at (w : list N) (i : nat) : N := be_val (bytes_at w i 2).
(** One question [q], then as many answer, authority and additional records as the header announces. *)
Definition message_at (w : list N) (q : question) (an ns ar : list rr) : Prop :=
  12 <= length w /\ u16_at w 4 = 1%N /\ u16_at w 6 = blen an /\ u16_at w 8 = blen ns /\ u16_at w 10 = blen ar /\
  exists p0 p1 p2 p3, question_at w 12 p0 q /\ rrs_at w p0 p1 an /\ rrs_at w p1 p2 ns /\ rrs_at w p2 p3 ar.
(** The same record up to letter case of the owner, class and TTL. *)
Definition rr_like (x y : rr) : Prop := rr_type x = rr_type y /\ rr_data x = rr_data y /\ same_owner (rr_owner x) (rr_owner y).
(** Neighbouring records of one rrset agree in class, TTL and the spelling of the owner. *)
Fixpoint uniform (xs : list rr) : Prop :=
  match xs with
  | a :: ((b :: _) as xs') => (rr_type a = rr_type b -> same_owner (rr_owner a) (rr_owner b) ->
      rr_owner a = rr_owner b /\ rr_class a = rr_class b /\ rr_ttl a = rr_ttl b) /\ uniform xs'
  | _ => True
  end.
(** [rs] collects a run of records: owner, class and TTL are those of the first record, the data those of all, in order. *)
Definition run_of (xs : list rr) (rs : rrset) : Prop := exists x xs', xs = x :: xs' /\
  rs_name rs = rr_owner x /\ rs_type rs = rr_type x /\ rs_class rs = rr_class x /\ rs_ttl rs = rr_ttl x /\
  rs_rdatas rs = flat_map (fun y => match rr_data y with Some d => [d] | None => [] end) xs.
(** The rrsets of [s] collect consecutive runs that make up [xs]. *)
Definition collects (xs : list rr) (s : section) : Prop :=
  exists runs, List.concat runs = xs /\ Forall2 run_of runs (match s with None => [] | Some l => l end).
(** No OPT record directly after one with the same owner. *)
Fixpoint opts_apart (xs : list rr) : Prop :=
  match xs with
  | a :: ((b :: _) as xs') => ~ (rr_type a = TOPT /\ rr_type b = TOPT /\ same_owner (rr_owner a) (rr_owner b)) /\ opts_apart xs'
  | _ => True
  end.
Definition first_not_opt (xs : list rr) : Prop := forall x xs', xs = x :: xs' -> rr_type x <> TOPT.
(** What the decoder accepts. *)
Definition acceptable (an ns ar : list rr) : Prop :=
  Forall rr_legal (an ++ ns ++ ar) /\ opts_apart an /\ opts_apart ns /\ opts_apart ar /\ first_not_opt an /\ first_not_opt ns.

(** ** Rendering *)
(** [f] is the second header word of a header with these flags, opcode and rcode. *)
Definition flags_word (f : N) (is_set : hflag -> bool) (o : opcode) (c : rcode) : Prop :=
  (f < 65536)%N /\ (forall fl, N.testbit f (flag_bit fl) = is_set fl) /\ opcode_field f = opcode_u8 o /\ rcode_field f = rcode_u8 c.
(** Header and question in octets (nothing is compressed there). *)
Definition head_octets (id f qd an ns ar : N) (q : question) : list N :=
  flat_map u16_bytes [id; f; qd; an; ns; ar] ++ n_raw (q_name q) ++ u16_bytes (rrtype_u16 (q_type q)) ++ u16_bytes (rrclass_u16 (q_class q)).
Definition all_records (r : response) : list rr := records (r_answer r) ++ records (r_authority r) ++ records (r_additional r).
(** Size of header and question. *)
Definition head_size (r : response) : nat := 16 + length (n_raw (q_name (r_question r))).
(** The contents of the buffer after truncation: the TC flag is set, the record counts are zero. *)
Definition truncated (r : response) (w : list N) : Prop :=
  let h := r_header r in exists f, flags_word f (fun fl => match fl with TC => true | _ => header_is_set h fl end) (h_opcode h) (h_rcode h) /\
    w = head_octets (h_id h) f 1 0 0 0 (r_question r).
Definition tc_only (r : response) : response :=
  let h := r_header r in mkResponse (mkHeader (h_id h) (h_flag (header_set_flag h TC true)) (h_opcode h) (h_rcode h) 1 0 0 0) (r_question r) None None None.

(** Encoded size without any compression, and the names in a message. *)
Definition field_size (v : fval) : nat :=
  match v with
  | VIpv4 o | VIpv6 o | VBin o => length o
  | VName n => length (n_raw n)
  | VU8 _ => 1
  | VU16 _ | VType _ => 2
  | VU32 _ => 4
  | VText d => list_sum (map (fun t => 1 + length t) d)
  | VByteBin d => 1 + length d
  end.
Definition rr_size (x : rr) : nat :=
  length (n_raw (rr_owner x)) + 10 + match rr_data x with Some rd => list_sum (map field_size (rd_fields rd)) | None => 0 end.
Definition plain_size (r : response) : nat := head_size r + list_sum (map rr_size (all_records r)).
Definition field_names (v : fval) : list name := match v with VName n => [n] | _ => [] end.
Definition rr_names (x : rr) : list name := rr_owner x :: match rr_data x with Some rd => flat_map field_names (rd_fields rd) | None => [] end.
Definition response_names (r : response) : list name := q_name (r_question r) :: flat_map rr_names (all_records r).

(** ** EDNS, builder, iterator *)
(** An Edns value whose fields respect their Rust types; [None]: without options. *)
Definition edns_ok (e : edns) : Prop := (e_version e < 256 /\ e_xrcode e < 256 /\ e_udp e < 65536)%N.
(** The calls of [ResponseBuilder] (the predicate / function argument of the last two is pure). *)
Inductive bop :=
| BId (id : N) | BSet (f : hflag) | BClear (f : hflag) | BOpcode (o : opcode) | BRcode (c : rcode) | BQuestion (q : question)
| BEdns (e : edns) | BMake | BAdd (s : section_type) (rs : rrset) | BRemove (s : section_type) (f : rrset -> bool)
| BClearSection (s : section_type) | BWith (s : section_type) (f : section -> section).
Definition bop_call (o : bop) (r : response) : res response :=
  match o with
  | BId id => Ok (set_id id r) | BSet f => Ok (set_rflag f true r) | BClear f => Ok (set_rflag f false r)
  | BOpcode o => Ok (set_opcode o r) | BRcode c => Ok (set_rcode c r) | BQuestion q => Ok (set_question q r)
  | BEdns e => add_edns r e | BMake => Ok (make_response r) | BAdd s rs => add_rrset r s rs
  | BRemove s f => Ok (remove_rrset_by r s f) | BClearSection s => Ok (clear_section r s) | BWith s f => Ok (with_section r s f)
  end.
Fixpoint build (ops : list bop) (r : response) : res response :=
  match ops with [] => Ok r | o :: ops' => let? r' := bop_call o r in build ops' r' end.
(** The rrsets of a section. *)
Definition sets (s : section) : list rrset := match s with None => [] | Some l => l end.
(** At most one rrset per owner and type. *)
Definition unique_sets (l : list rrset) : Prop := forall i j a b, nth_error l i = Some a -> nth_error l j = Some b -> same_set a b -> i = j.
(** Names are names: what every [Name] value satisfies. *)
Definition owners_ok (l : list rrset) : Prop := Forall (fun rs => wf_name (rs_name rs)) l.
Definition owners_okr (r : response) : Prop := owners_ok (sets (r_answer r)) /\ owners_ok (sets (r_authority r)) /\ owners_ok (sets (r_additional r)).
(** Additional-section calls that can hide or replace the OPT record at its end. *)
Definition keeps_additional (o : bop) : Prop :=
  match o with BEdns _ | BAdd SAdditional _ | BRemove SAdditional _ | BClearSection SAdditional | BWith SAdditional _ => False | _ => True end.

(** Builder calls that put OPT records into the additional section only through [edns] and take nothing out of it. *)
Definition edns_op (o : bop) : Prop :=
  match o with
  | BEdns e => edns_ok e
  | BAdd SAdditional rs => wf_name (rs_name rs) /\ rs_type rs <> TOPT
  | BRemove SAdditional _ | BClearSection SAdditional | BWith SAdditional _ => False
  | _ => True
  end.
Definition no_options (e : edns) : edns := mkEdns (e_version e) (e_xrcode e) (e_udp e) (e_do e) None.
(** [calls], made on a response with the additional rrsets [have], set the EDNS value [e] and leave it in view: the first
    [edns] call carries it, and every rrset added to the additional section after it joins one that was there before it. *)
Definition edns_in_view (have : list rrset) (calls : list bop) (e : edns) : Prop :=
  exists l1 e' l2, calls = l1 ++ BEdns e' :: l2 /\ e = no_options e' /\ (forall e2, ~ In (BEdns e2) l1) /\
    forall rs, In (BAdd SAdditional rs) l2 -> exists x, (In x have \/ In (BAdd SAdditional x) l1) /\ same_set x rs.

(** Builder calls with in-range arguments that never empty a section by filtering: OPT only through [edns]. *)
Definition good_op (o : bop) : Prop :=
  match o with
  | BId id => (id < 65536)%N
  | BQuestion q => question_ok q
  | BEdns e => edns_ok e
  | BAdd _ rs => rrset_ok rs /\ rs_type rs <> TOPT
  | BRemove _ _ | BWith _ _ => False
  | _ => True
  end.
(** All rrsets of a response with their section, in order. *)
Definition items (r : response) : list (rrset * section_type) :=
  map (fun x => (x, SAnswer)) (sets (r_answer r)) ++ map (fun x => (x, SAuthority)) (sets (r_authority r)) ++ map (fun x => (x, SAdditional)) (sets (r_additional r)).
Inductive dir := Front | Back.
(** What a double-ended queue yields. *)
Fixpoint deque {A} (ds : list dir) (l : list A) : list (option A) :=
  match ds with
  | [] => []
  | Front :: ds' => match l with [] => None :: deque ds' l | x :: l' => Some x :: deque ds' l' end
  | Back :: ds' => match rev l with [] => None :: deque ds' l | x :: l' => Some x :: deque ds' (rev l') end
  end.
(** How many items the calls from one end yielded. *)
Fixpoint yielded {A} (d : dir) (ds : list dir) (xs : list (option A)) : nat :=
  match ds, xs with
  | e :: ds', Some _ :: xs' => (match d, e with Front, Front | Back, Back => 1 | _, _ => 0 end) + yielded d ds' xs'
  | _ :: ds', None :: xs' => yielded d ds' xs'
  | _, _ => 0
  end.
(** The iterator driven by a list of calls: results and final state. *)
Fixpoint drive (ds : list dir) (it : riter) : res (list (option (rrset * section_type)) * riter) :=
  match ds with
  | [] => Ok ([], it)
  | d :: ds' => let? (x, it') := (match d with Front => iter_next it | Back => iter_next_back it end) in
                let? (xs, it'') := drive ds' it' in Ok (x :: xs, it'')
  end.

(** Model of src/rdata.rs, src/rdatas.rs, the wire half of src/rdatafield and the code that
    rdata-derive/src/expand.rs generates for each rdata struct. *)
From Verif Require Import Base NameModel RenderModel CodesModel.

(** The codecs named in the [#[field(codec = ..)]] attributes of rdatas.rs. *)
Inductive codec := KIpv4 | KIpv6 | KName | KU8 | KU16 | KU32 | KType | KText | KByteBin | KBin.
(** Field values.  Ipv4Addr / Ipv6Addr are their octets. *)
Inductive fval :=
| VIpv4 (o : list N) | VIpv6 (o : list N) | VName (n : name) | VU8 (v : N) | VU16 (v : N) | VU32 (v : N)
| VType (t : rrtype) | VText (d : list (list N)) | VByteBin (d : list N) | VBin (d : list N).

(** rdata.rs:9-32: the variants of [RData], in declaration order. *)
Inductive variant := DA | DAAAA | DNS | DCName | DSOA | DPTR | DMX | DTXT | DRP | DNAPTR | DCERT | DDNAME | DOPT | DSRV
  | DDS | DRRSig | DNSEC | DDNSKey | DNSEC3 | DNSEC3Param | DURI | DCAA.
Definition all_variants : list variant :=
  [DA; DAAAA; DNS; DCName; DSOA; DPTR; DMX; DTXT; DRP; DNAPTR; DCERT; DDNAME; DOPT; DSRV;
   DDS; DRRSig; DNSEC; DDNSKey; DNSEC3; DNSEC3Param; DURI; DCAA].
(** An rdata value: its variant and its field values in declaration order ([Box] is transparent). *)
Record rdata := mkRData { rd_var : variant; rd_fields : list fval }.

(** rdatas.rs:11-233: the codec of every field of every rdata struct, in declaration order. *)
Definition schema (v : variant) : list codec :=
  match v with
  | DA => [KIpv4]                                                      (* rdatas.rs:12-15 *)
  | DAAAA => [KIpv6]                                                   (* rdatas.rs:18-21 *)
  | DSOA => [KName; KName; KU32; KU32; KU32; KU32; KU32]               (* rdatas.rs:24-39 *)
  | DSRV => [KU16; KU16; KU16; KName]                                  (* rdatas.rs:42-51 *)
  | DMX => [KU16; KName]                                               (* rdatas.rs:54-59 *)
  | DTXT => [KText]                                                    (* rdatas.rs:62-65 *)
  | DRP => [KName; KName]                                              (* rdatas.rs:68-73 *)
  | DNS => [KName]                                                     (* rdatas.rs:76-79 *)
  | DPTR => [KName]                                                    (* rdatas.rs:82-85 *)
  | DCName => [KName]                                                  (* rdatas.rs:88-91 *)
  | DNAPTR => [KU16; KU16; KByteBin; KByteBin; KByteBin; KName]        (* rdatas.rs:94-107 *)
  | DOPT => [KBin]                                                     (* rdatas.rs:110-113 *)
  | DDNAME => [KName]                                                  (* rdatas.rs:116-119 *)
  | DDS => [KU16; KU8; KU8; KBin]                                      (* rdatas.rs:122-131 *)
  | DRRSig => [KType; KU8; KU8; KU32; KU32; KU32; KU16; KName; KBin]   (* rdatas.rs:134-153 *)
  | DNSEC => [KName; KBin]                                             (* rdatas.rs:156-161 *)
  | DDNSKey => [KU16; KU8; KU8; KBin]                                  (* rdatas.rs:164-173 *)
  | DNSEC3 => [KU8; KU8; KU16; KByteBin; KByteBin; KBin]               (* rdatas.rs:176-189 *)
  | DNSEC3Param => [KU8; KU8; KU16; KByteBin]                          (* rdatas.rs:192-201 *)
  | DCAA => [KU8; KByteBin; KBin]                                      (* rdatas.rs:204-211 *)
  | DCERT => [KU16; KU16; KU8; KBin]                                   (* rdatas.rs:214-223 *)
  | DURI => [KU16; KU16; KBin]                                         (* rdatas.rs:226-233 *)
  end.

(** ** rdatafield/wire_decode.rs.  Each decoder gets the remaining rdata length and returns the new one. *)
(** wire_decode.rs:72-77 *)
Definition byte_binary_from_wire (len : N) : M inbuf (list N * N) :=
  let! dl := read_u8 in
  ensure (dl <? len)%N ;;
  let! data := read_bytes (N.to_nat dl) in
  let! l := lift (if (dl + 1 <=? len)%N then Ok (len - dl - 1)%N else Panic) in
  ret (data, l).
(** wire_decode.rs:61-70; every pass consumes at least one byte of [len]. *)
Fixpoint text_loop (fuel : nat) (len : N) (data : list (list N)) : M inbuf (list (list N)) :=
  match fuel with
  | O => lift Hang
  | S f =>
      if (0 <? len)%N then
        let! (txt, len') := byte_binary_from_wire len in
        text_loop f len' (data ++ [txt])
      else ret data
  end.
Definition text_from_wire (len : N) : M inbuf (list (list N) * N) :=
  let! d := text_loop (S (N.to_nat len)) len [] in ret (d, 0%N).
(** wire_decode.rs:15-21 *)
Definition rname_from_wire (len : N) : M inbuf (name * N) :=
  let! p := position in
  let! n := name_from_wire in
  let! q := position in
  let! d := lift (csub q p) in
  let name_len := as_u16 (N.of_nat d) in
  ensure (name_len <=? len)%N ;;
  ret (n, (len - name_len)%N).
(** wire_decode.rs:23-29, 31-39 *)
Definition ip_from_wire (k : nat) (len : N) : M inbuf (list N * N) :=
  ensure (N.of_nat k <=? len)%N ;;
  let! b := read_bytes k in ret (b, (len - N.of_nat k)%N).

(** The decoder a codec name stands for (wire_decode.rs, selected by rdata-derive/src/expand.rs:25-32). *)
Definition field_from_wire (k : codec) (len : N) : M inbuf (fval * N) :=
  match k with
  | KIpv4 => let! (b, l) := ip_from_wire 4 len in ret (VIpv4 b, l)           (* wire_decode.rs:23-29 *)
  | KIpv6 => let! (b, l) := ip_from_wire 16 len in ret (VIpv6 b, l)          (* wire_decode.rs:31-39 *)
  | KName => let! (n, l) := rname_from_wire len in ret (VName n, l)          (* wire_decode.rs:7-9 *)
  | KU8 => ensure (1 <=? len)%N ;; let! v := read_u8 in ret (VU8 v, (len - 1)%N)       (* wire_decode.rs:41-44 *)
  | KU16 => ensure (2 <=? len)%N ;; let! v := read_u16 in ret (VU16 v, (len - 2)%N)    (* wire_decode.rs:46-49 *)
  | KType => ensure (2 <=? len)%N ;; let! v := read_u16 in ret (VType (rrtype_new v), (len - 2)%N)  (* 51-54 *)
  | KU32 => ensure (4 <=? len)%N ;; let! v := read_u32 in ret (VU32 v, (len - 4)%N)    (* wire_decode.rs:56-59 *)
  | KText => let! (d, l) := text_from_wire len in ret (VText d, l)
  | KByteBin => let! (d, l) := byte_binary_from_wire len in ret (VByteBin d, l)
  | KBin => let! d := read_bytes (N.to_nat len) in ret (VBin d, 0%N)         (* wire_decode.rs:79-82 *)
  end.
(** rdata-derive/src/expand.rs:25-49: the generated [from_wire]. *)
Fixpoint fields_from_wire (ks : list codec) (len : N) : M inbuf (list fval * N) :=
  match ks with
  | [] => ret ([], len)
  | k :: ks' =>
      let! (v, len') := field_from_wire k len in
      let! (vs, len'') := fields_from_wire ks' len' in
      ret (v :: vs, len'')
  end.
Definition struct_from_wire (v : variant) (len : N) : M inbuf rdata :=
  let! (vs, len') := fields_from_wire (schema v) len in
  ensure (len' =? 0)%N ;;
  ret (mkRData v vs).

(** rdata.rs:39-44 and the table 86-108: which struct decodes which type. *)
Definition variant_of_type (t : rrtype) : option variant :=
  match t with
  | TA => Some DA | TAAAA => Some DAAAA | TNS => Some DNS | TCNAME => Some DCName | TSOA => Some DSOA | TPTR => Some DPTR
  | TMX => Some DMX | TTXT => Some DTXT | TRP => Some DRP | TNAPTR => Some DNAPTR | TCERT => Some DCERT | TOPT => Some DOPT
  | TDNAME => Some DDNAME | TSRV => Some DSRV | TDS => Some DDS | TRRSIG => Some DRRSig | TNSEC => Some DNSEC
  | TDNSKEY => Some DDNSKey | TNSEC3 => Some DNSEC3 | TNSEC3PARAM => Some DNSEC3Param | TURI => Some DURI | TCAA => Some DCAA
  | _ => None
  end.
(** rdata.rs:37-49.  A decoding error is returned as such; success is checked against [len]. *)
Definition rdata_from_wire (t : rrtype) (len : N) : M inbuf rdata :=
  let! pos := position in
  match variant_of_type t with
  | None => fail
  | Some v =>
      let! rd := struct_from_wire v len in
      let! q := position in
      let! d := lift (csub q pos) in
      ensure (d =? N.to_nat len) ;;
      ret rd
  end.

(** ** rdatafield/wire_encode.rs *)
(** wire_encode.rs:53-56 *)
Definition byte_binary_to_wire (d : list N) : M render unit :=
  mr_write_u8 (as_u8 (blen d)) ;; mr_write_bytes d.
(** The encoder a codec name stands for (wire_encode.rs, selected by rdata-derive/src/expand.rs:52-68). *)
Definition field_to_wire (v : fval) : M render unit :=
  match v with
  | VIpv4 o => mapM_ mr_write_u8 o                    (* wire_encode.rs:16-21 *)
  | VIpv6 o => mapM_ mr_write_u8 o                    (* wire_encode.rs:23-28 *)
  | VName n => write_name n true                      (* wire_encode.rs:8-10 *)
  | VU8 x => mr_write_u8 x                            (* wire_encode.rs:30-32 *)
  | VU16 x => mr_write_u16 x                          (* wire_encode.rs:34-36 *)
  | VType t => mr_write_u16 (rrtype_u16 t)            (* wire_encode.rs:38-40 *)
  | VU32 x => mr_write_u32 x                          (* wire_encode.rs:42-44 *)
  | VText d => mapM_ byte_binary_to_wire d            (* wire_encode.rs:46-51 *)
  | VByteBin d => byte_binary_to_wire d
  | VBin d => mr_write_bytes d                        (* wire_encode.rs:58-60 *)
  end.
(** rdata-derive/src/expand.rs:51-76 and rdata.rs:65-71 *)
Definition rdata_to_wire (rd : rdata) : M render unit := mapM_ field_to_wire (rd_fields rd).

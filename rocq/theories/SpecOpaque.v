(** Specification vocabulary for names inside record data (C113): RFC 1035 allows them to be compressed in the types it defines,
    RFC 3597 section 4 (and RFC 2782, RFC 4034 sections 3.1.7 and 4.1.1, RFC 6672 section 2.5) forbids it in all later ones. *)
From Verif Require Import Base NameModel RenderModel CodesModel RDataModel SpecName SpecBuf SpecCodes SpecMsg SpecCompress.

(** The octets of one field when nothing is compressed. *)
Definition field_octets (v : fval) : list N :=
  match v with
  | VIpv4 o | VIpv6 o | VBin o => o
  | VName n => n_raw n
  | VU8 x => [x]
  | VU16 x => u16_bytes x
  | VU32 x => u32_bytes x
  | VType t => u16_bytes (rrtype_u16 t)
  | VText d => flat_map string_octets d
  | VByteBin d => string_octets d
  end.
(** The record data with every name written out in full. *)
Definition plain_octets (rd : rdata) : list N := flat_map field_octets (rd_fields rd).

(** The types of RFC 1035 section 3.3 this library knows whose record data holds names: those may be compressed. *)
Definition may_compress (v : variant) : bool :=
  match v with DNS | DCName | DSOA | DPTR | DMX => true | _ => false end.
(** The types whose record data holds no name at all. *)
Definition nameless (v : variant) : bool :=
  match v with DNS | DCName | DSOA | DPTR | DMX | DRP | DNAPTR | DDNAME | DSRV | DRRSig | DNSEC => false | _ => true end.

(** None of the names, taken in order, ends in a non-empty name of [seen], nor in one in which a name before it ends. *)
Fixpoint fresh (seen : list label -> Prop) (ns : list (list label)) : Prop :=
  match ns with
  | [] => True
  | ls :: ns' => (forall pre s, ls = pre ++ s -> ~ seen s) /\ fresh (fun s => seen s \/ (s <> [] /\ exists pre, ls = pre ++ s)) ns'
  end.
(** The names of a record's data. *)
Definition data_names (rd : rdata) (ns : list (list label)) : Prop := flat_map field_names (rd_fields rd) = map name_of ns.

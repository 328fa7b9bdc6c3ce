(** Model of [PartialEq for RRset] (src/rrset.rs) with the derived comparisons of src/rdata.rs and src/rdatas.rs. *)
From Verif Require Import Base NameModel RenderModel CodesModel RDataModel MsgModel.

(** Derived / std [==] on field values: rdatas.rs (derive on every struct), name.rs:606-636, rr_type.rs:8. *)
Definition octets_eqb (a b : list N) : bool := list_eqb a b.
Fixpoint strings_eqb (a b : list (list N)) : bool :=
  match a, b with
  | [], [] => true
  | x :: a', y :: b' => octets_eqb x y && strings_eqb a' b'
  | _, _ => false
  end.
Definition fval_eq (a b : fval) : res bool :=
  match a, b with
  | VIpv4 x, VIpv4 y | VIpv6 x, VIpv6 y | VByteBin x, VByteBin y | VBin x, VBin y => Ok (octets_eqb x y)
  | VName x, VName y => name_eq x y
  | VU8 x, VU8 y | VU16 x, VU16 y | VU32 x, VU32 y => Ok (x =? y)%N
  | VType x, VType y => Ok (rrtype_eqb x y)
  | VText x, VText y => Ok (strings_eqb x y)
  | _, _ => Ok false  (* not well typed *)
  end.
Fixpoint fields_eq (a b : list fval) : res bool :=
  match a, b with
  | [], [] => Ok true
  | x :: a', y :: b' => let? e := fval_eq x y in if e : bool then fields_eq a' b' else Ok false
  | _, _ => Ok false
  end.
(** rdata.rs:8 derived [PartialEq]: same variant, equal contents *)
Definition variant_index (v : variant) : N :=
  match v with
  | DA => 0 | DAAAA => 1 | DNS => 2 | DCName => 3 | DSOA => 4 | DPTR => 5 | DMX => 6 | DTXT => 7 | DRP => 8 | DNAPTR => 9 | DCERT => 10
  | DDNAME => 11 | DOPT => 12 | DSRV => 13 | DDS => 14 | DRRSig => 15 | DNSEC => 16 | DDNSKey => 17 | DNSEC3 => 18 | DNSEC3Param => 19
  | DURI => 20 | DCAA => 21
  end.
Definition rdata_eq (a b : rdata) : res bool :=
  if (variant_index (rd_var a) =? variant_index (rd_var b))%N then fields_eq (rd_fields a) (rd_fields b) else Ok false.

(** Derived / std [Ord] on field values: slices and vectors lexicographically, RRType by number (rr_type.rs:187-197),
    Name by name.rs:646-651. *)
Fixpoint octets_cmp (a b : list N) : comparison :=
  match a, b with
  | [], [] => Eq
  | [], _ :: _ => Lt
  | _ :: _, [] => Gt
  | x :: a', y :: b' => match (x ?= y)%N with Eq => octets_cmp a' b' | c => c end
  end.
Fixpoint strings_cmp (a b : list (list N)) : comparison :=
  match a, b with
  | [], [] => Eq
  | [], _ :: _ => Lt
  | _ :: _, [] => Gt
  | x :: a', y :: b' => match octets_cmp x y with Eq => strings_cmp a' b' | c => c end
  end.
Definition fval_cmp (md : mode) (a b : fval) : res comparison :=
  match a, b with
  | VIpv4 x, VIpv4 y | VIpv6 x, VIpv6 y | VByteBin x, VByteBin y | VBin x, VBin y => Ok (octets_cmp x y)
  | VName x, VName y => name_cmp md x y
  | VU8 x, VU8 y | VU16 x, VU16 y | VU32 x, VU32 y => Ok (x ?= y)%N
  | VType x, VType y => Ok (rrtype_u16 x ?= rrtype_u16 y)%N
  | VText x, VText y => Ok (strings_cmp x y)
  | _, _ => Ok Eq  (* not well typed *)
  end.
(** derived: field after field *)
Fixpoint fields_cmp (md : mode) (a b : list fval) : res comparison :=
  match a, b with
  | x :: a', y :: b' => let? c := fval_cmp md x y in match c with Eq => fields_cmp md a' b' | _ => Ok c end
  | _, _ => Ok Eq
  end.
(** rdata.rs:8 derived [Ord]: by variant in declaration order, then by contents *)
Definition rdata_cmp (md : mode) (a b : rdata) : res comparison :=
  match (variant_index (rd_var a) ?= variant_index (rd_var b))%N with
  | Eq => fields_cmp md (rd_fields a) (rd_fields b)
  | c => Ok c
  end.

(** rrset.rs:154-158: [position(|other| rdata == other).is_some()] *)
Fixpoint rdata_in (x : rdata) (l : list rdata) : res bool :=
  match l with
  | [] => Ok false
  | y :: l' => let? e := rdata_eq x y in if e : bool then Ok true else rdata_in x l'
  end.
(** rrset.rs:153-159 *)
Fixpoint rdata_all_in (l other : list rdata) : res bool :=
  match l with
  | [] => Ok true
  | x :: l' => let? e := rdata_in x other in if e : bool then rdata_all_in l' other else Ok false
  end.
(** rrset.rs:165: [==] on vectors *)
Fixpoint rdatas_eq (a b : list rdata) : res bool :=
  match a, b with
  | [], [] => Ok true
  | x :: a', y :: b' => let? e := rdata_eq x y in if e : bool then rdatas_eq a' b' else Ok false
  | _, _ => Ok false
  end.
(** rrset.rs:138-168; [sort] stands for [slice::sort_unstable] (see [sorts] in SpecMsg for its contract). *)
Definition rrset_eq (sort : list rdata -> res (list rdata)) (a b : rrset) : res bool :=
  let? same := is_same_rrset a b in
  if negb same then Ok false
  else if negb (length (rs_rdatas a) =? length (rs_rdatas b)) then Ok false
  else if length (rs_rdatas a) <? 4 then rdata_all_in (rs_rdatas a) (rs_rdatas b)
  else
    let? l1 := sort (rs_rdatas a) in
    let? l2 := sort (rs_rdatas b) in
    rdatas_eq l1 l2.

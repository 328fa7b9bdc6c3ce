(** Model of the derive macro itself, rdata-derive/src/parser.rs, expand.rs and lib.rs: what it accepts, the Rust code it emits,
    when rustc accepts that code, and what the code does when run. *)
From Coq Require String Ascii.
From Verif Require Import Base NameModel RenderModel CodesModel RDataModel TextModel DeriveModel.
Import String.StringSyntax.
Open Scope string_scope.
Open Scope list_scope.
Open Scope nat_scope.

(** Identifiers and the contents of string literals. *)
Definition ident := String.string.

(** * Input *)
(** A token inside an attribute's delimiters: an identifier, [=], [,], a string literal, another literal, anything else. *)
Inductive token := TIdent (s : ident) | TEq | TComma | TStr (s : ident) | TLit | TOther.
(** syn::Attribute: the segments of its path and the tokens between its delimiters, if it has delimiters. *)
Record attribute := mkAttr { at_path : list ident; at_args : option (list token) }.
(** The Rust types of the fields in rdatas.rs; [TyOther] is any other type. *)
Inductive rty := TyIpv4 | TyIpv6 | TyName | TyU8 | TyU16 | TyU32 | TyType | TyTexts | TyBytes | TyOther.
(** syn::Field of a struct with named fields (visibility left out). *)
Record rfield := mkField { f_name : ident; f_attrs : list attribute; f_ty : rty }.
(** syn::DeriveInput: a struct with named fields, or a tuple struct, unit struct, enum or union. *)
Inductive input := NamedStruct (n : ident) (fs : list rfield) | OtherInput (n : ident).

(** * parser.rs *)
(** parser.rs:35-39 *)
Record pfield := mkPField { pf_name : ident; pf_codec : ident; pf_display : ident }.
(** parser.rs:6-9 *)
Record pstruct := mkPStruct { ps_name : ident; ps_fields : list pfield }.

(** syn's [input.parse::<Ident>()], [parse::<Token![=]>()], [parse::<Token![,]>()]. *)
Definition parse_ident : M (list token) ident :=
  fun ts => match ts with TIdent s :: r => (Ok s, r) | _ => (Err, ts) end.
Definition parse_eq : M (list token) unit := fun ts => match ts with TEq :: r => (Ok tt, r) | _ => (Err, ts) end.
Definition parse_comma : M (list token) unit := fun ts => match ts with TComma :: r => (Ok tt, r) | _ => (Err, ts) end.
(** [if let Lit::Str(ref l) = input.parse::<Lit>()? { l.value() } else { return Err }] *)
Definition parse_str : M (list token) ident := fun ts => match ts with TStr s :: r => (Ok s, r) | TLit :: r => (Err, r) | _ => (Err, ts) end.
(** parser.rs:62-86, the closure *)
Definition parse_args : M (list token) (ident * ident) :=
  let! codec := parse_ident in
  ensure (String.eqb codec "codec") ;;
  parse_eq ;;
  let! codec_value := parse_str in
  parse_comma ;;
  let! display := parse_ident in
  ensure (String.eqb display "display") ;;
  parse_eq ;;
  let! display_value := parse_str in
  ret (codec_value, display_value).
(** parser.rs:61-87; syn's [parse_args_with] fails without delimiters and when the closure leaves tokens behind. *)
Definition parse_attr (a : attribute) : res (ident * ident) :=
  match at_args a with
  | None => Err
  | Some ts => match parse_args ts with
               | (Ok v, []) => Ok v
               | (Ok _, _ :: _) => Err
               | (Err, _) => Err | (Panic, _) => Panic | (Hang, _) => Hang
               end
  end.
(** syn's [Path::is_ident] *)
Definition path_is_ident (p : list ident) (s : ident) : bool := match p with [x] => String.eqb x s | _ => false end.
(** parser.rs:43-59 *)
Definition field_parse_token (f : rfield) : res pfield :=
  if negb (length (f_attrs f) =? 1) then Err
  else
    let? a := idx (f_attrs f) 0 in
    if negb (path_is_ident (at_path a) "field") then Err
    else let? (codec, display) := parse_attr a in Ok (mkPField (f_name f) codec display).
(** parser.rs:12-32 *)
Definition struct_parse_token (node : input) : res pstruct :=
  match node with
  | NamedStruct n named =>
      let? fields := rfold (fun fields field => let? f := field_parse_token field in Ok (fields ++ [f])) named [] in
      Ok (mkPStruct n fields)
  | OtherInput _ => Err
  end.

(** * expand.rs *)
(** proc_macro2's [Ident::new] panics on what is not an identifier.  Simplified: non-ASCII letters are taken not to be allowed. *)
Definition ident_char (c : Ascii.ascii) : bool :=
  let n := Ascii.N_of_ascii c in ((65 <=? n) && (n <=? 90) || (97 <=? n) && (n <=? 122) || (n =? 95))%N.
Definition ident_tail_char (c : Ascii.ascii) : bool :=
  let n := Ascii.N_of_ascii c in (ident_char c || (48 <=? n)%N && (n <=? 57)%N).
Definition ident_ok (s : ident) : bool :=
  match String.list_ascii_of_string s with [] => false | c :: r => ident_char c && forallb ident_tail_char r end.
Definition ident_new (s : ident) : res ident := if ident_ok s then Ok s else Panic.
(** expand.rs:56, 105: the codecs whose encoder takes a reference *)
Definition by_ref (codec : ident) : bool := existsb (String.eqb codec) ["name"; "name_uncompressed"; "text"; "byte_binary"; "binary"].

(** A statement of the generated [fmt]: [f(f, self.x)?;] or [f(f, &self.x)?;], and [write!(f, " ")?;]. *)
Inductive pstmt := Print (func : ident) (r : bool) (field : ident) | PrintSpace.
(** The generated code. *)
Record generated := mkGen {
  g_name : ident;
  g_lets : list (ident * ident);          (* [let (x, len) = f(buf, len)?;]    (x, f) *)
  g_build : list (ident * ident);         (* [x: y,] in the struct literal     (x, y) *)
  g_writes : list (ident * bool * ident); (* [f(render, self.x)?;] or [&self.x]  (f, reference, x) *)
  g_reads : list (ident * ident);         (* [x: f(buf)?,]                     (x, f) *)
  g_prints : list pstmt }.
(** expand.rs:25-49 *)
Definition derive_from_wire (r : pstruct) : res (list (ident * ident) * list (ident * ident)) :=
  let? lets := rmap (fun f => let? g := ident_new (String.append (pf_codec f) "_from_wire") in Ok (pf_name f, g)) (ps_fields r) in
  Ok (lets, map (fun f => (pf_name f, pf_name f)) (ps_fields r)).
(** expand.rs:51-76 *)
Definition derive_to_wire (r : pstruct) : res (list (ident * bool * ident)) :=
  rmap (fun f => let? g := ident_new (String.append (pf_codec f) "_to_wire") in Ok (g, by_ref (pf_codec f), pf_name f)) (ps_fields r).
(** expand.rs:78-94 *)
Definition derive_from_str (r : pstruct) : res (list (ident * ident)) :=
  rmap (fun f => let? g := ident_new (String.append (pf_display f) "_from_str") in Ok (pf_name f, g)) (ps_fields r).
(** expand.rs:96-138; [i] runs over [enumerate()] *)
Fixpoint derive_to_str_from (count i : nat) (fs : list pfield) : res (list pstmt) :=
  match fs with
  | [] => Ok []
  | f :: fs' =>
      let? g := ident_new (String.append (pf_display f) "_to_str") in
      let p := Print g (by_ref (pf_codec f)) (pf_name f) in
      let? last := csub count 1 in
      let? rest := derive_to_str_from count (S i) fs' in
      Ok ((if negb (i =? last) then [p; PrintSpace] else [p]) ++ rest)
  end.
Definition derive_to_str (r : pstruct) : res (list pstmt) := derive_to_str_from (length (ps_fields r)) 0 (ps_fields r).
(** expand.rs:6-23 (lib.rs:10-15 turns [Err] into a compile error; a panic is a compile error too) *)
Definition derive (node : input) : res generated :=
  let? rdata := struct_parse_token node in
  let? (lets, build) := derive_from_wire rdata in
  let? writes := derive_to_wire rdata in
  let? reads := derive_from_str rdata in
  let? prints := derive_to_str rdata in
  Ok (mkGen (ps_name rdata) lets build writes reads prints).

(** * The functions the generated code can call: rdatafield/mod.rs:6-9 re-exports them, rdatas.rs:3 imports them.
    Per function: the type of the value it returns or takes, whether it takes it by reference, and what it does. *)
(** wire_decode.rs:7-82 *)
Definition fns_from_wire : list (ident * (rty * dcodec)) :=
  [("name_from_wire", (TyName, Std KName)); ("name_uncompressed_from_wire", (TyName, NameUncompressed)); ("ipv4_from_wire", (TyIpv4, Std KIpv4));
   ("ipv6_from_wire", (TyIpv6, Std KIpv6)); ("u8_from_wire", (TyU8, Std KU8)); ("u16_from_wire", (TyU16, Std KU16)); ("rrtype_from_wire", (TyType, Std KType));
   ("u32_from_wire", (TyU32, Std KU32)); ("text_from_wire", (TyTexts, Std KText)); ("byte_binary_from_wire", (TyBytes, Std KByteBin)); ("binary_from_wire", (TyBytes, Std KBin))].
(** wire_encode.rs:8-60; [&Vec<u8>] and [&Vec<Vec<u8>>] coerce to the slices the functions take *)
Definition fns_to_wire : list (ident * (bool * rty * dcodec)) :=
  [("name_to_wire", (true, TyName, Std KName)); ("name_uncompressed_to_wire", (true, TyName, NameUncompressed)); ("ipv4_to_wire", (false, TyIpv4, Std KIpv4));
   ("ipv6_to_wire", (false, TyIpv6, Std KIpv6)); ("u8_to_wire", (false, TyU8, Std KU8)); ("u16_to_wire", (false, TyU16, Std KU16)); ("rrtype_to_wire", (false, TyType, Std KType));
   ("u32_to_wire", (false, TyU32, Std KU32)); ("text_to_wire", (true, TyTexts, Std KText)); ("byte_binary_to_wire", (true, TyBytes, Std KByteBin)); ("binary_to_wire", (true, TyBytes, Std KBin))].
(** string_decode.rs:8-78 *)
Definition fns_from_str : list (ident * (rty * disp)) :=
  [("name_from_str", (TyName, PName)); ("ipv4_from_str", (TyIpv4, PIpv4)); ("ipv6_from_str", (TyIpv6, PIpv6)); ("u8_from_str", (TyU8, PU8)); ("u16_from_str", (TyU16, PU16));
   ("rrtype_from_str", (TyType, PType)); ("u32_from_str", (TyU32, PU32)); ("text_from_str", (TyTexts, PText)); ("string_from_str", (TyBytes, PString));
   ("timestamp_from_str", (TyU32, PTime)); ("binary_from_str", (TyBytes, PHex)); ("base64_from_str", (TyBytes, PB64))].
(** string_encode.rs:8-75 *)
Definition fns_to_str : list (ident * (bool * rty * disp)) :=
  [("name_to_str", (true, TyName, PName)); ("ipv4_to_str", (false, TyIpv4, PIpv4)); ("ipv6_to_str", (false, TyIpv6, PIpv6)); ("u8_to_str", (false, TyU8, PU8)); ("u16_to_str", (false, TyU16, PU16));
   ("rrtype_to_str", (false, TyType, PType)); ("u32_to_str", (false, TyU32, PU32)); ("text_to_str", (true, TyTexts, PText)); ("timestamp_to_str", (false, TyU32, PTime));
   ("string_to_str", (true, TyBytes, PString)); ("binary_to_str", (true, TyBytes, PHex)); ("base64_to_str", (true, TyBytes, PB64))].
Fixpoint lookup {A} (x : ident) (l : list (ident * A)) : option A :=
  match l with [] => None | (y, a) :: l' => if String.eqb x y then Some a else lookup x l' end.

(** * When rustc accepts the generated code (names and types; a local variable hides a function of its name) *)
Scheme Equality for rty.
Inductive bty := TBuf | TVal (t : rty).
(** [let (x, len) = f(buf, len)?;]: a name may be bound once in a pattern. *)
Fixpoint check_lets (ls : list (ident * ident)) (env : list (ident * bty)) : option (list (ident * bty)) :=
  match ls with
  | [] => Some env
  | (x, f) :: ls' =>
      match lookup "buf" env, lookup "len" env, lookup f env, lookup f fns_from_wire with
      | Some TBuf, Some (TVal TyU16), None, Some (t, _) => if String.eqb x "len" then None else check_lets ls' (("len", TVal TyU16) :: (x, TVal t) :: env)
      | _, _, _, _ => None
      end
  end.
Definition has_type (env : list (ident * bty)) (x : ident) (t : rty) : bool :=
  match lookup x env with Some (TVal t') => rty_beq t t' | _ => false end.
(** All names different. *)
Fixpoint distinct (l : list ident) : bool := match l with [] => true | x :: l' => negb (existsb (String.eqb x) l') && distinct l' end.
(** A struct literal gives every field of the struct once, and a value of its type. *)
Definition check_literal (tys : list (ident * rty)) (given : list (ident * rty)) : bool :=
  distinct (map fst given) && forallb (fun xt => existsb (String.eqb (fst xt)) (map fst given)) tys &&
  forallb (fun xt => match lookup (fst xt) tys with Some t => rty_beq t (snd xt) | None => false end) given.
Definition check_call (tys : list (ident * rty)) {A} (fns : list (ident * (bool * rty * A))) (f : ident) (r : bool) (x : ident) : bool :=
  match lookup f fns, lookup x tys with Some (r', t', _), Some t => Bool.eqb r r' && rty_beq t t' | _, _ => false end.
Definition typed_build (env : list (ident * bty)) (build : list (ident * ident)) : option (list (ident * rty)) :=
  fold_right (fun xy acc => match lookup (snd xy) env, acc with Some (TVal t), Some l => Some ((fst xy, t) :: l) | _, _ => None end) (Some []) build.
Definition typed_reads (reads : list (ident * ident)) : option (list (ident * rty)) :=
  fold_right (fun xf acc => match lookup (snd xf) fns_from_str, acc with Some (t, _), Some l => Some ((fst xf, t) :: l) | _, _ => None end) (Some []) reads.
Definition check_from_wire (tys : list (ident * rty)) (g : generated) : bool :=
  match check_lets (g_lets g) [("buf", TBuf); ("len", TVal TyU16)] with
  | Some env => has_type env "len" TyU16 && match typed_build env (g_build g) with Some given => check_literal tys given | None => false end
  | None => false
  end.
Definition check_from_str (tys : list (ident * rty)) (g : generated) : bool :=
  match typed_reads (g_reads g) with Some given => check_literal tys given | None => false end.
Definition check_pstmt (tys : list (ident * rty)) (p : pstmt) : bool := match p with Print f r x => check_call tys fns_to_str f r x | PrintSpace => true end.
Definition compiles (fs : list rfield) (g : generated) : bool :=
  let tys := map (fun f => (f_name f, f_ty f)) fs in
  distinct (map f_name fs) && check_from_wire tys g && forallb (fun '(f, r, x) => check_call tys fns_to_wire f r x) (g_writes g) &&
  check_from_str tys g && forallb (check_pstmt tys) (g_prints g).

(** * What the generated code does when run.  A struct value is its fields by name.  [fval] distinguishes two kinds of [Vec<u8>]
    that Rust does not; here a [Vec<u8>] is always [VBin]. *)
Definition vec_u8 (v : fval) : fval := match v with VByteBin d => VBin d | _ => v end.
(** What an encoder sees. *)
Definition seen_by (d : dcodec) (v : fval) : fval := match d, v with Std KByteBin, VBin x => VByteBin x | _, _ => v end.
Inductive bound := BBuf | BLen (l : N) | BVal (v : fval).
(** expand.rs:29-31; [Err] stands in for what [compiles] excludes. *)
Fixpoint run_lets (ls : list (ident * ident)) (env : list (ident * bound)) : M inbuf (list (ident * bound)) :=
  match ls with
  | [] => ret env
  | (x, f) :: ls' =>
      match lookup "buf" env, lookup "len" env, lookup f env, lookup f fns_from_wire with
      | Some BBuf, Some (BLen l), None, Some (_, d) =>
          let! (v, l') := dfield_from_wire d l in
          run_lets ls' (("len", BLen l') :: (x, BVal (vec_u8 v)) :: env)
      | _, _, _, _ => fail
      end
  end.
Definition run_build (env : list (ident * bound)) (build : list (ident * ident)) : res (list (ident * fval)) :=
  rmap (fun xy => match lookup (snd xy) env with Some (BVal v) => Ok (fst xy, v) | _ => Err end) build.
(** expand.rs:41-48 *)
Definition run_from_wire (g : generated) (len : N) : M inbuf (list (ident * fval)) :=
  let! env := run_lets (g_lets g) [("buf", BBuf); ("len", BLen len)] in
  match lookup "len" env with
  | Some (BLen l) => ensure (l =? 0)%N ;; lift (run_build env (g_build g))
  | _ => fail
  end.
(** expand.rs:69-75 *)
Definition run_to_wire (g : generated) (self : list (ident * fval)) : M render unit :=
  mapM_ (fun '(f, _, x) => match lookup f fns_to_wire, lookup x self with
                           | Some (_, d), Some v => dfield_to_wire d (seen_by d v)
                           | _, _ => fail
                           end) (g_writes g).
(** expand.rs:87-93 *)
Fixpoint run_reads (x : ext) (reads : list (ident * ident)) : M sbuf (list (ident * fval)) :=
  match reads with
  | [] => ret []
  | (n, f) :: reads' =>
      match lookup f fns_from_str with
      | Some (_, d) => let! v := field_from_str x (KBin, d) in let! vs := run_reads x reads' in ret ((n, v) :: vs)
      | None => fail
      end
  end.
Definition run_from_str (x : ext) (g : generated) : M sbuf (list (ident * fval)) := run_reads x (g_reads g).
(** expand.rs:130-137: the text written to the formatter *)
Fixpoint run_prints (x : ext) (ps : list pstmt) (self : list (ident * fval)) : res (list N) :=
  match ps with
  | [] => Ok []
  | Print f _ n :: ps' =>
      match lookup f fns_to_str, lookup n self with
      | Some (_, d), Some v => let? a := field_to_str x d v in let? b := run_prints x ps' self in Ok (a ++ b)
      | _, _ => Err
      end
  | PrintSpace :: ps' => let? b := run_prints x ps' self in Ok ([32%N] ++ b)
  end.
Definition run_display (x : ext) (g : generated) (self : list (ident * fval)) : res (list N) := run_prints x (g_prints g) self.

(** * The input the macro is given by rdatas.rs *)
Definition fld (n c d : ident) (t : rty) : rfield :=
  mkField n [mkAttr ["field"] (Some [TIdent "codec"; TEq; TStr c; TComma; TIdent "display"; TEq; TStr d])] t.
(** rdatas.rs:11-233 *)
Definition rdatas_rs (v : variant) : input :=
  match v with
  | DA => NamedStruct "A" [fld "host" "ipv4" "ipv4" TyIpv4]  (* rdatas.rs:12-15 *)
  | DAAAA => NamedStruct "AAAA" [fld "host" "ipv6" "ipv6" TyIpv6]  (* rdatas.rs:18-21 *)
  | DSOA => NamedStruct "SOA" [fld "mname" "name" "name" TyName; fld "rname" "name" "name" TyName; fld "serial" "u32" "u32" TyU32; fld "refresh" "u32" "u32" TyU32; fld "retry" "u32" "u32" TyU32; fld "expire" "u32" "u32" TyU32; fld "minimum" "u32" "u32" TyU32]  (* rdatas.rs:24-39 *)
  | DSRV => NamedStruct "SRV" [fld "priority" "u16" "u16" TyU16; fld "weight" "u16" "u16" TyU16; fld "port" "u16" "u16" TyU16; fld "target" "name" "name" TyName]  (* rdatas.rs:42-51 *)
  | DMX => NamedStruct "MX" [fld "preference" "u16" "u16" TyU16; fld "name" "name" "name" TyName]  (* rdatas.rs:54-59 *)
  | DTXT => NamedStruct "TXT" [fld "data" "text" "text" TyTexts]  (* rdatas.rs:62-65 *)
  | DRP => NamedStruct "RP" [fld "mbox_dname" "name" "name" TyName; fld "txt_dname" "name" "name" TyName]  (* rdatas.rs:68-73 *)
  | DNS => NamedStruct "NS" [fld "name" "name" "name" TyName]  (* rdatas.rs:76-79 *)
  | DPTR => NamedStruct "PTR" [fld "name" "name" "name" TyName]  (* rdatas.rs:82-85 *)
  | DCName => NamedStruct "CName" [fld "name" "name" "name" TyName]  (* rdatas.rs:88-91 *)
  | DNAPTR => NamedStruct "NAPTR" [fld "order" "u16" "u16" TyU16; fld "preference" "u16" "u16" TyU16; fld "flags" "byte_binary" "string" TyBytes; fld "services" "byte_binary" "string" TyBytes; fld "regexp" "byte_binary" "string" TyBytes; fld "replacement" "name" "name" TyName]  (* rdatas.rs:94-107 *)
  | DOPT => NamedStruct "OPT" [fld "data" "binary" "binary" TyBytes]  (* rdatas.rs:110-113 *)
  | DDNAME => NamedStruct "DName" [fld "target" "name" "name" TyName]  (* rdatas.rs:116-119 *)
  | DDS => NamedStruct "DS" [fld "key_tag" "u16" "u16" TyU16; fld "algorithm" "u8" "u8" TyU8; fld "digest_type" "u8" "u8" TyU8; fld "digest" "binary" "binary" TyBytes]  (* rdatas.rs:122-131 *)
  | DRRSig => NamedStruct "RRSig" [fld "covered" "rrtype" "rrtype" TyType; fld "algorithm" "u8" "u8" TyU8; fld "labels" "u8" "u8" TyU8; fld "original_ttl" "u32" "u32" TyU32; fld "sig_expire" "u32" "timestamp" TyU32; fld "incpetion" "u32" "timestamp" TyU32; fld "tag" "u16" "u16" TyU16; fld "signer" "name" "name" TyName; fld "signature" "binary" "base64" TyBytes]  (* rdatas.rs:134-153 *)
  | DNSEC => NamedStruct "NSEC" [fld "next_domain_name" "name" "name" TyName; fld "type_bit_map" "binary" "binary" TyBytes]  (* rdatas.rs:156-161 *)
  | DDNSKey => NamedStruct "DNSKey" [fld "flags" "u16" "u16" TyU16; fld "protocol" "u8" "u8" TyU8; fld "algorithm" "u8" "u8" TyU8; fld "public_key" "binary" "base64" TyBytes]  (* rdatas.rs:164-173 *)
  | DNSEC3 => NamedStruct "NSEC3" [fld "algorithm" "u8" "u8" TyU8; fld "flags" "u8" "u8" TyU8; fld "iterations" "u16" "u16" TyU16; fld "salt" "byte_binary" "binary" TyBytes; fld "next_hash" "byte_binary" "binary" TyBytes; fld "types" "binary" "binary" TyBytes]  (* rdatas.rs:176-189 *)
  | DNSEC3Param => NamedStruct "NSEC3Param" [fld "hash_algorithm" "u8" "u8" TyU8; fld "flags" "u8" "u8" TyU8; fld "iterations" "u16" "u16" TyU16; fld "salt" "byte_binary" "binary" TyBytes]  (* rdatas.rs:192-201 *)
  | DCAA => NamedStruct "CAA" [fld "flag" "u8" "u8" TyU8; fld "tag" "byte_binary" "string" TyBytes; fld "value" "binary" "string" TyBytes]  (* rdatas.rs:204-211 *)
  | DCERT => NamedStruct "CERT" [fld "r#type" "u16" "u16" TyU16; fld "key_tag" "u16" "u16" TyU16; fld "algorithm" "u8" "u8" TyU8; fld "public_key" "binary" "base64" TyBytes]  (* rdatas.rs:214-223 *)
  | DURI => NamedStruct "URI" [fld "priority" "u16" "u16" TyU16; fld "weight" "u16" "u16" TyU16; fld "target" "binary" "string" TyBytes]  (* rdatas.rs:226-233 *)
  end.

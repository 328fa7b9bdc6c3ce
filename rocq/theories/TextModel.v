(** Model of the text half of the library: src/util/hex.rs, src/util/string_buffer.rs, src/rdatafield/string_encode.rs,
    src/rdatafield/string_decode.rs, the text code generated by rdata-derive/src/expand.rs, and the text half of
    src/rdata.rs and src/rrset.rs; also src/rand_name_generator.rs.  Strings are their UTF-8 octets. *)
From Coq Require String Ascii.
Import String.StringSyntax.
From Verif Require Import Base NameModel RenderModel CodesModel RDataModel MsgModel.

(* ------------------------------------------------------------------ *)
(** * Rust [str] *)
(** UTF-8 validity (core::str::from_utf8). *)
Definition within (a b c : N) : bool := ((a <=? c) && (c <=? b))%N.
Definition cont (c : N) : bool := within 128 191 c.
Fixpoint valid_utf8 (l : list N) : bool :=
  match l with
  | [] => true
  | a :: r =>
      if (a <? 128)%N then valid_utf8 r
      else match r with
      | [] => false
      | b :: r1 =>
          if within 194 223 a then cont b && valid_utf8 r1
          else match r1 with
          | [] => false
          | c :: r2 =>
              if (a =? 224)%N then within 160 191 b && cont c && valid_utf8 r2
              else if within 225 236 a || within 238 239 a then cont b && cont c && valid_utf8 r2
              else if (a =? 237)%N then within 128 159 b && cont c && valid_utf8 r2
              else match r2 with
              | [] => false
              | d :: r3 =>
                  if (a =? 240)%N then within 144 191 b && cont c && cont d && valid_utf8 r3
                  else if within 241 243 a then cont b && cont c && cont d && valid_utf8 r3
                  else if (a =? 244)%N then within 128 143 b && cont c && cont d && valid_utf8 r3
                  else false
              end
          end
      end
  end.
(** [u8::is_ascii_whitespace] *)
Definition is_ws (c : N) : bool := ((c =? 32) || (c =? 9) || (c =? 10) || (c =? 12) || (c =? 13))%N.
(** The UTF-8 encodings of the characters with [char::is_whitespace] (Unicode White_Space). *)
Definition ws_chars : list (list N) :=
  [[9]; [10]; [11]; [12]; [13]; [32]; [194; 133]; [194; 160]; [225; 154; 128];
   [226; 128; 128]; [226; 128; 129]; [226; 128; 130]; [226; 128; 131]; [226; 128; 132]; [226; 128; 133]; [226; 128; 134];
   [226; 128; 135]; [226; 128; 136]; [226; 128; 137]; [226; 128; 138]; [226; 128; 168]; [226; 128; 169]; [226; 128; 175];
   [226; 129; 159]; [227; 128; 128]]%N.
Fixpoint strip_prefix (p l : list N) : option (list N) :=
  match p, l with
  | [], _ => Some l
  | x :: p', y :: l' => if (x =? y)%N then strip_prefix p' l' else None
  | _ :: _, [] => None
  end.
(** Remove one leading white-space character. *)
Fixpoint strip_ws (cs : list (list N)) (l : list N) : option (list N) :=
  match cs with
  | [] => None
  | c :: cs' => match strip_prefix c l with Some l' => Some l' | None => strip_ws cs' l end
  end.
Fixpoint trim_start (fuel : nat) (cs : list (list N)) (l : list N) : list N :=
  match fuel with
  | O => l
  | S f => match strip_ws cs l with Some l' => trim_start f cs l' | None => l end
  end.
(** [str::trim] *)
Definition trim (s : list N) : list N :=
  let l := trim_start (length s) ws_chars s in
  rev (trim_start (length l) (map (@rev N) ws_chars) (rev l)).
(** [s.chars().filter(|c| !c.is_whitespace()).collect()]; a character that is not white space is copied octet by octet:
    no encoding in [ws_chars] starts at a continuation octet, so this never splits a character. *)
Fixpoint remove_ws (fuel : nat) (l : list N) : list N :=
  match fuel with
  | O => []
  | S f => match strip_ws ws_chars l with
           | Some l' => remove_ws f l'
           | None => match l with [] => [] | c :: l' => c :: remove_ws f l' end
           end
  end.
(** [&s[a..b]] on str: panics out of range or inside a character. *)
Definition boundary (s : list N) (i : nat) : bool :=
  match nth_error s i with Some c => negb (cont c) | None => i =? length s end.
Definition str_slice (s : list N) (a b : nat) : res (list N) :=
  if (a <=? b) && boundary s a && boundary s b then slice s a b else Panic.

(** [str::parse] to an unsigned integer type with values below [bound] (core::num::from_str_radix, radix 10). *)
Fixpoint parse_digits (bound acc : N) (l : list N) : res N :=
  match l with
  | [] => Ok acc
  | c :: l' => if within 48 57 c then let acc' := (acc * 10 + (c - 48))%N in if (acc' <? bound)%N then parse_digits bound acc' l' else Err
               else Err
  end.
Definition parse_uint (bound : N) (s : list N) : res N :=
  match (match s with c :: r => if (c =? 43)%N then r else s | [] => [] end) with
  | [] => Err
  | ds => parse_digits bound 0 ds
  end.
Definition parse_u8 := parse_uint 256.
Definition parse_u16 := parse_uint 65536.
Definition parse_u32 := parse_uint 4294967296.
(** [str::parse::<i32>] *)
Definition parse_i32 (s : list N) : res Z :=
  match s with
  | c :: ((_ :: _) as r) =>
      if (c =? 45)%N then let? v := parse_digits 2147483649 0 r in Ok (- Z.of_N v)%Z
      else let? v := parse_uint 2147483648 s in Ok (Z.of_N v)
  | _ => let? v := parse_uint 2147483648 s in Ok (Z.of_N v)
  end.
(** [Display] of an unsigned integer. *)
Fixpoint dec_loop (fuel : nat) (n : N) (acc : list N) : list N :=
  match fuel with
  | O => acc
  | S f => let acc' := (48 + n mod 10)%N :: acc in if (n / 10 =? 0)%N then acc' else dec_loop f (n / 10) acc'
  end.
Definition dec (n : N) : list N := dec_loop 20 n [].

(** Octets as a Coq string, for the tables of CodesModel. *)
Definition string_of (l : list N) : String.string := String.string_of_list_ascii (map Ascii.ascii_of_N l).

(* ------------------------------------------------------------------ *)
(** * Code of other crates, as parameters
    std's Ipv4Addr / Ipv6Addr Display and FromStr, crate base64, crate time. *)
Record ext := mkExt {
  x_ip4_str : list N -> list N; x_ip4_parse : list N -> option (list N);
  x_ip6_str : list N -> list N; x_ip6_parse : list N -> option (list N);
  x_b64_enc : list N -> list N; x_b64_dec : list N -> option (list N);
  (** [OffsetDateTime::from_unix_timestamp(secs as i64).format("%Y%m%d%H%M%S")] *)
  x_time_str : N -> list N;
  (** [Date::try_from_ymd] / [Time::try_from_hms]: is it a date / time of day *)
  x_ymd : Z -> N -> N -> bool; x_hms : N -> N -> N -> bool;
  (** [date.with_time(time).assume_utc().unix_timestamp()] *)
  x_unix : Z -> N -> N -> N -> N -> N -> Z }.

(* ------------------------------------------------------------------ *)
(** * util/hex.rs *)
(** hex.rs:1-29; [buf] is a u8, [modulus] counts digits. *)
Fixpoint from_hex_loop (s : list N) (b : list N) (modulus : nat) (buf : N) : option (list N) :=
  match s with
  | [] => match modulus with 0 => Some b | _ => None end
  | byte :: s' =>
      let buf := as_u8 (N.shiftl buf 4) in
      let digit (d : N) := let buf := N.lor buf d in
        if modulus + 1 =? 2 then from_hex_loop s' (b ++ [buf]) 0 buf else from_hex_loop s' b (modulus + 1) buf in
      if within 65 70 byte then digit (byte - 65 + 10)%N
      else if within 97 102 byte then digit (byte - 97 + 10)%N
      else if within 48 57 byte then digit (byte - 48)%N
      else if ((byte =? 32) || (byte =? 13) || (byte =? 10) || (byte =? 9))%N then from_hex_loop s' b modulus (N.shiftr buf 4)
      else None
  end.
Definition from_hex (s : list N) : option (list N) := from_hex_loop s [] 0 0.
(** hex.rs:31 *)
Definition CHARS : list N := [48; 49; 50; 51; 52; 53; 54; 55; 56; 57; 97; 98; 99; 100; 101; 102]%N.
(** hex.rs:32-40 *)
Definition to_hex (data : list N) : res (list N) :=
  rfold (fun v byte => let? a := idx CHARS (N.to_nat (N.shiftr byte 4)) in
                       let? c := idx CHARS (N.to_nat (N.land byte 15)) in Ok (v ++ [a; c])) data [].

(* ------------------------------------------------------------------ *)
(** * util/string_buffer.rs *)
(** string_buffer.rs:7-10 *)
Record sbuf := mkSB { sb_raw : list N; sb_pos : nat }.
(** string_buffer.rs:5 *)
Definition MAX_CHARSTRING_LEN : nat := 255.
(** string_buffer.rs:13-20 *)
Definition sb_new (md : mode) (raw : list N) : res sbuf :=
  match md, raw with Debug, [] => Panic | _, _ => Ok (mkSB raw 0) end.
(** string_buffer.rs:122-124 *)
Definition sb_eos (s : sbuf) : bool := sb_pos s =? length (sb_raw s).
(** [self.raw[self.pos]] *)
Definition sb_cur : M sbuf N := fun s => (idx (sb_raw s) (sb_pos s), s).
Definition sb_advance (k : nat) : M sbuf unit := fun s => (Ok tt, mkSB (sb_raw s) (sb_pos s + k)).
(** string_buffer.rs:77-81 *)
Fixpoint sb_skip_ws (fuel : nat) : M sbuf unit := fun s =>
  match fuel with
  | O => (Hang, s)
  | S f => if sb_eos s then (Ok tt, s)
           else (let! c := sb_cur in if is_ws c then sb_advance 1 ;; sb_skip_ws f else ret tt) s
  end.
Definition skip_whitespace : M sbuf unit := fun s => sb_skip_ws (length (sb_raw s) + 1) s.
(** [from_utf8(bytes).unwrap()] / [from_utf8(bytes)?] *)
Definition utf8_unwrap (l : list N) : res (list N) := if valid_utf8 l then Ok l else Panic.
Definition utf8_try (l : list N) : res (list N) := if valid_utf8 l then Ok l else Err.
(** string_buffer.rs:98-100 *)
Fixpoint sb_skip_word (fuel : nat) : M sbuf unit := fun s =>
  match fuel with
  | O => (Hang, s)
  | S f => if sb_eos s then (Ok tt, s)
           else (let! c := sb_cur in if is_ws c then ret tt else sb_advance 1 ;; sb_skip_word f) s
  end.
(** string_buffer.rs:95-106; also [Iterator::next], string_buffer.rs:127-132 *)
Definition read_str : M sbuf (option (list N)) :=
  skip_whitespace ;;
  let! s0 := get in
  sb_skip_word (length (sb_raw s0) + 1) ;;
  let! s1 := get in
  if sb_pos s1 =? sb_pos s0 then ret None
  else let! w := lift (slice (sb_raw s1) (sb_pos s0) (sb_pos s1)) in
       let! t := lift (utf8_unwrap w) in ret (Some t).
(** string_buffer.rs:108-116 *)
Definition read_left : M sbuf (option (list N)) := fun s =>
  if sb_eos s then (Ok None, s)
  else (let! w := lift (slice (sb_raw s) (sb_pos s) (length (sb_raw s))) in
        let! t := lift (utf8_unwrap w) in
        put (mkSB (sb_raw s) (length (sb_raw s))) ;; ret (Some t)) s.
(** string_buffer.rs:44-74: the loop after the opening quote *)
Fixpoint char_loop (fuel : nat) (data : list N) (escape : bool) : M sbuf (list N) := fun s =>
  match fuel with
  | O => (Hang, s)
  | S f =>
      if sb_eos s then (Err, s)
      else
        (let! c := sb_cur in
         if (c =? 92)%N && negb escape then sb_advance 1 ;; char_loop f data true
         else if (c =? 34)%N && negb escape then
           sb_advance 1 ;; (match data with [] => fail | _ => ret data end)
         else
           let! data' := (if escape && is_digit c then
               let! s0 := get in
               let! avail := lift (csub (length (sb_raw s0)) (sb_pos s0)) in
               if avail <? 3 then fail
               else
                 let! w := lift (slice (sb_raw s0) (sb_pos s0) (sb_pos s0 + 3)) in
                 let! t := lift (utf8_try w) in
                 let! num := lift (parse_u8 t) in
                 sb_advance 3 ;; ret (data ++ [num])
             else sb_advance 1 ;; ret (data ++ [c])) in
           if MAX_CHARSTRING_LEN <? length data' then fail else char_loop f data' false) s
  end.
(** string_buffer.rs:35-75 *)
Definition read_char_string : M sbuf (list N) :=
  skip_whitespace ;;
  let! s := get in
  if sb_eos s then fail
  else
    let! c := sb_cur in
    if negb (c =? 34)%N then fail
    else sb_advance 1 ;; char_loop (length (sb_raw s) + 1) [] false.
(** string_buffer.rs:22-33 *)
Fixpoint text_loop_str (fuel : nat) (data : list (list N)) : M sbuf (list (list N)) := fun s =>
  match fuel with
  | O => (Hang, s)
  | S f => (let! d := read_char_string in
            let! s' := get in
            if sb_eos s' then ret (data ++ [d]) else text_loop_str f (data ++ [d])) s
  end.
Definition read_text : M sbuf (list (list N)) :=
  let! s := get in
  let! data := text_loop_str (length (sb_raw s) + 1) [] in
  ensure (match data with [] => false | _ => true end) ;; ret data.
(** string_buffer.rs:83-93; [p] is the type's [FromStr] *)
Definition sb_read {A} (p : list N -> res A) : M sbuf A :=
  let! o := read_str in
  match o with Some s => lift (p s) | None => fail end.

(* ------------------------------------------------------------------ *)
(** * rdatafield/string_encode.rs, string_decode.rs *)
(** The displays named in the [#[field(display = ..)]] attributes of rdatas.rs. *)
Inductive disp := PIpv4 | PIpv6 | PName | PU8 | PU16 | PU32 | PType | PText | PString | PTime | PHex | PB64.
(** rdatas.rs:11-233: codec and display of every field, in declaration order. *)
Definition text_schema (v : variant) : list (codec * disp) :=
  match v with
  | DA => [(KIpv4, PIpv4)]                                                                   (* rdatas.rs:12-15 *)
  | DAAAA => [(KIpv6, PIpv6)]                                                                (* rdatas.rs:18-21 *)
  | DSOA => [(KName, PName); (KName, PName); (KU32, PU32); (KU32, PU32); (KU32, PU32); (KU32, PU32); (KU32, PU32)]  (* rdatas.rs:24-39 *)
  | DSRV => [(KU16, PU16); (KU16, PU16); (KU16, PU16); (KName, PName)]                       (* rdatas.rs:42-51 *)
  | DMX => [(KU16, PU16); (KName, PName)]                                                    (* rdatas.rs:54-59 *)
  | DTXT => [(KText, PText)]                                                                 (* rdatas.rs:62-65 *)
  | DRP => [(KName, PName); (KName, PName)]                                                  (* rdatas.rs:68-73 *)
  | DNS | DPTR | DCName | DDNAME => [(KName, PName)]                                         (* rdatas.rs:76-91, 116-119 *)
  | DNAPTR => [(KU16, PU16); (KU16, PU16); (KByteBin, PString); (KByteBin, PString); (KByteBin, PString); (KName, PName)]  (* rdatas.rs:94-107 *)
  | DOPT => [(KBin, PHex)]                                                                   (* rdatas.rs:110-113 *)
  | DDS => [(KU16, PU16); (KU8, PU8); (KU8, PU8); (KBin, PHex)]                              (* rdatas.rs:122-131 *)
  | DRRSig => [(KType, PType); (KU8, PU8); (KU8, PU8); (KU32, PU32); (KU32, PTime); (KU32, PTime); (KU16, PU16); (KName, PName); (KBin, PB64)]  (* rdatas.rs:134-153 *)
  | DNSEC => [(KName, PName); (KBin, PHex)]                                                  (* rdatas.rs:156-161 *)
  | DDNSKey => [(KU16, PU16); (KU8, PU8); (KU8, PU8); (KBin, PB64)]                          (* rdatas.rs:164-173 *)
  | DNSEC3 => [(KU8, PU8); (KU8, PU8); (KU16, PU16); (KByteBin, PHex); (KByteBin, PHex); (KBin, PHex)]  (* rdatas.rs:176-189 *)
  | DNSEC3Param => [(KU8, PU8); (KU8, PU8); (KU16, PU16); (KByteBin, PHex)]                  (* rdatas.rs:192-201 *)
  | DCAA => [(KU8, PU8); (KByteBin, PString); (KBin, PString)]                               (* rdatas.rs:204-211 *)
  | DCERT => [(KU16, PU16); (KU16, PU16); (KU8, PU8); (KBin, PB64)]                          (* rdatas.rs:214-223 *)
  | DURI => [(KU16, PU16); (KU16, PU16); (KBin, PString)]                                    (* rdatas.rs:226-233 *)
  end.
(** string_encode.rs:51-67 *)
Definition escape_char (ch : N) : list N :=
  if ((ch <? 32) || (127 <=? ch))%N then [92; 48 + ch / 100 mod 10; 48 + ch / 10 mod 10; 48 + ch mod 10]%N
  else if ((ch =? 34) || (ch =? 59) || (ch =? 92))%N then [92%N; ch]
  else [ch].
Definition string_to_str (data : list N) : list N := [34%N] ++ flat_map escape_char data ++ [34%N].
(** string_encode.rs:36-41 *)
Definition text_to_str (data : list (list N)) : list N := flat_map string_to_str data.
(** string_encode.rs:8-75 *)
Definition field_to_str (x : ext) (d : disp) (v : fval) : res (list N) :=
  match d, v with
  | PIpv4, VIpv4 o => Ok (x_ip4_str x o)
  | PIpv6, VIpv6 o => Ok (x_ip6_str x o)
  | PName, VName n => name_display n
  | PU8, VU8 n | PU16, VU16 n | PU32, VU32 n => Ok (dec n)
  | PType, VType t => Ok (of_string (rrtype_str t))
  | PText, VText l => Ok (text_to_str l)
  | PString, VByteBin l | PString, VBin l => Ok (string_to_str l)
  | PTime, VU32 n => Ok (x_time_str x n)
  | PHex, VByteBin l | PHex, VBin l => to_hex l
  | PB64, VByteBin l | PB64, VBin l => Ok (x_b64_enc x l)
  | _, _ => Panic  (* not well typed *)
  end.
(** string_decode.rs:44-60 *)
Definition timestamp_from_str (x : ext) : M sbuf N :=
  let! o := read_str in
  match o with
  | None => fail
  | Some ts =>
      if negb (length ts =? 14) then fail
      else
        let! y := lift (let? t := str_slice ts 0 4 in parse_i32 t) in
        let! mo := lift (let? t := str_slice ts 4 6 in parse_u8 t) in
        let! dy := lift (let? t := str_slice ts 6 8 in parse_u8 t) in
        ensure (x_ymd x y mo dy) ;;
        let! h := lift (let? t := str_slice ts 8 10 in parse_u8 t) in
        let! mi := lift (let? t := str_slice ts 10 12 in parse_u8 t) in
        let! se := lift (let? t := str_slice ts 12 14 in parse_u8 t) in
        ensure (x_hms x h mi se) ;;
        ret (Z.to_N (x_unix x y mo dy h mi se mod 4294967296))
  end.
Definition of_opt {S A} (o : option A) : M S A := match o with Some a => ret a | None => fail end.
(** string_decode.rs:62-66 *)
Definition binary_from_str : M sbuf (list N) :=
  let! o := read_str in
  match o with Some s => of_opt (from_hex s) | None => fail end.
(** string_decode.rs:68-78 *)
Definition base64_from_str (x : ext) : M sbuf (list N) :=
  let! o := read_left in
  match o with Some s => of_opt (x_b64_dec x (remove_ws (length s) s)) | None => fail end.
(** A value of the field's Rust type. *)
Definition bin_of (k : codec) (l : list N) : fval := match k with KByteBin => VByteBin l | _ => VBin l end.
(** string_decode.rs:8-78; [opt_res]: the [Option] of other crates' parsers as a result *)
Definition opt_res {A} (o : option A) : res A := match o with Some a => Ok a | None => Err end.
Definition field_from_str (x : ext) (kd : codec * disp) : M sbuf fval :=
  match snd kd with
  | PIpv4 => let! v := sb_read (fun s => opt_res (x_ip4_parse x s)) in ret (VIpv4 v)
  | PIpv6 => let! v := sb_read (fun s => opt_res (x_ip6_parse x s)) in ret (VIpv6 v)
  | PName => let! v := sb_read name_new in ret (VName v)
  | PU8 => let! v := sb_read parse_u8 in ret (VU8 v)
  | PU16 => let! v := sb_read parse_u16 in ret (VU16 v)
  | PU32 => let! v := sb_read parse_u32 in ret (VU32 v)
  | PType => let! v := sb_read (fun s => rrtype_from_str (string_of s)) in ret (VType v)
  | PText => let! v := read_text in ret (VText v)
  | PString => let! v := read_char_string in ret (bin_of (fst kd) v)
  | PTime => let! v := timestamp_from_str x in ret (VU32 v)
  | PHex => let! v := binary_from_str in ret (bin_of (fst kd) v)
  | PB64 => let! v := base64_from_str x in ret (bin_of (fst kd) v)
  end.

(* ------------------------------------------------------------------ *)
(** * rdata-derive/src/expand.rs:79-141 and rdata.rs *)
(** expand.rs:97-141: the fields separated by single spaces *)
Fixpoint fields_to_str (x : ext) (ds : list (codec * disp)) (vs : list fval) : res (list N) :=
  match ds, vs with
  | [], _ => Ok []
  | [d], v :: _ => field_to_str x (snd d) v
  | d :: ds', v :: vs' => let? a := field_to_str x (snd d) v in let? b := fields_to_str x ds' vs' in Ok (a ++ [32%N] ++ b)
  | _ :: _, [] => Panic
  end.
(** rdata.rs:74-82 *)
Definition rdata_display (x : ext) (rd : rdata) : res (list N) := fields_to_str x (text_schema (rd_var rd)) (rd_fields rd).
(** expand.rs:79-95 *)
Fixpoint fields_from_str (x : ext) (ds : list (codec * disp)) : M sbuf (list fval) :=
  match ds with
  | [] => ret []
  | d :: ds' => let! v := field_from_str x d in let! vs := fields_from_str x ds' in ret (v :: vs)
  end.
(** rdata.rs:56-63 *)
Definition rdata_from_sb (x : ext) (t : rrtype) : M sbuf rdata :=
  match variant_of_type t with
  | Some v => let! vs := fields_from_str x (text_schema v) in ret (mkRData v vs)
  | None => fail
  end.
(** rdata.rs:51-54 *)
Definition rdata_from_str (md : mode) (x : ext) (t : rrtype) (s : list N) : res rdata :=
  let? b := sb_new md s in fst (rdata_from_sb x t b).

(* ------------------------------------------------------------------ *)
(** * rrset.rs *)
(** rrset.rs:119-127 *)
Definition rrset_header (rs : rrset) : res (list N) :=
  let? n := name_display (rs_name rs) in
  Ok (n ++ [9%N] ++ dec (rs_ttl rs) ++ [9%N] ++ of_string (rrclass_str (rs_class rs)) ++ [9%N] ++ of_string (rrtype_str (rs_type rs))).
(** rrset.rs:223-230 *)
Definition rrset_display (x : ext) (rs : rrset) : res (list N) :=
  rfold (fun acc rd => let? h := rrset_header rs in let? r := rdata_display x rd in Ok (acc ++ h ++ [9%N] ++ r ++ [10%N])) (rs_rdatas rs) [].
(** rrset.rs:172-221 *)
Definition rrset_from_sb (x : ext) : M sbuf rrset :=
  let! n := sb_read name_new in
  let! ttl := sb_read parse_u32 in
  let! cs := sb_read Ok in
  match rrclass_from_str (string_of cs) with
  | Ok cls =>
      let! t := sb_read (fun s => rrtype_from_str (string_of s)) in
      let! rd := rdata_from_sb x t in ret (mkRRset n t cls ttl [rd])
  | _ =>
      let! t := lift (rrtype_from_str (string_of cs)) in
      let! rd := rdata_from_sb x t in ret (mkRRset n t CIN ttl [rd])
  end.
Definition rrset_from_str (md : mode) (x : ext) (s : list N) : res rrset :=
  let? b := sb_new md (trim s) in fst (rrset_from_sb x b).
(** rrset.rs:74-94 *)
Definition rrset_from_strs (md : mode) (x : ext) (ss : list (list N)) : res rrset :=
  match ss with
  | [] => Panic
  | s0 :: rest =>
      let? last := rrset_from_str md x s0 in
      match rest with
      | [] => Ok last
      | _ =>
          if rrtype_eqb (rs_type last) TOPT then Err
          else rfold (fun rs s =>
            let? cur := rrset_from_str md x s in
            if negb (rrtype_eqb (rs_type rs) (rs_type cur)) then Err
            else let? d := idx (rs_rdatas cur) 0 in
                 Ok (mkRRset (rs_name rs) (rs_type rs) (rs_class rs) (rs_ttl rs) (rs_rdatas rs ++ [d]))) rest last
      end
  end.

(* ------------------------------------------------------------------ *)
(** * rand_name_generator.rs
    The random source is a stream of numbers; [gen_range(lo..hi)] may return any value of the range (every value arises
    for some stream) and panics on an empty range. *)
Definition rng := nat -> nat.
Definition gen_range (lo hi : nat) : M rng nat := fun r =>
  if lo <? hi then (Ok (lo + r 0 mod (hi - lo)), fun k => r (S k)) else (Panic, r).
(** rand_name_generator.rs:5-6 *)
Local Open Scope string_scope.
Definition VALID_DOMAIN_CHAR : list N := of_string "abcdefghijklmnopqrstuvwxyz0123456789-".
Local Close Scope string_scope.
(** rand_name_generator.rs:18-25 *)
Fixpoint gen_label (len : nat) : M rng (list N) :=
  match len with
  | O => ret []
  | S l => let! i := gen_range 0 (length VALID_DOMAIN_CHAR) in
           let! c := lift (idx VALID_DOMAIN_CHAR i) in
           let! r := gen_label l in ret (c :: r)
  end.
(** rand_name_generator.rs:34-61, one pass of the loop for each of the [todo] remaining labels; u8 arithmetic panics on
    overflow (debug), proved not to happen. *)
Fixpoint gen_loop (todo : nat) (len generated_len : N) (name : list N) : M rng (list N) :=
  match todo with
  | O => ret name
  | S todo' =>
      let! remain := lift (u8_sub len generated_len) in
      let max_label_len := N.min MAX_LABEL_LEN remain in
      let is_last_label := match todo' with O => true | _ => false end in
      let! label_len := (if (max_label_len =? 1)%N then ret 1%N
                         else if is_last_label then ret max_label_len
                         else let! v := gen_range 1 (N.to_nat max_label_len) in ret (N.of_nat v)) in
      let! l := gen_label (N.to_nat label_len) in
      let name := name ++ l in
      let! generated_len := lift (u8_add generated_len label_len) in
      let! (name, generated_len) := (
        if (generated_len <? len)%N then
          let! g1 := lift (u8_add generated_len 1) in
          if (g1 =? len)%N then
            if (label_len <? max_label_len)%N then
              let! l := gen_label 1 in ret (name ++ l, g1)
            else ret (name, generated_len)
          else if negb is_last_label then ret (name ++ [46%N], g1)
          else ret (name, generated_len)
        else ret (name, generated_len)) in
      if (generated_len =? len)%N then ret name else gen_loop todo' len generated_len name
  end.
(** rand_name_generator.rs:28-62 *)
Definition gen_name_string : M rng (list N) :=
  let! len := gen_range 1 (MAX_WIRE_LEN - 1) in
  let! label_count := gen_range 1 (MAX_LABEL_COUNT + 1) in
  gen_loop label_count (as_u8 (N.of_nat len)) 0 [].
(** rand_name_generator.rs:66-71: [Name::new(..).unwrap()] *)
Definition gen_next : M rng name :=
  let! s := gen_name_string in
  lift (match name_new s with Err => Panic | r => r end).

(** The text form of IP addresses as Rust's standard library implements it (library/core/src/net/parser.rs and display code in
    library/core/src/net/ip_addr.rs); /repo uses it through [Ipv4Addr] / [Ipv6Addr] [FromStr] and [Display]
    (src/rdatafield/string_encode.rs:12-18, src/rdatafield/string_decode.rs:12-18).  Not part of /repo; used to instantiate the parameter
    [ext] of TextModel.v with the real algorithms. *)
From Verif Require Import Base TextModel.
Open Scope list_scope.
Open Scope nat_scope.

(** [char::to_digit(radix)] *)
Definition to_digit (radix c : N) : option N :=
  let d := if within 48 57 c then Some (c - 48)%N else if within 97 122 c then Some (c - 87)%N else if within 65 90 c then Some (c - 55)%N else None in
  match d with Some v => if (v <? radix)%N then Some v else None | None => None end.
(** The digit loop of [Parser::read_number] with [max_digits]; the u32 cannot overflow with at most five digits. *)
Fixpoint num_loop (radix : N) (max : nat) (s : list N) (acc : N) (cnt : nat) : option (N * nat * list N) :=
  match s with
  | [] => Some (acc, cnt, [])
  | c :: s' =>
      match to_digit radix c with
      | Some d => if max <? cnt + 1 then None else num_loop radix max s' (acc * radix + d)%N (cnt + 1)
      | None => Some (acc, cnt, s)
      end
  end.
(** [Parser::read_number]; [bound] is that of the integer type converted to. *)
Definition read_number (bound radix : N) (max : nat) (zero_prefix : bool) (s : list N) : option (N * list N) :=
  match num_loop radix max s 0 0 with
  | None => None
  | Some (v, cnt, rest) =>
      if cnt =? 0 then None
      else if negb zero_prefix && (match s with c :: _ => c =? 48 | [] => false end)%N && (1 <? cnt) then None
      else if (v <? bound)%N then Some (v, rest) else None
  end.
(** [Parser::read_separator]: nothing is consumed on failure. *)
Definition read_sep {A} (sep : N) (i : nat) (p : list N -> option (A * list N)) (s : list N) : option (A * list N) :=
  if i =? 0 then p s else match s with c :: s' => if (c =? sep)%N then p s' else None | [] => None end.
(** [Parser::read_ipv4_addr]: [k] groups left of 4. *)
Fixpoint read_quad (k : nat) (s : list N) : option (list N * list N) :=
  match k with
  | O => Some ([], s)
  | S k' =>
      match read_sep 46 (4 - k) (read_number 256 10 3 false) s with
      | Some (v, s') => match read_quad k' s' with Some (l, s2) => Some (v :: l, s2) | None => None end
      | None => None
      end
  end.
Definition read_ipv4 : list N -> option (list N * list N) := read_quad 4.
(** [Ipv4Addr::from_str]: at most 15 octets, all consumed *)
Definition ip4_parse (s : list N) : option (list N) :=
  if 15 <? length s then None else match read_ipv4 s with Some (o, []) => Some o | _ => None end.
(** [Display] of an [Ipv4Addr] *)
Definition ip4_str (o : list N) : list N :=
  match o with [a; b; c; d] => dec a ++ [46%N] ++ dec b ++ [46%N] ++ dec c ++ [46%N] ++ dec d | _ => [] end.

(** [read_groups] inside [read_ipv6_addr]: the groups read, whether an IPv4 address ended them, what is left; [k] of [limit] slots left. *)
Fixpoint read_groups (limit k : nat) (s : list N) : list N * bool * list N :=
  match k with
  | O => ([], false, s)
  | S k' =>
      let i := limit - k in
      match (if i <? limit - 1 then read_sep 58 i read_ipv4 s else None) with
      | Some ([a; b; c; d], s') => ([a * 256 + b; c * 256 + d]%N, true, s')
      | _ =>
          match read_sep 58 i (read_number 65536 16 4 true) s with
          | Some (g, s') => let '(l, v4, s2) := read_groups limit k' s' in (g :: l, v4, s2)
          | None => ([], false, s)
          end
      end
  end.
(** [read_ipv6_addr], as eight 16-bit groups *)
Definition read_ipv6 (s : list N) : option (list N * list N) :=
  let '(hd, v4, s1) := read_groups 8 8 s in
  if length hd =? 8 then Some (hd, s1)
  else if v4 then None
  else match s1 with
       | c1 :: c2 :: s2 =>
           if ((c1 =? 58) && (c2 =? 58))%N then
             let limit := 8 - (length hd + 1) in
             let '(tl, _, s3) := read_groups limit limit s2 in
             Some (hd ++ repeat 0%N (8 - length hd - length tl) ++ tl, s3)
           else None
       | _ => None
       end.
Definition seg_octets (l : list N) : list N := flat_map (fun g => [g / 256; g mod 256]%N) l.
Fixpoint segments (o : list N) : list N := match o with a :: b :: r => (a * 256 + b)%N :: segments r | _ => [] end.
(** [Ipv6Addr::from_str] *)
Definition ip6_parse (s : list N) : option (list N) := match read_ipv6 s with Some (l, []) => Some (seg_octets l) | _ => None end.

(** [{:x}] of a u16 *)
Definition xdigit (d : N) : N := if (d <? 10)%N then (48 + d)%N else (87 + d)%N.
Definition xdigits (g : N) : list N :=
  let ds := [g / 4096; g / 256 mod 16; g / 16 mod 16; g mod 16]%N in
  if (g <? 16)%N then skipn 3 ds else if (g <? 256)%N then skipn 2 ds else if (g <? 4096)%N then skipn 1 ds else ds.
Definition hex16 (g : N) : list N := map xdigit (xdigits g).
(** The search for the longest run of zero groups: [cs], [cl] the current run, [ls], [ll] the longest. *)
Fixpoint zero_span (zs : list bool) (i cs cl ls ll : nat) : nat * nat :=
  match zs with
  | [] => (ls, ll)
  | true :: zs' =>
      let cs := if cl =? 0 then i else cs in
      let cl := cl + 1 in
      if ll <? cl then zero_span zs' (i + 1) cs cl cs cl else zero_span zs' (i + 1) cs cl ls ll
  | false :: zs' => zero_span zs' (i + 1) 0 0 ls ll
  end.
(** [fmt_subslice] *)
Definition fmt_sub (l : list N) : list N :=
  match l with [] => [] | g :: l' => hex16 g ++ flat_map (fun g => 58%N :: hex16 g) l' end.
Definition seg_str (l : list N) : list N :=
  let '(st, ln) := zero_span (map (N.eqb 0) l) 0 0 0 0 0 in
  if 1 <? ln then fmt_sub (firstn st l) ++ [58; 58]%N ++ fmt_sub (skipn (st + ln) l) else fmt_sub l.
(** [Display] of an [Ipv6Addr] *)
Definition mapped : list N := [0; 0; 0; 0; 0; 0; 0; 0; 0; 0; 255; 255]%N.
Definition ip6_str (o : list N) : list N :=
  if list_eq_dec N.eq_dec (firstn 12 o) mapped then [58; 58; 102; 102; 102; 102; 58]%N ++ ip4_str (skipn 12 o) else seg_str (segments o).

(** Specification vocabulary for the text formats, independent of the code that reads and writes them. *)
From Coq Require Import String.
From Verif Require Import Base NameModel RenderModel CodesModel RDataModel MsgModel TextModel SpecName SpecBuf SpecCodes SpecMsg.
Open Scope list_scope.
Open Scope nat_scope.

(** ** Hex *)
(** The value of a hex digit, either letter case. *)
Definition hex_value (c : N) : option N :=
  if within 48 57 c then Some (c - 48)%N
  else if within 97 102 c then Some (c - 87)%N
  else if within 65 70 c then Some (c - 55)%N else None.
(** Space, tab, line feed, carriage return. *)
Definition hex_space (c : N) : bool := ((c =? 32) || (c =? 9) || (c =? 10) || (c =? 13))%N.
Definition hex_digits (s : list N) : list N := filter (fun c => negb (hex_space c)) s.
(** The two digits of an octet, most significant first. *)
Definition nibbles (b : N) : list N := [b / 16; b mod 16]%N.

(** ** Words: maximal runs without ASCII white space *)
Inductive words : list N -> list (list N) -> Prop :=
| words_nil : forall s, forallb is_ws s = true -> words s []
| words_cons : forall gap w rest l, forallb is_ws gap = true -> w <> [] -> forallb (fun c => negb (is_ws c)) w = true ->
    (rest = [] \/ exists c r, rest = c :: r /\ is_ws c = true) -> words rest l -> words (gap ++ w ++ rest) (w :: l).
(** Calling [next] again and again gives these words, then [None] for ever. *)
Fixpoint nexts (l : list (list N)) (b : sbuf) : Prop :=
  match l with
  | [] => exists b', read_str b = (Ok None, b') /\ read_str b' = (Ok None, b')
  | w :: l' => exists b', read_str b = (Ok (Some w), b') /\ nexts l' b'
  end.

(** ** Quoted character strings (RFC 1035 5.1): the octets denoted by a text between the quotes. *)
Definition digit_val (c : N) : N := (c - 48)%N.
Definition is_dec (c : N) : Prop := (48 <= c <= 57)%N.
Inductive quoted : list N -> list N -> Prop :=
| q_nil : quoted [] []
| q_plain : forall c t d, c <> 92%N -> c <> 34%N -> quoted t d -> quoted (c :: t) (c :: d)
| q_esc : forall c t d, ~ is_dec c -> quoted t d -> quoted (92%N :: c :: t) (c :: d)
| q_dec : forall x y z t d, is_dec x -> is_dec y -> is_dec z ->
    (digit_val x * 100 + digit_val y * 10 + digit_val z < 256)%N -> quoted t d ->
    quoted (92%N :: x :: y :: z :: t) ((digit_val x * 100 + digit_val y * 10 + digit_val z)%N :: d).
(** The text still to be read. *)
Definition unread (b : sbuf) : list N := skipn (sb_pos b) (sb_raw b).
Definition sb_ok (b : sbuf) : Prop := sb_pos b <= length (sb_raw b).

(** ** Decimal numbers *)
Fixpoint dec_val_from (acc : N) (l : list N) : N :=
  match l with [] => acc | c :: l' => dec_val_from (acc * 10 + digit_val c)%N l' end.
Definition dec_val (l : list N) : N := dec_val_from 0 l.
(** An optional plus sign and at least one digit. *)
Definition number_text (s : list N) (v : N) : Prop :=
  exists ds, (s = ds \/ s = 43%N :: ds) /\ ds <> [] /\ Forall is_dec ds /\ v = dec_val ds.
(** No superfluous zeros and nothing but digits. *)
Definition canonical_dec (s : list N) : Prop :=
  s <> [] /\ Forall is_dec s /\ (forall r, s = 48%N :: r -> r = []).
(** One or more quoted strings of 1..255 octets, with optional white space before each and nothing after the last. *)
Inductive texts : list N -> list (list N) -> Prop :=
| texts_one : forall gap t d, forallb is_ws gap = true -> quoted t d -> 1 <= length d <= 255 ->
    texts (gap ++ 34%N :: t ++ [34%N]) [d]
| texts_more : forall gap t d rest ds, forallb is_ws gap = true -> quoted t d -> 1 <= length d <= 255 -> texts rest ds ->
    texts (gap ++ 34%N :: t ++ 34%N :: rest) (d :: ds).

(** ** Records in master-file form *)
(** A non-empty word of printable ASCII without spaces. *)
Definition word_text (t : list N) : Prop := t <> [] /\ Forall (fun c => 33 <= c <= 126)%N t.
(** [n] in exactly [k] decimal digits. *)
Fixpoint pad (k : nat) (n : N) : list N :=
  match k with O => [] | S k' => pad k' (n / 10)%N ++ [(48 + n mod 10)%N] end.
(** What the code of the other crates (std::net, base64, time) must satisfy: printing gives a word that parses back.
    The time crate prints a 32-bit number of seconds as YYYYMMDDHHMMSS, and these six numbers denote it. *)
Record ext_ok (x : ext) : Prop := mkExtOk {
  eo_ip4 : forall o, length o = 4 -> bytes o -> word_text (x_ip4_str x o) /\ x_ip4_parse x (x_ip4_str x o) = Some o;
  eo_ip6 : forall o, length o = 16 -> bytes o -> word_text (x_ip6_str x o) /\ x_ip6_parse x (x_ip6_str x o) = Some o;
  eo_b64 : forall d, d <> [] -> bytes d -> word_text (x_b64_enc x d) /\ x_b64_dec x (x_b64_enc x d) = Some d;
  eo_time : forall n, (n < 4294967296)%N -> exists y mo d h mi s,
    (y < 10000 /\ mo < 100 /\ d < 100 /\ h < 100 /\ mi < 100 /\ s < 100)%N /\
    x_time_str x n = pad 4 y ++ pad 2 mo ++ pad 2 d ++ pad 2 h ++ pad 2 mi ++ pad 2 s /\
    x_ymd x (Z.of_N y) mo d = true /\ x_hms x h mi s = true /\ x_unix x (Z.of_N y) mo d h mi s = Z.of_N n }.
(** Types whose binary fields are written as quoted strings (RFC 3403, 6844, 7553). *)
Definition quotes_binary (t : rrtype) : Prop := t = TNAPTR \/ t = TCAA \/ t = TURI.
(** A type that has a mnemonic which can be read back (see C24 for CERT). *)
Definition readable_type (t : rrtype) : Prop := t <> TCERT /\ forall v, t <> TUnknown v.
(** A field of a record of type [t] that master-file text can carry. *)
Definition text_field (t : rrtype) (v : fval) : Prop :=
  match v with
  | VIpv4 o => length o = 4 /\ bytes o
  | VIpv6 o => length o = 16 /\ bytes o
  | VName n => exists ls, wf_labels ls /\ plain_labels ls /\ n = name_of ls
  | VU8 x => (x < 256)%N
  | VU16 x => (x < 65536)%N
  | VU32 x => (x < 4294967296)%N
  | VType c => readable_type c
  | VText l => l <> [] /\ Forall (fun d => bytes d /\ 1 <= length d <= 255) l
  | VByteBin d | VBin d => bytes d /\ d <> [] /\ (quotes_binary t -> length d <= 255)
  end.
Definition same_kind (k : codec) (v : fval) : Prop :=
  match k, v with
  | KIpv4, VIpv4 _ | KIpv6, VIpv6 _ | KName, VName _ | KU8, VU8 _ | KU16, VU16 _ | KU32, VU32 _ | KType, VType _
  | KText, VText _ | KByteBin, VByteBin _ | KBin, VBin _ => True
  | _, _ => False
  end.
(** Rdata of type [t] that text can carry. *)
Definition text_rdata (t : rrtype) (rd : rdata) : Prop :=
  data_of t = Some (rd_var rd) /\ (exists ks, rfc_layout t = Some ks /\ Forall2 same_kind ks (rd_fields rd)) /\
  Forall (text_field t) (rd_fields rd).
Definition text_rrset (rs : rrset) : Prop :=
  (exists ls, wf_labels ls /\ plain_labels ls /\ rs_name rs = name_of ls) /\ (rs_ttl rs < 4294967296)%N /\
  (forall v, rs_class rs <> CUnknown v) /\ readable_type (rs_type rs) /\ Forall (text_rdata (rs_type rs)) (rs_rdatas rs).
(** Presentation format of a field (RFC 1035 5.1 and the RFCs of the types). *)
Inductive pres := FAddr4 | FAddr6 | FName | FNum | FType | FStrings | FString | FTime | FHex | FBase64.
Definition rfc_present (t : rrtype) : list pres :=
  match t with
  | TA => [FAddr4] | TAAAA => [FAddr6]
  | TNS | TCNAME | TPTR | TDNAME => [FName]
  | TSOA => [FName; FName; FNum; FNum; FNum; FNum; FNum]
  | TMX => [FNum; FName] | TTXT => [FStrings] | TRP => [FName; FName]
  | TSRV => [FNum; FNum; FNum; FName]
  | TNAPTR => [FNum; FNum; FString; FString; FString; FName]
  | TCERT => [FNum; FNum; FNum; FBase64]
  | TOPT => [FHex]
  | TDS => [FNum; FNum; FNum; FHex]
  | TRRSIG => [FType; FNum; FNum; FNum; FTime; FTime; FNum; FName; FBase64]
  | TNSEC => [FName; FHex]
  | TDNSKEY => [FNum; FNum; FNum; FBase64]
  | TNSEC3 => [FNum; FNum; FNum; FHex; FHex; FHex]
  | TNSEC3PARAM => [FNum; FNum; FNum; FHex]
  | TURI => [FNum; FNum; FString]
  | TCAA => [FNum; FString; FString]
  | TTSIG | TIXFR | TAXFR | TANY | TUnknown _ => []
  end.
(** [s] is the registered mnemonic of a code. *)
Definition mnemonic (table : list (string * N)) (code : N) (s : list N) : Prop := exists m, In (m, code) table /\ s = of_string m.
(** [s] is the text of value [v] in presentation format [p]. *)
Definition presented (x : ext) (p : pres) (v : fval) (s : list N) : Prop :=
  match p, v with
  | FAddr4, VIpv4 o => s = x_ip4_str x o
  | FAddr6, VIpv6 o => s = x_ip6_str x o
  | FName, VName n => exists ls, wf_labels ls /\ n = name_of ls /\ s = show_name ls
  | FNum, VU8 n | FNum, VU16 n | FNum, VU32 n => canonical_dec s /\ dec_val s = n
  | FType, VType t => mnemonic iana_types (rrtype_u16 t) s
  | FStrings, VText l => texts s l /\ forall c, In c s -> (32 <= c <= 126)%N
  | FString, VByteBin d | FString, VBin d => exists t, s = 34%N :: t ++ [34%N] /\ quoted t d /\ forall c, In c s -> (32 <= c <= 126)%N
  | FTime, VU32 n => s = x_time_str x n
  | FHex, VByteBin d | FHex, VBin d => map hex_value s = map Some (flat_map nibbles d)
  | FBase64, VByteBin d | FBase64, VBin d => s = x_b64_enc x d
  | _, _ => False
  end.
(** Texts joined by a separator. *)
Fixpoint joined (sep : list N) (ts : list (list N)) : list N :=
  match ts with [] => [] | [t] => t | t :: ts' => t ++ sep ++ joined sep ts' end.
(** One line of [Display] for an rrset. *)
Definition record_line (x : ext) (rs : rrset) (rd : rdata) (line : list N) : Prop :=
  exists ls ttl cls ty fs, wf_labels ls /\ rs_name rs = name_of ls /\
    canonical_dec ttl /\ dec_val ttl = rs_ttl rs /\ mnemonic iana_classes (rrclass_u16 (rs_class rs)) cls /\
    mnemonic iana_types (rrtype_u16 (rs_type rs)) ty /\
    (exists ps, Forall2 (fun pv s => presented x (fst pv) (snd pv) s) (combine ps (rd_fields rd)) fs /\ ps = rfc_present (rs_type rs)) /\
    line = joined [9%N] [show_name ls; ttl; cls; ty; joined [32%N] fs].
(** A text of ASCII characters only; any such text is a [&str]. *)
Definition ascii (s : list N) : Prop := Forall (fun c => c < 128)%N s.
(** The word [w] stands in the text [s] (delimited by white space or the ends). *)
Definition occurs (w s : list N) : Prop := exists ws, words s ws /\ In w ws.
(** Letter, digit or hyphen. *)
Definition ldh (c : N) : Prop := (97 <= c <= 122 \/ 48 <= c <= 57 \/ c = 45)%N.

(** Vocabulary for C104: which structs [#[derive(Rdata)]] is meant for. *)
From Coq Require String Ascii.
From Verif Require Import Base NameModel RenderModel CodesModel RDataModel TextModel DeriveModel MacroModel.
Import String.StringSyntax.
Open Scope string_scope.
Open Scope list_scope.
Open Scope nat_scope.

(** The field carries exactly the attribute [#[field(codec = "c", display = "d")]], and no other, not even a doc comment. *)
Definition annotated (f : rfield) (c d : ident) : Prop :=
  f_attrs f = [mkAttr ["field"] (Some [TIdent "codec"; TEq; TStr c; TComma; TIdent "display"; TEq; TStr d])].
(** Text that can start an identifier: letters, digits and [_], not beginning with a digit. *)
Definition letter (a : Ascii.ascii) : Prop := let n := Ascii.N_of_ascii a in (65 <= n <= 90 \/ 97 <= n <= 122 \/ n = 95)%N.
Definition letter_digit (a : Ascii.ascii) : Prop := let n := Ascii.N_of_ascii a in letter a \/ (48 <= n <= 57)%N.
Definition word (s : ident) : Prop :=
  match String.list_ascii_of_string s with [] => True | a :: r => letter a /\ Forall letter_digit r end.

(** The codecs, the Rust type each is for, and what it stands for. *)
Definition codec_names : list (ident * (rty * dcodec)) :=
  [("name", (TyName, Std KName)); ("name_uncompressed", (TyName, NameUncompressed)); ("ipv4", (TyIpv4, Std KIpv4)); ("ipv6", (TyIpv6, Std KIpv6)); ("u8", (TyU8, Std KU8));
   ("u16", (TyU16, Std KU16)); ("rrtype", (TyType, Std KType)); ("u32", (TyU32, Std KU32)); ("text", (TyTexts, Std KText)); ("byte_binary", (TyBytes, Std KByteBin));
   ("binary", (TyBytes, Std KBin))].
(** The displays likewise. *)
Definition display_names : list (ident * (rty * disp)) :=
  [("name", (TyName, PName)); ("ipv4", (TyIpv4, PIpv4)); ("ipv6", (TyIpv6, PIpv6)); ("u8", (TyU8, PU8)); ("u16", (TyU16, PU16)); ("rrtype", (TyType, PType)); ("u32", (TyU32, PU32));
   ("text", (TyTexts, PText)); ("string", (TyBytes, PString)); ("timestamp", (TyU32, PTime)); ("binary", (TyBytes, PHex)); ("base64", (TyBytes, PB64))].
(** The field's attribute names a codec and a display that are both for the field's type. *)
Definition meant (f : rfield) (kd : dcodec * disp) : Prop :=
  exists c d, annotated f c d /\ In (c, (f_ty f, fst kd)) codec_names /\ In (d, (f_ty f, snd kd)) display_names.
(** Field names the generated code does not use itself. *)
Definition not_used_inside (n : ident) : Prop :=
  n <> "buf" /\ n <> "len" /\ forall c, In c (map fst codec_names) -> n <> String.append c "_from_wire".
(** The codec of RDataModel.v for the text half. *)
Definition text_codec (kd : dcodec * disp) : codec * disp := (match fst kd with Std k => k | NameUncompressed => KName end, snd kd).
(** A struct value: the fields in declaration order.  (A [Vec<u8>] is one Rust type, whichever codec its field has.) *)
Definition struct_value (fs : list rfield) (vs : list fval) : list (ident * fval) :=
  combine (map f_name fs) (map vec_u8 vs).

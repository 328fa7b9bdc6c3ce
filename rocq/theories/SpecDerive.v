(** Vocabulary for C95 and C101: structs with derived wire and text codecs. *)
From Verif Require Import Base NameModel CodesModel RDataModel TextModel DeriveModel SpecName SpecBuf SpecMsg SpecText.

(** The Rust type of a field: its values, in range. *)
Definition typed (d : dcodec) (v : fval) : Prop :=
  match d with Std k => wf_field k v | NameUncompressed => wf_field KName v end.
(** Codecs whose encoding has no end mark: they read as far as the remaining length goes. *)
Definition open_ended (d : dcodec) : Prop := d = Std KText \/ d = Std KBin.
(** No open-ended field stands before another field. *)
Definition open_only_last (ds : list dcodec) : Prop :=
  forall before d after, ds = before ++ d :: after -> open_ended d -> after = [].

(** ** Text (C101) *)
(** A struct the generated text code compiles for: each display fits the Rust type of its field. *)
Definition fits (kd : codec * disp) : Prop :=
  match kd with
  | (KIpv4, PIpv4) | (KIpv6, PIpv6) | (KName, PName) | (KU8, PU8) | (KU16, PU16) | (KU32, PU32) | (KU32, PTime) | (KType, PType) | (KText, PText)
  | (KByteBin, PString) | (KByteBin, PHex) | (KByteBin, PB64) | (KBin, PString) | (KBin, PHex) | (KBin, PB64) => True
  | _ => False
  end.
(** Displays that are read to the end of the text. *)
Definition to_the_end (kd : codec * disp) : Prop := snd kd = PText \/ snd kd = PB64.
(** No such field stands before another field. *)
Definition end_only_last (ds : list (codec * disp)) : Prop :=
  forall before d after, ds = before ++ d :: after -> to_the_end d -> after = [].
(** Field values that text can carry: in range, and with the given display: names of plain characters, types with a readable
    mnemonic, non-empty binaries and strings, strings of at most 255 octets. *)
Definition carried (kd : codec * disp) (v : fval) : Prop :=
  same_kind (fst kd) v /\
  match v with
  | VIpv4 o => length o = 4 /\ bytes o
  | VIpv6 o => length o = 16 /\ bytes o
  | VName n => exists ls, wf_labels ls /\ plain_labels ls /\ n = name_of ls
  | VU8 x => (x < 256)%N
  | VU16 x => (x < 65536)%N
  | VU32 x => (x < 4294967296)%N
  | VType c => readable_type c
  | VText l => l <> [] /\ Forall (fun d => bytes d /\ 1 <= length d <= 255) l
  | VByteBin d | VBin d => bytes d /\ d <> [] /\ (snd kd = PString -> length d <= 255)
  end.
(** The presentation format each display stands for (see [presented] in SpecText.v). *)
Definition format_of (kd : codec * disp) : pres :=
  match snd kd with
  | PIpv4 => FAddr4 | PIpv6 => FAddr6 | PName => FName | PU8 | PU16 | PU32 => FNum | PType => FType | PText => FStrings
  | PString => FString | PTime => FTime | PHex => FHex | PB64 => FBase64
  end.

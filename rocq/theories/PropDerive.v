(** Property theorems C95 and C101: the wire and text code generated by [#[derive(Rdata)]] for an arbitrary struct.
    Models: DeriveModel.v, RDataModel.v, RenderModel.v, TextModel.v; specifications: SpecDerive.v, SpecMsg.v, SpecBuf.v, SpecText.v. *)
From Coq Require String.
From Verif Require Import Base NameModel RenderModel CodesModel RDataModel MsgModel TextModel DeriveModel SpecName SpecBuf SpecCodes SpecMsg SpecText SpecDerive SpecCtor DeriveProofs DeriveProofs2 UncompProofs ExtInstance.
Import String.StringSyntax.
Open Scope string_scope.
Open Scope list_scope.
Open Scope nat_scope.

(** * C95 *)
(** A struct whose open-ended fields stand last: whatever was rendered before, what [to_wire] writes decodes to the same value and is consumed entirely. *)
Theorem C95_round_trip : forall ds, open_only_last ds -> forall dat hs r vs r', bytes dat -> history (mr_new dat) hs r -> Forall2 typed ds vs ->
  derived_to_wire ds vs r = (Ok tt, r') ->
  derived_from_wire ds (N.of_nat (mr_len r' - mr_len r)) (mkIn (mr_bytes r') (mr_len r)) = (Ok vs, mkIn (mr_bytes r') (mr_len r')).
Proof. exact derived_round_trip. Qed.
Print Assumptions C95_round_trip.
(** Any other struct has a value that [from_wire] returns for no octets, no position and no length: the condition is necessary. *)
Theorem C95_necessary : forall ds, ~ open_only_last ds -> exists vs, Forall2 typed ds vs /\
  forall w p L b', bytes w -> p <= length w -> (L < 65536)%N -> derived_from_wire ds L (mkIn w p) <> (Ok vs, b').
Proof. exact derived_ambiguous. Qed.
Print Assumptions C95_necessary.
(** For every struct, the generated decoder answers on all input without panic, stays in the buffer, and on success has consumed exactly [len] octets, which
    are the encodings of the fields in order. *)
Theorem C95_total_exact : forall ds w p L, bytes w -> p <= length w -> (L < 65536)%N -> exists r p', p' <= length w /\ r <> Panic /\ r <> Hang /\
  derived_from_wire ds L (mkIn w p) = (r, mkIn w p') /\
  forall vs, r = Ok vs -> p' = p + N.to_nat L /\ Forall2 typed ds vs /\ fields_at w p p' vs.
Proof. exact derived_total. Qed.
Print Assumptions C95_total_exact.
(** A field with codec [name_uncompressed] is written as the plain encoding of the name, also where it could be compressed. *)
Theorem C95_uncompressed : forall dat hs r ls r', bytes dat -> history (mr_new dat) hs r -> wf_labels ls ->
  derived_to_wire [NameUncompressed] [VName (name_of ls)] r = (Ok tt, r') -> mr_bytes r' = mr_bytes r ++ enc ls.
Proof.
  intros dat hs r ls r' B H F E. pose proof (plain_exact dat hs r ls B H F) as P. cbn [derived_to_wire dfield_to_wire] in E. unfold bind in E.
  destruct (write_name (name_of ls) false r) as [[[]| | |] r1]; cbn [ret] in E; try discriminate. injection E as <-.
  destruct (_ <=? _); destruct P as [X Y]; [exact Y|discriminate].
Qed.
Print Assumptions C95_uncompressed.
(** The 22 structs of rdatas.rs are instances. *)
Theorem C95_instances : forall t v len b, data_of t = Some v -> exists ks, rfc_layout t = Some ks /\
  struct_from_wire v len b = bind (derived_from_wire (map Std ks) len) (fun vs => ret (mkRData v vs)) b /\
  forall vs r, length vs = length ks -> rdata_to_wire (mkRData v vs) r = derived_to_wire (map Std ks) vs r.
Proof. exact derived_instance. Qed.
Print Assumptions C95_instances.

(** A struct of a type this crate does not have: RFC 1035 MINFO with an uncompressed name, a port and text. *)
Definition ex_struct : list dcodec := [Std KName; NameUncompressed; Std KU16; Std KText].
Definition ex_value : list fval := [VName (name_of [[97]; [98]]%N); VName (name_of [[97]; [98]]%N); VU16 53; VText [[120; 121]; []]%N].
Example C95_round_trip_case : open_only_last ex_struct /\ Forall2 typed ex_struct ex_value /\
  exists r', derived_to_wire ex_struct ex_value (mr_new (repeat 0%N 64)) = (Ok tt, r') /\
    mr_bytes r' = ([1; 97; 1; 98; 0] ++ [1; 97; 1; 98; 0] ++ [0; 53] ++ [2; 120; 121; 0])%N.
Proof.
  split; [|split].
  - intros before d after E O. destruct before as [|? [|? [|? [|? [|? before]]]]]; inversion E; subst; auto;
      destruct O as [O|O]; discriminate.
  - assert (W : wf_name (name_of [[97]; [98]]%N)).
    { exists [[97]; [98]]%N. split; [|reflexivity]. split; [|cbn; lia]. repeat constructor; cbn; lia. }
    repeat constructor; auto; cbn; lia.
  - eexists. split; vm_compute; reflexivity.
Qed.
(** Two open-ended fields: ["a" "" ; "b"] is written as one run of octets, which decodes as something else. *)
Example C95_necessary_case : ~ open_only_last [Std KText; Std KBin] /\
  exists r', derived_to_wire [Std KText; Std KBin] [VText [[97]]; VBin [1; 98]]%N (mr_new (repeat 0%N 64)) = (Ok tt, r') /\
    derived_from_wire [Std KText; Std KBin] 4 (ib_new (mr_bytes r')) = (Ok [VText [[97]; [98]]; VBin []], mkIn (mr_bytes r') 4)%N.
Proof.
  split.
  - intros H. discriminate (H [] (Std KText) [Std KBin] eq_refl (or_introl eq_refl)).
  - eexists. split; vm_compute; reflexivity.
Qed.

(** * C101 *)
(** A struct whose read-to-the-end fields stand last: values text can carry are printed as their fields' texts joined by single spaces, and that text,
    with white space before it, is read back to the same values. *)
Theorem C101_round_trip : forall x ds vs, ext_ok x -> Forall fits ds -> end_only_last ds -> ds <> [] -> Forall2 carried ds vs ->
  exists s ts, derived_display x ds vs = Ok s /\ s = joined [32%N] ts /\
    Forall2 (fun pv t => presented x (fst pv) (snd pv) t) (combine (map format_of ds) vs) ts /\
    (forall md a, forallb is_ws a = true -> derived_from_str md x ds (a ++ s) = Ok vs).
Proof. exact derived_text_rt. Qed.
Print Assumptions C101_round_trip.
(** For any other struct no text at all is accepted: the condition is necessary. *)
Theorem C101_necessary : forall x ds, ~ end_only_last ds -> forall md s vs, derived_from_str md x ds s <> Ok vs.
Proof. exact derived_never. Qed.
Print Assumptions C101_necessary.
(** Reading never panics on non-empty text, of ASCII characters or into a struct without timestamps. *)
Theorem C101_safe : forall md x ds s, str s -> s <> [] -> (Forall (fun c => c < 128)%N s \/ forall kd, In kd ds -> snd kd <> PTime) ->
  derived_from_str md x ds s <> Panic /\ derived_from_str md x ds s <> Hang.
Proof. exact derived_text_safe. Qed.
Print Assumptions C101_safe.
(** The structs of rdatas.rs are instances, with the formats of their RFCs. *)
Theorem C101_instances : forall t v, data_of t = Some v -> Forall fits (text_schema v) /\ end_only_last (text_schema v) /\ text_schema v <> [] /\
  map format_of (text_schema v) = rfc_present t /\
  (forall vs, Forall2 carried (text_schema v) vs <-> text_rdata t (mkRData v vs)) /\
  forall x vs, rdata_display x (mkRData v vs) = derived_display x (text_schema v) vs /\
  forall md s, rdata_from_str md x t s = let? vs := derived_from_str md x (text_schema v) s in Ok (mkRData v vs).
Proof. exact derived_instances. Qed.
Print Assumptions C101_instances.
(** A struct of a type this crate does not have: preference, name, timestamp, quoted flag and a list of strings. *)
Definition ex_text : list (codec * disp) := [(KU16, PU16); (KName, PName); (KU32, PTime); (KByteBin, PString); (KText, PText)].
Definition ex_texts : list fval := [VU16 10; VName (name_of [of_string "a"; of_string "b"]); VU32 86399; VByteBin (of_string "x;y"); VText [of_string "p"; of_string "q r"]].
Example C101_round_trip_case : Forall fits ex_text /\ end_only_last ex_text /\ Forall2 carried ex_text ex_texts /\
  derived_display std_ext ex_text ex_texts = Ok (of_string "10 a.b. 19700101235959 ""x\;y"" ""p""""q r""") /\
  derived_from_str Debug std_ext ex_text (of_string " 10 a.b. 19700101235959 ""x\;y"" ""p""""q r""") = Ok ex_texts.
Proof.
  split; [repeat constructor|]. split.
  { intros before d after E O. destruct before as [|? [|? [|? [|? [|? [|? before]]]]]]; inversion E; subst; auto; destruct O as [O|O]; discriminate. }
  split; [|split; vm_compute; reflexivity].
  assert (W : wf_labels [of_string "a"; of_string "b"]) by (split; [repeat constructor; vm_compute; lia|vm_compute; lia]).
  assert (B : forall l, forallb (fun b => (b <? 256)%N) l = true -> bytes l) by (intros l H; apply Forall_forall; intros b I; apply N.ltb_lt; rewrite forallb_forall in H; exact (H b I)).
  repeat apply Forall2_cons; try apply Forall2_nil; (split; [exact Logic.I|]).
  - lia.
  - exists [of_string "a"; of_string "b"]. split; [exact W|]. split; [|reflexivity]. vm_compute. repeat constructor; try discriminate.
  - lia.
  - split; [apply B; reflexivity|]. split; [discriminate|]. intros _. vm_compute. lia.
  - split; [discriminate|]. repeat apply Forall_cons; try apply Forall_nil; (split; [apply B; reflexivity|vm_compute; lia]).
Qed.
Example C101_necessary_case : ~ end_only_last [(KBin, PB64); (KU8, PU8)] /\ derived_display std_ext [(KBin, PB64); (KU8, PU8)] [VBin [1%N]; VU8 2] = Ok (of_string "AQ== 2") /\
  derived_from_str Debug std_ext [(KBin, PB64); (KU8, PU8)] (of_string "AQ== 2") = Err.
Proof. split; [intros H; discriminate (H [] (KBin, PB64) [(KU8, PU8)] eq_refl (or_intror eq_refl))|]. split; vm_compute; reflexivity. Qed.

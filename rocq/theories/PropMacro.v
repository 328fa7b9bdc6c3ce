(** Property theorems C104: the derive macro [#[derive(Rdata)]] itself: what it accepts, when the emitted code compiles and what it does.
    Model: MacroModel.v; specification: SpecMacro.v (and SpecDerive.v, DeriveModel.v for the field codecs). *)
From Coq Require String.
From Verif Require Import Base NameModel RenderModel CodesModel RDataModel TextModel DeriveModel MacroModel SpecName SpecBuf SpecCodes SpecMsg SpecText SpecDerive SpecMacro
  MacroProofs MacroProofs2 DeriveProofs.
Import String.StringSyntax.
Open Scope string_scope.
Open Scope list_scope.
Open Scope nat_scope.

(** * C104 *)
(** The macro succeeds on a struct with named fields exactly if each field carries the one attribute, with texts that can start an identifier. *)
Theorem C104_accepts : forall n fs, (exists g, derive (NamedStruct n fs) = Ok g) <-> Forall (fun f => exists c d, annotated f c d /\ word c /\ word d) fs.
Proof. exact derive_ok. Qed.
Print Assumptions C104_accepts.
(** It reports an error exactly for other inputs: not a struct with named fields, or a field without that one attribute. *)
Theorem C104_rejects : forall i, derive i = Err <-> match i with OtherInput _ => True | NamedStruct _ fs => exists f, In f fs /\ forall c d, ~ annotated f c d end.
Proof. exact derive_err. Qed.
Print Assumptions C104_rejects.
(** It never loops; by the two theorems above, it panics only on texts that cannot start an identifier. *)
Theorem C104_ends : forall i, derive i <> Hang.
Proof. exact derive_no_hang. Qed.
Print Assumptions C104_ends.
(** The emitted code compiles exactly if every attribute names a codec and a display, both for the field's Rust type. *)
Theorem C104_compiles : forall n fs g, derive (NamedStruct n fs) = Ok g -> NoDup (map f_name fs) -> Forall not_used_inside (map f_name fs) ->
  compiles fs g = true <-> Forall (fun f => exists kd, meant f kd) fs.
Proof. exact derive_compiles. Qed.
Print Assumptions C104_compiles.
(** Names: no field may be called [len], and none but the last may be called [buf]. *)
Theorem C104_len : forall n fs g, derive (NamedStruct n fs) = Ok g -> In "len" (map f_name fs) -> compiles fs g = false.
Proof. exact len_never. Qed.
Print Assumptions C104_len.
Theorem C104_buf : forall n fs1 b f fs2 g, derive (NamedStruct n (fs1 ++ b :: f :: fs2)) = Ok g -> f_name b = "buf" -> compiles (fs1 ++ b :: f :: fs2) g = false.
Proof. exact buf_only_last. Qed.
Print Assumptions C104_buf.
(** The emitted code decodes, encodes, parses and prints the fields in declaration order with the codecs and displays the attributes name. *)
Theorem C104_runs : forall n fs kds g, derive (NamedStruct n fs) = Ok g -> Forall2 meant fs kds -> NoDup (map f_name fs) -> Forall not_used_inside (map f_name fs) ->
  (forall len b, run_from_wire g len b = bind (derived_from_wire (map fst kds) len) (fun vs => ret (struct_value fs vs)) b) /\
  (forall vs r, Forall2 typed (map fst kds) vs -> run_to_wire g (struct_value fs vs) r = derived_to_wire (map fst kds) vs r) /\
  (forall x b, run_from_str x g b = bind (fields_from_str x (map text_codec kds)) (fun vs => ret (struct_value fs vs)) b) /\
  (forall x vs, length vs = length fs -> run_display x g (struct_value fs vs) = derived_display x (map text_codec kds) vs).
Proof. exact runs_as. Qed.
Print Assumptions C104_runs.
(** Hence: the emitted encoder and decoder are inverse, whatever the struct, if the open-ended fields stand last. *)
Theorem C104_round_trip : forall n fs kds g, derive (NamedStruct n fs) = Ok g -> Forall2 meant fs kds -> NoDup (map f_name fs) -> Forall not_used_inside (map f_name fs) ->
  open_only_last (map fst kds) -> forall dat hs r vs r', bytes dat -> history (mr_new dat) hs r -> Forall2 typed (map fst kds) vs ->
  run_to_wire g (struct_value fs vs) r = (Ok tt, r') ->
  run_from_wire g (N.of_nat (mr_len r' - mr_len r)) (mkIn (mr_bytes r') (mr_len r)) = (Ok (struct_value fs vs), mkIn (mr_bytes r') (mr_len r')).
Proof.
  intros n fs kds g E M D F O dat hs r vs r' B H T W. destruct (runs_as n fs kds g E M D F) as (R1 & R2 & _ & _). rewrite R1. rewrite R2 in W by exact T.
  unfold bind. rewrite (derived_round_trip (map fst kds) O dat hs r vs r' B H T W). reflexivity.
Qed.
Print Assumptions C104_round_trip.
(** rdatas.rs: all 22 structs are accepted and compile, and the codecs and displays their attributes name are those of the model ([schema], [text_schema]). *)
Theorem C104_source : forall v, exists n fs g kds, rdatas_rs v = NamedStruct n fs /\ derive (NamedStruct n fs) = Ok g /\ compiles fs g = true /\
  NoDup (map f_name fs) /\ Forall not_used_inside (map f_name fs) /\ Forall2 meant fs kds /\ map fst kds = map Std (schema v) /\ map text_codec kds = text_schema v.
Proof. exact source_ok. Qed.
Print Assumptions C104_source.

(** A struct this crate does not have, with a field called [buf] in last place; and four mistakes. *)
Definition ex_fields : list rfield := [fld "preference" "u16" "u16" TyU16; fld "host" "name_uncompressed" "name" TyName; fld "expires" "u32" "timestamp" TyU32; fld "key" "binary" "base64" TyBytes].
Example C104_case : exists g, derive (NamedStruct "KX" ex_fields) = Ok g /\ compiles ex_fields g = true /\
  g_lets g = [("preference", "u16_from_wire"); ("host", "name_uncompressed_from_wire"); ("expires", "u32_from_wire"); ("key", "binary_from_wire")] /\
  fst (run_from_wire g 12 (ib_new [0; 5; 1; 97; 0; 0; 0; 0; 9; 7; 8; 9]%N)) =
    Ok [("preference", VU16 5); ("host", VName (name_of [[97%N]])); ("expires", VU32 9); ("key", VBin [7; 8; 9]%N)].
Proof. eexists. split; [reflexivity|]. repeat split; vm_compute; reflexivity. Qed.
Example C104_meets : Forall2 meant ex_fields [(Std KU16, PU16); (NameUncompressed, PName); (Std KU32, PTime); (Std KBin, PB64)] /\
  NoDup (map f_name ex_fields) /\ Forall not_used_inside (map f_name ex_fields) /\ open_only_last [Std KU16; NameUncompressed; Std KU32; Std KBin].
Proof.
  split; [|split; [|split]].
  - repeat constructor; (eexists _, _; split; [reflexivity|]; split; cbn; tauto).
  - apply distinct_iff. reflexivity.
  - apply Forall_forall. intros x I. apply unused_ok. cbn in I. repeat (destruct I as [<-|I]; [reflexivity|]). destruct I.
  - intros before d after E O. destruct before as [|? [|? [|? [|? [|? before]]]]]; inversion E; subst; auto; destruct O as [O|O]; discriminate.
Qed.
Example C104_mistakes :
  derive (NamedStruct "X" [mkField "a" [mkAttr ["doc"] None; mkAttr ["field"] (Some [TIdent "codec"; TEq; TStr "u8"; TComma; TIdent "display"; TEq; TStr "u8"])] TyU8]) = Err /\
  derive (NamedStruct "X" [mkField "a" [mkAttr ["field"] (Some [TIdent "codec"; TEq; TStr "u8"])] TyU8]) = Err /\
  derive (NamedStruct "X" [fld "a" "8" "u8" TyU8]) = Panic /\
  (exists g, derive (NamedStruct "X" [fld "a" "u16" "u8" TyU8]) = Ok g /\ compiles [fld "a" "u16" "u8" TyU8] g = false) /\
  (exists g, derive (NamedStruct "X" [fld "len" "u8" "u8" TyU8]) = Ok g /\ compiles [fld "len" "u8" "u8" TyU8] g = false).
Proof. split; [reflexivity|]. split; [reflexivity|]. split; [reflexivity|]. split; (eexists; split; reflexivity). Qed.

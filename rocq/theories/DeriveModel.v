(** Model of the code that [#[derive(Rdata)]] (rdata-derive/src/expand.rs) generates for an arbitrary
    struct, given the codec and display attributes of its fields.  The structs of rdatas.rs are the instances [schema v]. *)
From Verif Require Import Base NameModel RenderModel CodesModel RDataModel TextModel.

(** The codec names that have a [.._from_wire]/[.._to_wire] pair: those used by rdatas.rs and [name_uncompressed]
    (wire_decode.rs:11-13, wire_encode.rs:12-14), which no struct of rdatas.rs uses. *)
Inductive dcodec := Std (k : codec) | NameUncompressed.
(** wire_decode.rs:11-13 ([name_uncompressed] decodes as [name] does); the rest as in [field_from_wire]. *)
Definition dfield_from_wire (d : dcodec) (len : N) : M inbuf (fval * N) :=
  match d with
  | Std k => field_from_wire k len
  | NameUncompressed => let! (n, l) := rname_from_wire len in ret (VName n, l)
  end.
(** wire_encode.rs:12-14; the rest as in [field_to_wire].  A value of another Rust type than the codec's argument does not
    compile; the model answers [Err]. *)
Definition dfield_to_wire (d : dcodec) (v : fval) : M render unit :=
  match d, v with
  | Std _, _ => field_to_wire v
  | NameUncompressed, VName n => write_name n false
  | NameUncompressed, _ => fail
  end.
(** expand.rs:29-31: one [let (#name, len) = #from_wire_func(buf, len)?] per field, in declaration order. *)
Fixpoint dfields_from_wire (ds : list dcodec) (len : N) : M inbuf (list fval * N) :=
  match ds with
  | [] => ret ([], len)
  | d :: ds' =>
      let! (v, len') := dfield_from_wire d len in
      let! (vs, len'') := dfields_from_wire ds' len' in
      ret (v :: vs, len'')
  end.
(** expand.rs:25-49: the generated [from_wire(buf, len)]. *)
Definition derived_from_wire (ds : list dcodec) (len : N) : M inbuf (list fval) :=
  let! (vs, len') := dfields_from_wire ds len in
  ensure (len' =? 0)%N ;;
  ret vs.
(** expand.rs:51-76: the generated [to_wire(&self, render)]. *)
Fixpoint derived_to_wire (ds : list dcodec) (vs : list fval) : M render unit :=
  match ds, vs with
  | d :: ds', v :: vs' => dfield_to_wire d v ;; derived_to_wire ds' vs'
  | _, _ => ret tt
  end.

(** expand.rs:97-141: the generated [Display], for a struct with the given codec and display attributes. *)
Definition derived_display (x : ext) (ds : list (codec * disp)) (vs : list fval) : res (list N) := fields_to_str x ds vs.
(** expand.rs:79-95: the generated [from_str(buf)], on a [StringBuffer] made from the text. *)
Definition derived_from_str (md : mode) (x : ext) (ds : list (codec * disp)) (s : list N) : res (list fval) :=
  let? b := sb_new md s in fst (fields_from_str x ds b).

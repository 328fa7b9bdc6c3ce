(** Vocabulary for C115: counting the octets that decoding a message looks at.
    The decoders of name.rs, question.rs, rdata.rs, rrset.rs, response.rs and request.rs once more, with a budget: every pass of the loop
    of [Name::from_wire] (which reads one octet, the same octet perhaps many times) costs one, and so does every octet taken from the buffer
    by any other read; the decoding is given up, with the answer [Hang], when the budget is spent.  Everything else is as in NameModel.v,
    CodesModel.v, RDataModel.v and MsgModel.v. *)
From Verif Require Import Base NameModel RenderModel CodesModel RDataModel MsgModel SpecRenderWork.

(** A read that pays for the octets it consumes. *)
Definition charged {A} (m : M inbuf A) : M (inbuf * nat) A := fun s =>
  let (a, b) := m (fst s) in
  let d := ib_pos b - ib_pos (fst s) in
  if d <=? snd s then (a, (b, snd s - d)) else (Hang, (b, 0)).
(** name.rs:258 *)
Fixpoint fw_loop_paid (fuel : nat) (s : fwst) : M (inbuf * nat) fwst :=
  match fuel with
  | O => lift Hang
  | S f =>
      let! (b, _) := get in
      if (fw_current s <? ib_len b) && negb (fw_done s) then
        pay ;;
        let! (s', brk) := free (fw_body s) in
        if brk : bool then ret s' else fw_loop_paid f s'
      else ret s
  end.
(** name.rs:244-308 *)
Definition name_from_wire_paid : M (inbuf * nat) name :=
  let! pos_beg := free position in
  let! s := fw_loop_paid (fw_fuel pos_beg) (mkFw 0 0 0 false [] [] false WStart pos_beg pos_beg 0) in
  ensure (fw_done s) ;;
  free (set_position (pos_beg + fw_cused s)) ;;
  ret (mkName (fw_data s) (fw_offsets s)).
(** question.rs:25-30 *)
Definition question_from_wire_paid : M (inbuf * nat) question :=
  let! n := name_from_wire_paid in
  let! t := charged rrtype_from_wire in
  let! c := charged rrclass_from_wire in
  ret (mkQuestion n t c).
(** wire_decode.rs:15-21 *)
Definition rname_from_wire_paid (len : N) : M (inbuf * nat) (name * N) :=
  let! p := free position in
  let! n := name_from_wire_paid in
  let! q := free position in
  let! d := lift (csub q p) in
  let name_len := as_u16 (N.of_nat d) in
  ensure (name_len <=? len)%N ;;
  ret (n, (len - name_len)%N).
(** wire_decode.rs:7-82 *)
Definition field_from_wire_paid (k : codec) (len : N) : M (inbuf * nat) (fval * N) :=
  match k with
  | KName => let! (n, l) := rname_from_wire_paid len in ret (VName n, l)
  | _ => charged (field_from_wire k len)
  end.
(** expand.rs:25-49 *)
Fixpoint fields_from_wire_paid (ks : list codec) (len : N) : M (inbuf * nat) (list fval * N) :=
  match ks with
  | [] => ret ([], len)
  | k :: ks' =>
      let! (v, len') := field_from_wire_paid k len in
      let! (vs, len'') := fields_from_wire_paid ks' len' in
      ret (v :: vs, len'')
  end.
Definition struct_from_wire_paid (v : variant) (len : N) : M (inbuf * nat) rdata :=
  let! (vs, len') := fields_from_wire_paid (schema v) len in
  ensure (len' =? 0)%N ;;
  ret (mkRData v vs).
(** rdata.rs:37-49 *)
Definition rdata_from_wire_paid (t : rrtype) (len : N) : M (inbuf * nat) rdata :=
  let! pos := free position in
  match variant_of_type t with
  | None => fail
  | Some v =>
      let! rd := struct_from_wire_paid v len in
      let! q := free position in
      let! d := lift (csub q pos) in
      ensure (d =? N.to_nat len) ;;
      ret rd
  end.
(** rrset.rs:50-72 *)
Definition rrset_from_wire_paid : M (inbuf * nat) rrset :=
  let! n := name_from_wire_paid in
  let! t := charged rrtype_from_wire in
  let! c := charged rrclass_from_wire in
  let! ttl := charged read_u32 in
  let! rdlen := charged read_u16 in
  if (rdlen =? 0)%N then
    (if rrtype_eqb t TOPT then ret (mkRRset n t c ttl []) else fail)
  else
    let! rd := rdata_from_wire_paid t rdlen in
    ret (mkRRset n t c ttl [rd]).
(** response.rs:45-70 *)
Fixpoint section_loop_paid (n : nat) (rrsets : list rrset) (last : rrset) : M (inbuf * nat) (list rrset * rrset) :=
  match n with
  | O => ret (rrsets, last)
  | S n' =>
      let! rs := rrset_from_wire_paid in
      let! same := lift (is_same_rrset rs last) in
      if same : bool then
        if rrtype_eqb (rs_type rs) TOPT then fail
        else
          let! rd := lift (match rs_rdatas rs with [] => Panic | rd :: _ => Ok rd end) in
          section_loop_paid n' rrsets
            (mkRRset (rs_name last) (rs_type last) (rs_class last) (rs_ttl last) (rs_rdatas last ++ [rd]))
      else section_loop_paid n' (rrsets ++ [last]) rs
  end.
Definition section_from_wire_paid (count : N) (typ : section_type) : M (inbuf * nat) section :=
  if (count =? 0)%N then ret None
  else
    let! last := rrset_from_wire_paid in
    (if rrtype_eqb (rs_type last) TOPT && negb (match typ with SAdditional => true | _ => false end)
     then fail else ret tt) ;;
    let! (rrsets, last) := section_loop_paid (N.to_nat count - 1) [] last in
    ret (Some (rrsets ++ [last])).
(** response.rs:122-136 *)
Definition response_from_buf_paid : M (inbuf * nat) response :=
  let! h := charged header_from_wire in
  ensure (h_qd h =? 1)%N ;;
  let! q := question_from_wire_paid in
  let! an := section_from_wire_paid (h_an h) SAnswer in
  let! ns := section_from_wire_paid (h_ns h) SAuthority in
  let! ar := section_from_wire_paid (h_ar h) SAdditional in
  ret (mkResponse h q an ns ar).
(** request.rs:33-51 *)
Definition request_from_buf_paid : M (inbuf * nat) request :=
  let! h := charged header_from_wire in
  let! q := (if (h_qd h =? 1)%N then question_from_wire_paid else fail) in
  ensure (h_an h =? 0)%N ;;
  ensure (h_an h =? 0)%N ;;
  ret (mkRequest h q).
(** [Response::from_wire] and [Request::from_wire] with a budget of [k] steps. *)
Definition response_from_wire_within (k : nat) (w : list N) : res response := fst (response_from_buf_paid (ib_new w, k)).
Definition request_from_wire_within (k : nat) (w : list N) : res request := fst (request_from_buf_paid (ib_new w, k)).

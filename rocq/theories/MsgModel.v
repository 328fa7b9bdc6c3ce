(** Model of src/rrset.rs (wire part and equality), src/response.rs, src/request.rs, src/notify.rs, src/edns.rs,
    src/response_builder.rs and src/response_iter.rs. *)
From Verif Require Import Base NameModel RenderModel CodesModel RDataModel.

(* ------------------------------------------------------------------ *)
(** * rrset.rs *)
(** rrset.rs:41-47; [RRTtl] (rrset.rs:12) is its number. *)
Record rrset := mkRRset { rs_name : name; rs_type : rrtype; rs_class : rrclass; rs_ttl : N; rs_rdatas : list rdata }.
(** rrset.rs:50-72 *)
Definition rrset_from_wire : M inbuf rrset :=
  let! n := name_from_wire in
  let! t := rrtype_from_wire in
  let! c := rrclass_from_wire in
  let! ttl := read_u32 in
  let! rdlen := read_u16 in
  if (rdlen =? 0)%N then
    (if rrtype_eqb t TOPT then ret (mkRRset n t c ttl []) else fail)
  else
    let! rd := rdata_from_wire t rdlen in
    ret (mkRRset n t c ttl [rd]).
(** rrset.rs:98-101, 105-108: the part before RDLENGTH *)
Definition rr_prefix_to_wire (rs : rrset) : M render unit :=
  name_to_wire (rs_name rs) ;; rrtype_to_wire (rs_type rs) ;; rrclass_to_wire (rs_class rs) ;;
  mr_write_u32 (rs_ttl rs).
(** rrset.rs:105-113: one record *)
Definition rr_to_wire (rs : rrset) (rd : rdata) : M render unit :=
  rr_prefix_to_wire rs ;;
  let! pos := mr_length in
  mr_skip 2 ;;
  rdata_to_wire rd ;;
  let! len := mr_length in
  let! d := lift (csub len pos) in
  let! rdlen := lift (csub d 2) in
  mr_write_u16_at pos (as_u16 (N.of_nat rdlen)).
(** rrset.rs:96-117 *)
Definition rrset_to_wire (rs : rrset) : M render unit :=
  match rs_rdatas rs with
  | [] => rr_prefix_to_wire rs ;; mr_write_u16 0
  | rds => mapM_ (rr_to_wire rs) rds
  end.
(** rrset.rs:129-131 *)
Definition rr_count (rs : rrset) : nat := length (rs_rdatas rs).
(** rrset.rs:133-135 *)
Definition is_same_rrset (a b : rrset) : res bool :=
  if rrtype_eqb (rs_type a) (rs_type b) then name_eq (rs_name a) (rs_name b) else Ok false.

(* ------------------------------------------------------------------ *)
(** * edns.rs *)
(** edns.rs:16-22; [options] is always [None] when decoded; [EdnsOption] (edns.rs:25) has no content, so
    [Some v] is represented by the number of options. *)
Record edns := mkEdns { e_version : N; e_xrcode : N; e_udp : N; e_do : bool; e_options : option nat }.
(** edns.rs:28-39 *)
Definition edns_from_rrset (rs : rrset) : res edns :=
  let? _ := assert_r (rrtype_eqb (rs_type rs) TOPT) in
  let flags := rs_ttl rs in
  Ok (mkEdns (as_u8 (N.shiftr (N.land flags 16711680) 16)) (as_u8 (N.shiftr flags 24))
        (rrclass_u16 (rs_class rs)) (negb (N.land flags 32768 =? 0)%N) None).
(** edns.rs:42-46, 57-61 *)
Definition edns_flags (e : edns) : N :=
  let f := as_u32 (N.shiftl (e_xrcode e) 24) in
  let f := N.lor f (N.land (as_u32 (N.shiftl (e_version e) 16)) 16711680) in
  if e_do e then N.lor f 32768 else f.
(** edns.rs:41-54 *)
Definition edns_to_rrset (e : edns) : rrset :=
  mkRRset root_name TOPT (rrclass_new (e_udp e)) (edns_flags e) [].
(** edns.rs:56-68 *)
Definition edns_to_wire (e : edns) : M render unit :=
  mr_write_u8 0 ;; rrtype_to_wire TOPT ;; rrclass_to_wire (CUnknown (e_udp e)) ;;
  mr_write_u32 (edns_flags e) ;; mr_write_u16 0.
(** edns.rs:70-75 *)
Definition edns_rr_count (e : edns) : nat := match e_options e with Some n => n | None => 1 end.

(* ------------------------------------------------------------------ *)
(** * response.rs *)
(** response.rs:15-19 *)
Inductive section_type := SAnswer | SAuthority | SAdditional.
Definition section_index (s : section_type) : nat := match s with SAnswer => 0 | SAuthority => 1 | SAdditional => 2 end.
(** response.rs:22 *)
Definition section := option (list rrset).
(** response.rs:31-43 *)
Definition section_rr_count (s : section) : nat :=
  match s with
  | None => 0
  | Some l => fold_left (fun count rs => if rr_count rs =? 0 then count + 1 else count + rr_count rs) l 0
  end.
(** response.rs:56-67: the loop of [Section::from_wire]; [Vec::remove(0)] panics on an empty vector. *)
Fixpoint section_loop (n : nat) (rrsets : list rrset) (last : rrset) : M inbuf (list rrset * rrset) :=
  match n with
  | O => ret (rrsets, last)
  | S n' =>
      let! rs := rrset_from_wire in
      let! same := lift (is_same_rrset rs last) in
      if same : bool then
        if rrtype_eqb (rs_type rs) TOPT then fail
        else
          let! rd := lift (match rs_rdatas rs with [] => Panic | rd :: _ => Ok rd end) in
          section_loop n' rrsets
            (mkRRset (rs_name last) (rs_type last) (rs_class last) (rs_ttl last) (rs_rdatas last ++ [rd]))
      else section_loop n' (rrsets ++ [last]) rs
  end.
(** response.rs:45-70 *)
Definition section_from_wire (count : N) (typ : section_type) : M inbuf section :=
  if (count =? 0)%N then ret None
  else
    let! last := rrset_from_wire in
    (if rrtype_eqb (rs_type last) TOPT && negb (match typ with SAdditional => true | _ => false end)
     then fail else ret tt) ;;
    let! (rrsets, last) := section_loop (N.to_nat count - 1) [] last in
    ret (Some (rrsets ++ [last])).
(** response.rs:72-79 *)
Definition section_to_wire (s : section) : M render unit :=
  match s with None => ret tt | Some l => mapM_ rrset_to_wire l end.

(** response.rs:102-106 *)
Record response := mkResponse { r_header : header; r_question : question; r_answer : section; r_authority : section; r_additional : section }.
(** response.rs:109-118; the random id is an argument ([header.id] is drawn twice, the second value stays). *)
Definition response_with_question (rnd : N) (n : name) (t : rrtype) : response :=
  mkResponse (header_set_flag (header_default rnd) RD true) (question_new n t) None None None.
(** response.rs:122-136 (the buffer is created by the caller) *)
Definition response_from_buf : M inbuf response :=
  let! h := header_from_wire in
  ensure (h_qd h =? 1)%N ;;
  let! q := question_from_wire in
  let! an := section_from_wire (h_an h) SAnswer in
  let! ns := section_from_wire (h_ns h) SAuthority in
  let! ar := section_from_wire (h_ar h) SAdditional in
  ret (mkResponse h q an ns ar).
(** response.rs:120-137 *)
Definition response_from_wire (raw : list N) : res response := fst (response_from_buf (ib_new raw)).
(** response.rs:139-152 *)
Definition get_edns (r : response) : res (option edns) :=
  match r_additional r with
  | None => Ok None
  | Some l =>
      match rev l with
      | rs :: _ => if rrtype_eqb (rs_type rs) TOPT then let? e := edns_from_rrset rs in Ok (Some e) else Ok None
      | [] => Ok None
      end
  end.
(** response.rs:154-159 *)
Definition recalculate_header (r : response) : response :=
  let h := r_header r in
  mkResponse
    (mkHeader (h_id h) (h_flag h) (h_opcode h) (h_rcode h) 1
       (as_u16 (N.of_nat (section_rr_count (r_answer r))))
       (as_u16 (N.of_nat (section_rr_count (r_authority r))))
       (as_u16 (N.of_nat (section_rr_count (r_additional r)))))
    (r_question r) (r_answer r) (r_authority r) (r_additional r).
(** [x.unwrap()] *)
Definition unwrap {S A} (m : M S A) : M S A := fun s =>
  match m s with (Err, s') => (Panic, s') | p => p end.
(** response.rs:176-185 *)
Definition response_truncate (r : response) (pos : nat) : M render unit :=
  let h := header_set_flag (r_header r) TC true in
  unwrap (mr_write_u16_at 2 (header_flag h)) ;;
  unwrap (mr_write_u16_at 6 0) ;;
  unwrap (mr_write_u16_at 8 0) ;;
  unwrap (mr_write_u16_at 10 0) ;;
  unwrap (mr_truncate pos).
(** response.rs:167-172: the loop over the sections; [Some n] is the early return after truncation. *)
Fixpoint sections_to_wire (r : response) (pos : nat) (ss : list section) : M render (option nat) :=
  match ss with
  | [] => ret None
  | s :: ss' => fun rd =>
      match section_to_wire s rd with
      | (Ok _, rd') => sections_to_wire r pos ss' rd'
      | (Err, rd') => (response_truncate r pos ;; ret (Some pos)) rd'
      | (Panic, rd') => (Panic, rd')
      | (Hang, rd') => (Hang, rd')
      end
  end.
(** response.rs:161-174 *)
Definition response_to_wire (r : response) : M render nat :=
  header_to_wire (r_header r) ;;
  question_to_wire (r_question r) ;;
  let! pos := mr_length in
  let! early := sections_to_wire r pos [r_answer r; r_authority r; r_additional r] in
  match early with
  | Some n => ret n
  | None => mr_length
  end.
(** response.rs:187-205 *)
Definition get_section (r : response) (s : section_type) : section :=
  match s with SAnswer => r_answer r | SAuthority => r_authority r | SAdditional => r_additional r end.
Definition put_section (r : response) (s : section_type) (v : section) : response :=
  match s with
  | SAnswer => mkResponse (r_header r) (r_question r) v (r_authority r) (r_additional r)
  | SAuthority => mkResponse (r_header r) (r_question r) (r_answer r) v (r_additional r)
  | SAdditional => mkResponse (r_header r) (r_question r) (r_answer r) (r_authority r) v
  end.
(** response.rs:195-197 *)
Definition section_rrset_count (r : response) (s : section_type) : nat :=
  match get_section r s with Some l => length l | None => 0 end.

(* ------------------------------------------------------------------ *)
(** * request.rs *)
(** request.rs:13-16 *)
Record request := mkRequest { rq_header : header; rq_question : question }.
(** request.rs:19-31 *)
Definition request_new (rnd : N) (n : name) (t : rrtype) : request :=
  mkRequest (header_set_flag (header_default rnd) RD true) (mkQuestion n t CIN).
(** request.rs:33-51; the second check repeats the first (an_count instead of ns_count). *)
Definition request_from_buf : M inbuf request :=
  let! h := header_from_wire in
  let! q := (if (h_qd h =? 1)%N then question_from_wire else fail) in
  ensure (h_an h =? 0)%N ;;
  ensure (h_an h =? 0)%N ;;
  ret (mkRequest h q).
Definition request_from_wire (raw : list N) : res request := fst (request_from_buf (ib_new raw)).
(** request.rs:53-57 *)
Definition request_to_wire (r : request) : M render nat :=
  header_to_wire (rq_header r) ;; question_to_wire (rq_question r) ;; mr_length.

(* ------------------------------------------------------------------ *)
(** * notify.rs *)
(** notify.rs:15-19 *)
Record notify_request := mkNotifyReq { nq_header : header; nq_question : question; nq_soa : option rrset }.
(** notify.rs:22-42 *)
Definition notify_new (rnd : N) (zone : name) (soa : option rrset) : notify_request :=
  let h := header_default rnd in
  let h := mkHeader (h_id h) (h_flag h) ONotify (h_rcode h) (h_qd h) (h_an h) (h_ns h) (h_ar h) in
  let h := header_set_flag h AA true in
  mkNotifyReq (mkHeader (h_id h) (h_flag h) (h_opcode h) (h_rcode h) 1
                 (match soa with Some _ => 1%N | None => h_an h end) (h_ns h) (h_ar h))
    (mkQuestion zone TSOA CIN) soa.
(** notify.rs:44-62 (private: header and question have been read by the caller) *)
Definition notify_from_wire (h : header) (q : question) : M inbuf notify_request :=
  if (h_an h =? 1)%N then
    let! rs := rrset_from_wire in
    if rrtype_eqb (rs_type rs) TSOA then ret (mkNotifyReq h q (Some rs)) else fail
  else ret (mkNotifyReq h q None).
(** notify.rs:64-71 *)
Definition notify_to_wire (n : notify_request) : M render nat :=
  header_to_wire (nq_header n) ;; question_to_wire (nq_question n) ;;
  (match nq_soa n with Some rs => rrset_to_wire rs | None => ret tt end) ;;
  mr_length.
(** notify.rs:85-88 *)
Record notify_response := mkNotifyResp { np_header : header; np_question : question }.
(** notify.rs:91-97 *)
Definition notify_response_new (n : notify_request) : notify_response :=
  mkNotifyResp (header_set_flag (nq_header n) QR true) (nq_question n).
(** notify.rs:107-111 *)
Definition notify_response_to_wire (n : notify_response) : M render nat :=
  header_to_wire (np_header n) ;; question_to_wire (np_question n) ;; mr_length.

(* ------------------------------------------------------------------ *)
(** * response_builder.rs (each method maps the borrowed response to its new value) *)
(** response_builder.rs:63: [position] of the first rrset of the same owner and type *)
Fixpoint find_same (rs : rrset) (l : list rrset) : res (option nat) :=
  match l with
  | [] => Ok None
  | old :: l' =>
      let? same := is_same_rrset old rs in
      if same : bool then Ok (Some 0)
      else let? i := find_same rs l' in Ok (option_map S i)
  end.
(** response_builder.rs:61-72 *)
Definition add_rrset (r : response) (s : section_type) (rs : rrset) : res response :=
  match get_section r s with
  | Some l =>
      let? i := find_same rs l in
      match i with
      | Some i =>
          let? old := idx l i in
          let? l' := upd_r l i (mkRRset (rs_name old) (rs_type old) (rs_class old) (rs_ttl old) (rs_rdatas old ++ rs_rdatas rs)) in
          Ok (put_section r s (Some l'))
      | None => Ok (put_section r s (Some (l ++ [rs])))
      end
  | None => Ok (put_section r s (Some [rs]))
  end.
(** response_builder.rs:52-55 *)
Definition add_edns (r : response) (e : edns) : res response := add_rrset r SAdditional (edns_to_rrset e).
(** response_builder.rs:74-83; the predicate is pure here. *)
Definition remove_rrset_by (r : response) (s : section_type) (f : rrset -> bool) : response :=
  match get_section r s with
  | Some l => put_section r s (Some (filter (fun x => negb (f x)) l))
  | None => r
  end.
(** response_builder.rs:85-88 *)
Definition clear_section (r : response) (s : section_type) : response := put_section r s None.
(** response_builder.rs:90-98 *)
Definition with_section (r : response) (s : section_type) (f : section -> section) : response :=
  put_section r s (f (get_section r s)).
(** response_builder.rs:22-50, 57-59: header and question setters *)
Definition map_header (f : header -> header) (r : response) : response :=
  mkResponse (f (r_header r)) (r_question r) (r_answer r) (r_authority r) (r_additional r).
Definition set_id (id : N) := map_header (fun h => mkHeader id (h_flag h) (h_opcode h) (h_rcode h) (h_qd h) (h_an h) (h_ns h) (h_ar h)).
Definition set_opcode (o : opcode) := map_header (fun h => mkHeader (h_id h) (h_flag h) o (h_rcode h) (h_qd h) (h_an h) (h_ns h) (h_ar h)).
Definition set_rcode (c : rcode) := map_header (fun h => mkHeader (h_id h) (h_flag h) (h_opcode h) c (h_qd h) (h_an h) (h_ns h) (h_ar h)).
Definition set_rflag (f : hflag) (b : bool) := map_header (fun h => header_set_flag h f b).
Definition set_question (q : question) (r : response) : response :=
  mkResponse (r_header r) q (r_answer r) (r_authority r) (r_additional r).
(** response_builder.rs:57-59 *)
Definition make_response : response -> response := set_rflag QR true.
(** response_builder.rs:100-102 *)
Definition builder_done : response -> response := recalculate_header.

(* ------------------------------------------------------------------ *)
(** * response_iter.rs *)
(** response_iter.rs:6-13 *)
Record riter := mkIter { it_index : nat; it_back : nat; it_an : nat; it_ns : nat; it_ar : nat; it_msg : response }.
(** response_iter.rs:16-30 *)
Definition iter_new (r : response) : riter :=
  let an := section_rrset_count r SAnswer in
  let ns := section_rrset_count r SAuthority in
  let ar := section_rrset_count r SAdditional in
  mkIter 0 (an + ar + ns) an ns ar r.
(** response_iter.rs:32-48 *)
Definition get_rrset_at_index (it : riter) (i : nat) : res (rrset * section_type) :=
  let? (typ, pos) :=
    (if i <? it_an it then Ok (SAnswer, i)
     else if i <? it_an it + it_ns it then let? p := csub i (it_an it) in Ok (SAuthority, p)
     else let? p := csub i (it_an it) in let? p := csub p (it_ns it) in Ok (SAdditional, p)) in
  match get_section (it_msg it) typ with
  | Some l => let? rs := idx l pos in Ok (rs, typ)
  | None => Panic
  end.
(** response_iter.rs:54-62 *)
Definition iter_next (it : riter) : res (option (rrset * section_type) * riter) :=
  if it_index it =? it_back it then Ok (None, it)
  else
    let? item := get_rrset_at_index it (it_index it) in
    Ok (Some item, mkIter (it_index it + 1) (it_back it) (it_an it) (it_ns it) (it_ar it) (it_msg it)).
(** response_iter.rs:64-69 *)
Definition iter_size_hint (it : riter) : res (nat * option nat) :=
  let? r := csub (it_an it + it_ns it + it_ar it) (it_index it) in Ok (r, Some r).
(** response_iter.rs:73-80 *)
Definition iter_next_back (it : riter) : res (option (rrset * section_type) * riter) :=
  if it_index it =? it_back it then Ok (None, it)
  else
    let? b := csub (it_back it) 1 in
    let it := mkIter (it_index it) b (it_an it) (it_ns it) (it_ar it) (it_msg it) in
    let? item := get_rrset_at_index it b in
    Ok (Some item, it).

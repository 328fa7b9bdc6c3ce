(** What a caller expects of message constructors and of the setters of [ResponseBuilder], and of text that was parsed. *)
From Verif Require Import Base NameModel RenderModel CodesModel RDataModel MsgModel TextModel SpecName SpecCodes SpecMsg SpecText SpecApi.
Open Scope list_scope.
Open Scope nat_scope.

(** The value last written by a list of calls ([w]: what one call writes, if anything), or the initial one. *)
Fixpoint latest {A} (w : bop -> option A) (ops : list bop) (init : A) : A :=
  match ops with [] => init | o :: ops' => latest w ops' (match w o with Some a => a | None => init end) end.
Definition w_id (o : bop) : option N := match o with BId i => Some i | _ => None end.
Definition w_opcode (o : bop) : option opcode := match o with BOpcode c => Some c | _ => None end.
Definition w_rcode (o : bop) : option rcode := match o with BRcode c => Some c | _ => None end.
Definition w_question (o : bop) : option question := match o with BQuestion q => Some q | _ => None end.
Definition same_flag (f g : hflag) : bool := N.eqb (flag_bit f) (flag_bit g).
Definition w_flag (f : hflag) (o : bop) : option bool :=
  match o with
  | BSet g => if same_flag g f then Some true else None
  | BClear g => if same_flag g f then Some false else None
  | BMake => if same_flag QR f then Some true else None
  | _ => None
  end.
(** The calls that work on a section. *)
Definition on_section (s : section_type) (o : bop) : Prop :=
  match o with BEdns _ => s = SAdditional | BAdd t _ | BRemove t _ | BClearSection t | BWith t _ => s = t | _ => False end.

(** What the parsers of other crates return: addresses have four / sixteen octets, base64 decodes to octets. *)
Record ext_range (x : ext) : Prop := mkExtRange {
  er_ip4 : forall s o, x_ip4_parse x s = Some o -> length o = 4 /\ bytes o;
  er_ip6 : forall s o, x_ip6_parse x s = Some o -> length o = 16 /\ bytes o;
  er_b64 : forall s d, x_b64_dec x s = Some d -> bytes d }.
(** The names in an rrset, and the length-prefixed binaries in it. *)
Definition set_names (rs : rrset) : list name := rs_name rs :: flat_map (fun rd => flat_map field_names (rd_fields rd)) (rs_rdatas rs).
Definition short_binaries (rs : rrset) : Prop := forall rd d, In rd (rs_rdatas rs) -> In (VByteBin d) (rd_fields rd) -> length d <= 255.
Definition short_names (rs : rrset) : Prop := Forall (fun n => length (n_raw n) <= 255) (set_names rs).
(** A legal Rust [str]. *)
Definition str (s : list N) : Prop := bytes s /\ valid_utf8 s = true.
(** Builder calls with arguments in range: also [remove_rrset_by], with any predicate. *)
Definition fair_op (o : bop) : Prop := match o with BRemove _ _ => True | _ => good_op o end.
(** A section without rrsets is no section. *)
Definition tidy_section (s : section) : section := match s with Some [] => None | _ => s end.
Definition tidy (r : response) : response :=
  mkResponse (r_header r) (r_question r) (tidy_section (r_answer r)) (tidy_section (r_authority r)) (tidy_section (r_additional r)).
(** Text whose rrset the wire format can carry: not an OPT record, no name over 255 octets, and no hex field longer than its length octet says. *)
Definition text_fit (rs : rrset) : Prop := rs_type rs <> TOPT /\ short_names rs /\ short_binaries rs.
(** The calls a message made of rrsets and an EDNS size takes. *)
Definition program (an au ad : list rrset) (udp : option N) : list bop :=
  map (BAdd SAnswer) an ++ map (BAdd SAuthority) au ++ map (BAdd SAdditional) ad ++
  (match udp with Some u => [BEdns (mkEdns 0 0 (as_u16 u) false None)] | None => [] end) ++ [BMake].
(** Texts whose rrsets the wire format can carry. *)
Definition texts_ok (md : mode) (x : ext) (sets : list (list (list N))) : Prop :=
  Forall (Forall str) sets /\ forall ss rs, In ss sets -> rrset_from_strs md x ss = Ok rs -> text_fit rs.

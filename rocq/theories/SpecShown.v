(** Specification vocabulary: the printed line of any record in range, readable back or not. *)
From Coq Require String.
From Verif Require Import Base NameModel RenderModel CodesModel RDataModel MsgModel TextModel SpecName SpecBuf SpecCodes SpecMsg SpecText SpecDisplay.
Import String.StringSyntax.
Open Scope string_scope.
Open Scope list_scope.
Open Scope nat_scope.

(** What is printed for a type and a class: the registered mnemonic; "URI" for CERT; "Unknown" for the codes without one. *)
Definition shown_type (t : rrtype) (s : list N) : Prop :=
  match t with TUnknown _ => s = of_string "Unknown" | TCERT => s = of_string "URI" | _ => mnemonic iana_types (rrtype_u16 t) s end.
Definition shown_class (c : rrclass) (s : list N) : Prop :=
  match c with CUnknown _ => s = of_string "Unknown" | _ => mnemonic iana_classes (rrclass_u16 c) s end.
(** What is printed for a field: as in [presented] (SpecText.v), and for the values [presented] has nothing for: any type, and any list of character
    strings, each in quotes, one right after the other. *)
Definition shown_field (x : ext) (p : pres) (v : fval) (s : list N) : Prop :=
  match p, v with
  | FType, VType t => shown_type t s
  | FStrings, VText l => exists ts, Forall2 quoted ts l /\ s = flat_map (fun t => 34%N :: t ++ [34%N]) ts
  | _, _ => presented x p v s
  end.
(** A line: owner, ttl, class and type each followed by a tab, and the fields separated by spaces; printable characters and those tabs only. *)
Definition shown_line (x : ext) (y : rr) (line : list N) : Prop :=
  exists d ls ttl cls ty fs, rr_data y = Some d /\ wf_labels ls /\ rr_owner y = name_of ls /\ canonical_dec ttl /\ dec_val ttl = rr_ttl y /\
    shown_class (rr_class y) cls /\ shown_type (rr_type y) ty /\
    Forall2 (fun pv s => shown_field x (fst pv) (snd pv) s) (combine (rfc_present (rr_type y)) (rd_fields d)) fs /\ length fs = length (rd_fields d) /\
    Forall (fun c => 32 <= c <= 126)%N (joined [32%N] fs) /\
    line = joined [9%N] [show_name ls; ttl; cls; ty; joined [32%N] fs].
(** One such line for each printed record of the section, in order. *)
Definition shown_lines (x : ext) (s : section) (text : list N) : Prop :=
  exists lines, text = flat_map (fun l => l ++ [10%N]) lines /\ Forall (fun l => ~ In 10%N l) lines /\ Forall2 (shown_line x) (printed_records s) lines.
(** The text of a section: nothing if there is no record, else the title, the lines, and [eol]. *)
Definition shown_section (x : ext) (title : String.string) (s : section) (eol text : list N) : Prop :=
  (records s = [] -> text = []) /\ (records s <> [] -> exists t, shown_lines x s t /\ text = of_string title ++ [10%N] ++ t ++ eol).
(** The two lines of EDNS: title; version, DO bit and UDP size.  No line end. *)
Definition edns_lines (d : N -> list N) (e : option edns) : list N :=
  match e with
  | None => []
  | Some e => of_string ";; OPT PSEUDOSECTION:
; EDNS: version: " ++ d (e_version e) ++ of_string ", " ++ of_string (if e_do e then "flags: do; " else "") ++ of_string "udp: " ++ d (e_udp e)
  end.

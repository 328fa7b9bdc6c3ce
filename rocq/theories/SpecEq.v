(** Specification vocabulary for rrset equality. *)
From Coq Require Import Permutation Sorted.
From Verif Require Import Base NameModel RenderModel CodesModel RDataModel MsgModel EqModel SpecName SpecBuf SpecCodes SpecMsg SpecScope.

(** A field with the letters of a name in lower case (length octets are below 64, so not letters). *)
Definition lower_field (v : fval) : fval := match v with VName n => VName (mkName (map lc (n_raw n)) (n_offsets n)) | _ => v end.
Definition lower_rdata (rd : rdata) : rdata := mkRData (rd_var rd) (map lower_field (rd_fields rd)).
(** Equal as multisets of data, names compared without regard to case. *)
Definition same_data (l1 l2 : list rdata) : Prop := Permutation (map lower_rdata l1) (map lower_rdata l2).
Definition distinct_data (l : list rdata) : Prop := NoDup (map lower_rdata l).
(** All names have labels from [L]. *)
Definition rdata_from (L : label -> Prop) (rd : rdata) : Prop := forall n, In (VName n) (rd_fields rd) -> exists ls, wf_labels ls /\ n = name_of ls /\ Forall L ls.
(** What [sort_unstable] promises for data on which [Ord] is a total order. *)
Definition sorts (L : label -> Prop) (md : mode) (t : rrtype) (sort : list rdata -> res (list rdata)) : Prop :=
  forall l, Forall (fun rd => wf_rdata t rd /\ rdata_from L rd) l ->
  exists l', sort l = Ok l' /\ Permutation l l' /\ Sorted (fun a b => rdata_cmp md a b = Ok Lt \/ rdata_cmp md a b = Ok Eq) l'.

(** Property theorems C83-C85 (and the exact order of names, C08/C09): equality and order of LabelSequence, RData, RRType.
    Models: NameModel.v, CodesModel.v, EqModel.v; specification: SpecName.v, SpecOrd.v, SpecEq.v. *)
From Coq Require String.
From Verif Require Import Base NameModel RenderModel CodesModel RDataModel MsgModel EqModel SpecName SpecBuf SpecCodes SpecMsg SpecScope SpecEq SpecOrd
  NameCmpProofs NameCmpProofs2 EqProofs OrdBase OrdName OrdProofs PropNameAux PropMsg.
Import String.StringSyntax.
Open Scope string_scope.
Open Scope list_scope.
Open Scope nat_scope.

(** * C08, C09 for names of any octets *)
(** What [cmp] does on every pair of names, in both arithmetics: the first differing octets decide, as signed numbers; if
    their difference does not fit eight bits it panics (debug) or answers the wrong way round (release). *)
Theorem C08_cmp_exact_partial : forall md a b, wf_labels a -> wf_labels b -> name_cmp md (name_of a) (name_of b) = signed_order md a b.
Proof. exact name_cmp_exact. Qed.
Print Assumptions C08_cmp_exact_partial.
(** Whatever the octets, [cmp] is [Equal] exactly for equal names. *)
Theorem C08_equal_partial : forall md a b, wf_labels a -> wf_labels b -> (name_cmp md (name_of a) (name_of b) = Ok Eq <-> name_eq (name_of a) (name_of b) = Ok true).
Proof.
  intros md a b Wa Wb. rewrite name_cmp_exact by assumption. pose proof (shape_small _ (full_shape a Wa)) as Sa. pose proof (shape_small _ (full_shape b Wb)) as Sb.
  apply Forall_app in Sa. apply Forall_app in Sb. rewrite (signed_order_eq md a b) by (first [apply Sa|apply Sb]). symmetry. apply PropNameAux.eq_true; assumption.
Qed.
Print Assumptions C08_equal_partial.
(** On every set of labels without overflowing octets - ASCII and beyond - [cmp] is, in both builds, the order [signed_cmp]; *)
Theorem C08_calm_partial : forall md L a b, no_overflow L -> wf_labels a -> wf_labels b -> Forall L a -> Forall L b -> name_cmp md (name_of a) (name_of b) = Ok (signed_cmp a b).
Proof. exact name_cmp_calm. Qed.
Print Assumptions C08_calm_partial.
(** a debug build answers nothing else; *)
Theorem C08_debug_partial : forall a b, wf_labels a -> wf_labels b -> name_cmp Debug (name_of a) (name_of b) = Panic \/ name_cmp Debug (name_of a) (name_of b) = Ok (signed_cmp a b).
Proof. exact name_cmp_debug. Qed.
Print Assumptions C08_debug_partial.
(** and that is a total order, equal on equal names. *)
Theorem C08_signed_total : (forall a b, signed_cmp a b = Eq <-> same_name a b) /\ (forall a b, signed_cmp b a = CompOpp (signed_cmp a b)) /\
  (forall a b c, signed_cmp a b = Lt -> signed_cmp b c = Lt -> signed_cmp a c = Lt).
Proof. exact signed_cmp_total. Qed.
Print Assumptions C08_signed_total.
Example C08_calm_ex : signed_cmp [[200; 1]; [99]]%N [[200; 2]; [67]]%N = Lt /\ signed_cmp [[255]]%N [[1]]%N = Lt /\
  overflows (200, 100)%N = true /\ overflows (255, 100)%N = false.
Proof. repeat split; vm_compute; reflexivity. Qed.
(** Not even antisymmetric in release builds: two names, each less than the other. *)
Theorem C08_antisymmetry_refuted : exists a b, wf_labels a /\ wf_labels b /\ name_cmp Release (name_of a) (name_of b) = Ok Lt /\ name_cmp Release (name_of b) (name_of a) = Ok Lt.
Proof. exists [[0]]%N, [[128]]%N. split; [|split; [|split; vm_compute; reflexivity]]; (split; [repeat constructor; vm_compute; lia|vm_compute; lia]). Qed.
Print Assumptions C08_antisymmetry_refuted.
Example C08_exact_ex : signed_order Release [[200]]%N [[100]]%N = Ok Gt /\ signed_order Debug [[200]]%N [[100]]%N = Panic /\
  signed_order Debug [[250]; [99]]%N [[100]; [67]]%N = Ok Lt /\ signed_order Debug [[97; 98]]%N [[97]]%N = Ok Gt.
Proof. repeat split; vm_compute; reflexivity. Qed.
(** [get_relation] in a debug build: a panic exactly on such octets, else what the release build says (see C09). *)
Theorem C09_debug_exact_partial : forall a b, wf_labels a -> wf_labels b ->
  get_relation Debug (name_of a) (name_of b) =
  match clash a b with Some p => if overflows p then Panic else get_relation Release (name_of a) (name_of b) | None => get_relation Release (name_of a) (name_of b) end.
Proof. exact get_relation_debug. Qed.
Print Assumptions C09_debug_exact_partial.

(** So on label sets without overflowing octets both builds classify names correctly. *)
Theorem C09_calm_partial : forall md L a b, no_overflow L -> wf_labels a -> wf_labels b -> Forall L a -> Forall L b ->
  exists r, get_relation md (name_of a) (name_of b) = Ok r /\
    N.to_nat (cr_common r) = common_labels a b /\
    (cr_relation r = Equal <-> same_name a b) /\
    (cr_relation r = SubDomain <-> subdomain a b /\ ~ same_name a b) /\
    (cr_relation r = SuperDomain <-> subdomain b a /\ ~ same_name a b) /\
    (cr_relation r = CommonAncestor <-> ~ subdomain a b /\ ~ subdomain b a).
Proof. intros md L a b NO Wa Wb Fa Fb. rewrite (get_relation_calm md L a b NO Wa Wb Fa Fb). apply PropNameAux.aux_get_relation; auto. Qed.
Print Assumptions C09_calm_partial.

(** * C83: LabelSequence *)
Theorem C83_equals : forall fa fb, seq_shape fa -> seq_shape fb ->
  (seq_equals (seqf fa) (seqf fb) true = true <-> fa = fb) /\ (seq_equals (seqf fa) (seqf fb) false = true <-> same_name fa fb).
Proof. exact seq_equals_spec. Qed.
Print Assumptions C83_equals.
(** On sequences of ASCII octets [cmp] is the canonical order, a relative sequence after an absolute one it ends like; *)
Theorem C83_order_partial : forall md fa fb, seq_shape fa -> seq_shape fb -> fa <> [] -> fb <> [] -> ascii_labels fa -> ascii_labels fb ->
  seq_cmp md (seqf fa) (seqf fb) = Ok (canonical_cmp fa fb) /\ (canonical_cmp fa fb = Eq <-> seq_equals (seqf fa) (seqf fb) false = true).
Proof.
  intros md fa fb Sa Sb Na Nb Aa Ab. split; [|rewrite canonical_eq; symmetry; apply (proj2 (seq_equals_spec fa fb Sa Sb))].
  rewrite seq_cmp_exact by assumption. exact (signed_order_ascii md fa fb Aa Ab).
Qed.
Print Assumptions C83_order_partial.
Theorem C83_calm_partial : forall md L fa fb, no_overflow L -> seq_shape fa -> seq_shape fb -> fa <> [] -> fb <> [] ->
  Forall (fun x => L x \/ x = []) fa -> Forall (fun x => L x \/ x = []) fb -> seq_cmp md (seqf fa) (seqf fb) = Ok (signed_cmp fa fb).
Proof. exact seq_cmp_calm. Qed.
Print Assumptions C83_calm_partial.
(** on all sequences it is as for names, *)
Theorem C83_exact_partial : forall md fa fb, seq_shape fa -> seq_shape fb -> fa <> [] -> fb <> [] -> seq_cmp md (seqf fa) (seqf fb) = signed_order md fa fb.
Proof. exact seq_cmp_exact. Qed.
Print Assumptions C83_exact_partial.
Example C83_ex : seq_shape [of_string "wWw"; of_string "a"; []] /\ seq_shape [of_string "www"; of_string "A"] /\
  canonical_cmp [of_string "wWw"; of_string "a"; []] [of_string "www"; of_string "A"] = Lt.
Proof.
  split; [|split; [|vm_compute; reflexivity]].
  - split; [vm_compute; lia|]. right. exists [of_string "wWw"; of_string "a"]. split; [repeat constructor; vm_compute; lia|reflexivity].
  - split; [vm_compute; lia|]. left. repeat constructor; vm_compute; lia.
Qed.
(** but comparing the empty sequence (all that [split] may leave) panics. *)
Theorem C83_refuted : exists s x y, into_label_sequence (name_of []) 0 0 = Ok s /\ seq_split s 0 1 = Ok (x, y) /\ (forall z, seq_cmp Debug y z = Panic) /\
  exists a b, wf_seq a /\ wf_seq b /\ seq_cmp Debug a b = Panic.
Proof.
  do 3 eexists. split; [vm_compute; reflexivity|]. split; [vm_compute; reflexivity|]. split; [reflexivity|]. exists (seqf [[0]]%N), (seqf [[128]]%N).
  split; [|split; [|vm_compute; reflexivity]]; (eexists; split; [reflexivity|]; split; [vm_compute; lia|left; repeat constructor; vm_compute; lia]).
Qed.
Print Assumptions C83_refuted.

(** * C84: RData *)
(** [==] is equality of type and fields, names up to case - whatever the octets. *)
Theorem C84_eq : forall t u a b, wf_rdata t a -> wf_rdata u b -> exists e, rdata_eq a b = Ok e /\ (e = true <-> lower_rdata a = lower_rdata b).
Proof. exact rdata_eq_any. Qed.
Print Assumptions C84_eq.
(** [cmp] is a total order that agrees with [==], if the octets of the names do not overflow. *)
Theorem C84_order_partial : forall L md, no_overflow L ->
  (forall t u a b, wf_rdata t a -> wf_rdata u b -> rdata_from L a -> rdata_from L b ->
     exists c, rdata_cmp md a b = Ok c /\ rdata_cmp md b a = Ok (CompOpp c) /\ (c = Eq <-> rdata_eq a b = Ok true)) /\
  (forall t u v a b c, wf_rdata t a -> wf_rdata u b -> wf_rdata v c -> rdata_from L a -> rdata_from L b -> rdata_from L c ->
     rdata_cmp md a b = Ok Lt -> rdata_cmp md b c = Ok Lt -> rdata_cmp md a c = Ok Lt).
Proof. exact rdata_order. Qed.
Print Assumptions C84_order_partial.
Definition ns_of (ls : list label) : rdata := mkRData DNS [VName (name_of ls)].
Lemma ns_wf : forall ls, wf_labels ls -> wf_rdata TNS (ns_of ls).
Proof. intros ls W. split; [reflexivity|]. eexists. split; [reflexivity|]. constructor; [|constructor]. exists ls. auto. Qed.
Example C84_ex : wf_rdata TNS (ns_of [of_string "b"]) /\ rdata_from ascii (ns_of [of_string "b"]) /\ wf_rdata TA (ipv4 10 0 0 1) /\ rdata_from ascii (ipv4 10 0 0 1) /\
  rdata_cmp Debug (ipv4 10 0 0 1) (ns_of [of_string "b"]) = Ok Lt /\ rdata_cmp Debug (ns_of [of_string "b"]) (ns_of [of_string "B"]) = Ok Eq.
Proof.
  assert (W : wf_labels [of_string "b"]) by (split; [repeat constructor; vm_compute; lia|vm_compute; lia]).
  split; [apply ns_wf; exact W|]. split; [|split; [|split; [intros n [H|[]]; discriminate|split; vm_compute; reflexivity]]].
  - intros n [H|[]]. exists [of_string "b"]. inversion H. split; [exact W|]. split; [reflexivity|]. repeat constructor.
  - split; [reflexivity|]. eexists. split; [reflexivity|]. constructor; [|constructor]. split; [reflexivity|]. repeat constructor.
Qed.
(** With other octets: three NS records in a cycle (release), a panic (debug). *)
Theorem C84_refuted : exists a b c, Forall (wf_rdata TNS) [a; b; c] /\ rdata_cmp Release a b = Ok Lt /\ rdata_cmp Release b c = Ok Lt /\ rdata_cmp Release c a = Ok Lt /\ rdata_cmp Debug b c = Panic.
Proof.
  exists (ns_of [[1]]%N), (ns_of [[120]]%N), (ns_of [[240]]%N).
  assert (W : forall k, (k < 256)%N -> wf_rdata TNS (ns_of [[k]])).
  { intros k K. apply ns_wf. split; [|vm_compute; lia]. constructor; [|constructor]. split; [cbn; lia|]. constructor; [exact K|constructor]. }
  split; [|repeat split; vm_compute; reflexivity].
  apply Forall_cons; [apply W; reflexivity|]. apply Forall_cons; [apply W; reflexivity|]. apply Forall_cons; [apply W; reflexivity|]. constructor.
Qed.
Print Assumptions C84_refuted.

(** * C85: RRType *)
(** Types made by [RRType::new] (as every decoded type is) are ordered by number, and the order agrees with [==]. *)
Theorem C85_order_partial : forall a b, type_ok a -> type_ok b -> rrtype_cmp a b = (rrtype_u16 a ?= rrtype_u16 b)%N /\
  (rrtype_cmp a b = Eq <-> rrtype_eqb a b = true) /\ (rrtype_eqb a b = true <-> a = b).
Proof.
  intros a b A B. split; [reflexivity|]. unfold rrtype_cmp. rewrite N.compare_eq_iff, (type_eqb_code a b A B). split; [reflexivity|].
  split; [|intros ->; reflexivity]. intros E. rewrite <- (proj2 A), <- (proj2 B), E. reflexivity.
Qed.
Print Assumptions C85_order_partial.
(** [RRType::Unknown(1)] compares equal to [RRType::A] but is not equal to it. *)
Theorem C85_refuted : rrtype_cmp (TUnknown 1) TA = Eq /\ rrtype_eqb (TUnknown 1) TA = false.
Proof. split; vm_compute; reflexivity. Qed.
Print Assumptions C85_refuted.
Example C85_ex : type_ok TMX /\ type_ok (TUnknown 99) /\ rrtype_cmp TMX (TUnknown 99) = Lt.
Proof. repeat split; vm_compute; reflexivity. Qed.

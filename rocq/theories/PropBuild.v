(** Property theorems C35-C41, C65, C103: EDNS, ResponseBuilder, ResponseIter, rrset equality, notify.
    Models: MsgModel.v, EqModel.v; specification: SpecMsg.v, SpecBuild.v, SpecEq.v. *)
From Coq Require String.
From Coq Require Import Permutation Sorted.
From Verif Require Import Base NameModel RenderModel CodesModel RDataModel MsgModel EqModel SpecName SpecBuf SpecCodes SpecMsg SpecBuild SpecScope SpecEq
  BufProofs LiveProofs PropBuf PropMsg BuildProofs BuildProofs2 EqProofs Big2Proofs.
Import String.StringSyntax.
Open Scope string_scope.
Open Scope list_scope.
Open Scope nat_scope.

(** * C35: EDNS *)
Theorem C35_rrset_round_trip : forall e, edns_ok e -> e_options e = None -> edns_from_rrset (edns_to_rrset e) = Ok e.
Proof. exact edns_rrset. Qed.
Print Assumptions C35_rrset_round_trip.
(** [Edns::to_wire] does what [to_rrset().to_wire] does, on every renderer state (bytes, compression table and outcome). *)
Theorem C35_same_wire : forall e r, edns_to_wire e r = rrset_to_wire (edns_to_rrset e) r.
Proof. exact edns_wire_same. Qed.
Print Assumptions C35_same_wire.
(** The exact octets (RFC 6891 6.1.2-6.1.3), wherever in a message, and decoding them. *)
Theorem C35_wire : forall dat hs r e, bytes dat -> history (mr_new dat) hs r -> edns_ok e -> e_options e = None ->
  let (a, r') := edns_to_wire e r in
  if mr_len r + 11 <=? length dat
  then a = Ok tt /\ mr_len r' = mr_len r + 11 /\
       mr_bytes r' = mr_bytes r ++ [0; 0; 41]%N ++ u16_bytes (e_udp e) ++ [e_xrcode e; e_version e; if e_do e then 128 else 0; 0]%N ++ [0; 0]%N /\
       exists rs, rrset_from_wire (mkIn (mr_bytes r') (mr_len r)) = (Ok rs, mkIn (mr_bytes r') (mr_len r')) /\ edns_from_rrset rs = Ok e
  else a = Err.
Proof. exact edns_written_any. Qed.
Print Assumptions C35_wire.
Definition ex_edns : edns := mkEdns 1 2 4096 true None.
Example C35_ex : edns_ok ex_edns /\ e_options ex_edns = None /\ mr_bytes (snd (edns_to_wire ex_edns (mr_new (zeros 11)))) = [0; 0; 41; 16; 0; 2; 1; 128; 0; 0; 0]%N /\
  fst (edns_to_wire ex_edns (mr_new (zeros 10))) = Err.
Proof. split; [repeat split|]. vm_compute. repeat split. Qed.

(** * C36: EDNS set through the builder *)
(** Missing from the full statement: an OPT record already present, and later calls that touch the additional section; for
    both the claim is false of the code (refuted below). *)
Theorem C36_visible_partial : forall r e ops r', owners_ok (sets (r_additional r)) -> edns_ok e -> e_options e = None ->
  (forall x, In x (sets (r_additional r)) -> rs_type x <> TOPT) -> Forall keeps_additional ops ->
  build (BEdns e :: ops) r = Ok r' -> get_edns r' = Ok (Some e).
Proof. exact edns_visible. Qed.
Print Assumptions C36_visible_partial.
Definition start : response := response_with_question 7 (nm ["a"; "b"]) TA.
Definition glue : rrset := mkRRset (nm ["ns"; "b"]) TA CIN 60 [ipv4 192 0 2 1].
Example C36_ex : exists r', build [BAdd SAdditional glue; BEdns ex_edns; BAdd SAnswer glue; BRcode RNXDomain; BSet RA] start = Ok r' /\ get_edns r' = Ok (Some ex_edns) /\ length (sets (r_additional r')) = 2.
Proof. eexists. split; [reflexivity|]. vm_compute. repeat split. Qed.
(** Exactly when [get_edns] sees which value, after any calls that put OPT records into the additional section only through
    [edns] and take nothing out of it (after [clear_section] the same holds from then on, with an empty section). *)
Theorem C36_exact_partial : forall r ops r', owners_ok (sets (r_additional r)) -> (forall x, In x (sets (r_additional r)) -> rs_type x <> TOPT) ->
  Forall edns_op ops -> build ops r = Ok r' ->
  (forall e, get_edns r' = Ok (Some e) <-> edns_in_view (sets (r_additional r)) ops e) /\
  (get_edns r' = Ok None <-> forall e, ~ edns_in_view (sets (r_additional r)) ops e).
Proof. exact edns_exact. Qed.
Print Assumptions C36_exact_partial.
Definition glue2 : rrset := mkRRset (nm ["NS"; "b"]) TA CIN 60 [ipv4 192 0 2 2].
Example C36_exact_ex : let calls := [BRcode RNXDomain; BAdd SAdditional glue; BEdns ex_edns; BEdns (mkEdns 0 0 512 false None); BAdd SAdditional glue2] in
  Forall edns_op calls /\ (exists r', build calls start = Ok r' /\ get_edns r' = Ok (Some ex_edns)) /\ edns_in_view [] calls ex_edns.
Proof.
  cbv zeta. assert (W : forall l, wf_labels (map of_string l) -> wf_name (nm l)) by (intros l Wl; exists (map of_string l); split; [exact Wl|reflexivity]).
  assert (W1 : wf_labels (map of_string ["ns"; "b"])) by (split; [repeat constructor; vm_compute; lia|vm_compute; lia]).
  assert (W2 : wf_labels (map of_string ["NS"; "b"])) by (split; [repeat constructor; vm_compute; lia|vm_compute; lia]).
  split; [|split].
  - constructor; [exact Logic.I|]. constructor; [split; [apply W, W1|discriminate]|]. constructor; [repeat split|]. constructor; [repeat split|]. constructor; [split; [apply W, W2|discriminate]|constructor].
  - eexists. split; [reflexivity|]. vm_compute. reflexivity.
  - exists [BRcode RNXDomain; BAdd SAdditional glue], ex_edns, [BEdns (mkEdns 0 0 512 false None); BAdd SAdditional glue2]. split; [reflexivity|]. split; [reflexivity|]. split.
    + intros e [X|[X|[]]]; discriminate.
    + intros rs [X|[X|[]]]; [discriminate|]. injection X as <-. exists glue. split; [right; right; left; reflexivity|]. split; [reflexivity|].
      exists (map of_string ["ns"; "b"]), (map of_string ["NS"; "b"]). split; [exact W1|]. split; [exact W2|]. split; [reflexivity|]. split; [reflexivity|]. vm_compute. reflexivity.
Qed.
(** A second [edns] call is ignored ... *)
Theorem C36_twice_refuted : exists e r', edns_ok e /\ e_options e = None /\ e <> ex_edns /\ build [BEdns ex_edns; BEdns e] start = Ok r' /\ get_edns r' = Ok (Some ex_edns).
Proof. exists (mkEdns 0 0 512 false None). eexists. split; [repeat split|]. split; [reflexivity|]. split; [discriminate|]. split; [reflexivity|]. vm_compute. reflexivity. Qed.
(** ... and an rrset added to the additional section afterwards hides it. *)
Theorem C36_hidden_refuted : exists r', build [BEdns ex_edns; BAdd SAdditional glue] start = Ok r' /\ get_edns r' = Ok None.
Proof. eexists. split; [reflexivity|]. vm_compute. reflexivity. Qed.
Print Assumptions C36_hidden_refuted.

(** * C37: done *)
(** After any builder program, [done] leaves everything but the counts alone and sets them to the numbers of records. *)
Theorem C37_counts : forall ops r0 r, build ops r0 = Ok r -> let d := builder_done r in
  r_question d = r_question r /\ r_answer d = r_answer r /\ r_authority d = r_authority r /\ r_additional d = r_additional r /\
  h_id (r_header d) = h_id (r_header r) /\ h_flag (r_header d) = h_flag (r_header r) /\ h_opcode (r_header d) = h_opcode (r_header r) /\ h_rcode (r_header d) = h_rcode (r_header r) /\
  h_qd (r_header d) = 1%N /\
  (blen (records (r_answer r)) < 65536 -> h_an (r_header d) = blen (records (r_answer r)))%N /\
  (blen (records (r_authority r)) < 65536 -> h_ns (r_header d) = blen (records (r_authority r)))%N /\
  (blen (records (r_additional r)) < 65536 -> h_ar (r_header d) = blen (records (r_additional r)))%N.
Proof. intros ops r0 r _. apply done_counts. Qed.
Print Assumptions C37_counts.
(** Programs with in-range arguments always succeed and give consistent responses, to which C27-C34 (what [to_wire] writes) apply. *)
Theorem C37_consistent : forall rnd n t ops, (rnd < 65536)%N -> wf_name n -> type_ok t -> Forall good_op ops ->
  exists r, build ops (response_with_question rnd n t) = Ok r /\
    ((blen (records (r_answer r)) < 65536)%N -> (blen (records (r_authority r)) < 65536)%N -> (blen (records (r_additional r)) < 65536)%N -> consistent (builder_done r)).
Proof. exact builder_consistent. Qed.
Print Assumptions C37_consistent.
Lemma glue_ok : rrset_ok glue.
Proof.
  assert (C : consistent (builder_done (mkResponse (r_header start) (r_question start) (Some [glue]) None None))).
  { set (r := builder_done _). set (w := mr_bytes (snd (response_to_wire r (mr_new (zeros 100))))).
    assert (Bw : bytes w) by (vm_compute; repeat constructor). assert (D : response_from_wire w = Ok r) by (vm_compute; reflexivity).
    destruct (MsgProofs4.response_from_wire_sound w r Bw D) as (an & ns & ar & _ & _ & C & _). exact C. }
  destruct C as (_ & _ & _ & (_ & _ & F & _) & _). exact (Forall_inv F).
Qed.
Example C37_ex : Forall good_op [BAdd SAnswer glue; BAdd SAnswer glue; BAdd SAuthority glue; BEdns ex_edns; BMake] /\
  exists r, build [BAdd SAnswer glue; BAdd SAnswer glue; BAdd SAuthority glue; BEdns ex_edns; BMake] start = Ok r /\ h_an (r_header (builder_done r)) = 2%N /\ h_ar (r_header (builder_done r)) = 1%N.
Proof.
  assert (G : forall s, good_op (BAdd s glue)) by (intros s; split; [exact glue_ok|discriminate]).
  split; [apply Forall_cons; [apply G|]; apply Forall_cons; [apply G|]; apply Forall_cons; [apply G|]; apply Forall_cons; [repeat split|]; apply Forall_cons; [exact Logic.I|constructor]|]. eexists. split; [reflexivity|]. vm_compute. repeat split.
Qed.

(** * C38: add_rrset *)
(** The section gets the new rrset at its end, or its data at the end of the one rrset of that owner and type; nothing
    else changes. *)
Theorem C38_add : forall r s rs, wf_name (rs_name rs) -> owners_ok (sets (get_section r s)) -> exists r',
  add_rrset r s rs = Ok r' /\ r_header r' = r_header r /\ r_question r' = r_question r /\ (forall s', s' <> s -> get_section r' s' = get_section r s') /\
  ((Forall (fun x => ~ same_set x rs) (sets (get_section r s)) /\ sets (get_section r' s) = sets (get_section r s) ++ [rs]) \/
   exists l1 old l2, sets (get_section r s) = l1 ++ old :: l2 /\ Forall (fun x => ~ same_set x rs) l1 /\ same_set old rs /\
     sets (get_section r' s) = l1 ++ mkRRset (rs_name old) (rs_type old) (rs_class old) (rs_ttl old) (rs_rdatas old ++ rs_rdatas rs) :: l2).
Proof.
  intros r s rs W O. destruct (add_rrset_spec r s rs W O) as (l & E & D). exists (put_section r s (Some l)). split; auto. destruct (put_rest r s (Some l)) as [A B].
  split; auto. split; auto. split.
  - intros s' N. rewrite get_put. destruct (Nat.eqb_spec (section_index s) (section_index s')) as [X|X]; auto. apply index_inj in X. congruence.
  - rewrite get_put, Nat.eqb_refl. exact D.
Qed.
Print Assumptions C38_add.
Theorem C38_unique : forall r s rs r', wf_name (rs_name rs) -> owners_ok (sets (get_section r s)) -> unique_sets (sets (get_section r s)) ->
  add_rrset r s rs = Ok r' -> unique_sets (sets (get_section r' s)).
Proof. exact add_rrset_unique. Qed.
Print Assumptions C38_unique.
(** Histories: whatever is added to whichever sections, each section keeps at most one rrset per owner and type. *)
Theorem C38_history : forall adds rnd n t, Forall (fun p => wf_name (rs_name (snd p))) adds ->
  exists r, build (map (fun p => BAdd (fst p) (snd p)) adds) (response_with_question rnd n t) = Ok r /\
    forall s, unique_sets (sets (get_section r s)).
Proof.
  intros adds rnd n t.
  assert (G : forall adds r, Forall (fun p => wf_name (rs_name (snd p))) adds -> (forall s, owners_ok (sets (get_section r s)) /\ unique_sets (sets (get_section r s))) ->
    exists r', build (map (fun p => BAdd (fst p) (snd p)) adds) r = Ok r' /\ forall s, unique_sets (sets (get_section r' s))).
  { clear. induction adds as [|[s rs] adds IH]; intros r F I; cbn [map build bop_call fst snd]; [exists r; split; auto; apply I|].
    inversion F as [|? ? W F']; subst. cbn [snd] in W. destruct (C38_add r s rs W (proj1 (I s))) as (r1 & E & _ & _ & O & D). rewrite E. cbn [rbind]. apply IH; auto.
    intros s'. destruct (Nat.eq_dec (section_index s') (section_index s)) as [X|X].
    - apply index_inj in X. subst s'. split; [|eapply C38_unique; eauto; apply I].
      destruct (I s) as [Ow _]. destruct D as [[_ ->]|(l1 & old & l2 & El & _ & _ & ->)]; [apply Forall_app; split; auto; constructor; auto|].
      unfold owners_ok in *. rewrite El in Ow. apply Forall_app in Ow. destruct Ow as [O1 O2]. inversion O2; subst. apply Forall_app. split; auto.
    - rewrite O by congruence. apply I. }
  intros F. apply G; auto. intros []; (split; [constructor|intros i j a b Hi; destruct i; discriminate]).
Qed.
Print Assumptions C38_history.
Example C38_ex : exists r, build [BAdd SAnswer glue; BAdd SAnswer (mkRRset (nm ["x"]) TA CIN 60 [ipv4 192 0 2 2]); BAdd SAnswer (mkRRset (nm ["NS"; "b"]) TA CIN 30 [ipv4 192 0 2 3])] start = Ok r /\
  r_answer r = Some [mkRRset (nm ["ns"; "b"]) TA CIN 60 [ipv4 192 0 2 1; ipv4 192 0 2 3]; mkRRset (nm ["x"]) TA CIN 60 [ipv4 192 0 2 2]].
Proof. eexists. split; [reflexivity|]. vm_compute. reflexivity. Qed.

(** * C39: the iterator is a double-ended queue *)
Theorem C39_deque : forall r ds, exists it, drive ds (iter_new r) = Ok (deque ds (items r), it).
Proof. exact iter_deque. Qed.
Print Assumptions C39_deque.
Example C39_ex : exists it, drive [Front; Back; Back; Front; Front; Back; Front] (iter_new ex_response) =
  Ok (map (option_map (fun i => nth i (items ex_response) (glue, SAnswer))) [Some 0; Some 4; Some 3; Some 1; Some 2; None; None], it) /\ length (items ex_response) = 5.
Proof. eexists. split; [|reflexivity]. vm_compute. reflexivity. Qed.

(** * C40: its length *)
(** Missing: schedules with next_back, for which the claim is false of the code. *)
Theorem C40_front_partial : forall r n xs it, drive (repeat Front n) (iter_new r) = Ok (xs, it) ->
  iter_size_hint it = Ok (length (items r) - n, Some (length (items r) - n)).
Proof. exact size_hint_front. Qed.
Print Assumptions C40_front_partial.
(** Exactly what the hint is after any calls from either end: it counts what [next] has taken and not what [next_back] has,
    while what is really left (whatever is called next) counts both. *)
Theorem C40_exact_partial : forall r ds, exists xs it, drive ds (iter_new r) = Ok (xs, it) /\
  iter_size_hint it = Ok (length (items r) - yielded Front ds xs, Some (length (items r) - yielded Front ds xs)) /\
  forall more, exists ys it', drive more it = Ok (ys, it') /\
    yielded Front more ys + yielded Back more ys = Nat.min (length more) (length (items r) - yielded Front ds xs - yielded Back ds xs).
Proof. exact size_hint_exact. Qed.
Print Assumptions C40_exact_partial.
Example C40_exact_ex : exists xs it, drive [Front; Back; Front; Back] (iter_new ex_response) = Ok (xs, it) /\
  yielded Front [Front; Back; Front; Back] xs = 2 /\ yielded Back [Front; Back; Front; Back] xs = 2 /\ iter_size_hint it = Ok (3, Some 3).
Proof. eexists _, _. split; [vm_compute; reflexivity|]. split; [reflexivity|]. split; vm_compute; reflexivity. Qed.
Theorem C40_back_refuted : exists r x it, drive [Back] (iter_new r) = Ok ([Some x], it) /\ length (items r) = 1 /\ iter_next it = Ok (None, it) /\ iter_size_hint it = Ok (1, Some 1).
Proof. exists (mkResponse (r_header start) (r_question start) (Some [glue]) None None). do 2 eexists. split; [vm_compute; reflexivity|]. vm_compute. repeat split. Qed.
Print Assumptions C40_back_refuted.
Example C40_ex : exists xs it, drive (repeat Front 2) (iter_new ex_response) = Ok (xs, it) /\ iter_size_hint it = Ok (3, Some 3).
Proof. do 2 eexists. split; vm_compute; reflexivity. Qed.

(** * C41: equality of rrsets *)
(** Missing from the full statement: fewer than four rdatas with duplicates (false of the code, refuted below), and four or
    more rdatas holding names whose octets overflow (the order on names is not total there, C08). *)
Theorem C41_small_partial : forall t a b, wf_name (rs_name a) /\ rs_type a = t /\ Forall (wf_rdata t) (rs_rdatas a) ->
  wf_name (rs_name b) /\ Forall (wf_rdata (rs_type b)) (rs_rdatas b) ->
  length (rs_rdatas a) < 4 -> distinct_data (rs_rdatas a) -> forall sort,
  exists e, rrset_eq sort a b = Ok e /\ (e = true <-> same_set a b /\ same_data (rs_rdatas a) (rs_rdatas b)).
Proof. exact eq_small. Qed.
Print Assumptions C41_small_partial.
Theorem C41_large_partial : forall t a b, wf_name (rs_name a) /\ rs_type a = t /\ Forall (wf_rdata t) (rs_rdatas a) ->
  wf_name (rs_name b) /\ Forall (wf_rdata (rs_type b)) (rs_rdatas b) -> forall L md sort, no_overflow L ->
  4 <= length (rs_rdatas a) -> Forall (rdata_from L) (rs_rdatas a) -> Forall (rdata_from L) (rs_rdatas b) -> sorts L md t sort ->
  exists e, rrset_eq sort a b = Ok e /\ (e = true <-> same_set a b /\ same_data (rs_rdatas a) (rs_rdatas b)).
Proof. exact eq_large. Qed.
Print Assumptions C41_large_partial.
(** Fewer than four rdatas, duplicates or not, octets whatever: what [==] decides exactly. *)
Theorem C41_small_exact_partial : forall t a b, wf_name (rs_name a) /\ rs_type a = t /\ Forall (wf_rdata t) (rs_rdatas a) ->
  wf_name (rs_name b) /\ Forall (wf_rdata (rs_type b)) (rs_rdatas b) -> length (rs_rdatas a) < 4 -> forall sort,
  exists e, rrset_eq sort a b = Ok e /\
  (e = true <-> same_set a b /\ length (rs_rdatas a) = length (rs_rdatas b) /\ incl (map lower_rdata (rs_rdatas a)) (map lower_rdata (rs_rdatas b))).
Proof. exact eq_small_exact. Qed.
Print Assumptions C41_small_exact_partial.
(** Equal data is always recognised, duplicates or not. *)
Theorem C41_complete_partial : forall t a b, wf_name (rs_name a) /\ rs_type a = t /\ Forall (wf_rdata t) (rs_rdatas a) ->
  wf_name (rs_name b) /\ Forall (wf_rdata (rs_type b)) (rs_rdatas b) -> length (rs_rdatas a) < 4 -> forall sort,
  same_set a b -> same_data (rs_rdatas a) (rs_rdatas b) -> rrset_eq sort a b = Ok true.
Proof. exact eq_small_complete. Qed.
Print Assumptions C41_complete_partial.
(** With duplicates [==] is neither symmetric nor multiset equality. *)
Definition addrs (l : list nat) : rrset := mkRRset (nm ["a"]) TA CIN 60 (map (fun i => ipv4 192 0 2 (N.of_nat i)) l).
Theorem C41_refuted : forall sort, rrset_eq sort (addrs [1; 1; 2]) (addrs [1; 2; 2]) = Ok true /\ ~ same_data (rs_rdatas (addrs [1; 1; 2])) (rs_rdatas (addrs [1; 2; 2])) /\
  rrset_eq sort (addrs [1; 1; 1]) (addrs [1; 2; 3]) = Ok true /\ rrset_eq sort (addrs [1; 2; 3]) (addrs [1; 1; 1]) = Ok false.
Proof.
  intros sort. split; [reflexivity|]. split; [|split; reflexivity]. intros P.
  assert (X : forall l1 l2 : list rdata, Permutation l1 l2 -> forall f, length (filter f l1) = length (filter f l2)).
  { clear. induction 1; intros f; cbn [filter]; auto.
    - destruct (f x); cbn [length]; rewrite ?IHPermutation; auto.
    - destruct (f x), (f y); reflexivity.
    - etransitivity; eauto. }
  specialize (X _ _ P (fun d => match rd_fields d with [VIpv4 [_; _; _; 1%N]] => true | _ => false end)). vm_compute in X. discriminate.
Qed.
Print Assumptions C41_refuted.
(** A sort with the assumed contract exists: insertion sort with the derived order. *)
Fixpoint insert_rd (x : rdata) (l : list rdata) : res (list rdata) :=
  match l with
  | [] => Ok [x]
  | y :: l' => let? c := rdata_cmp Release x y in match c with Gt => let? l'' := insert_rd x l' in Ok (y :: l'') | _ => Ok (x :: l) end
  end.
Fixpoint isort (l : list rdata) : res (list rdata) := match l with [] => Ok [] | x :: l' => let? s := isort l' in insert_rd x s end.
Example C41_sorts : forall L t, no_overflow L -> sorts L Release t isort.
Proof.
  intros L t NO. assert (Ins : forall x l, wf_rdata t x /\ rdata_from L x -> Forall (fun rd => wf_rdata t rd /\ rdata_from L rd) l ->
    Sorted (fun a b => rdata_cmp Release a b = Ok Lt \/ rdata_cmp Release a b = Ok Eq) l ->
    exists l', insert_rd x l = Ok l' /\ Permutation (x :: l) l' /\ Sorted (fun a b => rdata_cmp Release a b = Ok Lt \/ rdata_cmp Release a b = Ok Eq) l' /\
      (exists h tl, l' = h :: tl /\ (h = x \/ exists t0, l = h :: t0))).
  { intros x l [Wx Ax] F S0. induction l as [|y l IH]; cbn [insert_rd].
    - exists [x]. split; auto. split; auto. split; [repeat constructor|]. eauto.
    - inversion F as [|? ? [Wy Ay] F']; subst. inversion S0 as [|? ? S1 H1]; subst. rewrite (rdata_cmp_spec L Release t) by auto. cbn [rbind].
      destruct (rcmp (rkey x) (rkey y)) eqn:C.
      + exists (x :: y :: l). split; auto. split; auto. split; [|eauto]. constructor; auto. constructor. rewrite (rdata_cmp_spec L Release t), C by auto. auto.
      + exists (x :: y :: l). split; auto. split; auto. split; [|eauto]. constructor; auto. constructor. rewrite (rdata_cmp_spec L Release t), C by auto. auto.
      + destruct (IH F' S1) as (l' & -> & P & S2 & h & tl & -> & Hh). cbn [rbind]. exists (y :: h :: tl). split; auto.
        split; [rewrite perm_swap; constructor; auto|]. split; [|exists y, (h :: tl); split; auto; right; exists l; auto]. constructor; auto. constructor. destruct Hh as [->|(t0 & ->)].
        * rewrite (rdata_cmp_spec L Release t) by auto. destruct laws_r as (_ & O & _). rewrite O, C. auto.
        * inversion H1; auto. }
  intros l F. induction F as [|x l [Wx Ax] F IH]; cbn [isort].
  - exists []. split; auto.
  - destruct IH as (s & -> & P & S0). cbn [rbind]. destruct (Ins x s (conj Wx Ax)) as (l' & E & P' & S' & _); auto; [eapply Permutation_Forall; eauto|].
    exists l'. split; auto. split; auto. etransitivity; [constructor; exact P|exact P'].
Qed.
Example C41_ex : rrset_eq isort (addrs [1; 2; 3; 4; 4]) (addrs [4; 3; 4; 1; 2]) = Ok true /\ rrset_eq isort (addrs [1; 2; 3; 4; 4]) (addrs [4; 3; 3; 1; 2]) = Ok false /\
  rrset_eq isort (addrs [1; 2; 3]) (addrs [3; 2; 1]) = Ok true.
Proof. vm_compute. repeat split. Qed.

(** * C65: notify messages *)
(** The message a notify for [zone] announces. *)
Definition announces (rnd : N) (zone : name) (soa : option rrset) (r : response) : Prop :=
  h_id (r_header r) = rnd /\ h_opcode (r_header r) = ONotify /\ h_rcode (r_header r) = RNoError /\ (forall f, header_is_set (r_header r) f = match f with AA => true | _ => false end) /\
  r_question r = mkQuestion zone TSOA CIN /\ r_answer r = (match soa with Some rs => Some [rs] | None => None end) /\ r_authority r = None /\ r_additional r = None.
Lemma shape_announces : forall rnd zone soa, announces rnd zone soa (notify_shape rnd zone soa).
Proof. intros rnd zone soa. repeat split. intros []; reflexivity. Qed.
Theorem C65_notify : forall dat rnd zone soa, bytes dat -> (rnd < 65536)%N -> wf_name zone ->
  (forall rs, soa = Some rs -> rrset_ok rs /\ rs_type rs = TSOA /\ length (rs_rdatas rs) = 1) ->
  let (a, r') := notify_to_wire (notify_new rnd zone soa) (mr_new dat) in
  a = Err \/ (a = Ok (length (mr_bytes r')) /\ exists r, response_from_wire (mr_bytes r') = Ok r /\ announces rnd zone soa r).
Proof.
  intros dat rnd zone soa B R Z S0. pose proof (notify_round_trip_any dat rnd zone soa B R Z S0) as H. destruct (notify_to_wire (notify_new rnd zone soa) (mr_new dat)) as [a r'].
  destruct H as [H|[H1 H2]]; auto. right. split; auto. eexists. split; [exact H2|apply shape_announces].
Qed.
Print Assumptions C65_notify.
(** It does not fail when the uncompressed message fits (names without hash collisions, see C64). *)
Theorem C65_fits : forall dat rnd zone soa r nss, bytes dat -> (rnd < 65536)%N -> wf_name zone ->
  (forall rs, soa = Some rs -> rrset_ok rs /\ rs_type rs = TSOA /\ length (rs_rdatas rs) = 1) ->
  announces rnd zone soa r -> response_names r = map name_of nss -> collision_free nss -> plain_size r <= length dat ->
  exists n, fst (notify_to_wire (notify_new rnd zone soa) (mr_new dat)) = Ok n.
Proof.
  intros dat rnd zone soa r nss B R Z S0 (_ & _ & _ & _ & Q & A & N0 & D) Ns Cf P. apply (notify_fits_any dat rnd zone soa nss); auto.
  - rewrite <- Ns. unfold response_names, all_records, notify_shape. cbn [r_question r_answer r_authority r_additional]. rewrite Q, A, N0, D. reflexivity.
  - etransitivity; [|exact P]. unfold plain_size, head_size, all_records, notify_shape. cbn [r_question r_answer r_authority r_additional]. rewrite Q, A, N0, D. apply le_n.
Qed.
Print Assumptions C65_fits.
Definition ex_soa : rrset := mkRRset (nm ["b"; "c"]) TSOA CIN 3600 [mkRData DSOA [VName (nm ["ns"; "b"; "c"]); VName (nm ["root"; "b"; "c"]); VU32 1; VU32 2; VU32 3; VU32 4; VU32 5]].
Example C65_ex : rs_type ex_soa = TSOA /\ length (rs_rdatas ex_soa) = 1 /\
  (let (a, r') := notify_to_wire (notify_new 9 (nm ["b"; "c"]) (Some ex_soa)) (mr_new (zeros 100)) in
   a = Ok 65 /\ response_from_wire (mr_bytes r') = Ok (notify_shape 9 (nm ["b"; "c"]) (Some ex_soa))) /\
  fst (notify_to_wire (notify_new 9 (nm ["b"; "c"]) (Some ex_soa)) (mr_new (zeros 64))) = Err.
Proof. vm_compute. repeat split. Qed.
Example C65_ex_ok : rrset_ok ex_soa.
Proof.
  set (r := notify_shape 9 (nm ["b"; "c"]) (Some ex_soa)). set (w := mr_bytes (snd (response_to_wire r (mr_new (zeros 100))))).
  assert (Bw : bytes w) by (vm_compute; repeat constructor). assert (D : response_from_wire w = Ok r) by (vm_compute; reflexivity).
  destruct (MsgProofs4.response_from_wire_sound w r Bw D) as (an & ns & ar & _ & _ & (_ & _ & _ & (_ & _ & F & _) & _) & _). exact (Forall_inv F).
Qed.

(** * C103: builder calls do not interfere *)
(** For each header field, each of the seven flags and the question, the last call that sets it decides, whatever calls come in between;
    the counts stay as they were (until [done]). *)
Theorem C103_settings : forall ops r r', build ops r = Ok r' -> (h_flag (r_header r) < 65536)%N ->
  h_id (r_header r') = final sets_id ops (h_id (r_header r)) /\ h_opcode (r_header r') = final sets_opcode ops (h_opcode (r_header r)) /\
  h_rcode (r_header r') = final sets_rcode ops (h_rcode (r_header r)) /\ r_question r' = final sets_question ops (r_question r) /\
  (forall f, header_is_set (r_header r') f = final (sets_flag f) ops (header_is_set (r_header r) f)) /\
  h_qd (r_header r') = h_qd (r_header r) /\ h_an (r_header r') = h_an (r_header r) /\ h_ns (r_header r') = h_ns (r_header r) /\ h_ar (r_header r') = h_ar (r_header r).
Proof. exact build_settings. Qed.
Print Assumptions C103_settings.
(** What ends up in a section depends on the calls that work on that section alone: leaving all others out gives the same section. *)
Theorem C103_sections : forall s ops r r', build ops r = Ok r' -> exists r'', build (filter (works_on s) ops) r = Ok r'' /\ get_section r'' s = get_section r' s.
Proof. exact build_sections. Qed.
Print Assumptions C103_sections.
Example C103_ex : exists r', build [BSet AA; BId 9; BAdd SAdditional glue; BRcode RNXDomain; BClear RD; BAdd SAnswer glue; BId 11; BClear AA; BMake; BClearSection SAdditional; BRcode RServFail] start = Ok r' /\
  h_id (r_header r') = 11%N /\ h_rcode (r_header r') = RServFail /\ h_opcode (r_header r') = OQuery /\ map (header_is_set (r_header r')) [QR; AA; TC; RD] = [true; false; false; false] /\
  r_answer r' = Some [glue] /\ r_additional r' = None /\ (h_flag (r_header start) < 65536)%N.
Proof. eexists. split; [reflexivity|]. vm_compute. repeat split. Qed.

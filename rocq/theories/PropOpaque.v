(** Property theorems for names inside record data: C113.
    Statements use the renderer and record data models (RenderModel.v, RDataModel.v) and the vocabulary of SpecName.v, SpecBuf.v,
    SpecMsg.v, SpecCompress.v and SpecOpaque.v. *)
From Coq Require String. Import String.StringSyntax.
From Verif Require Import Base NameModel RenderModel CodesModel RDataModel MsgModel SpecName SpecBuf SpecCodes SpecMsg SpecCompress SpecOpaque
  BaseLemmas NameWireProofs LiveProofs CompProofs OpaqueProofs.
Open Scope string_scope. Open Scope list_scope. Open Scope nat_scope.

(** C113: record data of a type that holds no names is written as its plain octets, whatever was rendered before. *)
Theorem C113_no_names : forall dat h r t rd r', bytes dat -> history (mr_new dat) h r -> wf_rdata t rd -> nameless (rd_var rd) = true ->
  rdata_to_wire rd r = (Ok tt, r') -> mr_bytes r' = mr_bytes r ++ plain_octets rd.
Proof. exact data_plain. Qed.
Print Assumptions C113_no_names.
(** The other types, old and new alike: the names are written in full exactly if none of them ends in a name already in the message,
    or in one in which an earlier name of the same data ends; provided the message is within the reach of pointers, no two
    different names collide, and no bucket of the table can overflow. *)
Theorem C113_exact_partial : forall dat h r t rd ns r', bytes dat -> history (mr_new dat) h r -> wf_rdata t rd -> data_names rd ns -> Forall wf_labels ns ->
  collision_free (ns ++ names_in h) -> (forall k, in_bucket k (flat_map ancestors (ns ++ names_in h)) <= 15) -> (N.of_nat (mr_len r') <= 16384)%N ->
  rdata_to_wire rd r = (Ok tt, r') -> (mr_bytes r' = mr_bytes r ++ plain_octets rd <-> fresh (written h) ns).
Proof. exact data_exact. Qed.
Print Assumptions C113_exact_partial.

(** One record data of each of the later types, holding the name [n]. *)
Definition sample (v : variant) (n : list label) : rrtype * rdata :=
  match v with
  | DRP => (TRP, mkRData DRP [VName (name_of n); VName (name_of n)])
  | DNAPTR => (TNAPTR, mkRData DNAPTR [VU16 1; VU16 1; VByteBin []; VByteBin []; VByteBin []; VName (name_of n)])
  | DDNAME => (TDNAME, mkRData DDNAME [VName (name_of n)])
  | DSRV => (TSRV, mkRData DSRV [VU16 1; VU16 1; VU16 53; VName (name_of n)])
  | DRRSig => (TRRSIG, mkRData DRRSig [VType TA; VU8 8; VU8 2; VU32 1; VU32 1; VU32 1; VU16 1; VName (name_of n); VBin [1%N]])
  | DNSEC => (TNSEC, mkRData DNSEC [VName (name_of n); VBin [0%N; 1%N; 64%N]])
  | _ => (TA, mkRData DA [])
  end.
Definition org := [of_string "example"; of_string "org"].
Definition www := [of_string "www"; of_string "example"; of_string "org"].
Definition room := mr_new (repeat 0%N 100).
Definition before := match run_names [org] [] room with Some x => x | None => ([], room) end.
Lemma org_wf : wf_labels org. Proof. split; [repeat constructor; vm_compute; lia|vm_compute; lia]. Qed.
Lemma www_wf : wf_labels www. Proof. split; [repeat constructor; vm_compute; lia|vm_compute; lia]. Qed.
Lemma before_ok : history room (fst before) (snd before).
Proof.
  apply (run_names_history [org] _ [] room); [constructor; [exact org_wf|constructor]|apply hist_nil|].
  vm_compute. reflexivity.
Qed.
Lemma sample_wf : forall v n, may_compress v = false -> nameless v = false -> wf_labels n ->
  rd_var (snd (sample v n)) = v /\ wf_rdata (fst (sample v n)) (snd (sample v n)).
Proof.
  assert (TY : type_ok TA) by (split; vm_compute; reflexivity). assert (S0 : wf_string []) by (split; [cbn; lia|constructor]).
  intros v n M N W. assert (Wn : wf_name (name_of n)) by (exists n; auto).
  destruct v; try discriminate M; try discriminate N; cbn [sample fst snd rd_var]; (split; [reflexivity|]; split; [reflexivity|]; eexists; split; [reflexivity|]);
    cbn [rd_fields]; repeat (apply Forall2_cons; [cbn [wf_field]; first [exact Wn|exact TY|exact S0|reflexivity|repeat constructor]|]); apply Forall2_nil.
Qed.
(** The claim as the standards state it is false of the code for every later type whose data holds a name: in a message that
    already holds the parent of the name, a pointer is written. *)
Theorem C113_refuted : forall v, may_compress v = false -> nameless v = false ->
  exists dat h r t rd r', bytes dat /\ history (mr_new dat) h r /\ rd_var rd = v /\ wf_rdata t rd /\
    rdata_to_wire rd r = (Ok tt, r') /\ mr_bytes r' <> mr_bytes r ++ plain_octets rd /\ mr_len r' < mr_len r + length (plain_octets rd).
Proof.
  intros v M N. destruct (sample_wf v www M N www_wf) as [V W].
  exists (repeat 0%N 100), (fst before), (snd before), (fst (sample v www)), (snd (sample v www)), (snd (rdata_to_wire (snd (sample v www)) (snd before))).
  split; [repeat constructor|]. split; [exact before_ok|]. split; [exact V|]. split; [exact W|].
  clear V W. destruct v; try discriminate M; try discriminate N; (split; [vm_compute; reflexivity|]; split; [vm_compute; discriminate|apply Nat.ltb_lt; vm_compute; reflexivity]).
Qed.
Print Assumptions C113_refuted.

(** The hypotheses of the exact theorem are met, on both sides: by a name that shares nothing with the message, and by one that does. *)
Definition net := [of_string "mail"; of_string "net"].
Lemma net_wf : wf_labels net. Proof. split; [repeat constructor; vm_compute; lia|vm_compute; lia]. Qed.
Example C113_ex : forall n, n = net \/ n = www ->
  data_names (snd (sample DSRV n)) [n] /\ wf_rdata TSRV (snd (sample DSRV n)) /\ collision_free ([n] ++ names_in (fst before)) /\
  (forall k, in_bucket k (flat_map ancestors ([n] ++ names_in (fst before))) <= 15) /\
  exists r', rdata_to_wire (snd (sample DSRV n)) (snd before) = (Ok tt, r') /\ (N.of_nat (mr_len r') <= 16384)%N /\
    mr_len r' = mr_len (snd before) + (if list_eq_dec (list_eq_dec N.eq_dec) n net then 6 + 10 else 6 + 6).
Proof.
  intros n Hn. split; [reflexivity|]. split.
  { destruct Hn as [->| ->]; apply (sample_wf DSRV); try reflexivity; [exact net_wf|exact www_wf]. }
  split; [destruct Hn as [->| ->]; apply collision_freeb_ok; vm_compute; reflexivity|].
  split.
  { intro k. unfold in_bucket. transitivity (length (flat_map ancestors ([n] ++ names_in (fst before)))).
    - generalize (flat_map ancestors ([n] ++ names_in (fst before))). intro l. induction l as [|a l IH]; cbn [filter length]; [lia|]. destruct (_ =? k); cbn [length]; lia.
    - destruct Hn as [->| ->]; apply Nat.leb_le; vm_compute; reflexivity. }
  destruct Hn as [->| ->]; eexists; (split; [vm_compute; reflexivity|]; split; [vm_compute; discriminate|vm_compute; reflexivity]).
Qed.
Example C113_ex_fresh : fresh (written (fst before)) [net] /\ ~ fresh (written (fst before)) [www].
Proof.
  assert (E : exists a b, fst before = [mkEv (MName org true) a b true]) by (eexists _, _; vm_compute; reflexivity).
  destruct E as (a & b & ->). assert (Wr : forall s, written [mkEv (MName org true) a b true] s <-> s <> [] /\ exists pre, org = pre ++ s).
  { intro s. rewrite written_name. split; [intros [(_ & e & _ & _ & [] & _)|Q]; exact Q|right; auto]. }
  split.
  - cbn [fresh]. split; [|exact Logic.I]. intros pre s Es Q. apply Wr in Q. destruct Q as (N & p2 & E2).
    destruct s as [|l s _] using rev_ind; [congruence|]. rewrite app_assoc in Es, E2.
    apply (f_equal (fun l => last l [])) in Es, E2. rewrite last_last in Es, E2. rewrite <- Es in E2. vm_compute in E2. discriminate.
  - intros [Q _]. apply (Q [of_string "www"] org eq_refl). apply Wr. split; [discriminate|]. exists []. reflexivity.
Qed.

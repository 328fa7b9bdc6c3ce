(** Property theorems C112: a message can be rebuilt from its own printed text.
    Models: DisplayModel.v, CtorModel.v, MsgModel.v, TextModel.v; specifications: SpecRebuild.v, SpecShown.v, SpecDisplay.v, SpecText.v, SpecCtor.v, SpecNormal.v. *)
From Coq Require String.
From Verif Require Import Base BaseLemmas NameModel RenderModel CodesModel RDataModel MsgModel TextModel DisplayModel CtorModel SpecName SpecBuf SpecCodes SpecMsg SpecText SpecDisplay
  SpecCtor SpecNormal SpecShown SpecRebuild TextProofs TextProofs5 TextProofs6 ExtInstance MsgProofs4 CtorProofs CtorProofs2 RebuildProofs RebuildProofs2 PropMsg PropCtor PropNormal.
From Verif Require NameOpsProofs CodesProofs.
Import String.StringSyntax.
Open Scope string_scope.
Open Scope list_scope.
Open Scope nat_scope.

(** * C112 *)
(** Every message in range (every decoded one is, C69) of the kind [response_builder::build] makes: its printed text is header, EDNS line, question and the lines
    [an], [au], [ad], and [build], given the printed question and exactly these lines, returns the very same message, in either build.
    Missing: names that need an escape, and CERT records, for which it is false of the code. *)
Theorem C112_rebuild_partial : forall x r size, ext_ok x -> consistent r -> text_message r size ->
  exists e ls an au ad, get_edns r = Ok e /\ wf_labels ls /\ plain_labels ls /\ q_name (r_question r) = name_of ls /\
    Forall (Forall (fun line => ~ In 10%N line)) (an ++ au ++ ad) /\
    response_display x r = Ok (header_lines dec (r_header r) ++ [10%N] ++ edns_lines dec e ++ of_string ";; QUESTION SECTION:" ++ [10%N] ++ question_line ls (r_question r) ++ [10; 10]%N ++
      block_text ";; ANSWER SECTION:" (r_answer r) an [10%N] ++ block_text ";; AUTHORITY SECTION:" (r_authority r) au [10%N] ++ block_text ";; ADDITIONAL SECTION:" (r_additional r) ad []) /\
    forall md, build_response md x (h_id (r_header r)) (show_name ls) (q_type (r_question r)) an au ad size = Ok r.
Proof. exact rebuild. Qed.
Print Assumptions C112_rebuild_partial.
(** The converse: of all messages in range these are the only ones.  The lines printed for a message, given back to [build] with its printed question, make that
    message again exactly if it is of that kind. *)
Theorem C112_exact_partial : forall x r size, ext_ok x -> ext_range x -> b64_exact x -> x_b64_enc x [] = [] -> consistent r -> (forall u, size = Some u -> u < 65536)%N ->
  exists e ls an au ad, get_edns r = Ok e /\ wf_labels ls /\ q_name (r_question r) = name_of ls /\
    printed_blocks x an (sets (r_answer r)) /\ printed_blocks x au (sets (r_authority r)) /\ printed_blocks x ad (sets (r_additional r)) /\
    response_display x r = Ok (header_lines dec (r_header r) ++ [10%N] ++ edns_lines dec e ++ of_string ";; QUESTION SECTION:" ++ [10%N] ++ question_line ls (r_question r) ++ [10; 10]%N ++
      block_text ";; ANSWER SECTION:" (r_answer r) an [10%N] ++ block_text ";; AUTHORITY SECTION:" (r_authority r) au [10%N] ++ block_text ";; ADDITIONAL SECTION:" (r_additional r) ad []) /\
    forall md, build_response md x (h_id (r_header r)) (show_name ls) (q_type (r_question r)) an au ad size = Ok r <-> text_message r size.
Proof. exact rebuild_exact. Qed.
Print Assumptions C112_exact_partial.
(** What [build] makes of plain texts is of that kind. *)
Theorem C112_built_partial : forall md x rnd nm t an au ad udp r ls, ext_range x -> b64_exact x -> wf_labels ls -> plain_labels ls -> name_new nm = Ok (name_of ls) ->
  plain_texts md x an -> plain_texts md x au -> plain_texts md x ad -> (forall u, udp = Some u -> u < 65536)%N -> build_response md x rnd nm t an au ad udp = Ok r -> text_message r udp.
Proof. exact text_built. Qed.
Print Assumptions C112_built_partial.
(** All the way: texts are made into a message, encoded into a buffer it fits, decoded, printed, and the printed lines made into a message again: the one we had. *)
Theorem C112_text_wire_text_partial : forall md x rnd nm t an au ad udp r ls, ext_ok x -> ext_range x -> b64_exact x -> (rnd < 65536)%N -> str nm ->
  wf_labels ls -> plain_labels ls -> name_new nm = Ok (name_of ls) -> type_ok t ->
  texts_ok md x an -> texts_ok md x au -> texts_ok md x ad -> plain_texts md x an -> plain_texts md x au -> plain_texts md x ad -> (forall u, udp = Some u -> u < 65536)%N ->
  build_response md x rnd nm t an au ad udp = Ok r ->
  (blen (records (r_answer r)) < 65536)%N -> (blen (records (r_authority r)) < 65536)%N -> (blen (records (r_additional r)) < 65536)%N ->
  forall dat k w, bytes dat -> (N.of_nat (length dat) <= 65535)%N -> response_to_wire r (mr_new dat) = (Ok k, w) -> all_records r = [] \/ k <> head_size r ->
  exists q head an' au' ad', response_from_wire (mr_bytes w) = Ok q /\
    response_display x q = Ok (head ++ block_text ";; ANSWER SECTION:" (r_answer q) an' [10%N] ++ block_text ";; AUTHORITY SECTION:" (r_authority q) au' [10%N] ++
      block_text ";; ADDITIONAL SECTION:" (r_additional q) ad' []) /\
    forall md', build_response md' x (h_id (r_header q)) (show_name ls) (q_type (r_question q)) an' au' ad' udp = Ok r.
Proof.
  intros md x rnd nm t an au ad udp r ls X Xr BX R Sn Wl Pl En T Ta Tb Tc Pa Pb Pc Us E L1 L2 L3 dat k w B L Ew D.
  assert (Nb : forall n, name_new nm = Ok n -> length (n_raw n) <= 255). { intros n En'. rewrite En in En'. injection En' as <-. exact (proj2 Wl). }
  destruct (C82_round_trip_partial md x rnd nm t an au ad udp r Xr R Sn Nb T Ta Tb Tc E L1 L2 L3) as [C RT]. destruct (RT dat k w B L Ew D) as [_ Dec].
  pose proof (text_built md x rnd nm t an au ad udp r ls Xr BX Wl Pl En Pa Pb Pc Us E) as TM.
  destruct (rebuild x r udp X C TM) as (e & ls' & an' & au' & ad' & _ & Wl' & Pl' & Eq & _ & Dp & Rb).
  assert (ls' = ls). { destruct (build_response_head md x rnd nm t an au ad udp r E) as (n & En' & Hq & _). rewrite En in En'. injection En' as <-. rewrite Hq in Eq. cbn [q_name] in Eq.
    symmetry. eapply NameOpsProofs.name_of_inj; [apply Wl|apply Wl'|exact Eq]. }
  subst ls'. eexists r, _, an', au', ad'. split; [exact Dec|]. split; [rewrite Dp; rewrite !app_assoc; reflexivity|]. exact Rb.
Qed.
Print Assumptions C112_text_wire_text_partial.
(** A CERT record: built from its text, encoded and decoded without loss, but printed as URI, and the printed line is refused. *)
Definition cert_text : list (list (list N)) := [[of_string "a. 1 IN CERT 1 2 3 AAAA"]].
Definition cert_line : list N := of_string "a.	1	IN	URI	1 2 3 AAAA".
Lemma check_consistent : forall r, forallb (fun b => b <? 256)%N (mr_bytes (snd (response_to_wire r (mr_new (zeros 512))))) = true ->
  response_from_wire (mr_bytes (snd (response_to_wire r (mr_new (zeros 512))))) = Ok r -> consistent r.
Proof.
  intros r Hb D. assert (Bw : bytes (mr_bytes (snd (response_to_wire r (mr_new (zeros 512)))))) by (apply check_bytes; exact Hb).
  destruct (MsgProofs4.response_from_wire_sound _ r Bw D) as (an & ns & ar & _ & _ & C & _). exact C.
Qed.
Theorem C112_cert_refuted : exists r head, build_response Debug std_ext 1 (of_string "a.") TCERT cert_text [] [] None = Ok r /\ consistent r /\
  response_display std_ext r = Ok (head ++ of_string ";; ANSWER SECTION:
" ++ cert_line ++ [10; 10]%N) /\ forall md, build_response md std_ext 1 (of_string "a.") TCERT [[cert_line]] [] [] None = Err.
Proof.
  eexists. exists (of_string ";; ->>HEADER<<- opcode: QUERY, status: NOERROR, id: 1
;; flags:  qr rd; QUERY: 1, ANSWER: 1, AUTHORITY: 0, ADDITIONAL: 0, 
;; QUESTION SECTION:
a. IN URI

"). split; [vm_compute; reflexivity|]. split; [|split; [vm_compute; reflexivity|intros []; vm_compute; reflexivity]].
  apply check_consistent; vm_compute; reflexivity.
Qed.
Print Assumptions C112_cert_refuted.
(** A name with a character that is printed with an escape: question and line are accepted again, but the names they give are longer. *)
Theorem C112_escape_refuted : exists r head q line r', build_response Debug std_ext 1 (of_string "a@b.") TA [[of_string "a@b. 1 IN A 1.2.3.4"]] [] [] None = Ok r /\ consistent r /\
  response_display std_ext r = Ok (head ++ q ++ of_string " IN A

;; ANSWER SECTION:
" ++ line ++ [10; 10]%N) /\ q = of_string "a\@b." /\ line = of_string "a\@b.	1	IN	A	1.2.3.4" /\
  build_response Debug std_ext 1 q TA [[line]] [] [] None = Ok r' /\ r' <> r /\ length (n_raw (q_name (r_question r'))) = length (n_raw (q_name (r_question r))) + 1.
Proof.
  eexists. exists (of_string ";; ->>HEADER<<- opcode: QUERY, status: NOERROR, id: 1
;; flags:  qr rd; QUERY: 1, ANSWER: 1, AUTHORITY: 0, ADDITIONAL: 0, 
;; QUESTION SECTION:
"). eexists _, _, _. split; [vm_compute; reflexivity|]. split; [apply check_consistent; vm_compute; reflexivity|]. split; [|split; [reflexivity|split; [reflexivity|]]]; [vm_compute; reflexivity|].
  split; [vm_compute; reflexivity|]. split; [discriminate|reflexivity].
Qed.
Print Assumptions C112_escape_refuted.
(** A message with answers given in two texts that are merged, an authority record, an address and a UDP size. *)
Definition ex_an : list (list (list N)) := [[of_string "a.example. 60 IN A 1.2.3.4"]; [of_string "A.example. 9 IN A 1.2.3.5"]; [of_string "a.example. 60 IN MX 10 mail.example."]].
Definition ex_au : list (list (list N)) := [[of_string "example. 60 IN NS ns.example."]].
Definition ex_ad : list (list (list N)) := [[of_string "ns.example. 60 IN A 10.0.0.1"]].
Definition ex_built : res response := build_response Debug std_ext 1 (of_string "a.example.") TA ex_an ex_au ex_ad (Some 1232%N).
Example C112_ex : exists r, ex_built = Ok r /\ consistent r /\ text_message r (Some 1232%N) /\ ext_ok std_ext /\ ext_range std_ext /\ b64_exact std_ext /\ length (all_records r) = 6 /\ length (sets (r_answer r)) = 2 /\
  plain_texts Debug std_ext ex_an /\ plain_texts Debug std_ext ex_au /\ plain_texts Debug std_ext ex_ad.
Proof.
  assert (G : forall bs, Forall (Forall (fun s => forallb (fun c => (c <? 256)%N) s = true /\ valid_utf8 s = true)) bs ->
    Forall (fun ss => exists rs, rrset_from_strs Debug std_ext ss = Ok rs /\ plain_names rs /\ no_cert rs /\ rs_type rs <> TOPT) bs -> plain_texts Debug std_ext bs).
  { intros bs F1 F2. split; [eapply Forall_impl; [|exact F1]; intros ss Fs; eapply Forall_impl; [|exact Fs]; intros s [A1 A2]; split; [apply check_bytes; exact A1|exact A2]|].
    intros ss rs I H. rewrite Forall_forall in F2. destruct (F2 ss I) as (rs' & H' & C). rewrite H in H'. injection H' as <-. exact C. }
  assert (Pn : forall l, In l [["a"; "example"]; ["A"; "example"]; ["mail"; "example"]; ["example"]; ["ns"; "example"]] -> wf_labels (map of_string l) /\ plain_labels (map of_string l)).
  { intros l I. repeat (destruct I as [<-|I]; [split; [split; [repeat constructor; vm_compute; intuition discriminate|vm_compute; lia]|repeat constructor; vm_compute; intuition discriminate]|]). destruct I. }
  assert (Qn : forall l, In l [["a"; "example"]; ["A"; "example"]; ["mail"; "example"]; ["example"]; ["ns"; "example"]] -> exists ls, wf_labels ls /\ plain_labels ls /\ nm l = name_of ls).
  { intros l I. exists (map of_string l). destruct (Pn l I). auto. }
  assert (P1 : plain_texts Debug std_ext ex_an).
  { apply G; [repeat constructor|]. apply Forall_cons; [|apply Forall_cons; [|apply Forall_cons; [|constructor]]]; (eexists; split; [vm_compute; reflexivity|]; split; [|split; [split; [discriminate|]|discriminate]]).
    all: try (intros rd [<-|[]]; cbn [rd_fields In]; intuition discriminate).
    - apply Forall_cons; [apply (Qn ["a"; "example"]); cbn; auto|constructor].
    - apply Forall_cons; [apply (Qn ["A"; "example"]); cbn; auto|constructor].
    - apply Forall_cons; [apply (Qn ["a"; "example"]); cbn; auto|apply Forall_cons; [apply (Qn ["mail"; "example"]); cbn; auto|constructor]]. }
  assert (P2 : plain_texts Debug std_ext ex_au).
  { apply G; [repeat constructor|]. apply Forall_cons; [|constructor]. eexists; split; [vm_compute; reflexivity|]; split; [|split; [split; [discriminate|]|discriminate]].
    - apply Forall_cons; [apply (Qn ["example"]); cbn; auto 6|apply Forall_cons; [apply (Qn ["ns"; "example"]); cbn; auto 7|constructor]].
    - intros rd [<-|[]]; cbn [rd_fields In]; intuition discriminate. }
  assert (P3 : plain_texts Debug std_ext ex_ad).
  { apply G; [repeat constructor|]. apply Forall_cons; [|constructor]. eexists; split; [vm_compute; reflexivity|]; split; [|split; [split; [discriminate|]|discriminate]].
    - apply Forall_cons; [apply (Qn ["ns"; "example"]); cbn; auto 7|constructor].
    - intros rd [<-|[]]; cbn [rd_fields In]; intuition discriminate. }
  destruct ex_built as [r| | |] eqn:Er; try (vm_compute in Er; discriminate). exists r. split; [reflexivity|].
  destruct (Pn ["a"; "example"]) as [W0 P0]; [cbn; auto|].
  split; [vm_compute in Er; injection Er as <-; apply check_consistent; vm_compute; reflexivity|].
  split; [apply (text_built Debug std_ext 1%N (of_string "a.example.") TA ex_an ex_au ex_ad (Some 1232%N) r _ std_ext_range std_b64_exact W0 P0); [vm_compute; reflexivity|exact P1|exact P2|exact P3|intros u Hu; injection Hu as <-; reflexivity|exact Er]|].
  split; [exact std_ext_ok|]. split; [exact std_ext_range|]. split; [exact std_b64_exact|].
  split; [vm_compute in Er; injection Er as <-; reflexivity|]. split; [vm_compute in Er; injection Er as <-; reflexivity|]. auto.
Qed.
(** A message of that kind has exactly one UDP size (or none) it can be rebuilt with. *)
Theorem C112_size_partial : forall r a b, text_message r a -> text_message r b -> a = b.
Proof.
  intros r a b (_ & _ & _ & _ & _ & _ & _ & _ & _ & _ & _ & l & _ & Nl & _ & El) (_ & _ & _ & _ & _ & _ & _ & _ & _ & _ & _ & m & _ & Nm & _ & Em). rewrite El in Em. clear El.
  destruct a as [u|], b as [v|]; auto.
  - apply app_inj_tail in Em. destruct Em as [_ E]. apply (f_equal rs_class) in E. cbn in E.
    assert (G : forall a b, rrclass_new a = rrclass_new b -> a = b).
    { intros a b H. apply (f_equal rrclass_u16) in H. rewrite !CodesProofs.rrclass_num in H. exact H. }
    f_equal. apply G. exact E.
  - exfalso. rewrite app_nil_r in Em. apply (Nm (edns_to_rrset (mkEdns 0 0 u false None))); [rewrite <- Em; apply in_elt|reflexivity].
  - exfalso. rewrite app_nil_r in Em. apply (Nl (edns_to_rrset (mkEdns 0 0 v false None))); [rewrite Em; apply in_elt|reflexivity].
Qed.
Print Assumptions C112_size_partial.

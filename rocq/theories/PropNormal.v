(** Property theorems C97: text that was parsed is printed in a normal form, which parses to the same rrset.
    Model: TextModel.v; specifications: SpecNormal.v, SpecText.v, SpecCtor.v. *)
From Coq Require String.
From Verif Require Import Base NameModel RenderModel CodesModel RDataModel MsgModel TextModel SpecName SpecBuf SpecCodes SpecMsg SpecText SpecCtor SpecNormal
  TextProofs TextProofs5 TextProofs6 TextProofs8 TextProofs9 ExtInstance CtorProofs2.
Import String.StringSyntax.
Open Scope string_scope.
Open Scope list_scope.
Open Scope nat_scope.

(** * C97 *)
(** Any accepted line, printed: one line in the presentation format, without a line break inside, and parsing it (in either build, with white space around it)
    gives the rrset that was printed. *)
Theorem C97_one_line_partial : forall md x s rs, ext_ok x -> ext_range x -> b64_exact x -> str s -> rrset_from_str md x s = Ok rs -> plain_names rs -> no_cert rs ->
  exists line, rrset_display x rs = Ok (line ++ [10%N]) /\ ~ In 10%N line /\ (exists rd, rs_rdatas rs = [rd] /\ record_line x rs rd line) /\
    forall md' a b, forallb is_ws a = true -> forallb is_ws b = true -> rrset_from_str md' x (a ++ line ++ b) = Ok rs.
Proof. exact normal_one. Qed.
Print Assumptions C97_one_line_partial.
(** The same for several lines read by [from_strs]: one line is printed per line read. *)
Theorem C97_lines_partial : forall md x ss rs, ext_ok x -> ext_range x -> b64_exact x -> ss <> [] -> Forall str ss -> rrset_from_strs md x ss = Ok rs -> plain_names rs -> no_cert rs ->
  exists lines, rrset_display x rs = Ok (flat_map (fun l => l ++ [10%N]) lines) /\ length lines = length ss /\ Forall (fun l => ~ In 10%N l) lines /\
    Forall2 (fun line rd => record_line x rs rd line) lines (rs_rdatas rs) /\ forall md', rrset_from_strs md' x lines = Ok rs.
Proof. exact normal_many. Qed.
Print Assumptions C97_lines_partial.
(** Two texts mean the same rrset exactly if they are printed alike. *)
Theorem C97_canonical_partial : forall md md' x s s' rs rs', ext_ok x -> ext_range x -> b64_exact x -> str s -> str s' ->
  rrset_from_str md x s = Ok rs -> rrset_from_str md' x s' = Ok rs' -> plain_names rs -> no_cert rs -> plain_names rs' -> no_cert rs' ->
  (rrset_display x rs = rrset_display x rs' <-> rs = rs').
Proof.
  intros md md' x s s' rs rs' X R B S S' E E' P C P' C'. split; [|intros ->; reflexivity]. intros D.
  destruct (normal_one md x s rs X R B S E P C) as (l & D1 & _ & _ & P1). destruct (normal_one md' x s' rs' X R B S' E' P' C') as (l' & D2 & _ & _ & P2).
  rewrite D1, D2 in D. injection D as D. apply app_inv_tail in D. subst l'. specialize (P1 Debug [] [] eq_refl eq_refl). specialize (P2 Debug [] [] eq_refl eq_refl).
  rewrite P1 in P2. injection P2 as ->. reflexivity.
Qed.
Print Assumptions C97_canonical_partial.

(** Among the accepted texts whose names and data are in range (see C81), exactly these survive printing. *)
Theorem C97_exact_partial : forall md x s rs, ext_ok x -> ext_range x -> b64_exact x -> x_b64_enc x [] = [] -> str s -> rrset_from_str md x s = Ok rs -> wf_name (rs_name rs) ->
  Forall (wf_rdata (rs_type rs)) (rs_rdatas rs) ->
  exists line, rrset_display x rs = Ok (line ++ [10%N]) /\ ~ In 10%N line /\ forall md', rrset_from_str md' x line = Ok rs <-> plain_names rs /\ no_cert rs.
Proof. exact normal_exact. Qed.
Print Assumptions C97_exact_partial.
(** * C58, the converse: [text_rrset] is not only sufficient.  Each line printed for an rrset parses back to its record exactly if [text_rrset] holds. *)
Theorem C58_exact_partial : forall md x rs, ext_ok x -> ext_range x -> b64_exact x -> x_b64_enc x [] = [] -> wf_name (rs_name rs) -> (rs_ttl rs < 4294967296)%N ->
  Forall (wf_rdata (rs_type rs)) (rs_rdatas rs) -> rs_rdatas rs <> [] ->
  exists lines, rrset_display x rs = Ok (flat_map (fun l => l ++ [10%N]) lines) /\ Forall (fun l => ~ In 10%N l) lines /\ length lines = length (rs_rdatas rs) /\
    (Forall2 (fun line rd => rrset_from_str md x line = Ok (mkRRset (rs_name rs) (rs_type rs) (rs_class rs) (rs_ttl rs) [rd])) lines (rs_rdatas rs) <-> text_rrset rs).
Proof. exact display_exact. Qed.
Print Assumptions C58_exact_partial.

Definition n_in : list N := of_string "  a.Example   60 mx 010 mail.example.	".
Definition n_rs : rrset := mkRRset (name_of [of_string "a"; of_string "Example"]) TMX CIN 60 [mkRData DMX [VU16 10; VName (name_of [of_string "mail"; of_string "example"])]].
Lemma chk_bytes : forall l, forallb (fun b => (b <? 256)%N) l = true -> bytes l.
Proof. intros l H. apply Forall_forall. intros b I. rewrite forallb_forall in H. apply N.ltb_lt. auto. Qed.
Lemma std_b64_exact : b64_exact std_ext.
Proof.
  intros s H. cbn [std_ext x_b64_dec] in H. destruct s as [|w [|y [|z [|u r]]]]; cbn [b64_dec] in H; try discriminate; auto. exfalso.
  destruct (b64v w), (b64v y); try discriminate. destruct (z =? 61)%N.
  - destruct r; [|discriminate]. destruct (_ && _); discriminate.
  - destruct (b64v z); [|discriminate]. destruct (u =? 61)%N.
    + destruct r; [|discriminate]. destruct (_ =? _)%N; discriminate.
    + destruct (b64v u), (b64_dec r); discriminate.
Qed.
Example C97_ex : ext_ok std_ext /\ ext_range std_ext /\ b64_exact std_ext /\ x_b64_enc std_ext [] = [] /\ str n_in /\ rrset_from_str Debug std_ext n_in = Ok n_rs /\ plain_names n_rs /\ no_cert n_rs /\
  rrset_display std_ext n_rs = Ok (of_string "a.Example.	60	IN	MX	10 mail.example.
").
Proof.
  split; [exact std_ext_ok|]. split; [exact std_ext_range|]. split; [exact std_b64_exact|]. split; [reflexivity|].
  split; [split; [apply chk_bytes; vm_compute; reflexivity|vm_compute; reflexivity]|]. split; [vm_compute; reflexivity|].
  split; [|split; [split; [discriminate|intros rd [<-|[]] [H|[H|[]]]; discriminate]|vm_compute; reflexivity]].
  assert (Pn : forall a b, In a ["a"; "mail"] -> In b ["Example"; "example"] -> exists ls, wf_labels ls /\ plain_labels ls /\ name_of [of_string a; of_string b] = name_of ls).
  { intros a b Ia Ib. exists [of_string a; of_string b].
    assert (W : wf_labels [of_string a; of_string b] /\ plain_labels [of_string a; of_string b]).
    { destruct Ia as [<-|[<-|[]]]; destruct Ib as [<-|[<-|[]]]; (split; [split; [repeat constructor; vm_compute; intuition discriminate|vm_compute; lia]|repeat constructor; vm_compute; intuition discriminate]). }
    destruct W. auto. }
  constructor; [apply (Pn "a" "Example"); cbn; auto|]. constructor; [apply (Pn "mail" "example"); cbn; auto|constructor].
Qed.
Example C97_exact_ex : wf_name (rs_name n_rs) /\ Forall (wf_rdata (rs_type n_rs)) (rs_rdatas n_rs) /\ rs_rdatas n_rs <> [].
Proof.
  assert (W : forall a b, In a ["a"; "mail"] -> In b ["Example"; "example"] -> wf_name (name_of [of_string a; of_string b])).
  { intros a b Ia Ib. exists [of_string a; of_string b]. split; [|reflexivity].
    destruct Ia as [<-|[<-|[]]]; destruct Ib as [<-|[<-|[]]]; (split; [repeat constructor; vm_compute; intuition discriminate|vm_compute; lia]). }
  split; [apply (W "a" "Example"); cbn; auto|]. split; [|discriminate]. constructor; [|constructor]. split; [reflexivity|]. eexists. split; [reflexivity|].
  constructor; [reflexivity|]. constructor; [|constructor]. apply (W "mail" "example"); cbn; auto.
Qed.
(** The full claim: whatever was accepted is printed in a form that parses back to it. *)
Definition normalises (x : ext) : Prop := forall md s rs, str s -> rrset_from_str md x s = Ok rs ->
  exists t, rrset_display x rs = Ok t /\ rrset_from_str md x t = Ok rs.
(** Printing and parsing again doubles an [@] in a name each time; a CERT record is printed as URI, which is then refused. *)
Definition n_at (k : nat) : rrset := mkRRset (name_of [of_string "a" ++ repeat 64%N k ++ of_string "b"]) TA CIN 1 [mkRData DA [VIpv4 [1; 2; 3; 4]%N]].
Definition n_cert : rrset := mkRRset (name_of [of_string "a"]) TCERT CIN 1 [mkRData DCERT [VU16 1; VU16 2; VU8 3; VBin [0; 0; 0]%N]].
Theorem C97_refuted : ~ normalises std_ext /\
  (exists t1 t2, rrset_from_str Debug std_ext (of_string "a@b. 1 IN A 1.2.3.4") = Ok (n_at 1) /\ rrset_display std_ext (n_at 1) = Ok t1 /\
    rrset_from_str Debug std_ext t1 = Ok (n_at 2) /\ rrset_display std_ext (n_at 2) = Ok t2 /\ rrset_from_str Debug std_ext t2 = Ok (n_at 4)) /\
  (exists t, rrset_from_str Debug std_ext (of_string "a. 1 IN CERT 1 2 3 AAAA") = Ok n_cert /\ rrset_display std_ext n_cert = Ok t /\ rrset_from_str Debug std_ext t = Err).
Proof.
  split; [|split].
  - intros H. destruct (H Debug (of_string "a@b. 1 IN A 1.2.3.4") (n_at 1)) as (t & D & E); [split; [apply chk_bytes; vm_compute; reflexivity|vm_compute; reflexivity]|vm_compute; reflexivity|].
    vm_compute in D. injection D as <-. vm_compute in E. discriminate.
  - do 2 eexists. split; [vm_compute; reflexivity|]. split; [vm_compute; reflexivity|]. split; [vm_compute; reflexivity|]. split; [vm_compute; reflexivity|]. vm_compute; reflexivity.
  - eexists. split; [vm_compute; reflexivity|]. split; [vm_compute; reflexivity|]. vm_compute; reflexivity.
Qed.
Print Assumptions C97_refuted.

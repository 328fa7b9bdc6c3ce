(** Proofs for C104: when the emitted code compiles and what it does. *)
From Coq Require String Ascii.
From Verif Require Import Base NameModel RenderModel CodesModel RDataModel TextModel DeriveModel MacroModel SpecMacro SpecName SpecBuf SpecMsg SpecText SpecDerive MacroProofs.
Import String.StringSyntax.
Open Scope string_scope.
Open Scope list_scope.
Open Scope nat_scope.

(** * Tables *)
Lemma app_inj_r : forall s a b, String.append a s = String.append b s -> a = b.
Proof.
  intros s a b H. apply (f_equal String.list_ascii_of_string) in H. rewrite !chars_app in H. apply app_inv_tail in H.
  rewrite <- (String.string_of_list_ascii_of_string a), <- (String.string_of_list_ascii_of_string b), H. reflexivity.
Qed.
Lemma eqb_app : forall s a b, String.eqb (String.append a s) (String.append b s) = String.eqb a b.
Proof.
  intros s a b. destruct (String.eqb_spec a b) as [->|N]; [apply String.eqb_refl|]. apply String.eqb_neq. intros H. apply N, (app_inj_r s), H.
Qed.
Definition suff {A} (s : ident) (l : list (ident * A)) := map (fun p => (String.append (fst p) s, snd p)) l.
Lemma lookup_suff : forall {A} s c (l : list (ident * A)), lookup (String.append c s) (suff s l) = lookup c l.
Proof. intros A s c l. induction l as [|[y a] l IH]; cbn [suff map lookup fst snd]; [reflexivity|]. rewrite eqb_app. destruct (String.eqb c y); [reflexivity|exact IH]. Qed.
Lemma lookup_map : forall {A B} (h : ident -> A -> B) c l, lookup c (map (fun p => (fst p, h (fst p) (snd p))) l) = option_map (h c) (lookup c l).
Proof. intros A B h c l. induction l as [|[y a] l IH]; cbn [map lookup fst snd]; [reflexivity|]. destruct (String.eqb_spec c y) as [->|]; [reflexivity|exact IH]. Qed.
Lemma existsb_eqb : forall x l, existsb (String.eqb x) l = true <-> In x l.
Proof.
  intros x l. rewrite existsb_exists. split; [intros (y & I & E); apply String.eqb_eq in E; subst; exact I|]. intros I. exists x. split; [exact I|apply String.eqb_refl].
Qed.
Lemma distinct_iff : forall l, distinct l = true <-> NoDup l.
Proof.
  induction l as [|x l IH]; cbn [distinct]; [split; auto; constructor|]. rewrite andb_true_iff, negb_true_iff, IH. split.
  - intros [E D]. constructor; [|exact D]. intros I. apply existsb_eqb in I. congruence.
  - intros D. inversion D as [|? ? N D']. split; [|exact D']. destruct (existsb (String.eqb x) l) eqn:E; [|reflexivity]. apply existsb_eqb in E. contradiction.
Qed.
Lemma lookup_in : forall {A} x (a : A) l, lookup x l = Some a -> In (x, a) l.
Proof. intros A x a l. induction l as [|[y b] l IH]; cbn [lookup]; [discriminate|]. destruct (String.eqb_spec x y) as [->|]; [intros H; injection H as ->; left; reflexivity|right; auto]. Qed.
Lemma in_lookup : forall {A} x (a : A) l, NoDup (map fst l) -> In (x, a) l -> lookup x l = Some a.
Proof.
  intros A x a l. induction l as [|[y b] l IH]; cbn [lookup map fst]; [intros _ []|]. intros D [E|I]; inversion D as [|? ? N D'].
  - injection E as -> ->. rewrite String.eqb_refl. reflexivity.
  - destruct (String.eqb_spec x y) as [->|]; [|auto]. exfalso. apply N. change y with (fst (y, a)). apply in_map, I.
Qed.
Lemma lookup_none : forall {A} x (l : list (ident * A)), ~ In x (map fst l) -> lookup x l = None.
Proof. intros A x l. induction l as [|[y b] l IH]; cbn [lookup map fst In]; [auto|]. intros N. destruct (String.eqb_spec x y) as [->|]; [tauto|auto]. Qed.
Lemma codec_keys : NoDup (map fst codec_names).
Proof. apply distinct_iff. reflexivity. Qed.
Lemma display_keys : NoDup (map fst display_names).
Proof. apply distinct_iff. reflexivity. Qed.
Lemma rty_beq_iff : forall a b, rty_beq a b = true <-> a = b.
Proof. intros a b. split; [apply internal_rty_dec_bl|apply internal_rty_dec_lb]. Qed.

Lemma from_wire_fn : forall c, lookup (String.append c "_from_wire") fns_from_wire = lookup c codec_names.
Proof. intros c. change fns_from_wire with (suff "_from_wire" codec_names). apply lookup_suff. Qed.
Lemma to_wire_fn : forall c, lookup (String.append c "_to_wire") fns_to_wire = option_map (fun tk => (by_ref c, fst tk, snd tk)) (lookup c codec_names).
Proof.
  intros c. change fns_to_wire with (suff "_to_wire" (map (fun p => (fst p, (fun k tk => (by_ref k, @fst rty dcodec tk, snd tk)) (fst p) (snd p))) codec_names)).
  rewrite lookup_suff. apply (lookup_map (fun k tk => (by_ref k, @fst rty dcodec tk, snd tk))).
Qed.
Lemma from_str_fn : forall c, lookup (String.append c "_from_str") fns_from_str = lookup c display_names.
Proof. intros c. change fns_from_str with (suff "_from_str" display_names). apply lookup_suff. Qed.
Definition refty (t : rty) : bool := match t with TyName | TyTexts | TyBytes => true | _ => false end.
Lemma to_str_fn : forall c, lookup (String.append c "_to_str") fns_to_str = option_map (fun td => (refty (fst td), fst td, snd td)) (lookup c display_names).
Proof.
  intros c.
  assert (Q : forall l, (forall x, lookup x l = lookup x (map (fun p => (fst p, (fun (_ : ident) td => (refty (@fst rty disp td), fst td, snd td)) (fst p) (snd p))) display_names)) ->
    fns_to_str = suff "_to_str" l -> lookup (String.append c "_to_str") fns_to_str = option_map (fun td => (refty (fst td), fst td, snd td)) (lookup c display_names)).
  { intros l E ->. rewrite lookup_suff, E. apply (lookup_map (fun (_ : ident) td => (refty (@fst rty disp td), fst td, snd td))). }
  apply (Q [("name", (true, TyName, PName)); ("ipv4", (false, TyIpv4, PIpv4)); ("ipv6", (false, TyIpv6, PIpv6)); ("u8", (false, TyU8, PU8)); ("u16", (false, TyU16, PU16));
   ("rrtype", (false, TyType, PType)); ("u32", (false, TyU32, PU32)); ("text", (true, TyTexts, PText)); ("timestamp", (false, TyU32, PTime));
   ("string", (true, TyBytes, PString)); ("binary", (true, TyBytes, PHex)); ("base64", (true, TyBytes, PB64))]); [|reflexivity].
  intros x. cbn [map display_names fst snd refty lookup].
  destruct (String.eqb_spec x "timestamp") as [->|N1]; [reflexivity|]. reflexivity.
Qed.
Lemma by_ref_ty : forall c t k, lookup c codec_names = Some (t, k) -> by_ref c = refty t.
Proof. intros c t k H. apply lookup_in in H. unfold codec_names in H. cbn [In] in H. repeat (destruct H as [H|H]; [injection H as <- <- <-; reflexivity|]). destruct H. Qed.

(** * When it compiles *)
Definition tys_of (fs : list rfield) := map (fun f => (f_name f, f_ty f)) fs.
Lemma fst_tys : forall fs, map fst (tys_of fs) = map f_name fs.
Proof. intros fs. unfold tys_of. rewrite map_map. reflexivity. Qed.
Definition good (f : rfield) (cd : ident * ident) : Prop :=
  exists k d, lookup (fst cd) codec_names = Some (f_ty f, k) /\ lookup (snd cd) display_names = Some (f_ty f, d).
Lemma lookup_ty : forall fs f, NoDup (map f_name fs) -> In f fs -> lookup (f_name f) (tys_of fs) = Some (f_ty f).
Proof. intros fs f D I. apply in_lookup; [rewrite fst_tys; exact D|]. unfold tys_of. apply (in_map (fun f => (f_name f, f_ty f))), I. Qed.
Lemma Forall2_combine : forall {A B} (P : A -> B -> Prop) l m, length l = length m -> Forall2 P l m <-> forall a b, In (a, b) (combine l m) -> P a b.
Proof.
  intros A B P l. induction l as [|x l IH]; intros [|y m] L; try discriminate; cbn [combine In].
  - split; [intros _ a b []|constructor].
  - injection L as L. split.
    + intros F a b [E|I]; inversion F; subst; [injection E as <- <-; assumption|]. apply (proj1 (IH m L)); assumption.
    + intros H. constructor; [apply H; auto|]. apply IH; [exact L|]. auto.
Qed.
Lemma pfs_in : forall fs cds p, In p (pfs fs cds) <-> exists f cd, In (f, cd) (combine fs cds) /\ p = pf f cd.
Proof. intros fs cds p. unfold pfs. rewrite in_map_iff. split; [intros ([f cd] & E & I); exists f, cd; auto|intros (f & cd & I & ->); exists (f, cd); auto]. Qed.
Lemma prints_in : forall ps p, In p ps -> In (Print (String.append (pf_display p) "_to_str") (by_ref (pf_codec p)) (pf_name p)) (prints ps).
Proof. induction ps as [|q [|q' ps] IH]; intros p I; [destruct I| |].
  - destruct I as [<-|[]]. left. reflexivity.
  - destruct I as [<-|I]; [left; reflexivity|]. right. right. apply IH, I.
Qed.
Lemma prints_only : forall ps s, In s (prints ps) -> s = PrintSpace \/ exists p, In p ps /\ s = Print (String.append (pf_display p) "_to_str") (by_ref (pf_codec p)) (pf_name p).
Proof.
  induction ps as [|q [|q' ps] IH]; intros s I; [destruct I| |].
  - destruct I as [<-|[]]. right. exists q. split; [left|]; reflexivity.
  - destruct I as [<-|[<-|I]]; [right; exists q; split; [left|]; reflexivity|left; reflexivity|]. destruct (IH s I) as [->|(p & J & ->)]; [left; reflexivity|right; exists p; split; [right; exact J|reflexivity]].
Qed.
Lemma compiles_good : forall n fs cds, Forall2 ann fs cds -> NoDup (map f_name fs) -> compiles fs (emitted n (pfs fs cds)) = true -> Forall2 good fs cds.
Proof.
  intros n fs cds H D C. assert (L : length fs = length cds) by (clear -H; induction H; cbn; congruence).
  apply Forall2_combine; [exact L|]. intros f cd I. unfold compiles in C. rewrite !andb_true_iff in C. destruct C as ((((_ & _) & W) & _) & P).
  rewrite forallb_forall in W, P. assert (J : In (pf f cd) (pfs fs cds)) by (apply pfs_in; eauto).
  specialize (W (String.append (fst cd) "_to_wire", by_ref (fst cd), f_name f)). specialize (P (Print (String.append (snd cd) "_to_str") (by_ref (fst cd)) (f_name f)) (prints_in _ _ J)).
  assert (W' : check_call (tys_of fs) fns_to_wire (String.append (fst cd) "_to_wire") (by_ref (fst cd)) (f_name f) = true).
  { apply W. cbn [emitted g_writes]. apply (in_map (fun f => (String.append (pf_codec f) "_to_wire", by_ref (pf_codec f), pf_name f))) in J. exact J. }
  change (check_call (tys_of fs) fns_to_str (String.append (snd cd) "_to_str") (by_ref (fst cd)) (f_name f) = true) in P.
  pose proof (in_combine_l _ _ _ _ I) as If. unfold check_call in W', P. rewrite (lookup_ty fs f D If) in W', P. rewrite to_wire_fn in W'. rewrite to_str_fn in P.
  destruct (lookup (fst cd) codec_names) as [[t k]|] eqn:E1; [|discriminate]. destruct (lookup (snd cd) display_names) as [[t2 d]|] eqn:E2; [|discriminate].
  cbn [option_map fst snd] in W', P. apply andb_prop in W', P. destruct W' as [_ W']. destruct P as [_ P]. apply rty_beq_iff in W', P. subst. exists k, d. auto.
Qed.

(** The environment after the [let]s. *)
Definition pushes (l : list (ident * rty)) (env : list (ident * bty)) := fold_left (fun e p => ("len", TVal TyU16) :: (fst p, TVal (snd p)) :: e) l env.
Definition fresh (x : ident) (fs : list rfield) := ~ In x (map f_name fs).
Lemma fn_not_var : forall c tk fs, lookup c codec_names = Some tk -> Forall not_used_inside (map f_name fs) -> fresh (String.append c "_from_wire") fs /\ String.append c "_from_wire" <> "buf" /\ String.append c "_from_wire" <> "len".
Proof.
  intros c tk fs E F. apply lookup_in in E. assert (K : In c (map fst codec_names)) by (change c with (fst (c, tk)); apply in_map, E).
  split.
  - intros I. rewrite Forall_forall in F. destruct (F _ I) as (_ & _ & N). exact (N c K eq_refl).
  - clear -K. cbn in K. repeat (destruct K as [<-|K]; [split; discriminate|]). destruct K.
Qed.
Lemma lets_ok : forall fs cds env, Forall2 good fs cds -> Forall not_used_inside (map f_name fs) ->
  lookup "buf" env = Some TBuf -> lookup "len" env = Some (TVal TyU16) -> (forall c tk, lookup c codec_names = Some tk -> lookup (String.append c "_from_wire") env = None) ->
  check_lets (map (fun f => (pf_name f, String.append (pf_codec f) "_from_wire")) (pfs fs cds)) env = Some (pushes (tys_of fs) env).
Proof.
  intros fs cds env H. revert env. induction H as [|f cd fs cds (k & d & E1 & E2) H IH]; intros env F B L N; [reflexivity|].
  cbn [pfs combine map pf pf_name pf_codec fst snd]. cbn [check_lets]. rewrite B, L, (N _ _ E1), from_wire_fn, E1. cbn [map f_name] in F. inversion F as [|? ? F1 F2]; subst.
  pose proof F1 as (X1 & X2 & X3). destruct (String.eqb_spec (f_name f) "len") as [|_]; [contradiction|]. cbn [tys_of map pushes fold_left fst snd].
  apply IH; [exact F2| | |].
  - cbn [lookup]. rewrite B. destruct (String.eqb_spec "buf" (f_name f)); [congruence|reflexivity].
  - reflexivity.
  - intros c tk E. cbn [lookup]. destruct (fn_not_var c tk [f] E ltac:(constructor; [exact F1|constructor])) as (Y1 & Y2 & Y3). rewrite (N c tk E).
    destruct (String.eqb_spec (String.append c "_from_wire") "len"); [contradiction|].
    destruct (String.eqb_spec (String.append c "_from_wire") (f_name f)) as [Z|]; [|reflexivity]. exfalso. apply Y1. rewrite Z. left. reflexivity.
Qed.
Lemma pushes_other : forall l env x, ~ In x (map fst l) -> x <> "len" -> lookup x (pushes l env) = lookup x env.
Proof.
  induction l as [|[n t] l IH]; intros env x N L; [reflexivity|]. cbn [pushes fold_left]. fold (pushes l (("len", TVal TyU16) :: (n, TVal t) :: env)). cbn [fst snd map In] in *.
  rewrite IH by tauto. cbn [lookup]. destruct (String.eqb_spec x "len"); [contradiction|]. destruct (String.eqb_spec x n); [subst; tauto|reflexivity].
Qed.
Lemma pushes_len : forall l env, lookup "len" env = Some (TVal TyU16) -> lookup "len" (pushes l env) = Some (TVal TyU16).
Proof. induction l as [|[n t] l IH]; intros env E; [exact E|]. cbn [pushes fold_left]. apply IH. reflexivity. Qed.
Lemma pushes_in : forall l env n t, NoDup (map fst l) -> ~ In "len" (map fst l) -> In (n, t) l -> lookup n (pushes l env) = Some (TVal t).
Proof.
  induction l as [|[m u] l IH]; intros env n t D NL I; [destruct I|]. cbn [map fst] in D, NL. inversion D as [|? ? X Y]; subst. cbn [pushes fold_left]. fold (pushes l (("len", TVal TyU16) :: (m, TVal u) :: env)).
  destruct I as [E|I]; [|apply IH; auto; intros Q; apply NL; right; exact Q]. injection E as -> ->. rewrite pushes_other; [|exact X|intros ->; apply NL; left; reflexivity].
  cbn [lookup fst snd]. destruct (String.eqb_spec n "len") as [->|]; [exfalso; apply NL; left; reflexivity|]. rewrite String.eqb_refl. reflexivity.
Qed.
Lemma literal_ok : forall tys, NoDup (map fst tys) -> check_literal tys tys = true.
Proof.
  intros tys D. unfold check_literal. rewrite !andb_true_iff, !forallb_forall, distinct_iff. repeat split; [exact D| |].
  - intros [n t] I. apply existsb_eqb. apply in_map, I.
  - intros [n t] I. cbn [fst snd]. rewrite (in_lookup n t tys D I). apply rty_beq_iff. reflexivity.
Qed.
Lemma pfs_cons : forall f fs c cs, pfs (f :: fs) (c :: cs) = pf f c :: pfs fs cs.
Proof. reflexivity. Qed.
Lemma build_cons : forall env a b l, typed_build env ((a, b) :: l) = match lookup b env, typed_build env l with Some (TVal t), Some m => Some ((a, t) :: m) | _, _ => None end.
Proof. reflexivity. Qed.
Lemma reads_cons : forall a b l, typed_reads ((a, b) :: l) = match lookup b fns_from_str, typed_reads l with Some (t, _), Some m => Some ((a, t) :: m) | _, _ => None end.
Proof. reflexivity. Qed.
Lemma good_compiles : forall n fs cds, Forall2 good fs cds -> NoDup (map f_name fs) -> Forall not_used_inside (map f_name fs) -> compiles fs (emitted n (pfs fs cds)) = true.
Proof.
  intros n fs cds H D F. unfold compiles. fold (tys_of fs). pose proof (fst_tys fs) as FT.
  assert (L : length fs = length cds) by (clear -H; induction H; cbn; congruence). pose proof (proj1 (Forall2_combine good fs cds L) H) as G.
  assert (NL : ~ In "len" (map f_name fs)). { intros I. rewrite Forall_forall in F. destruct (F _ I) as (_ & X & _). congruence. }
  rewrite !andb_true_iff. repeat split.
  - apply distinct_iff, D.
  - unfold check_from_wire. cbn [emitted g_lets g_build]. rewrite (lets_ok fs cds); auto; [|intros c tk E; destruct (fn_not_var c tk [] E ltac:(constructor)) as (_ & Y2 & Y3)].
    + unfold has_type. rewrite pushes_len by reflexivity. cbn [rty_beq andb].
      assert (Q : forall sub cs, (forall f, In f sub -> In f fs) -> length sub = length cs ->
        typed_build (pushes (tys_of fs) [("buf", TBuf); ("len", TVal TyU16)]) (map (fun f => (pf_name f, pf_name f)) (pfs sub cs)) = Some (tys_of sub)).
      { induction sub as [|f sub IH]; intros [|c cs] S LL; try discriminate; [reflexivity|]. rewrite pfs_cons. cbn [map]. rewrite build_cons.
        rewrite IH; [|intros; apply S; right; assumption|cbn in LL; congruence].
        assert (P1 : NoDup (map fst (tys_of fs))) by (rewrite FT; exact D). assert (P2 : ~ In "len" (map fst (tys_of fs))) by (rewrite FT; exact NL).
        assert (P3 : In (f_name f, f_ty f) (tys_of fs)) by (unfold tys_of; apply (in_map (fun f => (f_name f, f_ty f))), S; left; reflexivity).
        change (pf_name (pf f c)) with (f_name f). rewrite (pushes_in (tys_of fs) _ (f_name f) (f_ty f) P1 P2 P3). reflexivity. }
      rewrite (Q fs cds ltac:(auto) L). apply literal_ok. rewrite FT. exact D.
    + cbn [lookup]. destruct (String.eqb_spec (String.append c "_from_wire") "buf"); [contradiction|]. destruct (String.eqb_spec (String.append c "_from_wire") "len"); [contradiction|reflexivity].
  - apply forallb_forall. intros w I. cbn [emitted g_writes] in I. apply in_map_iff in I. destruct I as (p & <- & I). apply pfs_in in I. destruct I as (f & cd & I & ->). cbn [pf pf_name pf_codec].
    destruct (G f cd I) as (k & d & E1 & E2). unfold check_call. rewrite to_wire_fn, E1, (lookup_ty fs f D (in_combine_l _ _ _ _ I)). cbn [option_map fst snd]. rewrite Bool.eqb_reflx. apply rty_beq_iff. reflexivity.
  - unfold check_from_str. cbn [emitted g_reads].
    assert (Q : forall sub cs, Forall2 good sub cs -> typed_reads (map (fun f => (pf_name f, String.append (pf_display f) "_from_str")) (pfs sub cs)) = Some (tys_of sub)).
    { induction 1 as [|f c sub cs (k & d & E1 & E2) _ IH]; [reflexivity|]. rewrite pfs_cons. cbn [map]. rewrite reads_cons. cbn [pf pf_display pf_name fst snd]. rewrite IH, from_str_fn, E2. reflexivity. }
    rewrite (Q fs cds H). apply literal_ok. rewrite FT. exact D.
  - apply forallb_forall. intros s I. cbn [emitted g_prints] in I. destruct (prints_only _ _ I) as [->|(p & J & ->)]; [reflexivity|]. apply pfs_in in J. destruct J as (f & cd & J & ->). cbn [pf pf_name pf_codec pf_display check_pstmt].
    destruct (G f cd J) as (k & d & E1 & E2). unfold check_call. rewrite to_str_fn, E2, (lookup_ty fs f D (in_combine_l _ _ _ _ J)). cbn [option_map fst snd]. rewrite (by_ref_ty _ _ _ E1), Bool.eqb_reflx. apply rty_beq_iff. reflexivity.
Qed.
Lemma good_meant : forall f cd, ann f cd -> good f cd <-> exists kd, meant f kd.
Proof.
  intros f [c d] A. unfold ann in A; cbn [fst snd] in A. split.
  - intros (k & p & E1 & E2). exists (k, p). exists c, d. split; [exact A|]. split; apply lookup_in; assumption.
  - intros ([k p] & c' & d' & A' & I1 & I2). destruct (ann_unique _ _ _ _ _ A A') as [-> ->]. exists k, p. split; apply in_lookup; auto using codec_keys, display_keys.
Qed.
(** ** C104, what compiles *)
Lemma derive_compiles : forall n fs g, derive (NamedStruct n fs) = Ok g -> NoDup (map f_name fs) -> Forall not_used_inside (map f_name fs) ->
  compiles fs g = true <-> Forall (fun f => exists kd, meant f kd) fs.
Proof.
  intros n fs g E D F. destruct (all_or_not fs) as [(cds & H)|N]; [|rewrite (derive_not_annotated n fs N) in E; discriminate].
  destruct (derive_annotated n fs cds H) as [[W E']|[W E']]; rewrite E' in E; [|discriminate]. injection E as <-.
  assert (Q : Forall2 good fs cds <-> Forall (fun f => exists kd, meant f kd) fs).
  { clear -H. induction H as [|f cd fs cds A H IH]; [split; constructor|]. split; intros X; inversion X; subst; constructor; try tauto; apply (good_meant f cd A); assumption. }
  rewrite <- Q. split; [apply compiles_good; assumption|intros X; apply good_compiles; assumption].
Qed.
Lemma lets_len : forall ls env, In "len" (map fst ls) -> check_lets ls env = None.
Proof.
  induction ls as [|[x f] ls IH]; intros env I; [destruct I|]. cbn [check_lets].
  destruct (lookup "buf" env) as [[|]|]; try reflexivity. destruct (lookup "len" env) as [[|[ | | | | | | | | | ]]|]; try reflexivity. destruct (lookup f env); [reflexivity|]. destruct (lookup f fns_from_wire) as [[t k]|]; [|reflexivity].
  destruct (String.eqb_spec x "len") as [|N]; [reflexivity|]. apply IH. destruct I as [I|I]; [cbn in I; contradiction|exact I].
Qed.
Lemma lets_buf : forall ls1 f y g ls2 env, check_lets (ls1 ++ ("buf", f) :: (y, g) :: ls2) env = None.
Proof.
  induction ls1 as [|[x h] ls IH]; intros f y g ls2 env; cbn [app check_lets].
  - destruct (lookup "buf" env) as [[|]|]; try reflexivity. destruct (lookup "len" env) as [[|[ | | | | | | | | | ]]|]; try reflexivity. destruct (lookup f env); [reflexivity|]. destruct (lookup f fns_from_wire) as [[t k]|]; reflexivity.
  - destruct (lookup "buf" env) as [[|]|]; try reflexivity. destruct (lookup "len" env) as [[|[ | | | | | | | | | ]]|]; try reflexivity. destruct (lookup h env); [reflexivity|]. destruct (lookup h fns_from_wire) as [[t k]|]; [|reflexivity].
    destruct (String.eqb x "len"); [reflexivity|]. apply IH.
Qed.
Lemma derive_lets : forall n fs g, derive (NamedStruct n fs) = Ok g -> exists cds, length cds = length fs /\ g_lets g = map (fun p : rfield * (ident * ident) => (f_name (fst p), String.append (fst (snd p)) "_from_wire")) (combine fs cds).
Proof.
  intros n fs g E. destruct (all_or_not fs) as [(cds & H)|N]; [|rewrite (derive_not_annotated n fs N) in E; discriminate].
  destruct (derive_annotated n fs cds H) as [[W E']|[W E']]; rewrite E' in E; [|discriminate]. injection E as <-. exists cds. split; [clear -H; induction H; cbn; congruence|].
  cbn [emitted g_lets]. unfold pfs. rewrite map_map. reflexivity.
Qed.
Lemma len_never : forall n fs g, derive (NamedStruct n fs) = Ok g -> In "len" (map f_name fs) -> compiles fs g = false.
Proof.
  intros n fs g E I. destruct (derive_lets n fs g E) as (cds & L & G). unfold compiles, check_from_wire. rewrite lets_len; [rewrite andb_false_r; reflexivity|].
  rewrite G, map_map. cbn [fst]. clear -I L. revert cds L. induction fs as [|f fs IH]; intros [|c cds] L; try discriminate; [destruct I|]. cbn [combine map fst]. destruct I as [I|I]; [left; exact I|right; apply IH; auto].
Qed.
Lemma buf_only_last : forall n fs1 b f fs2 g, derive (NamedStruct n (fs1 ++ b :: f :: fs2)) = Ok g -> f_name b = "buf" -> compiles (fs1 ++ b :: f :: fs2) g = false.
Proof.
  intros n fs1 b f fs2 g E NB. destruct (derive_lets n _ g E) as (cds & L & G). unfold compiles, check_from_wire.
  assert (X : exists l1 h y k l2, g_lets g = l1 ++ ("buf", h) :: (y, k) :: l2).
  { rewrite G. clear -L NB. revert cds L. induction fs1 as [|a fs1 IH]; intros cds L; cbn [app] in *.
    - destruct cds as [|c1 [|c2 cds]]; try discriminate. cbn [combine map fst snd]. rewrite NB. exists []. eexists _, _, _, _. reflexivity.
    - destruct cds as [|c cds]; [discriminate|]. cbn [combine map]. destruct (IH cds ltac:(cbn in L; congruence)) as (l1 & h & y & k & l2 & ->). eexists (_ :: l1), h, y, k, l2. reflexivity. }
  destruct X as (l1 & h & y & k & l2 & ->). rewrite lets_buf, andb_false_r. reflexivity.
Qed.

(** * What it does *)
Definition bpushes (l : list (ident * fval)) (env : list (ident * bound)) (env' : list (ident * bound)) : Prop :=
  (forall n v, In (n, v) l -> lookup n env' = Some (BVal v)) /\ (forall x, ~ In x (map fst l) -> x <> "len" -> lookup x env' = lookup x env).
Definition kgood (f : rfield) (cd : ident * ident) (kd : dcodec * disp) : Prop :=
  lookup (fst cd) codec_names = Some (f_ty f, fst kd) /\ lookup (snd cd) display_names = Some (f_ty f, snd kd).
Inductive all3 : list rfield -> list (ident * ident) -> list (dcodec * disp) -> Prop :=
| all3_nil : all3 [] [] []
| all3_cons : forall f cd kd fs cds kds, kgood f cd kd -> all3 fs cds kds -> all3 (f :: fs) (cd :: cds) (kd :: kds).
Lemma run_lets_ok : forall fs cds kds, all3 fs cds kds -> forall env l b, NoDup (map f_name fs) -> Forall not_used_inside (map f_name fs) ->
  lookup "buf" env = Some BBuf -> lookup "len" env = Some (BLen l) -> (forall c tk, lookup c codec_names = Some tk -> lookup (String.append c "_from_wire") env = None) ->
  match dfields_from_wire (map fst kds) l b with
  | (Ok (vs, l'), b') => exists env', run_lets (map (fun f => (pf_name f, String.append (pf_codec f) "_from_wire")) (pfs fs cds)) env b = (Ok env', b') /\
      length vs = length fs /\ lookup "len" env' = Some (BLen l') /\ bpushes (struct_value fs vs) env env'
  | (Err, b') => run_lets (map (fun f => (pf_name f, String.append (pf_codec f) "_from_wire")) (pfs fs cds)) env b = (Err, b')
  | (Panic, b') => run_lets (map (fun f => (pf_name f, String.append (pf_codec f) "_from_wire")) (pfs fs cds)) env b = (Panic, b')
  | (Hang, b') => run_lets (map (fun f => (pf_name f, String.append (pf_codec f) "_from_wire")) (pfs fs cds)) env b = (Hang, b')
  end.
Proof.
  induction 1 as [|f cd kd fs cds kds [E1 E2] H IH]; intros env l b D F B L N.
  - cbn. exists env. repeat split; auto. intros n v [].
  - cbn [map dfields_from_wire]. cbn [pfs combine map pf pf_name pf_codec fst snd run_lets]. fold (pfs fs cds). rewrite B, L, (N _ _ E1), from_wire_fn, E1.
    unfold bind. destruct (dfield_from_wire (fst kd) l b) as [[[v l1]| | |] b1]; try reflexivity.
    cbn [map] in D, F. inversion D as [|? ? D1 D2]; subst. inversion F as [|? ? F1 F2]; subst. pose proof F1 as (X1 & X2 & X3).
    specialize (IH (("len", BLen l1) :: (f_name f, BVal (vec_u8 v)) :: env) l1 b1 D2 F2).
    assert (K1 : lookup "buf" (("len", BLen l1) :: (f_name f, BVal (vec_u8 v)) :: env) = Some BBuf). { cbn [lookup]. rewrite B. destruct (String.eqb_spec "buf" (f_name f)); [congruence|reflexivity]. }
    specialize (IH K1 eq_refl).
    assert (K2 : forall c tk, lookup c codec_names = Some tk -> lookup (String.append c "_from_wire") (("len", BLen l1) :: (f_name f, BVal (vec_u8 v)) :: env) = None).
    { intros c tk E. cbn [lookup]. destruct (fn_not_var c tk [f] E ltac:(constructor; [exact F1|constructor])) as (Y1 & Y2 & Y3). rewrite (N c tk E).
      destruct (String.eqb_spec (String.append c "_from_wire") "len"); [contradiction|].
      destruct (String.eqb_spec (String.append c "_from_wire") (f_name f)) as [Z|]; [|reflexivity]. exfalso. apply Y1. rewrite Z. left. reflexivity. }
    specialize (IH K2). destruct (dfields_from_wire (map fst kds) l1 b1) as [[[vs l2]| | |] b2]; try exact IH.
    cbn [ret]. destruct IH as (env' & R & LL & LN & [P1 P2]). exists env'. split; [exact R|]. split; [cbn; congruence|]. split; [exact LN|].
    unfold struct_value in *. cbn [map combine]. split.
    + intros n w [I|I]; [|apply P1, I]. injection I as <- <-. rewrite P2.
      * cbn [lookup]. destruct (String.eqb_spec (f_name f) "len"); [contradiction|]. rewrite String.eqb_refl. reflexivity.
      * intros I. apply D1. apply in_map_iff in I. destruct I as ([n w] & E & I). cbn in E. subst. exact (in_combine_l _ _ _ _ I).
      * exact X2.
    + intros x NI NL. cbn [map fst In] in NI. rewrite P2; [|tauto|exact NL]. cbn [lookup]. destruct (String.eqb_spec x "len"); [contradiction|]. destruct (String.eqb_spec x (f_name f)); [subst; tauto|reflexivity].
Qed.
Lemma run_build_ok : forall fs cds vs env, length cds = length fs -> length vs = length fs -> (forall n v, In (n, v) (struct_value fs vs) -> lookup n env = Some (BVal v)) ->
  run_build env (map (fun f => (pf_name f, pf_name f)) (pfs fs cds)) = Ok (struct_value fs vs).
Proof.
  unfold run_build. induction fs as [|f fs IH]; intros [|c cds] [|v vs] env L1 L2 H; try discriminate; [reflexivity|].
  cbn [pfs combine map pf pf_name fst snd rmap]. fold (pfs fs cds). rewrite (H (f_name f) (vec_u8 v)) by (left; reflexivity). cbn [rbind].
  rewrite (IH cds vs env); [reflexivity|cbn in *; congruence|cbn in *; congruence|]. intros n w I. apply H. right. exact I.
Qed.
Lemma all3_len : forall fs cds kds, all3 fs cds kds -> length cds = length fs /\ length kds = length fs.
Proof. induction 1 as [|? ? ? ? ? ? _ _ [IH1 IH2]]; cbn; auto. Qed.
Lemma run_from_wire_ok : forall n fs cds kds len b, all3 fs cds kds -> NoDup (map f_name fs) -> Forall not_used_inside (map f_name fs) ->
  run_from_wire (emitted n (pfs fs cds)) len b = bind (derived_from_wire (map fst kds) len) (fun vs => ret (struct_value fs vs)) b.
Proof.
  intros n fs cds kds len b H D F. unfold run_from_wire, derived_from_wire. cbn [emitted g_lets g_build].
  assert (K : forall c tk, lookup c codec_names = Some tk -> lookup (String.append c "_from_wire") [("buf", BBuf); ("len", BLen len)] = None).
  { intros c tk E. destruct (fn_not_var c tk [] E ltac:(constructor)) as (_ & Y2 & Y3). cbn [lookup]. destruct (String.eqb_spec (String.append c "_from_wire") "buf"); [contradiction|]. destruct (String.eqb_spec (String.append c "_from_wire") "len"); [contradiction|reflexivity]. }
  pose proof (run_lets_ok fs cds kds H [("buf", BBuf); ("len", BLen len)] len b D F eq_refl eq_refl K) as R.
  unfold bind. destruct (dfields_from_wire (map fst kds) len b) as [[[vs l']| | |] b'].
  - destruct R as (env' & R & L & LN & P1 & _). rewrite R, LN. destruct (l' =? 0)%N; cbn [ensure ret fail]; [|reflexivity]. unfold lift.
    destruct (all3_len _ _ _ H) as [L1 _]. rewrite (run_build_ok fs cds vs env' L1 L P1). reflexivity.
  - rewrite R. reflexivity.
  - rewrite R. reflexivity.
  - rewrite R. reflexivity.
Qed.
Lemma seen_typed : forall d v, typed d v -> dfield_to_wire d (seen_by d (vec_u8 v)) = dfield_to_wire d v.
Proof. intros [[ | | | | | | | | | ]|] v T; cbn in T; destruct v; try contradiction; reflexivity. Qed.
Lemma run_to_wire_ok : forall n fs cds kds vs r, all3 fs cds kds -> NoDup (map f_name fs) -> Forall2 typed (map fst kds) vs ->
  run_to_wire (emitted n (pfs fs cds)) (struct_value fs vs) r = derived_to_wire (map fst kds) vs r.
Proof.
  intros n fs cds kds vs r H D T. unfold run_to_wire. cbn [emitted g_writes].
  assert (Q : forall self, (forall m v, In (m, v) (struct_value fs vs) -> lookup m self = Some v) -> forall r,
    mapM_ (fun '(f, _, x) => match lookup f fns_to_wire, lookup x self with Some (_, d), Some v => dfield_to_wire d (seen_by d v) | _, _ => fail end)
      (map (fun f => (String.append (pf_codec f) "_to_wire", by_ref (pf_codec f), pf_name f)) (pfs fs cds)) r = derived_to_wire (map fst kds) vs r).
  { clear D r. intros self. revert vs T. induction H as [|f cd kd fs cds kds [E1 E2] H IH]; intros vs T S r.
    - inversion T. reflexivity.
    - cbn [map] in T. inversion T as [|? v ? vs' T1 T2]; subst. cbn [pfs combine map pf pf_name pf_codec fst snd mapM_ derived_to_wire]. fold (pfs fs cds).
      rewrite to_wire_fn, E1. cbn [option_map fst snd]. rewrite (S (f_name f) (vec_u8 v)) by (left; reflexivity). rewrite (seen_typed _ _ T1).
      unfold bind. destruct (dfield_to_wire (fst kd) v r) as [[u| | |] r1]; try reflexivity. apply IH; [exact T2|]. intros m w I. apply S. right. exact I. }
  apply Q. intros m v I. apply in_lookup; [|exact I]. unfold struct_value. assert (TL : forall (a : list dcodec) (c : list fval), Forall2 typed a c -> length a = length c) by (induction 1; cbn; congruence). apply TL in T. rewrite map_length in T. destruct (all3_len _ _ _ H) as [_ L2].
  assert (X : forall (a : list ident) (b : list fval), length a = length b -> map fst (combine a b) = a) by (induction a as [|x a IH]; intros [|y b]; cbn; intros; try discriminate; [reflexivity|f_equal; auto]).
  rewrite X by (rewrite !map_length; lia). exact D.
Qed.
Lemma read_same : forall x kd b, field_from_str x (KBin, snd kd) b = bind (field_from_str x (text_codec kd)) (fun v => ret (vec_u8 v)) b.
Proof.
  intros x [k d] b. unfold field_from_str, text_codec. cbn [fst snd]. destruct d; unfold bind, ret; cbn [fst snd];
    match goal with |- context [match ?m with (_, _) => _ end] => destruct m as [[?| | |] ?]; try reflexivity end; destruct k as [[]|]; reflexivity.
Qed.
Lemma run_from_str_ok : forall x n fs cds kds b, all3 fs cds kds ->
  run_from_str x (emitted n (pfs fs cds)) b = bind (fields_from_str x (map text_codec kds)) (fun vs => ret (struct_value fs vs)) b.
Proof.
  intros x n fs cds kds b H. unfold run_from_str. cbn [emitted g_reads]. revert b. induction H as [|f cd kd fs cds kds [E1 E2] H IH]; intros b; [reflexivity|].
  cbn [pfs combine map pf pf_name pf_display fst snd run_reads fields_from_str]. fold (pfs fs cds). rewrite from_str_fn, E2. unfold bind at 1. rewrite read_same.
  unfold bind. destruct (field_from_str x (text_codec kd) b) as [[v| | |] b1]; try reflexivity. cbn [ret]. rewrite IH. unfold bind.
  destruct (fields_from_str x (map text_codec kds) b1) as [[vs| | |] b2]; reflexivity.
Qed.
Lemma print_same : forall x d v, field_to_str x d (vec_u8 v) = field_to_str x d v.
Proof. intros x d v. destruct v; reflexivity. Qed.
Lemma run_display_ok : forall x n fs cds kds vs, all3 fs cds kds -> NoDup (map f_name fs) -> length vs = length fs ->
  run_display x (emitted n (pfs fs cds)) (struct_value fs vs) = derived_display x (map text_codec kds) vs.
Proof.
  intros x n fs cds kds vs H D L. unfold run_display, derived_display. cbn [emitted g_prints].
  assert (Q : forall self, (forall m v, In (m, v) (struct_value fs vs) -> lookup m self = Some v) -> run_prints x (prints (pfs fs cds)) self = fields_to_str x (map text_codec kds) vs).
  { clear D. intros self. revert vs L. induction H as [|f cd kd fs cds kds [E1 E2] H IH]; intros [|v vs] L S; try discriminate; [reflexivity|].
    cbn [pfs combine map pf pf_name pf_display pf_codec fst snd]. fold (pfs fs cds). destruct H as [|f2 cd2 kd2 fs2 cds2 kds2 G2 H2].
    - cbn [pfs combine map prints run_prints pf pf_name pf_display pf_codec fst snd fields_to_str]. rewrite to_str_fn, E2. cbn [option_map fst snd]. rewrite (S (f_name f) (vec_u8 v)) by (left; reflexivity). rewrite print_same.
      cbn [snd text_codec]. destruct (field_to_str x (snd kd) v); cbn [rbind]; try reflexivity. rewrite app_nil_r. reflexivity.
    - destruct vs as [|v2 vs]; [discriminate|]. specialize (IH (v2 :: vs) ltac:(cbn in *; congruence) ltac:(intros m w I; apply S; right; exact I)).
      change (prints (pf f cd :: pfs (f2 :: fs2) (cd2 :: cds2))) with (Print (String.append (snd cd) "_to_str") (by_ref (fst cd)) (f_name f) :: PrintSpace :: prints (pfs (f2 :: fs2) (cd2 :: cds2))).
      cbn [run_prints]. rewrite IH. rewrite to_str_fn, E2. cbn [option_map fst snd]. rewrite (S (f_name f) (vec_u8 v)) by (left; reflexivity). rewrite print_same.
      change (fields_to_str x (text_codec kd :: map text_codec (kd2 :: kds2)) (v :: v2 :: vs)) with
        (let? a := field_to_str x (snd kd) v in let? b := fields_to_str x (map text_codec (kd2 :: kds2)) (v2 :: vs) in Ok (a ++ [32%N] ++ b)).
      destruct (field_to_str x (snd kd) v); cbn [rbind]; try reflexivity. destruct (fields_to_str x (map text_codec (kd2 :: kds2)) (v2 :: vs)); reflexivity. }
  apply Q. intros m v I. apply in_lookup; [|exact I]. unfold struct_value.
  assert (X : forall (a : list ident) (b : list fval), length a = length b -> map fst (combine a b) = a) by (induction a as [|y a IH]; intros [|z b]; cbn; intros; try discriminate; [reflexivity|f_equal; auto]).
  rewrite X by (rewrite !map_length; lia). exact D.
Qed.
Lemma meant_all3 : forall fs kds, Forall2 meant fs kds -> exists cds, Forall2 ann fs cds /\ all3 fs cds kds.
Proof.
  induction 1 as [|f [k d] fs kds (c & p & A & I1 & I2) _ (cds & IH1 & IH2)]; [exists []; split; constructor|]. exists ((c, p) :: cds). split; constructor; auto.
  split; apply in_lookup; auto using codec_keys, display_keys.
Qed.
Lemma runs_as : forall n fs kds g, derive (NamedStruct n fs) = Ok g -> Forall2 meant fs kds -> NoDup (map f_name fs) -> Forall not_used_inside (map f_name fs) ->
  (forall len b, run_from_wire g len b = bind (derived_from_wire (map fst kds) len) (fun vs => ret (struct_value fs vs)) b) /\
  (forall vs r, Forall2 typed (map fst kds) vs -> run_to_wire g (struct_value fs vs) r = derived_to_wire (map fst kds) vs r) /\
  (forall x b, run_from_str x g b = bind (fields_from_str x (map text_codec kds)) (fun vs => ret (struct_value fs vs)) b) /\
  (forall x vs, length vs = length fs -> run_display x g (struct_value fs vs) = derived_display x (map text_codec kds) vs).
Proof.
  intros n fs kds g E H D F. destruct (meant_all3 fs kds H) as (cds & A & G). destruct (derive_annotated n fs cds A) as [[W E']|[W E']]; rewrite E' in E; [|discriminate]. injection E as <-.
  split; [|split; [|split]]; intros.
  - apply run_from_wire_ok; assumption.
  - apply run_to_wire_ok with (1 := G); assumption.
  - apply run_from_str_ok; assumption.
  - apply run_display_ok with (1 := G); assumption.
Qed.

(** * rdatas.rs *)
Definition table_meaning (f : rfield) : option (dcodec * disp) :=
  match field_parse_token f with
  | Ok p => match lookup (pf_codec p) codec_names, lookup (pf_display p) display_names with
            | Some (t, k), Some (u, d) => if rty_beq (f_ty f) t && rty_beq (f_ty f) u then Some (k, d) else None
            | _, _ => None
            end
  | _ => None
  end.
Lemma table_meant : forall f kd, table_meaning f = Some kd -> meant f kd.
Proof.
  intros f kd. unfold table_meaning. destruct (field_parse_cases f) as [(c & d & A)|[E _]]; [|rewrite E; discriminate]. rewrite (field_parse_annotated _ _ _ A). cbn [pf_codec pf_display].
  destruct (lookup c codec_names) as [[t k]|] eqn:E1; [|discriminate]. destruct (lookup d display_names) as [[u p]|] eqn:E2; [|discriminate].
  destruct (rty_beq (f_ty f) t) eqn:T1; [|discriminate]. destruct (rty_beq (f_ty f) u) eqn:T2; [|discriminate]. apply rty_beq_iff in T1, T2. cbn [andb]. intros H. injection H as <-. subst.
  exists c, d. split; [exact A|]. split; apply lookup_in; cbn [fst snd]; congruence.
Qed.
Definition meanings (fs : list rfield) (kds : list (dcodec * disp)) : Prop := map table_meaning fs = map Some kds.
Lemma meanings_meant : forall fs kds, meanings fs kds -> Forall2 meant fs kds.
Proof.
  unfold meanings. induction fs as [|f fs IH]; intros [|kd kds] H; try discriminate; constructor; injection H as H1 H2; [apply table_meant, H1|apply IH, H2].
Qed.
Definition unused (n : ident) : bool := negb (existsb (String.eqb n) ("buf" :: "len" :: map (fun c => String.append c "_from_wire") (map fst codec_names))).
Lemma unused_ok : forall n, unused n = true -> not_used_inside n.
Proof.
  intros n H. unfold unused in H. rewrite negb_true_iff in H.
  assert (N : ~ In n ("buf" :: "len" :: map (fun c => String.append c "_from_wire") (map fst codec_names))) by (intros I; apply existsb_eqb in I; congruence).
  split; [intros ->; apply N; left; reflexivity|]. split; [intros ->; apply N; right; left; reflexivity|]. intros c I ->. apply N. right. right. apply (in_map (fun c => String.append c "_from_wire")), I.
Qed.
Lemma source_ok : forall v, exists n fs g kds, rdatas_rs v = NamedStruct n fs /\ derive (NamedStruct n fs) = Ok g /\ compiles fs g = true /\
  NoDup (map f_name fs) /\ Forall not_used_inside (map f_name fs) /\ Forall2 meant fs kds /\ map fst kds = map Std (schema v) /\ map text_codec kds = text_schema v.
Proof.
  intros v. set (kds := combine (map Std (schema v)) (map snd (text_schema v))).
  assert (Q : exists n fs, rdatas_rs v = NamedStruct n fs /\ is_ok (derive (NamedStruct n fs)) = true /\ distinct (map f_name fs) = true /\ forallb unused (map f_name fs) = true /\
    meanings fs kds /\ map fst kds = map Std (schema v) /\ map text_codec kds = text_schema v).
  { subst kds. unfold meanings. destruct v; (eexists _, _; split; [reflexivity|]; repeat split; vm_compute; reflexivity). }
  destruct Q as (n & fs & E & K & D & U & M & S1 & S2). destruct (derive (NamedStruct n fs)) as [g| | |] eqn:G; try discriminate. exists n, fs, g, kds.
  apply distinct_iff in D. assert (F : Forall not_used_inside (map f_name fs)) by (rewrite forallb_forall in U; apply Forall_forall; intros x I; apply unused_ok, U, I).
  apply meanings_meant in M. repeat (split; [assumption|]).
  split; [|auto 6]. apply (derive_compiles n fs g G D F). clear -M. induction M; constructor; eauto.
Qed.

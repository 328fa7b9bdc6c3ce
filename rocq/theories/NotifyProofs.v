(** Proofs for C65_decode (the notify decoder, private to the crate, against the message decoder) and C78_remove_mut. *)
From Verif Require Import Base BaseLemmas NameModel RenderModel CodesModel RDataModel MsgModel TextModel AccessModel SpecName SpecCodes SpecMsg SpecBuild SpecAccess BufProofs BuildProofs.

Lemma notify_read_spec : forall w r, response_from_wire w = Ok r ->
  (h_an (r_header r) <> 1%N -> notify_read w = Ok (mkNotifyReq (r_header r) (r_question r) None)) /\
  (h_an (r_header r) = 1%N -> exists rs, r_answer r = Some [rs] /\
     notify_read w = if rrtype_eqb (rs_type rs) TSOA then Ok (mkNotifyReq (r_header r) (r_question r) (Some rs)) else Err).
Proof.
  intros w r H. unfold response_from_wire, response_from_buf in H. remember (notify_read w) as X0 eqn:EX. unfold notify_read in EX. unfold bind at 1 in H. unfold bind at 1 in EX.
  destruct (header_from_wire (ib_new w)) as [[h| | |] s1]; try discriminate. unfold bind at 1 in H. unfold ensure in H.
  destruct (h_qd h =? 1)%N; [|discriminate]. cbn [ret] in H. unfold bind at 1 in H. unfold bind at 1 in EX. unfold ret at 1 in H.
  destruct (question_from_wire s1) as [[q| | |] s2]; try discriminate. unfold bind at 1 in H.
  destruct (section_from_wire (h_an h) SAnswer s2) as [[an| | |] s3] eqn:E3; try discriminate. unfold bind at 1 in H.
  destruct (section_from_wire (h_ns h) SAuthority s3) as [[ns| | |] s4]; try discriminate. unfold bind at 1 in H.
  destruct (section_from_wire (h_ar h) SAdditional s4) as [[ar| | |] s5]; try discriminate.
  unfold ret in H. cbn [fst] in H. apply Ok_inj in H. subst r. cbn [r_header r_question r_answer]. unfold notify_from_wire in EX.
  destruct (N.eqb_spec (h_an h) 1) as [E|E]; (split; intros X; [try contradiction|try contradiction]); [|exact EX].
  rewrite E in E3. unfold section_from_wire in E3. change (1 =? 0)%N with false in E3. cbn iota in E3. unfold bind at 1 in E3. unfold bind at 1 in EX.
  destruct (rrset_from_wire s2) as [[rs| | |] s6]; try discriminate. unfold bind at 1 in E3.
  destruct (rrtype_eqb (rs_type rs) TOPT && _); [discriminate|]. unfold ret at 1 in E3. change (N.to_nat 1 - 1) with 0 in E3. cbn [section_loop] in E3.
  unfold bind, ret in E3. cbn [app] in E3. exists rs. split; [congruence|]. rewrite EX. destruct (rrtype_eqb (rs_type rs) TSOA); reflexivity.
Qed.

Lemma notify_read_typed : forall w r, response_from_wire w = Ok r ->
  (h_an (r_header r) <> 1%N -> notify_read w = Ok (mkNotifyReq (r_header r) (r_question r) None)) /\
  (h_an (r_header r) = 1%N -> exists rs, r_answer r = Some [rs] /\
     (rs_type rs = TSOA -> notify_read w = Ok (mkNotifyReq (r_header r) (r_question r) (Some rs))) /\ (rs_type rs <> TSOA -> notify_read w = Err)).
Proof.
  intros w r H. destruct (notify_read_spec w r H) as [H0 H1]. split; [exact H0|]. intros X. destruct (H1 X) as (rs & A & E). exists rs. split; [exact A|]. rewrite E.
  destruct (rs_type rs); cbn; split; intros Y; try reflexivity; try discriminate; congruence.
Qed.

Lemma notify_decode_round : forall dat rnd zone soa, bytes dat -> (N.of_nat (length dat) <= 65535)%N -> (rnd < 65536)%N -> wf_name zone ->
  (forall rs, soa = Some rs -> rrset_ok rs /\ rs_type rs = TSOA /\ length (rs_rdatas rs) = 1) ->
  let (a, r') := notify_to_wire (notify_new rnd zone soa) (mr_new dat) in
  a = Err \/ notify_read (mr_bytes r') = Ok (notify_new rnd zone soa).
Proof.
  intros dat rnd zone soa B L R Z S0. pose proof (notify_round_trip dat rnd zone soa B L R Z S0) as H.
  destruct (notify_to_wire (notify_new rnd zone soa) (mr_new dat)) as [a r']. destruct H as [H|[_ H]]; auto. right.
  destruct (notify_read_spec _ _ H) as [H0 H1]. destruct soa as [rs|].
  - destruct H1 as (rs' & A & ->); [reflexivity|]. cbn in A. injection A as <-. destruct (S0 rs eq_refl) as (_ & -> & _). reflexivity.
  - rewrite H0; [reflexivity|]. cbn. discriminate.
Qed.

Lemma retain_mut_asked : forall S (f : S -> rrset -> bool * S) l st, exists ds, asked f st l ds (snd (retain_mut f st l)) /\
  fst (retain_mut f st l) = kept_by l ds.
Proof.
  induction l as [|x l IH]; intros st; [exists []; split; [constructor|reflexivity]|]. cbn [retain_mut]. destruct (f st x) as [b st1] eqn:E.
  destruct (IH st1) as (ds & A & B). destruct (retain_mut f st1 l) as [k st2]. cbn [fst snd] in *. exists (b :: ds). split; [econstructor; eauto|].
  rewrite B. destruct b; reflexivity.
Qed.
Lemma asked_fun : forall S (f : S -> rrset -> bool * S) l st ds st' ds' st'', asked f st l ds st' -> asked f st l ds' st'' -> ds = ds' /\ st' = st''.
Proof.
  intros S f l st ds st' ds' st'' H. revert ds' st''. induction H as [st|st x l b st1 ds st2 E H IH]; intros ds' st'' H'; inversion H'; subst; auto.
  match goal with X : f st x = _ |- _ => rewrite E in X; injection X as <- <- end. match goal with X : asked f st1 l _ _ |- _ => destruct (IH _ _ X) as [-> ->] end. auto.
Qed.
Lemma remove_mut_exact : forall S (f : S -> rrset -> bool * S) r s st l ds st', get_section r s = Some l -> asked f st l ds st' ->
  remove_rrset_by_mut r s f st = (put_section r s (Some (kept_by l ds)), st').
Proof.
  intros S f r s st l ds st' G A. unfold remove_rrset_by_mut. rewrite G. destruct (retain_mut_asked S f l st) as (ds' & A' & K).
  destruct (asked_fun _ _ _ _ _ _ _ _ A A') as [-> ->]. destruct (retain_mut f st l) as [k st2]. cbn [fst snd] in *. subst k. reflexivity.
Qed.
Lemma remove_mut_total : forall S (f : S -> rrset -> bool * S) l st, exists ds st', asked f st l ds st' /\ length ds = length l.
Proof.
  induction l as [|x l IH]; intros st; [exists [], st; split; [constructor|reflexivity]|]. destruct (f st x) as [b st1] eqn:E. destruct (IH st1) as (ds & st' & A & L).
  exists (b :: ds), st'. split; [econstructor; eauto|cbn; congruence].
Qed.
Lemma remove_mut_pure : forall (f : rrset -> bool) r s, fst (remove_rrset_by_mut r s (fun (st : unit) x => (f x, st)) tt) = remove_rrset_by r s f.
Proof.
  intros f r s. unfold remove_rrset_by_mut, remove_rrset_by. destruct (get_section r s) as [l|]; [|reflexivity].
  assert (H : forall l st, fst (retain_mut (fun (st : unit) x => (f x, st)) st l) = filter (fun x => negb (f x)) l).
  { induction l0 as [|x l0 IH]; intros st; [reflexivity|]. cbn [retain_mut filter]. specialize (IH st). destruct (retain_mut _ st l0). cbn [fst] in *. rewrite IH. reflexivity. }
  specialize (H l tt). destruct (retain_mut _ tt l). cbn [fst] in *. rewrite H. reflexivity.
Qed.

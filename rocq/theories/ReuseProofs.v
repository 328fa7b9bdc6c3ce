(** One renderer for many messages (C120). *)
From Verif Require Import Base NameModel RenderModel CodesModel RDataModel MsgModel SpecName SpecBuf SpecCodes SpecMsg SpecAnyCalls SpecStale SpecReuse
  BaseLemmas BitLemmas NameWireProofs NameOpsProofs RenderProofs BufProofs CodesProofs RDataProofs MsgProofs7 AnyCallsProofs StaleProofs.

Definition keeps (n : nat) {A} (m : M render A) : Prop := forall r, weak n r -> weak n (snd (m r)).
Lemma keeps_step : forall n m, step_ok n m -> keeps n m.
Proof. intros n m H r W. destruct (H r W) as (a & r' & E & W' & _). rewrite E. exact W'. Qed.
Lemma keeps_ret : forall n A (a : A), keeps n (ret a).
Proof. intros n A a r W. exact W. Qed.
Lemma keeps_lift : forall n A (a : res A), keeps n (lift a).
Proof. intros n A a r W. exact W. Qed.
Lemma keeps_length : forall n, keeps n mr_length.
Proof. intros n r W. exact W. Qed.
Lemma keeps_bind : forall n A B (m : M render A) (k : A -> M render B), keeps n m -> (forall a, keeps n (k a)) -> keeps n (bind m k).
Proof.
  intros n A B m k H1 H2 r W. unfold bind. pose proof (H1 r W) as W1. destruct (m r) as [[a| | |] r1]; cbn [snd] in *; auto. apply H2. exact W1.
Qed.
Lemma keeps_unwrap : forall n A (m : M render A), keeps n m -> keeps n (unwrap m).
Proof. intros n A m H r W. unfold unwrap. specialize (H r W). destruct (m r) as [[a| | |] r1]; exact H. Qed.
Lemma keeps_call : forall n o, any_typed o -> keeps n (any_call o).
Proof. intros n o T. apply keeps_step, any_step_ok, T. Qed.
Lemma keeps_u8 : forall n d, (d < 256)%N -> keeps n (mr_write_u8 d).
Proof. intros n d H. apply (keeps_call n (ACall (M8 d))). exact H. Qed.
Lemma keeps_u16 : forall n d, keeps n (mr_write_u16 d).
Proof.
  intros n d. apply keeps_step. apply (write_if_ok n (be16 d) (fun b => ob_len b + 2 <=? ob_capacity b)); [apply be16_bytes|]. intros b L G. apply Nat.leb_le in G. unfold ob_capacity in G. cbn. lia.
Qed.
Lemma keeps_u16_at : forall n p d, keeps n (mr_write_u16_at p d).
Proof. intros n p d. apply keeps_step. apply (patch_if_ok n p (be16 d) (fun b => p + 2 <=? ob_len b)); [apply be16_bytes|]. intros b G. apply Nat.leb_le in G. cbn. lia. Qed.
Lemma keeps_u32 : forall n d, keeps n (mr_write_u32 d).
Proof.
  intros n d. apply keeps_step. apply (write_if_ok n (be32 d) (fun b => ob_len b + 4 <=? ob_capacity b)); [apply be32_bytes|]. intros b L G. apply Nat.leb_le in G. unfold ob_capacity in G. cbn. lia.
Qed.
Lemma keeps_bytes : forall n l, bytes l -> keeps n (mr_write_bytes l).
Proof. intros n l H. apply (keeps_call n (ACall (MBytes l))). exact H. Qed.
Lemma keeps_name : forall n nm c, wf_name nm -> keeps n (write_name nm c).
Proof. intros n nm c (ls & W & ->). apply (keeps_call n (ACall (MName ls c))). exact W. Qed.
Lemma keeps_mapM : forall n A (f : A -> M render unit) l, (forall x, In x l -> keeps n (f x)) -> keeps n (mapM_ f l).
Proof.
  intros n A f l. induction l as [|x l IH]; intros H; cbn [mapM_]; [apply keeps_ret|]. apply keeps_bind; [apply H; left; auto|]. intros _. apply IH. intros y Hy. apply H. right. auto.
Qed.
Lemma keeps_string : forall n d, bytes d -> keeps n (byte_binary_to_wire d).
Proof.
  intros n d B. unfold byte_binary_to_wire. apply keeps_bind; [apply keeps_u8; unfold as_u8; apply N.mod_lt; discriminate|]. intros _. apply keeps_bytes; auto.
Qed.
Lemma keeps_field : forall n k v, wf_field k v -> keeps n (field_to_wire v).
Proof.
  intros n k v W. assert (O8 : forall o, bytes o -> keeps n (mapM_ mr_write_u8 o)).
  { intros o B. apply keeps_mapM. intros x Hx. apply keeps_u8. unfold bytes in B. rewrite Forall_forall in B. apply B. exact Hx. }
  destruct k, v; cbn [wf_field] in W; try (destruct W; fail); cbn [field_to_wire].
  - apply O8, W.
  - apply O8, W.
  - apply keeps_name; auto.
  - apply keeps_u8; auto.
  - apply keeps_u16.
  - apply keeps_u32.
  - apply keeps_u16.
  - apply keeps_mapM. intros x Hx. apply keeps_string. rewrite Forall_forall in W. apply W. exact Hx.
  - apply keeps_string, W.
  - apply keeps_bytes; auto.
Qed.
Lemma keeps_rdata : forall n t rd, wf_rdata t rd -> keeps n (rdata_to_wire rd).
Proof.
  intros n t rd (_ & ks & _ & F). unfold rdata_to_wire. induction F as [|k v ks vs W F IH]; cbn [mapM_]; [apply keeps_ret|]. apply keeps_bind; [eapply keeps_field; eauto|]. intros _. exact IH.
Qed.
Lemma keeps_rrset : forall n rs, rrset_ok rs -> keeps n (rrset_to_wire rs).
Proof.
  intros n rs (Wn & _ & _ & _ & F & _).
  assert (P : keeps n (rr_prefix_to_wire rs)).
  { unfold rr_prefix_to_wire. apply keeps_bind; [apply keeps_name; auto|]. intros _. apply keeps_bind; [apply keeps_u16|]. intros _. apply keeps_bind; [apply keeps_u16|]. intros _. apply keeps_u32. }
  unfold rrset_to_wire. destruct (rs_rdatas rs) as [|d ds] eqn:E.
  - apply keeps_bind; [exact P|]. intros _. apply keeps_u16.
  - rewrite <- E in *. apply keeps_mapM. intros rd Hin. rewrite Forall_forall in F. destruct (F rd Hin) as [Wd _]. unfold rr_to_wire.
    apply keeps_bind; [exact P|]. intros _. apply keeps_bind; [apply keeps_length|]. intros pos. apply keeps_bind; [apply (keeps_call n (ACall (MSkip 2))); exact Logic.I|]. intros _.
    apply keeps_bind; [eapply keeps_rdata; eauto|]. intros _. apply keeps_bind; [apply keeps_length|]. intros len. apply keeps_bind; [apply keeps_lift|]. intros q.
    apply keeps_bind; [apply keeps_lift|]. intros rl. apply keeps_u16_at.
Qed.
Lemma keeps_header : forall n h, keeps n (header_to_wire h).
Proof. intros n h. unfold header_to_wire. repeat (apply keeps_bind; [apply keeps_u16|intros _]). apply keeps_u16. Qed.
Lemma keeps_question : forall n q, question_ok q -> keeps n (question_to_wire q).
Proof. intros n q (W & _). unfold question_to_wire. apply keeps_bind; [apply keeps_name; auto|]. intros _. apply keeps_bind; [apply keeps_u16|]. intros _. apply keeps_u16. Qed.
Lemma keeps_truncate : forall n r pos, keeps n (response_truncate r pos).
Proof.
  intros n r pos. unfold response_truncate. repeat (apply keeps_bind; [apply keeps_unwrap, keeps_u16_at|intros _]). apply keeps_unwrap. apply (keeps_call n (ATruncate pos)). exact Logic.I.
Qed.
Lemma keeps_sections : forall n r pos ss, (forall l rs, In (Some l) ss -> In rs l -> rrset_ok rs) -> keeps n (sections_to_wire r pos ss).
Proof.
  intros n r pos. induction ss as [|s ss IH]; intros H; cbn [sections_to_wire]; [apply keeps_ret|]. intros q W.
  assert (S : keeps n (section_to_wire s)).
  { destruct s as [l|]; cbn [section_to_wire]; [|apply keeps_ret]. apply keeps_mapM. intros rs Hin. apply keeps_rrset. eapply H; [left; reflexivity|exact Hin]. }
  pose proof (S q W) as W1. destruct (section_to_wire s q) as [[a| | |] q1]; cbn [snd] in *; auto.
  - apply IH; auto. intros l rs Hl. apply H. right. exact Hl.
  - apply (keeps_bind n _ _ (response_truncate r pos) (fun _ => ret (Some pos))); [apply keeps_truncate|intros _; apply keeps_ret|exact W1].
Qed.
Lemma keeps_response : forall n r, consistent r -> keeps n (response_to_wire r).
Proof.
  intros n r (_ & _ & Q & (_ & S1) & (_ & S2) & (_ & S3)). unfold response_to_wire. apply keeps_bind; [apply keeps_header|]. intros _. apply keeps_bind; [apply keeps_question; auto|]. intros _.
  apply keeps_bind; [apply keeps_length|]. intros pos. apply keeps_bind.
  - apply keeps_sections. intros l rs Hl Hin. destruct Hl as [E|[E|[E|[]]]]; rewrite E in *; [destruct S1 as (_ & F & _)|destruct S2 as (_ & F & _)|destruct S3 as (_ & F & _)];
      rewrite Forall_forall in F; apply F; exact Hin.
  - intros [k|]; [apply keeps_ret|apply keeps_length].
Qed.
Lemma keeps_request : forall n q, question_ok (rq_question q) -> keeps n (request_to_wire q).
Proof.
  intros n q Q. unfold request_to_wire. apply keeps_bind; [apply keeps_header|]. intros _. apply keeps_bind; [apply keeps_question; auto|]. intros _. apply keeps_length.
Qed.
Lemma after_weak : forall n us r, weak n r -> Forall use_typed us -> weak n (after_uses us r).
Proof.
  intros n. unfold after_uses. induction us as [|u us IH]; intros r W F; [exact W|]. inversion F; subst. cbn [fold_left]. apply IH; auto.
  destruct u as [o|x|q]; cbn [use_effect use_typed] in *; [apply keeps_call|apply keeps_response|apply keeps_request]; auto.
Qed.
Lemma reuse_reset : forall dat us, bytes dat -> Forall use_typed us ->
  exists dat', bytes dat' /\ length dat' = length dat /\ mr_reset (after_uses us (mr_new dat)) = (Ok tt, mr_new dat').
Proof.
  intros dat us B F. pose proof (after_weak (length dat) us (mr_new dat) (weak_new dat B) F) as W.
  exists (ob_data (mr_buf (after_uses us (mr_new dat)))). split; [apply W|]. split; [apply W|]. exact (reset_weak _ _ W).
Qed.
Lemma reuse_response : forall dat us x, bytes dat -> Forall use_typed us -> consistent x ->
  same_writing (response_to_wire x (snd (mr_reset (after_uses us (mr_new dat))))) (response_to_wire x (mr_new dat)).
Proof. intros dat us x B F C. destruct (reuse_reset dat us B F) as (d & Bd & L & ->). apply stale_response; auto. Qed.
Lemma reuse_request : forall dat us q, bytes dat -> Forall use_typed us -> question_ok (rq_question q) ->
  same_writing (request_to_wire q (snd (mr_reset (after_uses us (mr_new dat))))) (request_to_wire q (mr_new dat)).
Proof. intros dat us q B F C. destruct (reuse_reset dat us B F) as (d & Bd & L & ->). apply stale_request; auto. Qed.

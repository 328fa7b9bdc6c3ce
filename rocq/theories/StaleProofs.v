(** What a buffer held before does not show in what is written into it (C119). *)
From Verif Require Import Base NameModel RenderModel CodesModel RDataModel MsgModel SpecName SpecBuf SpecCodes SpecMsg SpecStale
  BaseLemmas BitLemmas NameWireProofs NameOpsProofs NameOpsProofs2 RenderProofs RenderProofs2 BufProofs LiveProofs CodesProofs WireProofs
  RDataProofs DecodeProofs MsgProofs MsgProofs2 MsgProofs3 MsgProofs4 MsgProofs5 MsgProofs6 MsgProofs7 IndepProofs FirstProofs FitProofs MsgProofs8 BuildProofs.

Lemma agree_sym : forall m r r2, agree m r r2 -> agree m r2 r.
Proof. intros m r r2 (A & B & C & D & E). repeat split; auto. Qed.
Lemma agree_new : forall dat dat2, agree (fun _ => false) (mr_new dat) (mr_new dat2).
Proof. intros dat dat2. split; [reflexivity|]. split; [|auto]. intros i. reflexivity. Qed.
Lemma agree_bytes : forall r r2, inv (fun _ => false) r -> inv (fun _ => false) r2 -> agree (fun _ => false) r r2 -> mr_bytes r = mr_bytes r2.
Proof.
  intros r r2 I I2 (Al & Ar & _). apply nth_error_ext. intros i. destruct (Nat.lt_ge_cases i (mr_len r)).
  - specialize (Ar i). unfold rdm in Ar. rewrite <- Al in Ar. replace (i <? mr_len r) with true in Ar by (symmetry; apply Nat.ltb_lt; auto).
    unfold mr_bytes, ob_bytes. rewrite !nth_firstn; auto. change (i < mr_len r2). lia.
  - transitivity (@None N); [|symmetry]; apply nth_error_None; [rewrite (mr_bytes_len _ _ I)|rewrite (mr_bytes_len _ _ I2)]; lia.
Qed.
(** A writer that succeeds in one buffer succeeds in the other. *)
Lemma simple_same : forall w, simple w -> forall dat dat2, bytes dat -> bytes dat2 -> length dat = length dat2 ->
  (fst (w (mr_new dat)) = Ok tt \/ fst (w (mr_new dat)) = Err) /\
  fst (w (mr_new dat)) = fst (w (mr_new dat2)) /\
  (fst (w (mr_new dat)) = Ok tt -> mr_bytes (snd (w (mr_new dat))) = mr_bytes (snd (w (mr_new dat2))) /\ mr_len (snd (w (mr_new dat))) = mr_len (snd (w (mr_new dat2)))).
Proof.
  intros w ((P & Em) & Si) dat dat2 B B2 L.
  pose proof (inv_new dat B) as I. pose proof (inv_new dat2 B2) as I2. pose proof (Em _ _ I) as X. pose proof (Em _ _ I2) as X2.
  pose proof (Si _ _ _ (snd (w (mr_new dat))) I I2 (agree_new dat dat2)) as S1. pose proof (Si _ _ _ (snd (w (mr_new dat2))) I2 I (agree_sym _ _ _ (agree_new dat dat2))) as S2.
  destruct (w (mr_new dat)) as [a r1]. destruct (w (mr_new dat2)) as [a2 r2]. cbn [fst snd] in *.
  destruct X as ((_ & C1 & _) & J1 & A1). destruct X2 as ((_ & C2 & _) & J2 & A2).
  pose proof (inv_len _ _ J1) as L1. pose proof (inv_len _ _ J2) as L2. rewrite C1 in L1. rewrite C2 in L2.
  change (cap (mr_new dat)) with (length dat) in *. change (cap (mr_new dat2)) with (length dat2) in *.
  destruct a as [[]| | |]; try contradiction.
  - split; [auto|]. destruct (S1 eq_refl ltac:(lia)) as (r' & E & Ag). injection E as -> ->. split; auto. intros _. split; [apply agree_bytes; auto|apply Ag].
  - split; [auto|]. destruct a2 as [[]| | |]; try contradiction; [|split; [auto|discriminate]]. destruct (S2 eq_refl ltac:(lia)) as (r' & E & _). discriminate E.
Qed.
Lemma then_len : forall w dat dat2, simple w -> bytes dat -> bytes dat2 -> length dat = length dat2 ->
  same_writing ((w ;; mr_length) (mr_new dat)) ((w ;; mr_length) (mr_new dat2)).
Proof.
  intros w dat dat2 S B B2 L. destruct (simple_same w S dat dat2 B B2 L) as (A & E & H). unfold bind, same_writing.
  destruct (w (mr_new dat)) as [a r1]. destruct (w (mr_new dat2)) as [a2 r2]. cbn [fst snd] in *. subst a2.
  destruct A as [-> | ->]; cbn [fst snd].
  - destruct (H eq_refl) as [Hb Hl]. unfold mr_length. cbn [fst snd]. rewrite Hl. split; auto.
  - split; [reflexivity|]. intros n X. discriminate X.
Qed.
Lemma stale_request : forall dat dat2 rq, bytes dat -> bytes dat2 -> length dat = length dat2 -> question_ok (rq_question rq) ->
  same_writing (request_to_wire rq (mr_new dat)) (request_to_wire rq (mr_new dat2)).
Proof.
  intros dat dat2 rq B B2 L Q.
  assert (E : forall d, request_to_wire rq d = ((header_to_wire (rq_header rq) ;; question_to_wire (rq_question rq)) ;; mr_length) d) by (intros d; rewrite bind_assoc; reflexivity).
  rewrite !E. apply then_len; auto. apply simple_then; [apply simple_header|apply simple_question; [exact Q|apply name_all_known]].
Qed.
Lemma stale_notify : forall dat dat2 rnd zone soa, bytes dat -> bytes dat2 -> length dat = length dat2 -> (rnd < 65536)%N -> wf_name zone ->
  (forall rs, soa = Some rs -> rrset_ok rs /\ rs_type rs = TSOA /\ length (rs_rdatas rs) = 1) ->
  same_writing (notify_to_wire (notify_new rnd zone soa) (mr_new dat)) (notify_to_wire (notify_new rnd zone soa) (mr_new dat2)).
Proof.
  intros dat dat2 rnd zone soa B B2 L R Z S0. rewrite !notify_body. apply then_len; auto. apply simple_body. apply notify_consistent; auto.
Qed.
Lemma stale_response : forall dat dat2 r, bytes dat -> bytes dat2 -> length dat = length dat2 -> consistent r ->
  same_writing (response_to_wire r (mr_new dat)) (response_to_wire r (mr_new dat2)).
Proof.
  intros dat dat2 r B B2 L Co. destruct (simple_same _ (simple_body r Co) dat dat2 B B2 L) as (_ & E & H).
  pose proof (response_render all_names dat r B Co (response_known_all r)) as R. pose proof (response_render all_names dat2 r B2 Co (response_known_all r)) as R2.
  destruct (panic_window r Co) as (k & _ & _ & W). pose proof (W dat B) as W1. pose proof (W dat2 B2) as W2. rewrite <- L in W2. clear W.
  unfold same_writing. rewrite <- L in R2.
  destruct (response_to_wire r (mr_new dat)) as [a r1] eqn:E1. destruct (response_to_wire r (mr_new dat2)) as [a2 r2] eqn:E2. cbn [fst snd] in *.
  destruct (head_size r <=? length dat); [|subst; split; [auto|discriminate]].
  assert (Whole : fst (body_to_wire r (mr_new dat)) = Ok tt -> a = a2 /\ forall n, a = Ok n -> mr_bytes r1 = mr_bytes r2).
  { intros X. destruct (H X) as [Hb Hl]. rewrite X in E. destruct (body_to_wire r (mr_new dat)) as [b s] eqn:Eb. destruct (body_to_wire r (mr_new dat2)) as [b2 s2] eqn:Eb2.
    cbn [fst snd] in *. subst b b2. apply body_render in Eb, Eb2. rewrite E1 in Eb. rewrite E2 in Eb2. injection Eb as -> ->. injection Eb2 as -> ->. rewrite Hl. split; auto. }
  assert (Panics : a = Panic <-> a2 = Panic) by tauto.
  destruct R as [(_ & C & _)|(_ & [(Ea & _ & Eb)|Ea])]; [apply Whole; rewrite C; reflexivity| |].
  - destruct R2 as [(_ & C & _)|(_ & [(Ea2 & _ & Eb2)|Ea2])]; [apply Whole; rewrite E, C; reflexivity| |].
    + subst a a2. split; [reflexivity|]. intros _ _. rewrite Eb, Eb2. reflexivity.
    + apply Panics in Ea2. congruence.
  - rewrite (proj1 Panics Ea), Ea. split; [reflexivity|]. intros n X. discriminate X.
Qed.
(** Sequences of writer calls. *)
Lemma simple_call : forall o, mop_ok [] o -> writes_only o -> simple (mop_call o).
Proof.
  intros o T W. destruct o; cbn [mop_call mop_ok writes_only] in *; try contradiction.
  - apply simple_name; [eexists; split; eauto|apply name_all_known].
  - apply simple_u8; auto.
  - apply simple_u16.
  - apply simple_u32.
  - apply simple_bytes; auto.
Qed.
Lemma simple_calls : forall os, Forall (mop_ok []) os -> Forall writes_only os -> simple (mapM_ mop_call os).
Proof.
  induction os as [|o os IH]; intros T W; cbn [mapM_]; [apply simple_ret|]. inversion T; inversion W; subst. apply simple_then; [apply simple_call; auto|apply IH; auto].
Qed.
Lemma stale_calls : forall dat dat2 os, bytes dat -> bytes dat2 -> length dat = length dat2 -> Forall (mop_ok []) os -> Forall writes_only os ->
  same_writing ((mapM_ mop_call os ;; mr_length) (mr_new dat)) ((mapM_ mop_call os ;; mr_length) (mr_new dat2)).
Proof. intros dat dat2 os B B2 L T W. apply then_len; auto. apply simple_calls; auto. Qed.

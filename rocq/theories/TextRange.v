(** What parses is in range exactly if names have at most 255 octets and length-prefixed binaries fit their length octet. *)
From Coq Require Import String.
From Verif Require Import Base BaseLemmas NameModel RenderModel CodesModel RDataModel MsgModel TextModel SpecName SpecBuf SpecCodes SpecMsg SpecText SpecApi SpecEsc SpecCtor
  NameOpsProofs CodesProofs TextProofs TextProofs2 TextProofs3 TextProofs4 TextProofs5 TextProofs6 TextProofs7.
From Verif Require EscProofs.
Open Scope list_scope.
Open Scope nat_scope.

Lemma opt_cons_some : forall b o l, opt_cons b o = Some l -> exists l', o = Some l' /\ l = b :: l'.
Proof. intros b [l'|] l H; [|discriminate]. inversion H. eauto. Qed.
Lemma esc_bytes : forall n closed t l, length t <= n -> bytes t -> esc_octets closed t = Some l -> bytes l.
Proof.
  induction n as [|n IH]; intros closed t l L B E.
  - destruct t; [inversion E; constructor|cbn in L; lia].
  - destruct t as [|c t1]; [inversion E; constructor|]. cbn [esc_octets] in E. cbn [length] in L. apply Forall_cons_iff in B as [Bc B]. destruct (c =? 92)%N.
    + destruct t1 as [|x t2]; [destruct closed; inversion E; repeat constructor|]. cbn [length] in L. pose proof B as B'. apply Forall_cons_iff in B' as [Bx B2]. destruct (dec_digit x).
      * destruct t2 as [|y [|z t3]]; try discriminate. destruct (_ && _); [|discriminate]. apply opt_cons_some in E as (l' & E & ->).
        apply Forall_cons_iff in B2 as [By B2]. apply Forall_cons_iff in B2 as [Bz B2]. cbn [length] in L. constructor; [exact Bz|]. eapply IH; [|exact B2|exact E]. lia.
      * apply opt_cons_some in E as (l' & E & ->). constructor; [exact Bx|]. eapply IH; [|exact B|exact E]. cbn [length]. lia.
    + apply opt_cons_some in E as (l' & E & ->). constructor; [exact Bc|]. eapply IH; [|exact B|exact E]. lia.
Qed.
Lemma label_reading_bytes : forall closed t l, bytes t -> label_reading closed t = Some l -> bytes l.
Proof.
  intros closed t l B E. unfold label_reading in E. destruct (_ =? 92)%N.
  - apply opt_cons_some in E as (l' & E & ->). constructor; [reflexivity|]. eapply esc_bytes; [apply le_n|exact B|exact E].
  - eapply esc_bytes; [apply le_n|exact B|exact E].
Qed.
Lemma pieces_bytes : forall ps ls, Forall bytes ps -> pieces_reading ps = Some ls -> Forall bytes ls.
Proof.
  induction ps as [|p ps IH]; intros ls F E; [inversion E; constructor|]. apply Forall_cons_iff in F as [Fp F]. destruct ps as [|p' ps].
  - cbn [pieces_reading] in E. destruct p as [|c p]; [inversion E; constructor|]. destruct (label_reading false (c :: p)) as [l|] eqn:El; [|discriminate]. inversion E; subst.
    constructor; [eapply label_reading_bytes; [exact Fp|exact El]|constructor].
  - change (match label_reading true p, pieces_reading (p' :: ps) with Some l, Some ls => Some (l :: ls) | _, _ => None end = Some ls) in E.
    destruct (label_reading true p) as [l|] eqn:El; [|discriminate]. destruct (pieces_reading (p' :: ps)) as [ls'|] eqn:Es; [|discriminate]. inversion E; subst.
    constructor; [eapply label_reading_bytes; [exact Fp|exact El]|apply IH; [exact F|reflexivity]].
Qed.
Lemma split_bytes : forall s, bytes s -> Forall bytes (split_dots s).
Proof.
  induction s as [|c s IH]; intros B; cbn [split_dots]; [repeat constructor|]. apply Forall_cons_iff in B as [Bc B]. specialize (IH B). destruct (c =? 46)%N; [constructor; [constructor|exact IH]|].
  destruct (split_dots s) as [|l ls]; [repeat constructor; exact Bc|]. apply Forall_cons_iff in IH as [Il IH]. constructor; [constructor; [exact Bc|exact Il]|exact IH].
Qed.
Lemma reading_bytes : forall s ls, bytes s -> text_reading s = Some ls -> Forall bytes ls.
Proof.
  intros s ls B E. unfold text_reading in E. destruct s as [|c s]; [discriminate|]. destruct (list_eq_dec _ _ _); [inversion E; constructor|].
  destruct (list_eq_dec _ _ _); [inversion E; constructor|]. eapply pieces_bytes; [|exact E]. apply split_bytes. exact B.
Qed.
(** Every text that [Name::new] accepts gives proper labels; only the total length may be one too long. *)
Theorem name_new_sized : forall s n, bytes s -> name_new s = Ok n -> length (n_raw n) <= 255 -> wf_name n.
Proof.
  intros s n B E L. destruct (EscProofs.name_new_esc s) as [A C]. 
  assert (X : exists ls, esc_legal s ls) .
  { destruct (text_reading s) as [ls|] eqn:R.
    - destruct (Forall_dec (fun l : list N => 1 <= length l <= 63) (fun l => ltac:(destruct (le_dec 1 (length l)); [destruct (le_dec (length l) 63); [left; lia|right; lia]|right; lia])) ls) as [F|F].
      + destruct (le_dec (wire_len ls) 255) as [W|W]; [exists ls; split; [exact R|split; [exact F|left; exact W]]|].
        destruct (Nat.eq_dec (wire_len ls) 256) as [W2|W2]; [|exfalso; assert (name_new s = Err) by (apply C; intros ls' (R' & _ & [H|[H _]]); rewrite R in R'; inversion R'; subst ls'; lia); congruence].
        destruct (ends_escaped (split_dots s)) eqn:Ee; [exists ls; split; [exact R|split; [exact F|right; split; [exact W2|exact Ee]]]|].
        exfalso. assert (name_new s = Err); [|congruence]. apply C. intros ls' (R' & _ & [H|[_ H]]); rewrite R in R'; inversion R'; subst ls'; [lia|congruence].
      + exfalso. assert (name_new s = Err); [|congruence]. apply C. intros ls' (R' & F' & _). rewrite R in R'. inversion R'; subst ls'. contradiction.
    - exfalso. assert (name_new s = Err); [|congruence]. apply C. intros ls' (R' & _). congruence. }
  destruct X as (ls & X). rewrite (A ls X) in E. inversion E; subst n. exists ls. split; [|reflexivity]. destruct X as (R & F & _). split; [|exact L].
  pose proof (reading_bytes s ls B R) as Bl. rewrite Forall_forall in *. intros l I. split; [apply F, I|apply Bl, I].
Qed.

Definition sized_wf (n : name) : Prop := length (n_raw n) <= 255 -> wf_name n.
Lemma parsed_sized : forall rs, parsed_rrset (fun c => (c < 256)%N) rs -> Forall sized_wf (set_names rs).
Proof.
  intros rs ((s & F & E) & _ & _ & _ & rd & Er & (_ & _ & ks & _ & F2)). constructor; [intros L; eapply name_new_sized; eauto|]. rewrite Er. cbn [flat_map]. rewrite app_nil_r. clear - F2.
  induction F2 as [|k v ks vs Pf F IH]; cbn [flat_map]; [constructor|]. apply Forall_app. split; [|exact IH].
  destruct v; cbn [field_names]; try constructor; [|constructor]. destruct k; cbn [parsed_field wf_field] in Pf; try contradiction. destruct Pf as (s & Fs & E). intros L. eapply name_new_sized; eauto.
Qed.
Lemma ok_short : forall rs, rrset_ok rs -> short_names rs /\ short_binaries rs.
Proof.
  intros rs (W & _ & _ & _ & F & _). split.
  - constructor; [destruct W as (ls & (_ & Wl) & ->); exact Wl|]. apply Forall_forall. intros n I. apply in_flat_map in I as (rd & I1 & I2). rewrite Forall_forall in F. destruct (F rd I1) as ((_ & ks & _ & F2) & _).
    apply in_flat_map in I2 as (v & I2 & I3). clear - F2 I2 I3. induction F2 as [|k v' ks vs Hf F2 IH]; [destruct I2|]. destruct I2 as [->|I2]; [|auto].
    destruct v; cbn [field_names] in I3; try destruct I3; [|contradiction]. subst. destruct k; cbn [wf_field] in Hf; try contradiction. destruct Hf as (ls & (_ & Wl) & ->). exact Wl.
  - intros rd d I1 I2. rewrite Forall_forall in F. destruct (F rd I1) as ((_ & ks & _ & F2) & _). clear - F2 I2. induction F2 as [|k v' ks vs Hf F2 IH]; [destruct I2|]. destruct I2 as [->|I2]; [|auto].
    destruct k; cbn [wf_field] in Hf; try contradiction. apply Hf.
Qed.
Lemma short_wf : forall rs, Forall sized_wf (set_names rs) -> short_names rs -> Forall wf_name (set_names rs).
Proof. intros rs A B. unfold short_names in B. rewrite Forall_forall in *. intros n I. apply A; auto. Qed.
Theorem from_str_exact : forall md x s rs, ext_range x -> str s -> rrset_from_str md x s = Ok rs -> (rrset_ok rs <-> short_names rs /\ short_binaries rs).
Proof.
  intros md x s rs X St E. split; [apply ok_short|]. intros [Nm Sh]. eapply from_str_ok; eauto. left. apply short_wf; [|exact Nm]. apply parsed_sized.
  exact (from_str_parsed (fun c => (c < 256)%N) (fun c H => H) md x s rs X (proj1 St) (proj2 St) E).
Qed.
Theorem from_strs_exact : forall md x ss rs, ext_range x -> Forall str ss -> rrset_from_strs md x ss = Ok rs -> (rrset_ok rs <-> short_names rs /\ short_binaries rs).
Proof.
  intros md x ss rs X St E. split; [apply ok_short|]. intros [Nm Sh]. eapply from_strs_rrset_ok; eauto. left. apply short_wf; [|exact Nm].
  destruct ss as [|s0 ss]; [discriminate|]. destruct (proj1 (from_strs_ok md x (s0 :: ss) rs ltac:(discriminate)) E) as (sets & r0 & F2 & E0 & _ & _ & ->).
  assert (Pz : forall r, In r sets -> Forall sized_wf (set_names r)).
  { clear - F2 X St. induction F2 as [|a b la lb H F IH]; intros r I; [destruct I|]. apply Forall_cons_iff in St as [Sa St]. destruct I as [<-|I]; [|apply IH; assumption].
    apply parsed_sized. exact (from_str_parsed (fun c => (c < 256)%N) (fun c H => H) md x a b X (proj1 Sa) (proj2 Sa) H). }
  unfold set_names. cbn [rs_name rs_rdatas]. constructor; [apply nth_error_In in E0; specialize (Pz r0 E0); apply Forall_inv in Pz; exact Pz|].
  apply Forall_forall. intros n I. apply in_flat_map in I as (rd & I1 & I2). apply in_flat_map in I1 as (r & Ir & I1). specialize (Pz r Ir). apply Forall_inv_tail in Pz. rewrite Forall_forall in Pz. apply Pz.
  apply in_flat_map. exists rd. split; assumption.
Qed.

(** Proofs about names written without compression (C100, C95). *)
From Verif Require Import Base NameModel RenderModel CodesModel RDataModel MsgModel TextModel DeriveModel SpecName SpecBuf
  BaseLemmas BitLemmas NameWireProofs NameOpsProofs RenderProofs RenderProofs2 BufProofs LiveProofs MsgProofs5.

Lemma search_plain : forall k nm lu level r, fst (wn_search k false nm lu level r) <> Err.
Proof.
  induction k as [|k IH]; intros nm lu level r; cbn [wn_search]; [discriminate|]. unfold bind at 1, lift at 1. unfold nr_is_root.
  destruct (_ <? 256); [|discriminate]. destruct (_ =? _)%N; [discriminate|].
  unfold bind at 1, lift at 1. unfold nr_hash, nr_raw.
  assert (X : forall A (l : list A) i, idx l i <> Err) by (intros A l i; unfold idx; destruct (nth_error l i); discriminate).
  pose proof (X N (n_offsets (nr_name (mkRef (if 0 <? lu then level + 1 else level) nm))) (nr_level (mkRef (if 0 <? lu then level + 1 else level) nm))) as X0.
  destruct (idx _ _) as [o| | |]; cbn [rbind]; try discriminate; [|congruence].
  unfold slice. destruct (_ && _); cbn [rbind]; [|discriminate]. unfold bind at 1, modify_r. unfold upd_r. destruct (_ <? _); cbn [rbind]; [|discriminate]. apply IH.
Qed.
Lemma plain_exact : forall dat h r ls, bytes dat -> history (mr_new dat) h r -> wf_labels ls ->
  let (a, r') := write_name (name_of ls) false r in
  if mr_len r + wire_len ls <=? length dat then a = Ok tt /\ mr_bytes r' = mr_bytes r ++ enc ls else a = Err /\ mr_bytes r' = mr_bytes r.
Proof.
  intros dat h r ls B H F. destruct (history_inv dat h r B H) as [I _].
  assert (C : ob_capacity (mr_buf r) = length dat) by (eapply hist_capacity; eauto). rewrite <- C.
  pose proof (write_name_full ls false _ r F (fun s _ => Logic.I) I) as Full.
  pose proof (search_plain (length ls + 1) (name_of ls) 0 0 r) as NE.
  destruct (wn_search_top _ r ls false I F) as (a & r1 & S1 & (B1 & _ & _) & S3 & S4). rewrite S1 in *. cbn [fst] in *.
  unfold write_name in *. rewrite label_count_of in *. unfold bind at 1 in Full. unfold bind at 1. rewrite S1 in *.
  destruct a as [[lu off]| | |]; [|congruence|destruct S4|destruct S4]. cbn [negb orb andb] in *.
  unfold bind at 1, get at 1 in Full. unfold bind at 1, get at 1.
  change (n_raw (name_of ls)) with (enc ls) in *. unfold bind at 1 in Full. unfold bind at 1.
  assert (EB : bytes (enc ls)) by (apply enc_bytes; apply F).
  pose proof (on_buf_bytes (enc ls) r1 EB) as W. unfold mr_len in W at 1. rewrite B1 in W. specialize (W (inv_len _ _ I)).
  assert (EL : length (enc ls) = wire_len ls) by reflexivity. unfold mr_len in *. rewrite B1, EL in W.
  destruct (ob_len (mr_buf r) + wire_len ls <=? ob_capacity (mr_buf r)) eqn:Q.
  - destruct W as (r2 & E & Eb & El). rewrite E in *. unfold bind at 1, ret at 1 in Full. unfold bind at 1, ret at 1.
    destruct (wn_register lu 0 (ob_len (mr_buf r1)) (name_len (name_of ls)) r2) as [a3 r3] eqn:E3. destruct Full as (_ & _ & A3).
    pose proof (wn_register_buf _ _ _ _ _ _ _ E3) as B3. split.
    + destruct a3 as [[]| | |]; [reflexivity| |destruct A3|destruct A3]. destruct A3 as [A3|A3]; [congruence|]. apply Nat.leb_le in Q. lia.
    + unfold mr_bytes in *. rewrite B3, Eb, B1. reflexivity.
  - rewrite W in *. split; [reflexivity|]. unfold mr_bytes. rewrite B1. reflexivity.
Qed.

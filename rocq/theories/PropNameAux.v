From Coq Require String.
Import String.StringSyntax.
From Verif Require Import Base BaseLemmas NameModel SpecName SpecApi NameWireProofs NameOpsProofs NameOpsProofs2
  NameCmpProofs NameCmpProofs2 NameTextProofs NameTextProofs2 NameApiProofs.

Lemma aux_from_wire_total : forall w p, bytes w -> p <= length w ->
  exists r p', name_from_wire (mkIn w p) = (r, mkIn w p') /\ p' <= length w /\ safe r.
Proof.
  intros w p B L. destruct (from_wire_spec w p B L) as [(ls & e & _ & _ & X & E)|(_ & p' & X & E)].
  - exists (Ok (name_of ls)), e. split; auto. split; [lia|split; discriminate].
  - exists Err, p'. split; auto. split; auto. split; discriminate.
Qed.
Lemma aux_from_wire_exact : forall w p n p', bytes w -> p <= length w ->
  (name_from_wire (mkIn w p) = (Ok n, mkIn w p') <->
   exists ls, wname (rd_of w) p p ls p' /\ wire_len ls <= 255 /\ n = name_of ls).
Proof.
  intros w p n p' B L. split.
  - intros E. destruct (from_wire_spec w p B L) as [(ls & e & W & WL & X & E2)|(_ & q & X & E2)]; rewrite E2 in E; [|discriminate].
    injection E as <- <-. exists ls. auto.
  - intros (ls & W & WL & ->). apply from_wire_complete; auto.
Qed.

Definition x63 : list N := repeat 120%N 63.
Definition c03_text : list N := x63 ++ [46%N] ++ x63 ++ [46%N] ++ x63 ++ [46%N] ++ repeat 120%N 61 ++ [92; 46]%N.
Lemma aux_c03_text : exists s n, name_new s = Ok n /\ length (n_raw n) = 256.
Proof. exists c03_text. eexists. split; vm_compute; reflexivity. Qed.
Lemma no_root_not_wf : forall n, n_raw n <> [] -> (forall a, n_raw n <> a ++ [0%N]) -> ~ wf_name n.
Proof. intros n _ H (ls & _ & ->). apply (H (body ls)). reflexivity. Qed.
Lemma aux_c03_rel : exists a s n, into_label_sequence (name_of a) 0 0 = Ok s /\ wf_labels a /\
  seq_concat_all s [] = Ok n /\ ~ wf_name n.
Proof.
  exists [of_string "a"]. do 2 eexists. split; [vm_compute; reflexivity|]. split.
  { split; [repeat constructor; vm_compute; lia|vm_compute; lia]. }
  split; [vm_compute; reflexivity|]. apply no_root_not_wf; [discriminate|].
  intros a E. simpl in E. destruct a as [|? [|? [|]]]; discriminate.
Qed.
Lemma aux_c03_nul : exists a s n, into_label_sequence (name_of a) 0 0 = Ok s /\ wf_labels a /\
  is_absolute s = Ok true /\ seq_concat_all s [] = Ok n /\ ~ wf_name n.
Proof.
  exists [[97; 0]%N]. do 2 eexists. split; [vm_compute; reflexivity|]. split.
  { split; [repeat constructor; vm_compute; lia|vm_compute; lia]. }
  split; [vm_compute; reflexivity|]. split; [vm_compute; reflexivity|].
  intros (ls & [F _] & E). assert (E2 : [2; 97; 0]%N = enc ls) by (unfold name_of in E; congruence).
  destruct ls as [|l ls]; [discriminate|]. unfold enc in E2. simpl in E2. injection E2 as E2 E3.
  assert (length l = 2) by (unfold blen in E2; lia). destruct l as [|x [|y [|]]]; try discriminate.
  simpl in E3. injection E3 as _ _ E4. destruct ls; discriminate.
Qed.
Lemma enc_bytes : forall ls, Forall wf_label ls -> bytes (enc ls).
Proof.
  intros ls F. unfold enc. apply Forall_app. split; [|repeat constructor].
  induction F as [|l ls [A B] F IH]; [constructor|]. simpl. constructor; [unfold byte, blen; lia|]. apply Forall_app. auto.
Qed.
Lemma aux_raw_round_trip : forall ls pre post, wf_labels ls -> bytes pre -> bytes post ->
  name_from_wire (mkIn (pre ++ n_raw (name_of ls) ++ post) (length pre)) =
  (Ok (name_of ls), mkIn (pre ++ n_raw (name_of ls) ++ post) (length pre + name_len (name_of ls))).
Proof.
  intros ls pre post [F L] B1 B2. change (n_raw (name_of ls)) with (enc ls). change (name_len (name_of ls)) with (wire_len ls).
  apply from_wire_complete; auto.
  - unfold bytes. rewrite !Forall_app. split; auto. split; auto. apply enc_bytes; auto.
  - apply wname_enc; auto.
Qed.
Lemma aux_name_eq : forall a b, wf_labels a -> wf_labels b ->
  exists r, name_eq (name_of a) (name_of b) = Ok r /\ (r = true <-> same_name a b).
Proof. intros. eexists. split; [apply name_eq_spec; auto|]. apply same_nameb_true. Qed.
Lemma eq_true : forall a b, wf_labels a -> wf_labels b -> (name_eq (name_of a) (name_of b) = Ok true <-> same_name a b).
Proof. intros. rewrite name_eq_spec by auto. rewrite <- same_nameb_true. split; congruence. Qed.
Lemma aux_name_eq_equiv :
  (forall a, wf_name a -> name_eq a a = Ok true) /\
  (forall a b, wf_name a -> wf_name b -> name_eq a b = name_eq b a) /\
  (forall a b c, wf_name a -> wf_name b -> wf_name c -> name_eq a b = Ok true -> name_eq b c = Ok true -> name_eq a c = Ok true).
Proof.
  split; [|split].
  - intros a (ls & W & ->). apply eq_true; auto. reflexivity.
  - intros a b (la & WA & ->) (lb & WB & ->). rewrite !name_eq_spec by auto. f_equal.
    apply eq_true_iff_eq. rewrite !same_nameb_true. unfold same_name. split; congruence.
  - intros a b c (la & WA & ->) (lb & WB & ->) (lc & WC & ->). rewrite !eq_true by auto. unfold same_name. congruence.
Qed.
Lemma aux_hash : forall a b, wf_name a -> wf_name b -> (name_hash_bytes a = name_hash_bytes b <-> name_eq a b = Ok true).
Proof. intros a b (la & WA & ->) (lb & WB & ->). rewrite eq_true by auto. apply hash_spec; auto. Qed.
Lemma aux_canonical :
  (forall a b, canonical_cmp a b = Eq <-> same_name a b) /\
  (forall a b, canonical_cmp b a = CompOpp (canonical_cmp a b)) /\
  (forall a b c, canonical_cmp a b = Lt -> canonical_cmp b c = Lt -> canonical_cmp a c = Lt).
Proof. split; [exact canonical_eq|]. split; [exact canonical_opp|exact canonical_trans]. Qed.
Ltac wfl := split; [repeat constructor; vm_compute; lia|vm_compute; lia].
Lemma aux_c08 : (exists a b, wf_labels a /\ wf_labels b /\ name_cmp Debug (name_of a) (name_of b) = Panic) /\
  (exists a b c, wf_labels a /\ wf_labels b /\ wf_labels c /\
     name_cmp Release (name_of a) (name_of b) = Ok Lt /\ name_cmp Release (name_of b) (name_of c) = Ok Lt /\
     name_cmp Release (name_of c) (name_of a) = Ok Lt).
Proof.
  split.
  - exists [[128%N]], [[1%N]]. split; [wfl|]. split; [wfl|]. vm_compute. reflexivity.
  - exists [[0%N]], [[100%N]], [[200%N]]. split; [wfl|]. split; [wfl|]. split; [wfl|]. vm_compute. auto.
Qed.
Lemma aux_c09 : exists a b, wf_labels a /\ wf_labels b /\ get_relation Debug (name_of a) (name_of b) = Panic.
Proof. exists [[128%N]], [[1%N]]. split; [wfl|]. split; [wfl|]. vm_compute. reflexivity. Qed.

Lemma common_prefix_spec : forall a b : list label, exists s x y, a = s ++ x /\ b = s ++ y /\ common_prefix a b = length s /\
  forall s' x' y', a = s' ++ x' -> b = s' ++ y' -> length s' <= length s.
Proof.
  induction a as [|u a IH]; intros [|v b]; simpl.
  1-3: exists []; do 2 eexists; repeat split; try reflexivity; intros [|] ? ? ? ?; simpl in *; try lia; try discriminate.
  destruct (list_eq_dec N.eq_dec u v) as [->|NE].
  - destruct (IH b) as (s & x & y & -> & -> & L & M). exists (v :: s), x, y. repeat split; auto; [simpl; lia|].
    intros [|z s'] x' y' E1 E2; simpl in *; [lia|]. injection E1 as <- E1. injection E2 as E2. specialize (M _ _ _ E1 E2). lia.
  - exists [], (u :: a), (v :: b). repeat split; auto. intros [|z s'] x' y' E1 E2; simpl in *; [lia|]. congruence.
Qed.
Lemma aux_common_labels : forall a b,
  exists x y s, lc_labels a = x ++ s /\ lc_labels b = y ++ s /\ common_labels a b = length s + 1 /\
   (forall x' y' s', lc_labels a = x' ++ s' -> lc_labels b = y' ++ s' -> length s' <= length s).
Proof.
  intros a b. destruct (common_prefix_spec (rev (lc_labels a)) (rev (lc_labels b))) as (s & x & y & E1 & E2 & L & M).
  apply (f_equal (@rev _)) in E1. apply (f_equal (@rev _)) in E2. rewrite rev_involutive, rev_app_distr in E1, E2.
  exists (rev x), (rev y), (rev s). split; auto. split; auto. split.
  - unfold common_labels. rewrite rev_length. lia.
  - intros x' y' s' F1 F2. rewrite rev_length. rewrite <- (rev_length s').
    eapply M; [rewrite F1, rev_app_distr|rewrite F2, rev_app_distr]; reflexivity.
Qed.
Lemma lc_labels_len : forall a, length (lc_labels a) = length a.
Proof. intros. apply map_length. Qed.
Lemma sub_common : forall a b, subdomain a b <-> common_labels a b = length b + 1.
Proof.
  intros a b. destruct (aux_common_labels a b) as (x & y & s & E1 & E2 & L & M). rewrite L. split.
  - intros (p & E). specialize (M p [] (lc_labels b) E eq_refl).
    assert (length (lc_labels b) = length (y ++ s)) by congruence. rewrite app_length, lc_labels_len in *. lia.
  - intros H. assert (LB : length (lc_labels b) = length (y ++ s)) by congruence. rewrite app_length, lc_labels_len in LB.
    destruct y; [|simpl in LB; lia]. simpl in E2. exists x. rewrite E2. auto.
Qed.
Lemma common_sym : forall a b, common_labels a b = common_labels b a.
Proof.
  intros a b. destruct (aux_common_labels a b) as (x & y & s & E1 & E2 & L & M). destruct (aux_common_labels b a) as (x2 & y2 & s2 & F1 & F2 & L2 & M2).
  specialize (M _ _ _ F2 F1). specialize (M2 _ _ _ E2 E1). lia.
Qed.
Lemma same_both : forall a b, same_name a b <-> subdomain a b /\ subdomain b a.
Proof.
  unfold same_name, subdomain, suffix_of. intros a b. split.
  - intros E. rewrite E. split; exists []; reflexivity.
  - intros [(p & E) (q & F)]. rewrite F in E. rewrite app_assoc in E. 
    assert (L : length (lc_labels a) = length ((p ++ q) ++ lc_labels a)) by congruence. rewrite app_length in L.
    destruct q; [simpl in F; auto|]. rewrite app_length in L. simpl in L. lia.
Qed.
Lemma aux_get_relation : forall md a b, wf_labels a -> wf_labels b ->
  (md = Release \/ (ascii_labels a /\ ascii_labels b)) ->
  exists r, get_relation md (name_of a) (name_of b) = Ok r /\
    N.to_nat (cr_common r) = common_labels a b /\
    (cr_relation r = Equal <-> same_name a b) /\
    (cr_relation r = SubDomain <-> subdomain a b /\ ~ same_name a b) /\
    (cr_relation r = SuperDomain <-> subdomain b a /\ ~ same_name a b) /\
    (cr_relation r = CommonAncestor <-> ~ subdomain a b /\ ~ subdomain b a).
Proof.
  intros md a b WA WB H. destruct (get_relation_spec md a b WA WB H) as (r & E & C & R & _). exists r. split; auto. split; [rewrite C; lia|].
  rewrite same_both, !sub_common. rewrite (common_sym b a), R. unfold rel_spec.
  assert (common_labels a b <> 0) by (unfold common_labels; lia).
  destruct (common_labels a b =? length a + 1) eqn:Q1; destruct (common_labels a b =? length b + 1) eqn:Q2; cbn [andb]; bl;
  destruct (common_labels a b =? 0) eqn:Q3; bl; try lia; repeat split; intros; try discriminate; try lia; auto.
Qed.
Lemma aux_c10 : exists a b, wf_labels a /\ wf_labels b /\ is_subdomain (name_of a) (name_of b) = Ok true /\ ~ subdomain a b.
Proof.
  exists [of_string "ab"], [of_string "b"]. split; [wfl|]. split; [wfl|]. split; [vm_compute; reflexivity|].
  rewrite sub_common. vm_compute. lia.
Qed.
Lemma aux_concat : forall a b, wf_labels a -> wf_labels b ->
  concat (name_of a) (name_of b) = if wire_len (a ++ b) <=? 255 then Ok (name_of (a ++ b)) else Err.
Proof. intros. unfold concat. pose proof (concat_all_spec a b [] H (Forall_cons _ H0 (Forall_nil _))) as E. simpl in E. rewrite app_nil_r in E. exact E. Qed.
Lemma aux_parent : forall md ls k, wf_labels ls -> k <= length ls + 1 ->
  parent md (name_of ls) k = if k <=? length ls then Ok (name_of (skipn k ls)) else Err.
Proof. intros. rewrite parent_spec by auto. destruct (k <=? length ls) eqn:E; auto. bl. ift. reflexivity. Qed.
Lemma aux_parent_release : forall ls k, wf_labels ls ->
  parent Release (name_of ls) k = if k <=? length ls then Ok (name_of (skipn k ls)) else Err.
Proof. intros. rewrite parent_spec by auto. destruct (k <=? length ls) eqn:E; auto. destruct (_ =? _); reflexivity. Qed.
Lemma aux_parent_panic : forall ls k, wf_labels ls -> length ls + 1 < k -> parent Debug (name_of ls) k = Panic.
Proof. intros. rewrite parent_spec by auto. iff_. iff_. reflexivity. Qed.
Lemma aux_cut_concat : forall ls i a b, wf_labels ls -> i <= length ls ->
  split (name_of ls) 0 i = Ok a -> split (name_of ls) i (length ls + 1) = Ok b -> concat a b = Ok (name_of ls).
Proof.
  intros ls i a b W L EA EB. rewrite split_spec in EA, EB by auto. simpl in EA. revert EB. ift. intros EB. okinj EA. okinj EB.
  rewrite (firstn_all2 (skipn i ls)) by (rewrite skipn_length; lia).
  rewrite aux_concat by (apply wf_firstn || apply wf_skipn; auto). rewrite firstn_skipn. destruct W. ift. reflexivity.
Qed.
Lemma aux_reverse_twice : forall n, wf_name n -> exists m, reverse n = Ok m /\ reverse m = Ok n.
Proof.
  intros n (ls & W & ->). exists (name_of (rev ls)). split; [apply reverse_spec; auto|]. rewrite reverse_spec by (apply wf_rev; auto).
  rewrite rev_involutive. reflexivity.
Qed.
Lemma lc_idem : forall c, lc (lc c) = lc c.
Proof. intros. unfold lc. destruct ((65 <=? c) && (c <=? 90))%N eqn:E; [|rewrite E; reflexivity]. bl. iff_. reflexivity. Qed.
Lemma lc_labels_idem : forall ls, lc_labels (lc_labels ls) = lc_labels ls.
Proof.
  intros. unfold lc_labels, lc_label. rewrite map_map. apply map_ext. intros. rewrite map_map. apply map_ext. apply lc_idem.
Qed.
Lemma aux_lowercase :
  (forall n, wf_name n -> exists m, as_lowercase n = Ok m /\ name_eq m n = Ok true /\ as_lowercase m = Ok m) /\
  (forall a b, wf_name a -> wf_name b -> (name_eq a b = Ok true <-> as_lowercase a = as_lowercase b)).
Proof.
  split.
  - intros n (ls & W & ->). eexists. split; [apply as_lowercase_spec|]. split.
    + apply eq_true; auto. { apply wf_lc; auto. } unfold same_name. apply lc_labels_idem.
    + rewrite as_lowercase_spec, lc_labels_idem. reflexivity.
  - intros a b (la & WA & ->) (lb & WB & ->). rewrite eq_true by auto. rewrite !as_lowercase_spec. unfold same_name. split.
    + intros ->. reflexivity.
    + intros E. okinj E. apply name_of_inj; auto; apply wf_lc; auto.
Qed.
Lemma aux_predicates : forall ls, wf_labels ls ->
  (exists b, is_wildcard (name_of ls) = Ok b /\ (b = true <-> exists r, ls = [42%N] :: r)) /\
  (is_root (name_of ls) = true <-> ls = []) /\
  label_count (name_of ls) = length ls + 1 /\
  name_len (name_of ls) = wire_len ls.
Proof.
  intros ls W. split; [|split; [|split]].
  - eexists. split; [apply is_wildcard_spec; auto|]. destruct ls as [|l ls]; [split; [discriminate|intros (? & ?); discriminate]|].
    destruct (list_eq_dec N.eq_dec l [42%N]) as [->|NE]; split; intros; eauto; try discriminate. destruct H as (r & E). congruence.
  - rewrite is_root_spec by auto. destruct ls; split; congruence.
  - unfold label_count, name_of. cbn [n_offsets]. rewrite offs_len. reflexivity.
  - reflexivity.
Qed.
Lemma aux_seq_from_str_safe : forall s, safe (seq_from_str s).
Proof.
  intros s. unfold seq_from_str. pose proof (string_parse_safe s false) as [A B].
  destruct (string_parse s false) as [[d o]| | |]; split; try discriminate; congruence.
Qed.
Lemma aux_c17_ex : text_legal (of_string "www.knet.cn") /\ text_labels (of_string "www.knet.cn.") = [of_string "www"; of_string "knet"; of_string "cn"]
  /\ ~ text_legal (of_string "a..b").
Proof.
  split; [|split].
  - right. right. split; [discriminate|]. split; [discriminate|]. split; [repeat constructor; vm_compute; lia|vm_compute; lia].
  - reflexivity.
  - intros [|[|(_ & _ & F & _)]]; try discriminate. vm_compute in F. inversion F as [|? ? ? F2]; subst. inversion F2 as [|? ? Z]; subst. vm_compute in Z. lia.
Qed.
Lemma aux_c18 : exists ls s, wf_labels ls /\ name_display (name_of ls) = Ok s /\ name_new s <> Ok (name_of ls).
Proof. exists [[97; 32]%N]. eexists. split; [wfl|]. split; [vm_compute; reflexivity|]. vm_compute. discriminate. Qed.
Lemma aux_display_ascii : forall ls, wf_labels ls ->
  exists s, name_display (name_of ls) = Ok s /\ Forall (fun b => (32 < b < 127)%N) s.
Proof. intros. eexists. split; [apply name_display_spec; auto|apply show_name_ascii; auto]. Qed.
Lemma aux_seq_concat : forall m ms ls, rel_piece m -> Forall rel_piece ms -> Forall wf_label ls ->
  seq_concat_all (seq_of m false) (map (fun p => seq_of p false) ms ++ [seq_of ls true]) =
  if wire_len (m ++ List.concat ms ++ ls) <=? 255 then Ok (name_of (m ++ List.concat ms ++ ls)) else Err.
Proof. intros. rewrite (seq_of_seqf ls true). apply seq_concat_all_spec; auto. Qed.

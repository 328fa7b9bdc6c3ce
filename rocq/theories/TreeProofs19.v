(** The debug build differs from the release build only where two labels that are compared first differ in octets whose
    difference overflows: without such labels, both builds run every history alike. *)
From Verif Require Import Base BaseLemmas NameModel TreeModel SpecName SpecTree SpecHist SpecOrd NameWireProofs NameOpsProofs NameOpsProofs2 NameCmpProofs NameCmpProofs2
  OrdBase OrdName OrdProofs TreeProofs TreeProofs5 TreeProofs13 TreeProofs14 TreeProofs15 TreeProofs17.
Open Scope list_scope.
Open Scope nat_scope.

Lemma Forall_firstn : forall A (P : A -> Prop) k l, Forall P l -> Forall P (firstn k l).
Proof. intros A P k l H. rewrite <- (firstn_skipn k l) in H. apply Forall_app in H. apply H. Qed.
Lemma Forall_skipn : forall A (P : A -> Prop) k l, Forall P l -> Forall P (skipn k l).
Proof. intros A P k l H. rewrite <- (firstn_skipn k l) in H. apply Forall_app in H. apply H. Qed.
Lemma skipn_add : forall A i k (l : list A), skipn (i + k) l = skipn k (skipn i l).
Proof. induction i as [|i IH]; intros k l; [reflexivity|]. destruct l; [destruct k; reflexivity|]. cbn [Nat.add skipn]. apply IH. Qed.
Section A.
Context {V : Type}.
Variable Q : label -> Prop.
Hypothesis HQ : forall x y p, Q x -> Q y -> clash_octets x y = Some p -> overflows p = false.
Definition gd (l : label) : Prop := small l /\ (l = [] \/ Q (lc_label l)).
Definition okn (q : labelseq) : Prop := exists fls, q = seqf fls /\ elen fls <= 255 /\ Forall gd fls.
Definition okt (ts : labelslice) : Prop := exists fls, slice_rep ts fls /\ Forall gd fls.
Definition hb (s : dtree V) : Prop := forall p n, dt_heap s p = Some n -> okn (nd_name n).

(** * The comparison *)
Definition calm (l : label) : Prop := l = [] \/ Q l.
Lemma calm_clash : forall ra rb p, Forall calm ra -> Forall calm rb -> clash_labels ra rb = Some p -> overflows p = false.
Proof.
  induction ra as [|x ra IH]; intros [|y rb] p Fa Fb H; try discriminate. inversion Fa as [|? ? Cx Fa']; subst. inversion Fb as [|? ? Cy Fb']; subst. cbn [clash_labels] in H.
  destruct (clash_octets x y) as [q|] eqn:C.
  - inversion H; subst q. destruct Cx as [->|Qx]; [discriminate C|]. destruct Cy as [->|Qy]; [destruct x; discriminate C|]. exact (HQ _ _ _ Qx Qy C).
  - destruct (_ =? _); [eapply IH; eauto|discriminate].
Qed.
Lemma gd_calm : forall fls, Forall gd fls -> Forall calm (rev (lc_labels fls)).
Proof. intros fls H. apply Forall_rev. unfold lc_labels. apply Forall_map. eapply Forall_impl; [|exact H]. intros l [_ [->|HL]]; [left; reflexivity|right; exact HL]. Qed.
Lemma gd_small : forall fls, Forall gd fls -> Forall small (rev (lc_labels fls)).
Proof. intros fls H. apply small_lc. eapply Forall_impl; [|exact H]. intros l [X _]. exact X. Qed.
Lemma same_cmp : forall ts cs, okt ts -> okt cs -> sl_compare Debug false ts cs = sl_compare Release false ts cs.
Proof.
  intros ts cs (fa & Ra & Fa) (fb & Rb & Fb). rewrite !(sl_compare_pcmp _ ts cs fa fb Ra Rb). rewrite pcmp_debug by (apply gd_small; assumption).
  destruct (clash_labels _ _) as [p|] eqn:C; [|reflexivity]. rewrite (calm_clash _ _ _ (gd_calm _ Fa) (gd_calm _ Fb) C). reflexivity.
Qed.
Lemma okt_seq : forall q cs, okn q -> slice_of_seq q = Ok cs -> okt cs.
Proof.
  intros q cs (fls & -> & L & F) H. destruct fls as [|x fls]; [discriminate H|]. destruct (slice_of_seqf (x :: fls) ltac:(discriminate) L) as (c & E1 & R1).
  assert (c = cs) by congruence. subst c. exists (x :: fls). auto.
Qed.
Lemma okt_strip : forall ts k ts', okt ts -> sl_strip_right ts k = Ok ts' -> okt ts'.
Proof.
  intros ts k ts' (fls & R & F) H. assert (K : k < length fls).
  { unfold sl_strip_right, assert_r in H. rewrite (rep_label_count _ _ R) in H. destruct (Nat.ltb_spec k (length fls)); [assumption|discriminate H]. }
  destruct (rep_strip_right ts fls k R K) as (t1 & E1 & R1). assert (t1 = ts') by congruence. subst t1. eexists. split; [exact R1|]. apply Forall_firstn. exact F.
Qed.
Lemma okn_split : forall q i k x y, okn q -> seq_split q i k = Ok (x, y) -> okn x /\ okn y.
Proof.
  intros q i k x y (fls & -> & L & F) H. rewrite seq_split_spec in H by exact L. destruct (_ && _)%bool; [|discriminate H]. inversion H. subst x y.
  assert (EL : elen (firstn i fls) + elen (firstn k (skipn i fls)) + elen (skipn (i + k) fls) = elen fls).
  { rewrite skipn_add. rewrite <- Nat.add_assoc, <- (elen_app (firstn k _)), firstn_skipn, <- elen_app, firstn_skipn. reflexivity. }
  split; (eexists; split; [reflexivity|]; split).
  - lia.
  - apply Forall_firstn, Forall_skipn. exact F.
  - rewrite elen_app. lia.
  - apply Forall_app. split; [apply Forall_firstn|apply Forall_skipn]; exact F.
Qed.
Definition ok_name (ls : list label) : Prop := wf_labels ls /\ Forall (fun l => Q (lc_label l)) ls.
Lemma ok_full : forall ls, ok_name ls -> Forall gd (full ls).
Proof.
  intros ls [W F]. pose proof (shape_small _ (full_shape _ W)) as SM. unfold full in *. apply Forall_app in SM. destruct SM as [S1 S2]. apply Forall_app. split.
  - rewrite Forall_forall in *. intros l I. split; [apply S1; exact I|right; apply F; exact I].
  - constructor; [|constructor]. inversion S2; subst. split; [assumption|left; reflexivity].
Qed.
Lemma okt_name : forall ls ts, ok_name ls -> slice_of_name (name_of ls) = Ok ts -> okt ts.
Proof. intros ls ts O H. destruct (slice_of_name_rep ls (proj1 O)) as (t1 & E1 & R1 & _). assert (t1 = ts) by congruence. subst t1. exists (full ls). split; [exact R1|apply ok_full; exact O]. Qed.
Lemma okn_name : forall ls i j q, ok_name ls -> into_label_sequence (name_of ls) i j = Ok q -> okn q.
Proof.
  intros ls i j q O H. rewrite into_label_sequence_spec in H by apply O. destruct (_ && _)%bool; [|discriminate H]. inversion H. subst q. pose proof (ok_full _ O) as F.
  set (a := j - i + 1). eexists. split; [reflexivity|]. split; [|apply Forall_firstn, Forall_skipn; exact F].
  assert (E0 : elen (full ls) <= 255) by (rewrite elen_full; pose proof (wf_elen _ (proj1 O)); lia).
  rewrite <- (firstn_skipn i (full ls)), elen_app in E0. rewrite <- (firstn_skipn a (skipn i (full ls))), elen_app in E0. lia.
Qed.

(** * Runs *)
Definition kh {A} (m : MT V A) : Prop := forall s, hb s -> hb (snd (m s)).
Lemma h_ret : forall A (a : A), kh (ret a). Proof. intros A a s H. exact H. Qed.
Lemma h_lift : forall A (a : res A), kh (lift a). Proof. intros A a s H. destruct a; exact H. Qed.
Lemma h_bind : forall A B (m : MT V A) (g : A -> MT V B), kh m -> (forall a, kh (g a)) -> kh (bind m g).
Proof. intros A B m g HM HG s H. unfold bind. pose proof (HM s H) as H1. destruct (m s) as [[a| | |] s1]; cbn [snd] in *; auto. apply HG. exact H1. Qed.
Lemma h_fun : forall A (m : dtree V -> MT V A), (forall s, kh (m s)) -> kh (fun s => m s s).
Proof. intros A m H s HS. apply H. exact HS. Qed.
Lemma h_deref : forall p, kh (deref p). Proof. intros p s H. exact H. Qed.
Lemma h_store : forall p g, (forall n, nd_name (g n) = nd_name n) -> kh (store p g).
Proof.
  intros p g G s H. unfold store. destruct (dt_heap s p) as [m|] eqn:E0; [|exact H]. destruct (is_null p); [exact H|]. cbn [snd]. intros q n. cbn [dt_heap]. unfold hset. destruct (Nat.eqb_spec q p) as [->|N].
  - intros X. inversion X. rewrite G. eapply H; eauto.
  - apply H.
Qed.
Lemma h_setname : forall p q, okn q -> kh (set_name p q).
Proof.
  intros p nm O s H. unfold set_name, store. destruct (dt_heap s p) as [m|] eqn:E0; [|exact H]. destruct (is_null p); [exact H|]. cbn [snd]. intros q n. cbn [dt_heap]. unfold hset. destruct (Nat.eqb_spec q p) as [->|N].
  - intros X. inversion X. exact O.
  - apply H.
Qed.
Lemma h_new : forall nm v, okn nm -> kh (node_new nm v).
Proof. intros nm v O s H. unfold node_new. cbn [snd]. intros q n. cbn [dt_heap]. unfold hset. destruct (Nat.eqb_spec q (dt_next s)) as [->|N]; [intros X; inversion X; exact O|apply H]. Qed.
Lemma h_free : forall p, kh (node_free (V := V) p).
Proof.
  intros p s H. unfold node_free. destruct (dt_heap s p); [|exact H]. destruct (is_null p); [exact H|]. cbn [snd]. intros q m. cbn [dt_heap]. unfold hset. destruct (q =? p); [discriminate|apply H].
Qed.
Lemma h_set_root : forall q, kh (set_root q). Proof. intros q s H. exact H. Qed.
Lemma h_read_root : kh (read_loc LRoot). Proof. intros s H. exact H. Qed.
Lemma h_add_len : forall n, kh (add_len n). Proof. intros n s H. exact H. Qed.
Lemma h_dec_len : kh dec_len. Proof. intros s H. unfold dec_len. destruct (dt_len s); exact H. Qed.
Ltac kk := repeat first
  [ lazymatch goal with
    | |- kh (bind _ _) => apply h_bind; [|let a := fresh "a" in intros a; try (lazymatch type of a with (_ * _)%type => destruct a end)]
    | |- kh (ret _) => apply h_ret
    | |- kh (lift _) => apply h_lift
    | |- kh (deref _) => apply h_deref
    | |- kh (store _ _) => apply h_store; intros; reflexivity
    | |- kh (node_free _) => apply h_free
    | |- kh (set_root _) => apply h_set_root
    | |- kh (add_len _) => apply h_add_len
    | |- kh dec_len => apply h_dec_len
    | |- kh (read_loc LRoot) => apply h_read_root
    | |- kh (if ?b then _ else _) => destruct b
    | |- kh (match ?b with _ => _ end) => destruct b
    end
  | progress cbv beta iota zeta
  ].
Ltac ku := unfold get_left, get_right, get_parent, get_down, get_name, get_value, set_left, set_right, set_parent, set_down, set_value, set_color, is_black, is_red, get_color, set_subtree_root, is_subtree_root, set_callback, set_wildcard, is_callback_enabled in *.
Lemma h_read : forall l, kh (read_loc l). Proof. intros [|p]; [apply h_read_root|]. cbn [read_loc]. ku. kk. Qed.
Lemma h_write : forall l q, kh (write_loc l q). Proof. intros [|p] q; cbn [write_loc]; ku; kk. Qed.
Lemma h_conn : forall l a b c, kh (connect_child l a b c). Proof. intros. unfold connect_child. ku. kk; apply h_write. Qed.
Lemma h_lrot : forall l p, kh (left_rotate l p). Proof. intros. unfold left_rotate. ku. kk; apply h_write. Qed.
Lemma h_rrot : forall l p, kh (right_rotate l p). Proof. intros. unfold right_rotate. ku. kk; apply h_write. Qed.
Lemma h_gp : forall p, kh (grand_parent p). Proof. intros. unfold grand_parent. ku. kk. Qed.
Lemma h_uncle : forall p, kh (uncle p). Proof. intros. unfold uncle. apply h_bind; [apply h_gp|intros a]. ku. kk. Qed.
Lemma h_sib : forall p q, kh (get_sibling p q). Proof. intros. unfold get_sibling. ku. kk. Qed.
Lemma h_exch : forall a b l, kh (exchange a b l).
Proof. intros. unfold exchange. ku. kk; apply h_conn. Qed.
Opaque write_loc read_loc connect_child left_rotate right_rotate grand_parent uncle get_sibling exchange.
Lemma h_iloop : forall fuel l p, kh (insert_fixup_loop fuel l p).
Proof.
  induction fuel as [|fuel IH]; intros l p; cbn [insert_fixup_loop]; [apply h_lift|]. apply h_bind; [apply h_read|intros r]. destruct (p =? r); [apply h_ret|].
  apply h_bind; [ku; kk|intros par]. apply h_bind; [ku; kk|intros pb]. destruct pb; [apply h_ret|]. apply h_bind; [apply h_uncle|intros u]. apply h_bind; [apply h_gp|intros g]. ku.
  kk; try apply IH; try apply h_lrot; try apply h_rrot; try apply h_write.
Qed.
Lemma h_ifix : forall l p, kh (insert_fixup l p).
Proof. intros l p. unfold insert_fixup. apply (h_fun _ (fun s => (insert_fixup_loop (S (dt_next s)) l p;; let! r := read_loc l in set_color r Black))). intros s. apply h_bind; [apply h_iloop|intros _]. apply h_bind; [apply h_read|intros r]. ku. kk. Qed.
Lemma h_rfix : forall fuel l a b, kh (remove_fixup fuel l a b).
Proof.
  induction fuel as [|fuel IH]; intros l a b; cbn [remove_fixup]; [apply h_lift|]. ku.
  kk; try apply IH; try apply h_lrot; try apply h_rrot; try apply h_write; try apply h_read; try apply h_sib.
Qed.
Lemma h_subroot : forall fuel p, kh (subtree_root fuel p).
Proof. induction fuel as [|fuel IH]; intros p; cbn [subtree_root]; ku; kk. apply IH. Qed.
Lemma h_upper : forall p, kh (get_upper_node p).
Proof. intros p. unfold get_upper_node. apply (h_fun _ (fun s => let! r := subtree_root (S (dt_next s)) p in get_parent r)). intros s. apply h_bind; [apply h_subroot|intros r]. ku. kk. Qed.
Lemma h_rm : forall fuel p, kh (rightmost fuel p).
Proof. induction fuel as [|fuel IH]; intros p; cbn [rightmost]; ku; kk. apply IH. Qed.
Opaque get_upper_node remove_fixup rightmost.
Lemma h_rloop : forall fuel p, kh (remove_loop fuel p).
Proof.
  induction fuel as [|fuel IH]; intros p; cbn [remove_loop]; [apply h_lift|]. apply h_bind; [apply h_upper|intros up]. ku.
  kk; try apply IH; try apply h_exch; try apply h_conn.
  - apply (h_fun _ (fun s => rightmost (S (dt_next s)) _)). intros s. apply h_rm.
  - apply (h_fun _ (fun s => remove_fixup (S (dt_next s)) _ _ _)). intros s. apply h_rfix.
Qed.
Lemma h_remove_node : forall p, kh (remove_node p).
Proof. intros p. unfold remove_node. ku. kk. apply (h_fun _ (fun s => remove_loop (S (dt_next s)) p)). intros s. apply h_rloop. Qed.
Lemma h_crec : forall fuel p, kh (clear_recurse fuel p).
Proof. induction fuel as [|fuel IH]; intros p; cbn [clear_recurse]; ku; kk; apply IH. Qed.
Lemma h_clear : kh (clear (V := V)).
Proof. unfold clear. apply (h_fun _ (fun s => set_root null;; clear_recurse (S (dt_next s)) (dt_root s))). intros s. apply h_bind; [apply h_set_root|intros _]. apply h_crec. Qed.

(** Names read from nodes are fine. *)
Definition post {A} (m : MT V A) (P : A -> Prop) : Prop := forall s, hb s -> hb (snd (m s)) /\ forall a, fst (m s) = Ok a -> P a.
Lemma p_bind : forall A B (m : MT V A) (g : A -> MT V B) P, post m P -> (forall a, P a -> kh (g a)) -> kh (bind m g).
Proof. intros A B m g P HM HG s H. destruct (HM s H) as [H1 H2]. unfold bind. destruct (m s) as [[a| | |] s1]; cbn [fst snd] in *; auto. apply HG; auto. Qed.
Lemma p_name : forall p, post (get_name p) okn.
Proof.
  intros p s H. split; [apply (h_bind _ _ (deref p) (fun n => ret (nd_name n))); [apply h_deref|intros; apply h_ret|exact H]|]. intros q. unfold get_name, bind, deref. destruct (is_null p); [discriminate|]. destruct (dt_heap s p) as [n|] eqn:E0; [|discriminate]. cbn [fst ret]. intros X. inversion X. eapply H; eauto.
Qed.
Lemma p_lift : forall A (r : res A) (P : A -> Prop), (forall a, r = Ok a -> P a) -> post (lift r) P.
Proof. intros A r P H s HS. split; [apply h_lift; exact HS|]. intros a E0. destruct r; cbn in E0; try discriminate. inversion E0; subst. auto. Qed.
Lemma h_split : forall p n, kh (split_to_parent p n).
Proof.
  intros. unfold split_to_parent. eapply p_bind; [apply p_name|]. intros nm O. apply h_bind; [apply h_lift|intros i].
  destruct (seq_split nm i n) as [[x y]| | |] eqn:E0; try apply h_lift. destruct (okn_split _ _ _ _ _ O E0) as [Ox Oy]. apply h_bind; [apply h_setname; exact Oy|intros _; apply h_new; exact Ox].
Qed.
Lemma h_fission : forall p n, kh (node_fission p n).
Proof. intros. unfold node_fission. apply h_bind; [apply h_split|intros u]. ku. kk; apply h_conn. Qed.
Opaque node_fission insert_fixup split_to_parent.

(** * Both builds *)
Definition same {A} (m m' : MT V A) (P : A -> Prop) : Prop := forall s, hb s -> m s = m' s /\ hb (snd (m s)) /\ forall a, fst (m s) = Ok a -> P a.
Lemma s_kh : forall A (m : MT V A), kh m -> same m m (fun _ => True).
Proof. intros A m H s HS. split; [reflexivity|]. split; [apply H; exact HS|auto]. Qed.
Lemma s_post : forall A (m : MT V A) P, post m P -> same m m P.
Proof. intros A m P H s HS. split; [reflexivity|]. apply H. exact HS. Qed.
Lemma s_bind : forall A B (m m' : MT V A) (g g' : A -> MT V B) P R, same m m' P -> (forall a, P a -> same (g a) (g' a) R) -> same (bind m g) (bind m' g') R.
Proof.
  intros A B m m' g g' P R HM HG s H. destruct (HM s H) as (E0 & H1 & H2). unfold bind. rewrite <- E0. destruct (m s) as [[a| | |] s1]; cbn [fst snd] in *.
  - apply HG; auto.
  - split; [reflexivity|]. split; [exact H1|discriminate].
  - split; [reflexivity|]. split; [exact H1|discriminate].
  - split; [reflexivity|]. split; [exact H1|discriminate].
Qed.
Lemma s_lift : forall A (r r' : res A), r = r' -> same (lift (S := dtree V) r) (lift r') (fun _ => True).
Proof. intros A r r' ->. apply s_kh, h_lift. Qed.
Notation TT := (fun _ => True).
Ltac keep := apply s_kh; ku; kk.
Lemma s_iloop : forall fuel v par up cur o ts, okt ts -> same (insert_loop Debug fuel v par up cur o ts) (insert_loop Release fuel v par up cur o ts) TT.
Proof.
  induction fuel as [|fuel IH]; intros v par up cur o ts O; cbn [insert_loop]; destruct (is_null cur); try (apply s_kh; apply h_ret); [apply s_kh; apply h_lift|].
  eapply s_bind; [apply s_post, p_name|]. intros nm On. eapply s_bind; [apply s_post, (p_lift _ _ okt); intros cs; apply okt_seq; exact On|]. intros cs Oc.
  eapply s_bind; [apply s_lift, same_cmp; assumption|]. intros cr _. destruct (cr_relation cr).
  - eapply s_bind; [apply s_kh, h_fission|]. intros _ _. eapply s_bind; [keep|]. intros q _. apply IH. exact O.
  - eapply s_bind; [apply s_post, (p_lift _ _ okt); intros t'; apply okt_strip; exact O|]. intros t' Ot. eapply s_bind; [keep|]. intros d _. apply IH. exact Ot.
  - keep.
  - eapply s_bind; [apply s_kh, h_fission|]. intros _ _. eapply s_bind; [keep|]. intros q _. apply IH. exact O.
  - eapply s_bind; [keep|]. intros q _. apply IH. exact O.
Qed.
Lemma s_fun : forall A (m m' : dtree V -> MT V A) P, (forall s, same (m s) (m' s) P) -> same (fun s => m s s) (fun s => m' s s) P.
Proof. intros A m m' P H s HS. apply H. exact HS. Qed.
Lemma s_insert : forall ls v, ok_name ls -> same (insert Debug (name_of ls) v) (insert Release (name_of ls) v) TT.
Proof.
  intros ls v O s HS. unfold insert. match goal with |- bind ?m ?g s = bind ?m' ?g' s /\ _ => assert (X : same (bind m g) (bind m' g') TT); [|apply X; exact HS] end.
  eapply s_bind; [apply s_post, (p_lift _ _ okt); intros ts; apply okt_name; exact O|]. intros ts Ot. eapply s_bind; [apply s_iloop; exact Ot|]. intros r _. apply s_kh. destruct r as [[p old]|[[[par up] od] t2]]; [apply h_ret|]. cbv zeta.
  apply h_bind; [apply h_add_len|intros _]. eapply p_bind; [apply (p_lift _ _ okn); intros q; apply okn_name; exact O|]. intros q Oq. apply h_bind; [apply h_new; exact Oq|intros nd]. ku. kk; try apply h_write; try apply h_ifix.
Qed.
Lemma s_floop : forall P fuel (cb : option (callback P)) p r ts ch (pa : P), okt ts -> same (find_loop Debug fuel cb p r ts ch pa) (find_loop Release fuel cb p r ts ch pa) TT.
Proof.
  induction fuel as [|fuel IH]; intros cb p r ts ch pa O; cbn [find_loop]; destruct (is_null p); try (apply s_kh; apply h_ret); [apply s_kh; apply h_lift|].
  eapply s_bind; [apply s_post, p_name|]. intros nm On. eapply s_bind; [apply s_post, (p_lift _ _ okt); intros cs; apply okt_seq; exact On|]. intros cs Oc.
  eapply s_bind; [apply s_lift, same_cmp; assumption|]. intros cr _. cbv zeta.
  assert (KN : forall td j c, kh (chain_names c j td)) by (induction td as [|td IHt]; intros j c; cbn [chain_names]; ku; kk; apply IHt).
  destruct (cr_relation cr); try keep.
  - eapply s_bind; [keep|]. intros en _. eapply s_bind; [apply s_kh|].
    { unfold get_absolute_name. ku. kk. apply KN. }
    intros [st pa'] _. destruct st; [keep|]. eapply s_bind; [keep|]. intros c1 _. eapply s_bind; [apply s_post, (p_lift _ _ okt); intros t'; apply okt_strip; exact O|]. intros t' Ot. eapply s_bind; [keep|]. intros d _. apply IH. exact Ot.
  - eapply s_bind; [keep|]. intros q _. apply IH. exact O.
Qed.
Lemma s_find_ext : forall P ls ch (cb : option (callback P)) (pa : P), ok_name ls -> same (find_node_ext Debug (name_of ls) ch cb pa) (find_node_ext Release (name_of ls) ch cb pa) TT.
Proof.
  intros P ls ch cb pa O s HS. unfold find_node_ext. match goal with |- bind ?m ?g s = bind ?m' ?g' s /\ _ => assert (X : same (bind m g) (bind m' g') TT); [|apply X; exact HS] end.
  eapply s_bind; [apply s_post, (p_lift _ _ okt); intros ts; apply okt_name; exact O|]. intros ts Ot. apply s_floop. exact Ot.
Qed.
Lemma s_find : forall ls, ok_name ls -> same (find Debug (name_of ls)) (find Release (name_of ls)) TT.
Proof. intros ls O. unfold find, find_node. eapply s_bind; [eapply s_bind; [apply s_find_ext; exact O|]; intros [[r c] u] _; keep|]. intros [r c] _. keep. Qed.
Opaque insert find remove_node clear.
Lemma s_op : forall o : op V, ok_name (op_name o) \/ is_clear o -> same (do_op Debug o) (do_op Release o) TT.
Proof.
  intros o [O|C]; [|destruct o; try contradiction; cbn [do_op]; apply s_kh, h_clear].
  destruct o as [ls v|ls|ls|ls|ls v|ls b|ls b|]; cbn [do_op op_name] in *; unfold on_exact, remove; try (apply s_kh, h_clear).
  - eapply s_bind; [apply s_insert; exact O|]. intros; keep.
  - eapply s_bind; [apply s_find; exact O|]. intros; keep.
  - eapply s_bind; [eapply s_bind; [apply s_find; exact O|]|]; [|intros; keep]. intros r _. apply s_kh. destruct (negb _); [apply h_remove_node|apply h_ret].
  - eapply s_bind; [apply s_find; exact O|]. intros r _. apply s_kh. destruct (fr_flag r); kk. apply h_remove_node.
  - eapply s_bind; [apply s_find; exact O|]. intros; keep.
  - eapply s_bind; [apply s_find; exact O|]. intros; keep.
  - eapply s_bind; [apply s_find; exact O|]. intros; keep.
Qed.
Lemma s_history : forall ops : list (op V), Forall (fun o => ok_name (op_name o)) ops -> same (history Debug ops) (history Release ops) TT.
Proof. induction 1 as [|o ops O F IH]; cbn [history]; [keep|]. eapply s_bind; [apply s_op; left; exact O|]. intros; exact IH. Qed.
Theorem builds_agree : forall ops : list (op V), Forall (fun o => ok_name (op_name o)) ops -> history Debug ops tree_new = history Release ops tree_new.
Proof. intros ops F. apply (s_history ops F). intros p n H. discriminate H. Qed.
End A.
Transparent write_loc read_loc connect_child left_rotate right_rotate grand_parent uncle get_sibling exchange get_upper_node remove_fixup rightmost node_fission insert_fixup split_to_parent insert find remove_node clear.

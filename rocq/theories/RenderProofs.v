(** Proofs about the output buffer and name compression. *)
From Verif Require Import Base NameModel RenderModel SpecName BaseLemmas NameWireProofs NameOpsProofs.

(** * Output buffer *)
Definition ob_ok (b : outbuf) : Prop := ob_len b <= ob_capacity b.

Lemma store_ok : forall vs d p, p + length vs <= length d ->
  store d p vs = Ok (firstn p d ++ vs ++ skipn (p + length vs) d).
Proof.
  induction vs as [|v vs IH]; intros d p H.
  - simpl. rewrite Nat.add_0_r, firstn_skipn. auto.
  - simpl in H. cbn [store]. unfold upd_r. ift. cbn [rbind].
    assert (exists a x b, d = a ++ x :: b /\ length a = p) as (a & x & b & -> & <-).
    { exists (firstn p d). destruct (skipn p d) as [|x b] eqn:E.
      - assert (length (skipn p d) = 0) by (rewrite E; auto). rewrite skipn_length in H0. lia.
      - exists x, b. split; [rewrite <- E, firstn_skipn; auto | apply firstn_length_le; lia]. }
    rewrite upd_app_mid by auto. rewrite IH by (rewrite app_length in *; simpl in *; lia).
    replace (a ++ v :: b) with ((a ++ [v]) ++ b) by (rewrite <- app_assoc; auto).
    replace (length a + 1) with (length (a ++ [v])) by (rewrite app_length; auto).
    rewrite firstn_app, firstn_all, Nat.sub_diag, firstn_O, app_nil_r.
    rewrite firstn_app, firstn_all, Nat.sub_diag, firstn_O, app_nil_r.
    rewrite <- app_assoc. cbn [app length]. do 3 f_equal.
    rewrite !skipn_app. rewrite !skipn_all2 by (rewrite ?app_length; simpl; lia).
    rewrite !app_length. cbn [app length].
    replace (length a + 1 + length vs - (length a + 1)) with (length vs) by lia.
    rewrite (skipn_all2 a) by lia.
    replace (length a + S (length vs) - length a) with (S (length vs)) by lia. reflexivity.
Qed.

Lemma nth_store_out : forall (vs d : list N) p i, i < p \/ p + length vs <= i -> p + length vs <= length d ->
  nth_error (firstn p d ++ vs ++ skipn (p + length vs) d) i = nth_error d i.
Proof.
  intros vs d p i H L. assert (F : length (firstn p d) = p) by (apply firstn_length_le; lia).
  rewrite <- (firstn_skipn p d) at 3. destruct H.
  - rewrite !nth_error_app1 by lia. auto.
  - rewrite !nth_error_app2 by lia. rewrite F. rewrite <- (firstn_skipn (length vs) (skipn p d)).
    rewrite nth_error_app2. rewrite firstn_length_le by (rewrite skipn_length; lia).
    rewrite skipn_add. auto.
    rewrite firstn_length_le; rewrite ?skipn_length; lia.
Qed.
Lemma nth_store_in : forall (vs d : list N) p i, p + length vs <= length d -> i < length vs ->
  nth_error (firstn p d ++ vs ++ skipn (p + length vs) d) (p + i) = nth_error vs i.
Proof.
  intros vs d p i L H. assert (F : length (firstn p d) = p) by (apply firstn_length_le; lia).
  rewrite nth_error_app2 by lia. rewrite F. replace (p + i - p) with i by lia.
  rewrite nth_error_app1 by lia. auto.
Qed.
Lemma length_store : forall (vs d : list N) p, p + length vs <= length d ->
  length (firstn p d ++ vs ++ skipn (p + length vs) d) = length d.
Proof. intros. rewrite !app_length, firstn_length_le, skipn_length by lia. lia. Qed.

(** * Reading the rendered bytes; [m] masks positions that are reserved but not yet filled in. *)
Definition rdm (m : nat -> bool) (r : render) (i : nat) : option N :=
  if m i then None else if i <? mr_len r then nth_error (ob_data (mr_buf r)) i else None.

Definition name_hash (ls : list label) : N := fold_left hash_step (enc ls) 0%N.

(** The set of names that may stand in the compression table (all names, unless a proof needs to know more). *)
Class names := known : list label -> Prop.

Section Known.
Context {KN : names}.

Definition item_ok (rd : nat -> option N) (it : N) : Prop :=
  exists ls e, known ls /\ wf_labels ls /\ wname rd (N.to_nat (item_pos it)) (N.to_nat (item_pos it)) ls e /\ item_len it = N.of_nat (wire_len ls) /\ (item_pos it <= 16383)%N /\ item_hash it = name_hash ls.

Record inv (m : nat -> bool) (r : render) : Prop := mkInv
  { inv_len : mr_len r <= ob_capacity (mr_buf r);
    inv_bytes : bytes (ob_data (mr_buf r));
    inv_mask : forall i, m i = true -> i < mr_len r;
    inv_tab : length (mr_table r) = 64 /\ Forall (fun row => length row = 16) (mr_table r);
    inv_cnt : length (mr_counts r) = 64 /\ Forall (fun c => c <= 15) (mr_counts r);
    inv_hs : length (mr_hashes r) = 128;
    inv_items : forall b row c k it, nth_error (mr_table r) b = Some row -> nth_error (mr_counts r) b = Some c ->
       k < c -> nth_error row k = Some it -> item_ok (rdm m r) it }.

Lemma item_ok_mono : forall (rd rd' : nat -> option N) it, (forall i c, rd i = Some c -> rd' i = Some c) ->
  item_ok rd it -> item_ok rd' it.
Proof.
  intros rd rd' it H (ls & e & Kn & A & B & C). exists ls, e. split; auto. split; auto. split; auto.
  eapply wname_mono; eauto.
Qed.

(** The table fields are only ever changed together with the items; everything else of [inv] depends on the buffer. *)
Lemma inv_buf : forall m m' r b', inv m r ->
  ob_len b' <= ob_capacity b' -> bytes (ob_data b') -> (forall i, m' i = true -> i < ob_len b') ->
  let r' := mkRender b' (mr_table r) (mr_counts r) (mr_hashes r) in
  (forall i c, rdm m r i = Some c -> rdm m' r' i = Some c) ->
  inv m' r'.
Proof.
  intros m m' r b' I L B K r' Mo. constructor; try apply I; auto.
  simpl. intros. eapply item_ok_mono; [apply Mo|]. eapply inv_items; eauto.
Qed.

Lemma inv_new : forall d, bytes d -> inv (fun _ => false) (mr_new d).
Proof.
  intros d B. constructor; unfold mr_new, mr_len; cbn [mr_buf mr_table mr_counts mr_hashes ob_new ob_len ob_data];
    auto; try discriminate; try lia.
  - split; [reflexivity|]. apply Forall_forall. intros x Hx. apply repeat_spec in Hx. subst. reflexivity.
  - split; [reflexivity|]. apply Forall_forall. intros x Hx. apply repeat_spec in Hx. subst. lia.
  - intros b row c k it Hr Hc Hk. apply nth_error_In in Hc. apply repeat_spec in Hc. subst. lia.
Qed.
Lemma inv_unmask : forall m m' r, inv m' r -> (forall i, m i = true -> m' i = true) -> inv m r.
Proof.
  intros m m' r I H. constructor; try apply I.
  - intros. eapply inv_mask; eauto.
  - intros. eapply item_ok_mono; [|eapply inv_items; eauto].
    intros i x. unfold rdm. destruct (m i) eqn:E; [rewrite (H _ E); discriminate|].
    destruct (m' i); [discriminate|auto].
Qed.

(** What a writer may do to the part of the buffer that existed before. *)
Definition extends (r r' : render) : Prop :=
  mr_len r <= mr_len r' /\ ob_capacity (mr_buf r') = ob_capacity (mr_buf r)  /\ forall i, i < mr_len r -> nth_error (ob_data (mr_buf r')) i = nth_error (ob_data (mr_buf r)) i.
Lemma extends_refl : forall r, extends r r. Proof. split; auto. Qed.
Lemma extends_trans : forall a b c, extends a b -> extends b c -> extends a c.
Proof.
  intros a b c (A1 & A2 & A3) (B1 & B2 & B3). repeat split; try lia.
  intros. rewrite B3 by lia. auto.
Qed.
Lemma extends_rdm : forall m r r', extends r r' -> forall i c, rdm m r i = Some c -> rdm m r' i = Some c.
Proof.
  intros m r r' (A & _ & C) i c. unfold rdm. destruct (m i); auto.
  destruct (i <? mr_len r) eqn:E; [|discriminate]. bl. ift. rewrite C; auto.
Qed.

(** Specification of a writer: never panics or hangs, keeps everything already written, keeps the
    compression table sound, and on success has emitted something satisfying [P] between the two lengths. *)
Definition rel := (nat -> option N) -> nat -> nat -> Prop.
Definition mono (P : rel) : Prop := forall (rd rd' : nat -> option N) s e,
  (forall i c, rd i = Some c -> rd' i = Some c) -> P rd s e -> P rd' s e.
Definition emits (w : M render unit) (P : rel) : Prop :=
  forall m r, inv m r ->
   let (a, r') := w r in
   extends r r' /\ inv m r' /\ match a with
   | Ok _ => P (rdm m r') (mr_len r) (mr_len r')
   | Err => True
   | Panic => False
   | Hang => False
   end.

Definition Pseq (P Q : rel) : rel := fun rd s e => exists k, s <= k <= e /\ P rd s k /\ Q rd k e.
Definition Pnil : rel := fun _ s e => e = s.
Definition Pbytes (l : list N) : rel := fun rd s e =>
  e = s + length l /\ forall i c, nth_error l i = Some c -> rd (s + i) = Some c.
Definition Pname (ls : list label) : rel := fun rd s e => wname rd s s ls e.

Lemma mono_bytes : forall l, mono (Pbytes l).
Proof. intros l rd rd' s e H [A B]. split; auto. Qed.
Lemma mono_name : forall l, mono (Pname l).
Proof. intros l rd rd' s e H A. eapply wname_mono; eauto. Qed.
Lemma mono_nil : mono Pnil. Proof. intros rd rd' s e H A. auto. Qed.
Lemma mono_seq : forall P Q, mono P -> mono Q -> mono (Pseq P Q).
Proof. intros P Q HP HQ rd rd' s e H (k & L & A & B). exists k. eauto. Qed.

Lemma emits_seq : forall w1 w2 P Q, mono P -> emits w1 P -> emits w2 Q -> emits (w1 ;; w2) (Pseq P Q).
Proof.
  intros w1 w2 P Q MP H1 H2 m r I. unfold bind. specialize (H1 m r I).
  destruct (w1 r) as [a r1]. destruct H1 as (E1 & I1 & A1).
  destruct a; [|auto|destruct A1|destruct A1].
  - specialize (H2 m r1 I1). destruct (w2 r1) as [a2 r2]. destruct H2 as (E2 & I2 & A2).
    split; [eapply extends_trans; eauto|]. split; auto.
    destruct a2; auto. exists (mr_len r1). split; [destruct E1, E2; lia|]. split; auto.
    eapply MP; [|apply A1]. apply extends_rdm; auto.
Qed.
Lemma emits_ret : emits (ret tt) Pnil.
Proof. intros m r I. simpl. split; [apply extends_refl|]. split; auto. reflexivity. Qed.
Lemma emits_conseq : forall w (P Q : rel), (forall rd s e, P rd s e -> Q rd s e) -> emits w P -> emits w Q.
Proof.
  intros w P Q H E m r I. specialize (E m r I). destruct (w r) as [a r']. destruct E as (A & B & C).
  split; auto. split; auto. destruct a; auto.
Qed.

(** Appending bytes. *)
Lemma app_bytes_spec : forall vs m r, bytes vs -> inv m r -> mr_len r + length vs <= ob_capacity (mr_buf r) ->
  let (a, r') := on_buf (ob_append vs) r in
  a = Ok tt /\ extends r r' /\ inv m r' /\ mr_len r' = mr_len r + length vs /\ Pbytes vs (rdm m r') (mr_len r) (mr_len r') /\ mr_table r' = mr_table r /\ mr_counts r' = mr_counts r /\ mr_hashes r' = mr_hashes r.
Proof.
  intros vs m r Bv I L. unfold on_buf, ob_append. unfold mr_len, ob_capacity in *.
  rewrite store_ok by auto. cbn [mr_buf ob_len ob_data mr_table mr_counts mr_hashes].
  set (b' := mkOut _ _). set (r' := mkRender b' _ _ _).
  assert (Bo : bytes (ob_data (mr_buf r))) by apply I.
  assert (E : extends r r').
  { unfold extends, mr_len, ob_capacity. subst r' b'. cbn [mr_buf ob_len ob_data]. split; [lia|]. split.
    - apply length_store; auto.
    - intros. apply nth_store_out; auto. }
  split; auto. split; auto. split.
  - apply inv_buf with (m := m); auto.
    + unfold ob_capacity. subst b'. cbn [ob_len ob_data]. rewrite length_store; auto.
    + subst b'. cbn [ob_data]. apply bytes_app. split; [|apply bytes_app; split; auto].
      * unfold bytes in *. rewrite Forall_forall in *. intros x Hx. apply Bo. eapply firstn_In; eauto.
      * unfold bytes in *. rewrite Forall_forall in *. intros x Hx. apply Bo. eapply skipn_In; eauto.
    + intros i Hi. apply (inv_mask _ _ I) in Hi. unfold mr_len in Hi. simpl. lia.
    + intros i c. apply extends_rdm. apply E.
  - split; [reflexivity|]. split; [|auto]. split; [reflexivity|].
    intros i c Hi. assert (i < length vs) by (apply nth_error_Some; congruence).
    unfold rdm. destruct (m (ob_len (mr_buf r) + i)) eqn:Em.
    { apply (inv_mask _ _ I) in Em. unfold mr_len in Em. lia. }
    unfold mr_len. subst r' b'. cbn [mr_buf ob_len ob_data].
    replace (ob_len (mr_buf r) + i <? ob_len (mr_buf r) + length vs) with true by (symmetry; apply Nat.ltb_lt; lia).
    rewrite nth_store_in; auto.
Qed.

Lemma emits_append_if : forall vs (g : outbuf -> bool), bytes vs ->
  (forall b, g b = true -> ob_len b + length vs <= ob_capacity b) ->
  emits (on_buf (fun b => if g b then ob_append vs b else (Err, b))) (Pbytes vs).
Proof.
  intros vs g B G m r I. unfold on_buf. destruct (g (mr_buf r)) eqn:E.
  - pose proof (app_bytes_spec vs m r B I (G _ E)) as A. unfold on_buf in A.
    destruct (ob_append vs (mr_buf r)) as [a b]. destruct A as (-> & X1 & X2 & X3 & X4 & _). auto.
  - destruct r as [b t c h]. cbn [mr_buf mr_table mr_counts mr_hashes]. split; [apply extends_refl|]. auto.
Qed.
Lemma be16_bytes : forall d, bytes (be16 d).
Proof.
  intros. unfold be16, as_u8. apply Forall_cons; [|apply Forall_cons; [|apply Forall_nil]];
    apply N.mod_lt; discriminate.
Qed.
Lemma be32_bytes : forall d, bytes (be32 d).
Proof.
  intros. unfold be32, as_u8.
  repeat (apply Forall_cons; [apply N.mod_lt; discriminate|]). apply Forall_nil.
Qed.
Lemma emits_u8 : forall d, (d < 256)%N -> emits (mr_write_u8 d) (Pbytes [d]).
Proof.
  intros. apply (emits_append_if [d] (fun b => ob_len b <? ob_capacity b)).
  - apply Forall_cons; auto. - intros. bl. simpl. lia.
Qed.
Lemma emits_u16 : forall d, emits (mr_write_u16 d) (Pbytes (be16 d)).
Proof.
  intros. apply (emits_append_if (be16 d) (fun b => ob_len b + 2 <=? ob_capacity b)).
  - apply be16_bytes. - intros. bl. simpl. lia.
Qed.
Lemma emits_u32 : forall d, emits (mr_write_u32 d) (Pbytes (be32 d)).
Proof.
  intros. apply (emits_append_if (be32 d) (fun b => ob_len b + 4 <=? ob_capacity b)).
  - apply be32_bytes. - intros. bl. simpl. lia.
Qed.
Lemma emits_bytes : forall l, bytes l -> emits (mr_write_bytes l) (Pbytes l).
Proof.
  intros. apply (emits_append_if l (fun b => ob_len b + length l <=? ob_capacity b)); auto.
  intros. bl. auto.
Qed.

(** * Lookup in the compression table *)
Lemma ob_at_rdm : forall m r i c, inv m r -> rdm m r i = Some c -> ob_at (mr_buf r) i = Ok c /\ (c < 256)%N /\ i < mr_len r.
Proof.
  unfold rdm. intros m r i c I H. destruct (m i); [discriminate|].
  destruct (i <? mr_len r) eqn:E; [|discriminate]. unfold ob_at. unfold mr_len in E. rewrite E.
  rewrite (idx_nth _ _ _ _ H). split; auto. split; [|bl; auto].
  pose proof (inv_bytes _ _ I) as B. unfold bytes in B. rewrite Forall_forall in B. apply B. eapply nth_error_In; eauto.
Qed.

Lemma land192_small : forall c, (c <= 63)%N -> (N.land c 192 =? 192)%N = false.
Proof.
  intros c H. assert (G : forallb (fun n => negb (N.land (N.of_nat n) 192 =? 192)%N) (seq 0 64) = true) by reflexivity.
  rewrite forallb_forall in G. specialize (G (N.to_nat c)). rewrite N2Nat.id in G.
  apply negb_true_iff. apply G. apply in_seq. lia.
Qed.
Lemma land192_big : forall h, (h < 64)%N -> (N.land (192 + h) 192 =? 192)%N = true /\ N.land (192 + h) 63 = h.
Proof.
  intros h H. assert (G : forallb (fun n => let h := N.of_nat n in (N.land (192 + h) 192 =? 192)%N && (N.land (192 + h) 63 =? h)%N) (seq 0 64) = true) by reflexivity.
  rewrite forallb_forall in G. specialize (G (N.to_nat h)). cbv zeta in G. rewrite N2Nat.id in G.
  assert (X : In (N.to_nat h) (seq 0 64)) by (apply in_seq; lia). apply G in X. bl. split; auto.
  apply N.eqb_eq. auto.
Qed.

(** Position bound that keeps u16 arithmetic exact. *)
Definition pb (p : nat) (ls : list label) : Prop := (N.of_nat (p + wire_len ls) <= 16383 + 255)%N.

Lemma next_label_spec : forall m r, inv m r -> forall lim pos ls e, wname (rdm m r) lim pos ls e ->
  wire_len ls <= 255 -> pb pos ls ->
  forall fuel, lim < fuel -> exists q,
    next_label_loop fuel (mr_buf r) pos = Ok (match ls with [] => 0%N | l :: _ => blen l end, N.of_nat (q + 1)) /\
    pb q ls /\ q < mr_len r /\
    match ls with [] => True
    | l :: ls' => (forall i c, nth_error l i = Some c -> rdm m r (q + 1 + i) = Some c) /\
        exists lim' e', lim' <= lim /\ wname (rdm m r) lim' (q + 1 + length l) ls' e'
    end.
Proof.
  intros m r I lim pos ls e W. induction W; intros Hw Hp fuel Hf; (destruct fuel as [|fuel]; [lia|]).
  - exists pos. pose proof (ob_at_rdm _ _ _ _ I H) as (A & B & C). cbn [next_label_loop]. rewrite A. cbn [rbind].
    rewrite land192_small by lia. split; [|auto]. unfold pb in Hp. unfold as_u16. rewrite N.mod_small by lia. reflexivity.
  - exists pos. pose proof (ob_at_rdm _ _ _ _ I H0) as (A & B & C). cbn [next_label_loop]. rewrite A. cbn [rbind].
    rewrite land192_small by (unfold blen; lia). split.
    + unfold pb in Hp. unfold as_u16. rewrite N.mod_small by lia. reflexivity.
    + split; auto. split; auto. split; auto. exists lim, e. split; auto.
  - pose proof (ob_at_rdm _ _ _ _ I H) as (A & B & C). pose proof (ob_at_rdm _ _ _ _ I H1) as (A1 & B1 & C1).
    destruct (land192_big hi H0) as [L1 L2].
    destruct (IHW Hw) with (fuel := fuel) as (q & Q1 & Q2 & Q3 & Q4).
    + unfold pb. subst t. rewrite Nat2N.inj_add, N2Nat.id. lia.
    + lia.
    + exists q. cbn [next_label_loop]. rewrite A. cbn [rbind]. unfold COMPRESS_POINTER_MARK8. rewrite L1, A1. cbn [rbind].
      rewrite L2. replace (N.to_nat (hi * 256 + lo)) with t by (subst t; f_equal; lia). split; auto. split; auto. split; auto.
      destruct ls; auto. destruct Q4 as (Q4 & lim' & e' & Q5 & Q6). split; auto. exists lim', e'. split; auto; lia.
Qed.

Lemma nc_bytes_spec : forall m r, inv m r -> forall l p raw k,
  (forall i c, nth_error l i = Some c -> rdm m r (N.to_nat p + i) = Some c) ->
  (p + blen l < 65536)%N -> k <= length raw ->
  exists a k', nc_bytes (mr_buf r) (length l) p (mkIn raw k) = (a, mkIn raw k') /\ k' <= length raw /\
    (a = Err \/ a = Ok None \/
     (a = Ok (Some (p + blen l)%N) /\ k' = k + length l /\ forall i c, nth_error l i = Some c -> nth_error raw (k + i) = Some c)).
Proof.
  intros m r I l. induction l as [|c l IH]; intros p raw k Hl Hp Hk.
  - simpl. exists (Ok (Some p)), k. split; [reflexivity|]. split; auto. right. right.
    unfold blen. simpl. rewrite N.add_0_r, Nat.add_0_r. split; auto. split; auto. intros. destruct i; discriminate.
  - cbn [nc_bytes length].
    pose proof (Hl 0 c eq_refl) as H0. rewrite Nat.add_0_r in H0.
    destruct (ob_at_rdm _ _ _ _ I H0) as (A & B & C). unfold bind at 1, lift at 1. rewrite A.
    unfold bind at 1. destruct (nth_error raw k) eqn:E.
    + rewrite (read_u8_ok _ _ _ E). assert (k < length raw) by (apply nth_error_Some; congruence).
      destruct (c =? n)%N eqn:En.
      * bl. subst n. unfold bind at 1, lift at 1.
        replace (p + 1 <? 65536)%N with true by (symmetry; apply N.ltb_lt; unfold blen in *; simpl length in *; lia).
        destruct (IH (p + 1)%N raw (k + 1)) as (a & k' & Q1 & Q2 & Q3).
        { intros i x Hi. specialize (Hl (S i) x Hi). rewrite <- Hl. f_equal. lia. }
        { unfold blen in *. simpl length in *. lia. }
        { lia. }
        exists a, k'. split; auto. split; auto. destruct Q3 as [Q3|[Q3|(Q3 & Q4 & Q5)]]; auto.
        right. right. split; [|split].
        -- rewrite Q3. f_equal. f_equal. unfold blen. simpl length. lia.
        -- simpl length. lia.
        -- intros [|i] x Hi; simpl in Hi.
           ++ inversion Hi; subst. rewrite Nat.add_0_r. auto.
           ++ rewrite <- (Q5 i x Hi). f_equal. lia.
      * exists (Ok None), (k + 1). split; auto. split; [lia|auto].
    + exists Err, k. unfold read_u8, ib_len. cbn [ib_data ib_pos].
      apply nth_error_None in E. replace (k <? length raw) with false by (symmetry; apply Nat.ltb_ge; lia). auto.
Qed.

Lemma nc_loop_spec : forall m r, inv m r -> forall fuel lim pos ls e raw k,
  wname (rdm m r) lim pos ls e -> wf_labels ls -> pb pos ls -> lim <= S (mr_len r) ->
  k <= length raw -> length raw - k < fuel ->
  exists a k', nc_loop fuel (mr_buf r) (N.of_nat pos) (mkIn raw k) = (a, mkIn raw k') /\ k' <= length raw /\
    (a = Err \/ a = Ok false \/
     (a = Ok true /\ exists post, skipn k raw = enc ls ++ post)).
Proof.
  intros m r I. induction fuel as [|fuel IH]; intros lim pos ls e raw k W F P Hl Hk Hf; [lia|].
  cbn [nc_loop]. unfold next_label. rewrite Nat2N.id.
  destruct (next_label_spec m r I _ _ _ _ W (proj2 F) P (S (S (ob_len (mr_buf r))))) as (q & Q1 & Q2 & Q3 & Q4).
  { unfold mr_len in Hl. lia. }
  unfold bind at 1, lift at 1. rewrite Q1. unfold bind at 1.
  destruct (nth_error raw k) as [n|] eqn:E.
  2:{ exists Err, k. unfold read_u8, ib_len. cbn [ib_data ib_pos].
      apply nth_error_None in E. replace (k <? length raw) with false by (symmetry; apply Nat.ltb_ge; lia). auto. }
  rewrite (read_u8_ok _ _ _ E). assert (k < length raw) by (apply nth_error_Some; congruence).
  destruct (negb (n =? _)%N) eqn:En.
  { exists (Ok false), (k + 1). split; auto. split; [lia|auto]. }
  bl. destruct (n =? 0)%N eqn:E0.
  - bl. destruct ls as [|l ls].
    + exists (Ok true), (k + 1). split; auto. split; [lia|]. right. right. split; auto.
      exists (skipn (k + 1) raw). rewrite (skipn_cons _ _ _ _ E). subst n. reflexivity.
    + exfalso. destruct F as [F _]. apply Forall_inv in F. destruct F as [F _]. unfold blen in *. lia.
  - destruct ls as [|l ls]; [rewrite En in E0; discriminate|].
    destruct Q4 as (Q4 & lim' & e' & Q5 & Q6).
    assert (En' : n = blen l) by congruence. rewrite En'. unfold blen at 1. rewrite Nat2N.id.
    unfold bind at 1.
    assert (Fl : wf_label l) by (destruct F as [F _]; apply Forall_inv in F; auto).
    unfold pb in Q2. rewrite wire_len_cons in Q2.
    destruct (nc_bytes_spec m r I l (N.of_nat (q + 1)) raw (k + 1)) as (a & k' & R1 & R2 & R3).
    { rewrite Nat2N.id. auto. }
    { unfold blen. lia. }
    { lia. }
    rewrite R1. destruct R3 as [->|[->|(-> & R4 & R5)]].
    + exists Err, k'. auto.
    + exists (Ok false), k'. auto.
    + replace (N.of_nat (q + 1) + blen l)%N with (N.of_nat (q + 1 + length l)) by (unfold blen; lia).
      destruct (IH lim' (q + 1 + length l) ls e' raw k') as (a & k2 & T1 & T2 & T3); auto.
      * destruct F as [F F2]. split; [apply Forall_inv_tail in F; auto|]. rewrite wire_len_cons in F2. lia.
      * unfold pb. lia.
      * lia.
      * lia.
      * exists a, k2. split; auto. split; auto. destruct T3 as [T3|[T3|(T3 & post & T4)]]; auto.
        right. right. split; auto. exists post.
        rewrite (skipn_cons _ _ _ _ E). rewrite En'. unfold enc, body. cbn [flat_map enc_label app]. f_equal.
        assert (Hle : k + 1 <= length raw) by lia.
        destruct (nth_all_slice raw (k + 1) l) as [U1 U2]; auto.
        rewrite <- (firstn_skipn (length l) (skipn (k + 1) raw)), U2, skipn_add.
        replace (k + 1 + length l) with k' by lia. rewrite T4. unfold enc, body. rewrite !app_assoc. auto.
Qed.

Lemma fo_loop_spec : forall m r, inv m r -> forall ls hash items k,
  wf_labels ls -> Forall (item_ok (rdm m r)) items -> k <= wire_len ls ->
  exists a, fst (fo_loop (mr_buf r) hash items (mkIn (enc ls) k)) = a /\
    (a = Err \/ a = Ok NO_OFFSET \/
     exists off e, a = Ok off /\ known ls /\ (off <= 16383)%N /\ wname (rdm m r) (N.to_nat off) (N.to_nat off) ls e).
Proof.
  intros m r I ls hash items. induction items as [|it items IH]; intros k F Hi Hk.
  - simpl. eauto.
  - cbn [fo_loop]. unfold bind at 1. unfold nc_compare. unfold bind at 1, get. unfold ib_len. cbn [ib_data].
    destruct (negb (item_hash it =? hash)%N || negb (item_len it =? as_u8 (N.of_nat (length (enc ls))))%N) eqn:E.
    + unfold ret at 1. apply IH; auto. inversion Hi; auto.
    + bl. assert (A : item_ok (rdm m r) it) by (inversion Hi; auto).
      destruct A as (ils & e & Kn & F' & W & A1 & A2 & A3).
      assert (pos_eq : item_pos it = N.of_nat (N.to_nat (item_pos it))) by lia.
      destruct (nc_loop_spec m r I (S (length (enc ls))) _ _ ils e (enc ls) k W F') as (a & k' & B1 & B2 & B3).
      * unfold pb. destruct F'. lia.
      * assert (N.to_nat (item_pos it) < mr_len r); [|lia].
        destruct W; match goal with H : rdm m r _ = Some _ |- _ => apply (ob_at_rdm _ _ _ _ I) in H; lia end.
      * unfold wire_len in Hk. auto.
      * lia.
      * rewrite <- pos_eq in B1. rewrite B1. destruct B3 as [->|[->|(-> & post & B4)]].
        -- simpl. eauto.
        -- apply IH; auto. inversion Hi; auto.
        -- unfold ret. simpl fst. eexists. split; [reflexivity|]. right. right. exists (item_pos it), e.
           split; auto.
           replace ls with ils; auto.
           rewrite H0 in A1. unfold as_u8 in A1. destruct F as [F0 F1]. unfold wire_len in *.
           rewrite N.mod_small in A1 by lia.
           assert (L : length (skipn k (enc ls)) = length (enc ils ++ post)) by (rewrite B4; auto).
           rewrite skipn_length, app_length in L.
           pose proof (enc_len ls). pose proof (enc_len ils).
           assert (k = 0) by lia. subst k. assert (post = []) by (destruct post; auto; simpl in L; lia). subst post.
           rewrite app_nil_r in B4. simpl in B4. symmetry. apply enc_inj; auto. apply F'.
Qed.

Lemma find_offset_spec : forall m r ls, inv m r -> wf_labels ls -> forall hash,
  let a := find_offset r (enc ls) hash in
  (a = Err \/ a = Ok NO_OFFSET \/
     exists off e, a = Ok off /\ known ls /\ (off <= 16383)%N /\ wname (rdm m r) (N.to_nat off) (N.to_nat off) ls e).
Proof.
  intros m r ls I F hash. unfold find_offset. cbv zeta.
  assert (Hb : N.to_nat (hash mod 64) < 64) by (pose proof (N.mod_lt hash 64); lia).
  set (b := N.to_nat (hash mod 64)) in *.
  destruct (inv_tab _ _ I) as [T1 T2]. destruct (inv_cnt _ _ I) as [C1 C2].
  destruct (idx_ok_lt _ (mr_table r) b) as (row & R1 & R2); [lia|].
  destruct (idx_ok_lt _ (mr_counts r) b) as (c & R3 & R4); [lia|].
  rewrite R1, R3. cbn [rbind].
  assert (Lr : length row = 16) by (rewrite Forall_forall in T2; apply T2; eapply nth_error_In; eauto).
  assert (Lc : c <= 15) by (rewrite Forall_forall in C2; apply C2; eapply nth_error_In; eauto).
  unfold slice. replace ((0 <=? c) && (c <=? length row)) with true by (symmetry; apply andb_true_iff; split; apply Nat.leb_le; lia).
  cbn [rbind]. rewrite Nat.sub_0_r. change (skipn 0 row) with row.
  destruct (fo_loop_spec m r I ls hash (firstn c row) 0 F) as (a & A & B).
  - apply Forall_forall. intros it Hit. apply In_nth_error in Hit. destruct Hit as [k Hk].
    assert (k < c).
    { assert (k < length (firstn c row)) by (apply nth_error_Some; congruence). rewrite firstn_length in *. lia. }
    rewrite nth_firstn in Hk by auto. eapply inv_items; eauto.
  - lia.
  - unfold ib_new. rewrite A. auto.
Qed.
End Known.

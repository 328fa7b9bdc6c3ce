(** Proofs about numbers, the tokenizer and quoted strings. *)
From Verif Require Import Base BaseLemmas NameModel RenderModel CodesModel RDataModel MsgModel TextModel SpecName SpecBuf SpecCodes SpecMsg SpecText TextProofs.
Open Scope list_scope.
Open Scope nat_scope.

(** * Numbers *)
Lemma dvf_ge : forall l acc, (acc <= dec_val_from acc l)%N.
Proof. induction l as [|c l IH]; intros; cbn [dec_val_from]; [lia|]. specialize (IH (acc * 10 + digit_val c)%N). lia. Qed.
Lemma parse_digits_iff : forall l bound acc v, (acc < bound)%N ->
  parse_digits bound acc l = Ok v <-> Forall is_dec l /\ v = dec_val_from acc l /\ (v < bound)%N.
Proof.
  induction l as [|c l IH]; intros bound acc v H; cbn [parse_digits dec_val_from].
  - split; [intro E; apply Ok_inj in E; subst; auto|intros (_ & -> & _); reflexivity].
  - destruct (within 48 57 c) eqn:W; [apply within_iff in W|apply within_no in W].
    + fold (digit_val c). destruct (acc * 10 + digit_val c <? bound)%N eqn:L; [apply N.ltb_lt in L|apply N.ltb_ge in L].
      * rewrite IH by exact L. split; [intros (F & E & B); split; auto|intros (F & E & B); inversion F; auto].
      * split; [discriminate|]. intros (_ & E & B). pose proof (dvf_ge l (acc * 10 + digit_val c)). lia.
    + split; [discriminate|]. intros (F & _). inversion F; subst. unfold is_dec in *. lia.
Qed.
Lemma parse_digits_total : forall l bound acc, exists v, parse_digits bound acc l = v /\ (v = Err \/ exists n, v = Ok n).
Proof.
  induction l as [|c l IH]; intros; cbn [parse_digits]; [eauto|]. destruct (within 48 57 c); [|eauto].
  destruct (_ <? _)%N; eauto.
Qed.
Lemma parse_uint_iff : forall bound s v, (0 < bound)%N -> parse_uint bound s = Ok v <-> number_text s v /\ (v < bound)%N.
Proof.
  intros bound s v H. unfold parse_uint, number_text. split.
  - destruct s as [|c r]; [discriminate|]. destruct (N.eqb_spec c 43) as [->|Hc].
    + destruct r as [|c' r]; [discriminate|]. intro E. apply parse_digits_iff in E; auto. destruct E as (F & -> & B).
      split; auto. exists (c' :: r). repeat split; auto. discriminate.
    + intro E. apply parse_digits_iff in E; auto. destruct E as (F & -> & B).
      split; auto. exists (c :: r). repeat split; auto. discriminate.
  - intros ((ds & S & Nn & F & ->) & B). destruct S as [->| ->].
    + destruct ds as [|c r]; [congruence|]. destruct (N.eqb_spec c 43) as [->|Hc]; [inversion F; unfold is_dec in *; lia|].
      apply parse_digits_iff; auto.
    + rewrite N.eqb_refl. destruct ds as [|c r]; [congruence|]. apply parse_digits_iff; auto.
Qed.
Lemma parse_uint_total : forall bound s, parse_uint bound s = Err \/ exists n, parse_uint bound s = Ok n.
Proof.
  intros. unfold parse_uint. destruct (match s with [] => [] | _ => _ end) as [|a l]; auto.
  destruct (parse_digits_total (a :: l) bound 0) as (v & E & [->|(n & ->)]); [left|right; exists n]; exact E.
Qed.
Lemma parse_uint_err : forall bound s, (0 < bound)%N -> parse_uint bound s = Err <-> ~ exists v, number_text s v /\ (v < bound)%N.
Proof.
  intros bound s H. split.
  - intros E (v & X). apply parse_uint_iff in X; auto. congruence.
  - intro X. destruct (parse_uint_total bound s) as [E|(n & E)]; auto. exfalso. apply X. exists n. apply parse_uint_iff in E; auto.
Qed.
Lemma dvf_app : forall a b acc, dec_val_from acc (a ++ b) = dec_val_from (dec_val_from acc a) b.
Proof. induction a; intros; cbn [app dec_val_from]; auto. Qed.
Lemma is_dec_add : forall x, (x < 10)%N -> is_dec (48 + x)%N.
Proof. unfold is_dec. intros. lia. Qed.
Lemma dec_loop_spec : forall fuel n acc, (n < 10 ^ N.of_nat fuel)%N -> fuel <> 0 ->
  exists ds, dec_loop fuel n acc = ds ++ acc /\ canonical_dec ds /\ dec_val ds = n /\ (forall k, (n < 10 ^ N.of_nat k)%N -> k <> 0 -> length ds <= k).
Proof.
  induction fuel as [|fuel IH]; intros n acc H Z; [congruence|]. cbn [dec_loop].
  assert (M : (n mod 10 < 10)%N) by (apply N.mod_lt; discriminate).
  destruct (N.eqb_spec (n / 10) 0) as [E|E].
  - exists [(48 + n mod 10)%N]. split; [reflexivity|]. split; [|split].
    + repeat split; [discriminate|constructor; [apply is_dec_add; exact M|constructor]|intros r X; injection X; auto].
    + unfold dec_val, digit_val. cbn [dec_val_from]. unfold digit_val.
      pose proof (N.div_mod n 10 ltac:(discriminate)). rewrite E in H0. revert H0. clear. generalize (n mod 10)%N. intros. lia.
    + intros. cbn [length]. lia.
  - destruct fuel as [|fuel'].
    { exfalso. apply E. apply N.div_small. exact H. }
    destruct (IH (n / 10)%N ((48 + n mod 10)%N :: acc)) as (ds & D & C & V & K).
    { apply N.div_lt_upper_bound; [discriminate|]. rewrite <- N.pow_succ_r'. replace (N.succ (N.of_nat (S fuel'))) with (N.of_nat (S (S fuel'))) by lia. exact H. }
    { discriminate. }
    exists (ds ++ [(48 + n mod 10)%N]). split; [rewrite <- app_assoc; exact D|]. destruct C as (C1 & C2 & C3). split; [|split].
    + repeat split.
      * destruct ds; discriminate.
      * apply Forall_app. split; auto. constructor; [apply is_dec_add; exact M|constructor].
      * intros r X. destruct ds as [|d0 ds]; [congruence|]. injection X as -> <-. specialize (C3 ds eq_refl). subst ds.
        exfalso. apply E. rewrite <- V. reflexivity.
    + unfold dec_val in *. rewrite dvf_app, V. cbn [dec_val_from]. unfold digit_val.
      pose proof (N.div_mod n 10 ltac:(discriminate)) as DM. revert DM. clear. generalize (n / 10)%N (n mod 10)%N. intros. lia.
    + intros k Hk Zk. rewrite app_length. cbn [length]. destruct k as [|[|k]]; [lia| |].
      * exfalso. apply E. apply N.div_small. exact Hk.
      * assert (length ds <= S k); [|lia]. apply K; [|discriminate]. apply N.div_lt_upper_bound; [discriminate|].
        rewrite <- N.pow_succ_r'. replace (N.succ (N.of_nat (S k))) with (N.of_nat (S (S k))) by lia. exact Hk.
Qed.
Lemma dec_spec : forall n, (n < 4294967296)%N -> canonical_dec (dec n) /\ dec_val (dec n) = n.
Proof.
  intros n H. destruct (dec_loop_spec 20 n []) as (ds & D & C & V & _).
  - eapply N.lt_trans; [exact H|]. vm_compute. reflexivity.
  - discriminate.
  - unfold dec. rewrite D, app_nil_r. auto.
Qed.
Lemma parse_dec : forall bound n, (n < bound)%N -> (n < 4294967296)%N -> parse_uint bound (dec n) = Ok n.
Proof.
  intros bound n H H2. destruct (dec_spec n H2) as ((C1 & C2 & C3) & V). apply parse_uint_iff; [lia|]. split; auto.
  exists (dec n). auto.
Qed.

(** * UTF-8 *)
Lemma utf8_cons_ascii : forall c l, (c < 128)%N -> valid_utf8 (c :: l) = valid_utf8 l.
Proof. intros c l H. cbn [valid_utf8]. apply N.ltb_lt in H. rewrite H. reflexivity. Qed.
Lemma utf8_ascii : forall l, Forall (fun c => c < 128)%N l -> valid_utf8 l = true.
Proof. induction 1; [reflexivity|]. rewrite utf8_cons_ascii; auto. Qed.
Definition starts_char (l : list N) : Prop := match l with [] => True | c :: _ => cont c = false end.
Lemma cont_big : forall c, (c < 128)%N -> cont c = false.
Proof. intros. unfold cont. apply within_no. lia. Qed.
Lemma within_big : forall a b c, (128 <= a)%N -> (c < 128)%N -> within a b c = false.
Proof. intros. apply within_no. lia. Qed.
Lemma utf8_split : forall n a b, length a <= n -> starts_char b -> valid_utf8 (a ++ b) = true -> valid_utf8 a = true /\ valid_utf8 b = true.
Proof.
  induction n as [|n IH]; intros a b L S H.
  - destruct a; [auto|cbn [length] in L; lia].
  - assert (B1 : forall p, b = p :: tl b -> cont p = false /\ (forall x y, (128 <= x)%N -> (y <= 191)%N -> within x y p = false)).
    { intros p E. destruct b as [|q b']; [discriminate|]. injection E as ->. cbn [starts_char] in S. split; [exact S|]. unfold cont in S. apply within_no in S. intros. apply within_no. lia. }
    destruct a as [|x a]; [auto|]. cbn [app valid_utf8] in *. destruct (x <? 128)%N eqn:X.
    { apply IH; auto. cbn [length] in L; lia. }
    destruct a as [|y a]; cbn [app] in H.
    { exfalso. destruct b as [|q b]; [discriminate|]. destruct (B1 q eq_refl) as [C W].
      rewrite C, !(W _ _) in H by lia. cbn [andb] in H.
      destruct (within 194 223 x); [discriminate|]. destruct b as [|q1 b]; [discriminate|].
      destruct (x =? 224)%N; [discriminate|]. destruct (within 225 236 x || within 238 239 x); [discriminate|].
      destruct (x =? 237)%N; [discriminate|]. destruct b as [|q2 b]; [discriminate|].
      destruct (x =? 240)%N; [discriminate|]. destruct (within 241 243 x); [discriminate|]. destruct (x =? 244)%N; discriminate. }
    destruct (within 194 223 x).
    { apply andb_true_iff in H. destruct H as [H1 H2]. rewrite H1. cbn [andb]. apply IH; auto. cbn [length] in L; lia. }
    destruct a as [|z a]; cbn [app] in H.
    { exfalso. destruct b as [|q b]; [discriminate|]. destruct (B1 q eq_refl) as [C W].
      rewrite C, !andb_false_r in H. cbn [andb] in H.
      destruct (x =? 224)%N; [discriminate|]. destruct (within 225 236 x || within 238 239 x); [discriminate|].
      destruct (x =? 237)%N; [discriminate|]. destruct b as [|q2 b]; [discriminate|].
      destruct (x =? 240)%N; [discriminate|]. destruct (within 241 243 x); [discriminate|]. destruct (x =? 244)%N; discriminate. }
    assert (Q : forall g, g && valid_utf8 (a ++ b) = true -> g && valid_utf8 a = true /\ valid_utf8 b = true).
    { intros g G. apply andb_true_iff in G. destruct G as [G1 G2]. rewrite G1. cbn [andb]. apply IH; auto. cbn [length] in L; lia. }
    destruct (x =? 224)%N; [apply Q; exact H|]. destruct (within 225 236 x || within 238 239 x); [apply Q; exact H|].
    destruct (x =? 237)%N; [apply Q; exact H|]. clear Q.
    destruct a as [|w a]; cbn [app] in H.
    { exfalso. destruct b as [|q b]; [discriminate|]. destruct (B1 q eq_refl) as [C W].
      rewrite C, !andb_false_r in H. cbn [andb] in H.
      destruct (x =? 240)%N; [discriminate|]. destruct (within 241 243 x); [discriminate|]. destruct (x =? 244)%N; discriminate. }
    assert (Q : forall g, g && valid_utf8 (a ++ b) = true -> g && valid_utf8 a = true /\ valid_utf8 b = true).
    { intros g G. apply andb_true_iff in G. destruct G as [G1 G2]. rewrite G1. cbn [andb]. apply IH; auto. cbn [length] in L; lia. }
    destruct (x =? 240)%N; [apply Q; exact H|]. destruct (within 241 243 x); [apply Q; exact H|].
    destruct (x =? 244)%N; [apply Q; exact H|discriminate].
Qed.
Lemma is_ws_ascii : forall c, is_ws c = true -> (c < 128)%N.
Proof. intros c H. unfold is_ws in H. rewrite !orb_true_iff, !N.eqb_eq in H. lia. Qed.
Lemma utf8_gap : forall g l, forallb is_ws g = true -> valid_utf8 (g ++ l) = valid_utf8 l.
Proof.
  induction g as [|c g IH]; intros l H; [reflexivity|]. cbn [forallb] in H. apply andb_true_iff in H. destruct H as [H1 H2].
  cbn [app]. rewrite utf8_cons_ascii by (apply is_ws_ascii; auto). auto.
Qed.

(** * The tokenizer *)
Definition ends_ws (l : list N) : Prop := match l with [] => True | c :: _ => is_ws c = true end.
Definition ends_nws (l : list N) : Prop := match l with [] => True | c :: _ => is_ws c = false end.
Lemma skipn_cons_idx : forall (raw : list N) pos c r, skipn pos raw = c :: r -> idx raw pos = Ok c /\ skipn (pos + 1) raw = r /\ pos < length raw.
Proof.
  intros raw pos c r H. assert (L : pos < length raw).
  { destruct (Nat.lt_ge_cases pos (length raw)) as [L|L]; auto. rewrite skipn_all2 in H by exact L. discriminate. }
  repeat split; auto.
  - unfold idx. rewrite <- (Nat.add_0_r pos), <- nth_skipn, H. reflexivity.
  - rewrite <- skipn_add, H. reflexivity.
Qed.
Lemma skipn_nil_pos : forall (raw : list N) pos, pos <= length raw -> skipn pos raw = [] -> pos = length raw.
Proof. intros raw pos L H. apply (f_equal (@length _)) in H. rewrite skipn_length in H. cbn [length] in H. lia. Qed.
Lemma sb_eos_lt : forall raw pos, pos < length raw -> sb_eos (mkSB raw pos) = false.
Proof. intros. unfold sb_eos. cbn [sb_pos sb_raw]. apply Nat.eqb_neq. lia. Qed.
Lemma sb_eos_end : forall raw, sb_eos (mkSB raw (length raw)) = true.
Proof. intros. unfold sb_eos. cbn [sb_pos sb_raw]. apply Nat.eqb_refl. Qed.
Lemma skip_ws_spec : forall gap rest fuel raw pos, skipn pos raw = gap ++ rest -> pos <= length raw -> forallb is_ws gap = true -> ends_nws rest ->
  length gap < fuel -> sb_skip_ws fuel (mkSB raw pos) = (Ok tt, mkSB raw (pos + length gap)).
Proof.
  induction gap as [|c gap IH]; intros rest fuel raw pos H P G E F; (destruct fuel as [|fuel]; [lia|]); cbn [sb_skip_ws].
  - cbn [app length] in *. rewrite Nat.add_0_r. destruct rest as [|c r].
    + rewrite (skipn_nil_pos raw pos P H), sb_eos_end. reflexivity.
    + destruct (skipn_cons_idx _ _ _ _ H) as (I & _ & L). rewrite sb_eos_lt by exact L.
      unfold bind, sb_cur. cbn [sb_raw sb_pos]. rewrite I. cbn [ends_nws] in E. rewrite E. reflexivity.
  - cbn [app forallb] in *. apply andb_true_iff in G. destruct G as [G1 G2].
    destruct (skipn_cons_idx _ _ _ _ H) as (I & N1 & L). rewrite sb_eos_lt by exact L.
    unfold bind, sb_cur. cbn [sb_raw sb_pos]. rewrite I, G1. unfold sb_advance. cbn [sb_raw sb_pos].
    rewrite (IH rest); auto; cbn [length] in *; try lia. f_equal. f_equal. lia.
Qed.
Lemma skip_word_spec : forall w rest fuel raw pos, skipn pos raw = w ++ rest -> pos <= length raw -> forallb (fun c => negb (is_ws c)) w = true -> ends_ws rest ->
  length w < fuel -> sb_skip_word fuel (mkSB raw pos) = (Ok tt, mkSB raw (pos + length w)).
Proof.
  induction w as [|c gap IH]; intros rest fuel raw pos H P G E F; (destruct fuel as [|fuel]; [lia|]); cbn [sb_skip_word].
  - cbn [app length] in *. rewrite Nat.add_0_r. destruct rest as [|c r].
    + rewrite (skipn_nil_pos raw pos P H), sb_eos_end. reflexivity.
    + destruct (skipn_cons_idx _ _ _ _ H) as (I & _ & L). rewrite sb_eos_lt by exact L.
      unfold bind, sb_cur. cbn [sb_raw sb_pos]. rewrite I. cbn [ends_ws] in E. rewrite E. reflexivity.
  - cbn [app forallb] in *. apply andb_true_iff in G. destruct G as [G1 G2]. apply negb_true_iff in G1.
    destruct (skipn_cons_idx _ _ _ _ H) as (I & N1 & L). rewrite sb_eos_lt by exact L.
    unfold bind, sb_cur. cbn [sb_raw sb_pos]. rewrite I, G1. unfold sb_advance. cbn [sb_raw sb_pos].
    rewrite (IH rest); auto; cbn [length] in *; try lia. f_equal. f_equal. lia.
Qed.
Lemma unread_len : forall (raw : list N) pos a b, skipn pos raw = a ++ b -> length a <= length raw - pos.
Proof. intros raw pos a b H. apply (f_equal (@length _)) in H. rewrite skipn_length, app_length in H. lia. Qed.
Lemma skip_whitespace_spec : forall raw pos gap rest, skipn pos raw = gap ++ rest -> pos <= length raw -> forallb is_ws gap = true -> ends_nws rest ->
  skip_whitespace (mkSB raw pos) = (Ok tt, mkSB raw (pos + length gap)).
Proof. intros raw pos gap rest H P G E. unfold skip_whitespace. eapply skip_ws_spec; eauto. pose proof (unread_len _ _ _ _ H). cbn [sb_raw]. lia. Qed.
Lemma pos_le : forall (raw : list N) pos a b, skipn pos raw = a ++ b -> pos <= length raw -> pos + length a <= length raw.
Proof. intros raw pos a b H P. pose proof (unread_len _ _ _ _ H). lia. Qed.
Lemma skipn_after : forall (raw : list N) pos a b, skipn pos raw = a ++ b -> skipn (pos + length a) raw = b.
Proof. intros raw pos a b H. rewrite <- skipn_add, H, skipn_app, skipn_all, Nat.sub_diag. reflexivity. Qed.
Lemma slice_unread : forall (raw : list N) pos a b, skipn pos raw = a ++ b -> pos <= length raw -> slice raw pos (pos + length a) = Ok a.
Proof.
  intros raw pos a b H P. unfold slice. pose proof (pos_le _ _ _ _ H P).
  rewrite (proj2 (Nat.leb_le pos (pos + length a))), (proj2 (Nat.leb_le _ _) H0) by lia. cbn [andb].
  replace (pos + length a - pos) with (length a) by lia. rewrite H, firstn_app, firstn_all, Nat.sub_diag. cbn [firstn]. rewrite app_nil_r. reflexivity.
Qed.
Lemma read_str_word : forall raw pos gap w rest, skipn pos raw = gap ++ w ++ rest -> pos <= length raw -> forallb is_ws gap = true ->
  w <> [] -> forallb (fun c => negb (is_ws c)) w = true -> ends_ws rest -> valid_utf8 w = true ->
  read_str (mkSB raw pos) = (Ok (Some w), mkSB raw (pos + length gap + length w)).
Proof.
  intros raw pos gap w rest H P G Nw W E U. unfold read_str. unfold bind at 1.
  assert (EN : ends_nws (w ++ rest)).
  { destruct w as [|c w]; [congruence|]. cbn [app ends_nws forallb] in *. apply andb_true_iff in W. destruct W as [W _]. apply negb_true_iff in W. exact W. }
  rewrite (skip_whitespace_spec raw pos gap (w ++ rest) H P G EN). cbn [bind get].
  pose proof (skipn_after _ _ _ _ H) as H2. pose proof (pos_le _ _ _ _ H P) as P2.
  unfold bind at 1, get. unfold bind at 1. cbn [sb_raw sb_pos].
  rewrite (skip_word_spec w rest); auto. 2:{ pose proof (unread_len _ _ _ _ H2). lia. }
  unfold bind at 1. cbn [sb_pos sb_raw]. rewrite (proj2 (Nat.eqb_neq _ _)). 2:{ destruct w; [congruence|cbn [length]; lia]. }
  unfold bind, lift. rewrite (slice_unread _ _ _ _ H2 P2). unfold utf8_unwrap. rewrite U. reflexivity.
Qed.
Lemma read_str_none : forall raw pos, pos <= length raw -> forallb is_ws (skipn pos raw) = true ->
  read_str (mkSB raw pos) = (Ok None, mkSB raw (length raw)).
Proof.
  intros raw pos P G. unfold read_str. unfold bind at 1.
  assert (H : skipn pos raw = skipn pos raw ++ []) by (rewrite app_nil_r; reflexivity).
  rewrite (skip_whitespace_spec raw pos (skipn pos raw) [] H P G I).
  replace (pos + length (skipn pos raw)) with (length raw) by (rewrite skipn_length; lia).
  unfold bind at 1, get. unfold bind at 1. cbn [sb_raw sb_pos].
  assert (Q : sb_skip_word (length raw + 1) (mkSB raw (length raw)) = (Ok tt, mkSB raw (length raw))).
  { destruct (length raw + 1) eqn:El; [lia|]. cbn [sb_skip_word]. rewrite sb_eos_end. reflexivity. }
  rewrite Q. unfold bind at 1. cbn [sb_pos]. rewrite Nat.eqb_refl. reflexivity.
Qed.
Lemma words_nexts : forall s l, words s l -> forall raw pos, skipn pos raw = s -> pos <= length raw -> valid_utf8 s = true -> nexts l (mkSB raw pos).
Proof.
  induction 1 as [s W|gap w rest l G Nw W E HW IH]; intros raw pos H P U; cbn [nexts].
  - subst s. exists (mkSB raw (length raw)). rewrite read_str_none by auto. split; [reflexivity|].
    apply read_str_none; [lia|]. rewrite skipn_all. reflexivity.
  - rewrite utf8_gap in U by auto. destruct (utf8_split (length w) w rest) as [U1 U2]; auto.
    { destruct E as [->|(c & r & -> & Hc)]; cbn [starts_char]; auto. apply cont_big, is_ws_ascii; auto. }
    exists (mkSB raw (pos + length gap + length w)). split.
    + eapply read_str_word; eauto. destruct E as [->|(c & r & -> & Hc)]; cbn [ends_ws]; auto.
    + pose proof (skipn_after _ _ _ _ H) as H2. apply IH; auto.
      * apply skipn_after with (a := w). exact H2.
      * eapply pos_le; eauto. eapply pos_le; eauto.
Qed.
Lemma span_ws : forall (p : N -> bool) s, exists a b, s = a ++ b /\ forallb p a = true /\ match b with [] => True | c :: _ => p c = false end.
Proof.
  intro p. induction s as [|c s IH].
  - exists [], []. repeat split; reflexivity.
  - destruct (p c) eqn:E.
    + destruct IH as (a & b & -> & A & B). exists (c :: a), b. cbn [app forallb]. rewrite E. auto.
    + exists [], (c :: s). cbn [app]. auto.
Qed.
Lemma words_exist : forall s, exists l, words s l.
Proof.
  intro s. remember (length s) as n. revert s Heqn. induction n as [n IH] using lt_wf_ind. intros s Hn.
  destruct (span_ws is_ws s) as (gap & r & -> & G & R). destruct r as [|c r].
  - exists []. apply words_nil. rewrite app_nil_r. exact G.
  - destruct (span_ws (fun c => negb (is_ws c)) (c :: r)) as (w & rest & E & W & Q).
    assert (Nw : w <> []). { intro; subst w. cbn [app] in E. subst rest. rewrite R in Q. discriminate. }
    destruct (IH (length rest)) with (s := rest) as (l & L); auto.
    { subst n. rewrite E, !app_length. destruct w; [congruence|]. cbn [length]. lia. }
    exists (w :: l). rewrite E. apply words_cons; auto. destruct rest as [|q rest]; auto. right. exists q, rest. split; auto.
    apply negb_false_iff in Q. exact Q.
Qed.
Lemma words_det : forall s l, words s l -> forall l', words s l' -> l = l'.
Proof.
  assert (U : forall (p : N -> bool) a b a' b', a ++ b = a' ++ b' -> forallb p a = true -> forallb p a' = true ->
    match b with [] => True | c :: _ => p c = false end -> match b' with [] => True | c :: _ => p c = false end -> a = a' /\ b = b').
  { intros p. induction a as [|c a IH]; intros b a' b' E A A' B B'; destruct a' as [|c' a']; cbn [app forallb] in *; auto.
    - subst b. apply andb_true_iff in A'. destruct A'. congruence.
    - subst b'. apply andb_true_iff in A. destruct A. congruence.
    - injection E as -> E. apply andb_true_iff in A. apply andb_true_iff in A'. destruct (IH b a' b'); try tauto. subst; auto. }
  assert (H0 : forall w r, w <> [] -> forallb (fun c => negb (is_ws c)) w = true -> match w ++ r with [] => True | c :: _ => is_ws c = false end).
  { intros w r Nw W. destruct w; [congruence|]. cbn [app forallb] in *. apply andb_true_iff in W. destruct W as [W _]. apply negb_true_iff in W. exact W. }
  assert (H1 : forall rest, (rest = [] \/ (exists c r, rest = c :: r /\ is_ws c = true)) -> match rest with [] => True | c :: _ => negb (is_ws c) = false end).
  { intros rest [->|(c & r & -> & C)]; auto. rewrite C. reflexivity. }
  induction 1 as [s W|gap w rest l G Nw W E HW IH]; intros l' H.
  - inversion H as [|gap w rest l G Nw W2 E HW]; subst; auto. exfalso.
    destruct w as [|c w]; [congruence|]. rewrite !forallb_app in W. cbn [forallb] in W, W2. destruct (is_ws c); cbn [negb andb] in *; [discriminate|rewrite andb_false_r in W; discriminate].
  - remember (gap ++ w ++ rest) as s eqn:Es. destruct H as [s W'|gap' w' rest' l' G' Nw' W' E' HW'].
    + subst s. exfalso. destruct w as [|c w]; [congruence|]. rewrite !forallb_app in W'. cbn [forallb] in W, W'. destruct (is_ws c); cbn [negb andb] in *; [discriminate|rewrite andb_false_r in W'; discriminate].
    + destruct (U is_ws gap' (w' ++ rest') gap (w ++ rest) Es G' G (H0 _ _ Nw' W') (H0 _ _ Nw W)) as [-> Q].
      destruct (U (fun c => negb (is_ws c)) w' rest' w rest Q W' W (H1 _ E') (H1 _ E)) as [-> ->].
      f_equal. auto.
Qed.

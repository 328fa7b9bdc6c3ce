(** Exactly which texts make the record parsers panic. *)
From Coq Require Import String ZArith Lia.
From Verif Require Import Base BaseLemmas NameModel RenderModel CodesModel RDataModel MsgModel TextModel SpecName SpecBuf SpecCodes SpecMsg SpecText SpecPanic
  NameTextProofs NameTextProofs2 CodesProofs TextProofs TextProofs2 TextProofs3 TextProofs4 TextProofs5 TextProofs6 Utf8Proofs.
Open Scope list_scope.
Open Scope nat_scope.

(** * Character boundaries *)
Lemma valid_app : forall a b, valid_utf8 a = true -> valid_utf8 (a ++ b) = valid_utf8 b.
Proof.
  intros a b V. destruct (valid_decodes _ a (le_n _) V) as (cs & F & ->). clear V. induction F as [|c cs S F IH]; cbn [flat_map app]; auto.
  rewrite <- app_assoc, v_app by auto. exact IH.
Qed.
Lemma valid_starts : forall l, valid_utf8 l = true -> starts_char l.
Proof.
  intros [|a r] V; cbn [starts_char]; auto. destruct (cont a) eqn:C; auto. exfalso. unfold cont, within in C. apply andb_true_iff in C. destruct C as [C1 C2].
  apply N.leb_le in C1, C2. cbn [valid_utf8] in V. rewrite (proj2 (N.ltb_ge _ _)) in V by lia.
  assert (W : forall p q, (192 <= p)%N -> within p q a = false) by (intros p q Hp; unfold within; rewrite (proj2 (N.leb_gt _ _)) by lia; reflexivity).
  assert (Q : forall p, (192 <= p)%N -> (a =? p)%N = false) by (intros p Hp; apply N.eqb_neq; lia).
  destruct r as [|b r]; [discriminate|]. rewrite W in V by lia. destruct r as [|c r]; [discriminate|]. rewrite !W, !Q in V by lia. cbn [orb] in V.
  destruct r as [|d r]; discriminate.
Qed.
Lemma boundary_valid : forall w k, valid_utf8 w = true -> k <= length w -> boundary w k = valid_utf8 (firstn k w).
Proof.
  intros w k V L. assert (B : boundary w k = true <-> starts_char (skipn k w)).
  { unfold boundary. rewrite <- (firstn_skipn k w) at 1. rewrite nth_error_app2; rewrite firstn_length, Nat.min_l by lia; [|lia]. rewrite Nat.sub_diag.
    destruct (skipn k w) as [|c r] eqn:E; cbn [nth_error starts_char].
    - assert (length (skipn k w) = 0) by (rewrite E; reflexivity). rewrite skipn_length in H. split; auto. intros _. apply Nat.eqb_eq. lia.
    - destruct (cont c); cbn; split; congruence. }
  destruct (valid_utf8 (firstn k w)) eqn:F.
  - apply B. apply valid_starts. rewrite <- (valid_app (firstn k w)) by auto. rewrite firstn_skipn. exact V.
  - destruct (boundary w k); auto. rewrite <- F. symmetry. apply (utf8_split (length (firstn k w)) (firstn k w) (skipn k w)); auto; [apply B; auto|rewrite firstn_skipn; exact V].
Qed.
(** * The groups of a time *)
Lemma digits_ascii : forall s, Forall is_dec s -> valid_utf8 s = true.
Proof. intros s H. apply utf8_ascii. eapply Forall_impl; [|exact H]. intros c Q. unfold is_dec in Q. cbn. lia. Qed.
Lemma number_ascii : forall s v, number_text s v -> valid_utf8 s = true.
Proof. intros s v (ds & [->| ->] & _ & F & _); [|rewrite utf8_cons_ascii by reflexivity]; apply digits_ascii; auto. Qed.
Lemma signed_ascii : forall s v, signed_text s v -> valid_utf8 s = true.
Proof. intros s v [(n & H & _)|(ds & -> & _ & F & _)]; [eapply number_ascii; eauto|]. rewrite utf8_cons_ascii by reflexivity. apply digits_ascii; auto. Qed.
Lemma dec_bound : forall ds acc, Forall is_dec ds -> (dec_val_from acc ds < (acc + 1) * 10 ^ N.of_nat (length ds))%N.
Proof.
  induction ds as [|c ds IH]; intros acc F; cbn [dec_val_from length]. { change (N.of_nat 0) with 0%N. rewrite N.pow_0_r. lia. }
  inversion F as [|? ? Fc F']; subst. specialize (IH (acc * 10 + digit_val c)%N F'). eapply N.lt_le_trans; [exact IH|].
  rewrite Nat2N.inj_succ, N.pow_succ_r'. rewrite N.mul_assoc. apply N.mul_le_mono_r. unfold is_dec in Fc. unfold digit_val. lia.
Qed.
Lemma dec_small : forall ds k, Forall is_dec ds -> length ds <= k -> (dec_val ds < 10 ^ N.of_nat k)%N.
Proof.
  intros ds k F L. unfold dec_val. pose proof (dec_bound ds 0 F) as H. eapply N.lt_le_trans; [exact H|]. change (0 + 1)%N with 1%N. rewrite N.mul_1_l.
  apply N.pow_le_mono_r; lia.
Qed.
Lemma number_small : forall s v k, number_text s v -> length s <= k -> (v < 10 ^ N.of_nat k)%N.
Proof. intros s v k (ds & D & _ & F & ->) L. apply dec_small; auto. destruct D as [->| ->]; cbn [length] in L; lia. Qed.
Lemma u8_pair : forall s v, length s = 2 -> parse_u8 s = Ok v <-> number_text s v.
Proof.
  intros s v L. unfold parse_u8. rewrite parse_uint_iff by reflexivity. split; [tauto|]. intro H. split; auto.
  pose proof (number_small s v 2 H ltac:(lia)) as B. change (10 ^ N.of_nat 2)%N with 100%N in B. lia.
Qed.
Lemma parse_digits_iff : forall bound l acc v, (acc < bound)%N -> parse_digits bound acc l = Ok v <-> Forall is_dec l /\ v = dec_val_from acc l /\ (v < bound)%N.
Proof.
  intros bound. induction l as [|c l IH]; intros acc v H; cbn [parse_digits dec_val_from].
  - split; [intro E; apply Ok_inj in E; subst; repeat split; auto|intros (_ & -> & _); reflexivity].
  - assert (D : within 48 57 c = true <-> is_dec c). { unfold within, is_dec. rewrite andb_true_iff, !N.leb_le. tauto. }
    assert (Mono : forall l acc, (acc <= dec_val_from acc l)%N).
    { clear. induction l as [|c l IH]; intros acc; cbn [dec_val_from]; [lia|]. specialize (IH (acc * 10 + digit_val c)%N). lia. }
    destruct (within 48 57 c) eqn:W.
    + cbn zeta. destruct (N.ltb_spec (acc * 10 + (c - 48)) bound)%N as [B|B].
      * rewrite IH by auto. rewrite Forall_cons_iff. unfold digit_val. assert (is_dec c) by (apply D; reflexivity). tauto.
      * split; [discriminate|]. intros (_ & -> & Q). specialize (Mono l (acc * 10 + digit_val c)%N). unfold digit_val in *. lia.
    + split; [discriminate|]. intros (F & _). inversion F as [|? ? Fc]; subst. apply D in Fc. discriminate.
Qed.
Lemma i32_four : forall s v, length s = 4 -> parse_i32 s = Ok v <-> signed_text s v.
Proof.
  intros s v L. destruct s as [|c [|c2 r]]; try (cbn [length] in L; lia). cbn [parse_i32].
  assert (X : (let? v0 := parse_uint 2147483648 (c :: c2 :: r) in Ok (Z.of_N v0)) = Ok v <-> exists n, number_text (c :: c2 :: r) n /\ v = Z.of_N n).
  { split.
    - intro H. apply rbind_ok in H. destruct H as (n & E & H). apply Ok_inj in H. exists n. apply parse_uint_iff in E; [|reflexivity]. split; [tauto|auto].
    - intros (n & H & ->). assert (B : (n < 2147483648)%N). { pose proof (number_small _ _ 4 H ltac:(lia)) as B. change (10 ^ N.of_nat 4)%N with 10000%N in B. lia. }
      rewrite (proj2 (parse_uint_iff 2147483648 (c :: c2 :: r) n ltac:(reflexivity))) by auto. reflexivity. }
  unfold signed_text. destruct (N.eqb_spec c 45) as [->|Nc].
  - split.
    + intro H. apply rbind_ok in H. destruct H as (n & E & H). apply Ok_inj in H. apply parse_digits_iff in E; [|lia]. destruct E as (F & -> & _).
      right. exists (c2 :: r). repeat split; auto. discriminate.
    + intros [(n & (ds & [Q|Q] & _ & F & _) & _)|(ds & E & _ & F & ->)].
      * subst ds. inversion F as [|? ? Fc]; subst. unfold is_dec in Fc. lia.
      * discriminate.
      * injection E as <-. assert (B : (dec_val (c2 :: r) < 10000)%N). { apply (dec_small _ 4 F). cbn [length] in L |- *. lia. }
        rewrite (proj2 (parse_digits_iff 2147483649 (c2 :: r) 0 (dec_val (c2 :: r)) ltac:(lia))); [reflexivity|]. repeat split; auto. lia.
  - rewrite X. split; [intro H; left; exact H|]. intros [H|(ds & E & _)]; [exact H|]. exfalso. injection E. intros _ Q. apply Nc. exact Q.
Qed.
(** One group: a panic if its end is inside a character, else the number in it. *)
Lemma group : forall w a b, valid_utf8 w = true -> a <= b -> b <= length w -> valid_utf8 (firstn a w) = true ->
  str_slice w a b = if valid_utf8 (firstn b w) then Ok (part w a b) else Panic.
Proof.
  intros w a b V H1 H2 A. unfold str_slice. rewrite !boundary_valid by (auto; lia). rewrite A, (proj2 (Nat.leb_le _ _)) by auto. cbn [andb].
  destruct (valid_utf8 (firstn b w)); auto. unfold slice. rewrite !(proj2 (Nat.leb_le _ _)) by auto. reflexivity.
Qed.
Lemma part_app : forall w a b, a <= b -> firstn b w = firstn a w ++ part w a b.
Proof. intros w a b H. unfold part. replace b with (a + (b - a)) at 1 by lia. rewrite <- (firstn_skipn a w) at 1. 
  destruct (Nat.le_ge_cases a (length w)) as [L|L].
  - rewrite firstn_app, firstn_length, Nat.min_l by auto. replace (a + (b - a) - a) with (b - a) by lia. f_equal. apply firstn_all2. rewrite firstn_length. lia.
  - rewrite skipn_all2 by auto. rewrite !app_nil_r, firstn_nil, app_nil_r. apply firstn_all2. rewrite firstn_length. lia.
Qed.
Lemma part_len : forall w a b, a <= b -> b <= length w -> length (part w a b) = b - a.
Proof. intros w a b H1 H2. unfold part. rewrite firstn_length, skipn_length. lia. Qed.
Definition time_word (x : ext) (ts : list N) : res N :=
  if negb (length ts =? 14) then Err
  else
    let? y := (let? t := str_slice ts 0 4 in parse_i32 t) in
    let? mo := (let? t := str_slice ts 4 6 in parse_u8 t) in
    let? dy := (let? t := str_slice ts 6 8 in parse_u8 t) in
    if x_ymd x y mo dy then
      let? h := (let? t := str_slice ts 8 10 in parse_u8 t) in
      let? mi := (let? t := str_slice ts 10 12 in parse_u8 t) in
      let? se := (let? t := str_slice ts 12 14 in parse_u8 t) in
      if x_hms x h mi se then Ok (Z.to_N (x_unix x y mo dy h mi se mod 4294967296)) else Err
    else Err.
Lemma num_group : forall w a b, valid_utf8 w = true -> b = a + 2 -> b <= length w -> valid_utf8 (firstn a w) = true ->
  (valid_utf8 (firstn b w) = false /\ (let? t := str_slice w a b in parse_u8 t) = Panic) \/
  (valid_utf8 (firstn b w) = true /\ (let? t := str_slice w a b in parse_u8 t) = Err /\ forall v, ~ number_text (part w a b) v) \/
  (valid_utf8 (firstn b w) = true /\ exists v, (let? t := str_slice w a b in parse_u8 t) = Ok v /\ number_text (part w a b) v /\ forall v', number_text (part w a b) v' -> v' = v).
Proof.
  intros w a b V Hb L A. rewrite group by (auto; lia). destruct (valid_utf8 (firstn b w)); [right|left; auto]. cbn [rbind].
  assert (Lp : length (part w a b) = 2) by (rewrite part_len by lia; lia). destruct (parse_u8 (part w a b)) as [v| | |] eqn:E.
  - right. split; auto. exists v. split; auto. split; [apply u8_pair; auto|]. intros v' H. apply u8_pair in H; auto. rewrite E in H. apply Ok_inj in H. auto.
  - left. split; auto. split; auto. intros v H. apply u8_pair in H; auto. congruence.
  - exfalso. destruct (parse_uint_safe 256 (part w a b)). auto.
  - exfalso. destruct (parse_uint_safe 256 (part w a b)). auto.
Qed.
Lemma year_group : forall w, valid_utf8 w = true -> 4 <= length w ->
  (valid_utf8 (firstn 4 w) = false /\ (let? t := str_slice w 0 4 in parse_i32 t) = Panic) \/
  (valid_utf8 (firstn 4 w) = true /\ (let? t := str_slice w 0 4 in parse_i32 t) = Err /\ forall v, ~ signed_text (part w 0 4) v) \/
  (valid_utf8 (firstn 4 w) = true /\ exists v, (let? t := str_slice w 0 4 in parse_i32 t) = Ok v /\ signed_text (part w 0 4) v /\ forall v', signed_text (part w 0 4) v' -> v' = v).
Proof.
  intros w V L. rewrite group by (auto; lia). destruct (valid_utf8 (firstn 4 w)); [right|left; auto]. cbn [rbind].
  assert (Lp : length (part w 0 4) = 4) by (rewrite part_len by lia; lia). destruct (parse_i32 (part w 0 4)) as [v| | |] eqn:E.
  - right. split; auto. exists v. split; auto. split; [apply i32_four; auto|]. intros v' H. apply i32_four in H; auto. rewrite E in H. apply Ok_inj in H. auto.
  - left. split; auto. split; auto. intros v H. apply i32_four in H; auto. congruence.
  - exfalso. destruct (parse_i32_safe (part w 0 4)). auto.
  - exfalso. destruct (parse_i32_safe (part w 0 4)). auto.
Qed.
Lemma rbind_of : forall A B (r : res A) (k : A -> res B) v, r = v -> rbind r k = rbind v k.
Proof. intros; subst; auto. Qed.
(** The three outcomes of reading a word as a time. *)
Lemma time_word_spec : forall x w, valid_utf8 w = true ->
  (forall t, time_word x w = Ok t <-> time_text x w t) /\ (time_word x w = Panic <-> torn_time x w) /\ time_word x w <> Hang.
Proof.
  intros x w V. unfold time_word, time_text, torn_time. destruct (Nat.eqb_spec (length w) 14) as [L|L]; cbn [negb].
  2:{ split; [|split]; try discriminate; [intro t|]; split; try discriminate; intros (Q & _); congruence. }
  Ltac stop kk := split; [let t := fresh "t" in intro t; split; [discriminate|intros (_ & Y & MO & D & H & MI & SE & S1 & N1 & N2 & Q1 & N3 & N4 & N5 & Q2 & ->)]
                       |split; [split; [try discriminate|intros (_ & K & Y & MO & D & H & I & B & C1 & C2 & C3 & C4)]|discriminate]].
  Ltac pick I C1 C2 C3 C4 := cbn [In] in I; repeat (destruct I as [<-|I]); try contradiction;
    try (specialize (C1 ltac:(lia))); try (specialize (C2 ltac:(lia))); try (specialize (C3 ltac:(lia)); destruct C3 as [C3 C3']); try (specialize (C4 ltac:(lia))); try congruence.
  destruct (year_group w V ltac:(lia)) as [(F4 & E)|[(F4 & E & Nn)|(F4 & y & E & Hy & Uy)]]; rewrite (rbind_of _ _ _ _ _ E); cbn [rbind]; clear E.
  { stop 4. - rewrite part_app with (a := 0) in F4 by lia. apply signed_ascii in S1. cbn [firstn app] in F4. congruence.
    - intros _. split; auto. exists 4, 0%Z, 0%N, 0%N, 0%N. split; [cbn; auto|]. split; auto. repeat (split; [intro; lia|]); intro; lia.
    - reflexivity. }
  { stop 4. - exfalso; eapply Nn; eauto. - pick I C1 C2 C3 C4; exfalso; eapply Nn; eauto. }
  destruct (num_group w 4 6 V eq_refl ltac:(lia) F4) as [(F6 & E)|[(F6 & E & Nn)|(F6 & mo & E & Hmo & Umo)]]; rewrite (rbind_of _ _ _ _ _ E); cbn [rbind]; clear E.
  { stop 6. - rewrite part_app with (a := 4) in F6 by lia. rewrite valid_app in F6 by auto. apply number_ascii in N1. congruence.
    - intros _. split; auto. exists 6, y, 0%N, 0%N, 0%N. split; [cbn; auto|]. split; auto. split; [auto|]. repeat (split; [intro; lia|]); intro; lia.
    - reflexivity. }
  { stop 6. - exfalso; eapply Nn; eauto. - pick I C1 C2 C3 C4; exfalso; eapply Nn; eauto. }
  destruct (num_group w 6 8 V eq_refl ltac:(lia) F6) as [(F8 & E)|[(F8 & E & Nn)|(F8 & d & E & Hd & Ud)]]; rewrite (rbind_of _ _ _ _ _ E); cbn [rbind]; clear E.
  { stop 8. - rewrite part_app with (a := 6) in F8 by lia. rewrite valid_app in F8 by auto. apply number_ascii in N2. congruence.
    - intros _. split; auto. exists 8, y, mo, 0%N, 0%N. split; [cbn; auto|]. split; auto. split; [auto|]. split; [auto|]. split; [intro; lia|]. intro; lia.
    - reflexivity. }
  { stop 8. - exfalso; eapply Nn; eauto. - pick I C1 C2 C3 C4; exfalso; eapply Nn; eauto. }
  destruct (x_ymd x y mo d) eqn:Ed.
  2:{ stop 8. - apply Uy in S1. apply Umo in N1. apply Ud in N2. subst. congruence.
      - pick I C1 C2 C3 C4; apply Uy in C1; apply Umo in C2; apply Ud in C3; subst; congruence. }
  destruct (num_group w 8 10 V eq_refl ltac:(lia) F8) as [(F10 & E)|[(F10 & E & Nn)|(F10 & h & E & Hh & Uh)]]; rewrite (rbind_of _ _ _ _ _ E); cbn [rbind]; clear E.
  { stop 10. - rewrite part_app with (a := 8) in F10 by lia. rewrite valid_app in F10 by auto. apply number_ascii in N3. congruence.
    - intros _. split; auto. exists 10, y, mo, d, 0%N. split; [cbn; auto 6|]. split; auto. split; [auto|]. split; [auto|]. split; [auto|]. intro; lia.
    - reflexivity. }
  { stop 10. - exfalso; eapply Nn; eauto. - pick I C1 C2 C3 C4; exfalso; eapply Nn; eauto. }
  destruct (num_group w 10 12 V eq_refl ltac:(lia) F10) as [(F12 & E)|[(F12 & E & Nn)|(F12 & mi & E & Hmi & Umi)]]; rewrite (rbind_of _ _ _ _ _ E); cbn [rbind]; clear E.
  { stop 12. - rewrite part_app with (a := 10) in F12 by lia. rewrite valid_app in F12 by auto. apply number_ascii in N4. congruence.
    - intros _. split; auto. exists 12, y, mo, d, h. split; [cbn; auto 7|]. split; auto.
    - reflexivity. }
  { stop 12. - exfalso; eapply Nn; eauto. - pick I C1 C2 C3 C4; exfalso; eapply Nn; eauto. }
  assert (NT : ~ (length w = 14 /\ (exists (k : nat) (y0 : Z) (mo0 d0 h0 : N), In k [4; 6; 8; 10; 12] /\ valid_utf8 (firstn k w) = false /\
    (4 < k -> signed_text (part w 0 4) y0) /\ (6 < k -> number_text (part w 4 6) mo0) /\
    (8 < k -> number_text (part w 6 8) d0 /\ x_ymd x y0 mo0 d0 = true) /\ (10 < k -> number_text (part w 8 10) h0)))).
  { intros (_ & K & Y & MO & D & H & I & B & _). cbn [In] in I. repeat (destruct I as [<-|I]); try contradiction; congruence. }
  destruct (num_group w 12 14 V eq_refl ltac:(lia) F12) as [(F14 & E)|[(F14 & E & Nn)|(F14 & se & E & Hse & Use)]].
  { exfalso. rewrite <- L, firstn_all in F14. congruence. }
  { rewrite (rbind_of _ _ _ _ _ E); cbn [rbind]; clear E. split; [|split; [split; [discriminate|intro Q; contradiction]|discriminate]].
    intro t. split; [discriminate|]. intros (_ & Y & MO & D & H & MI & SE & S1 & N1 & N2 & Q1 & N3 & N4 & N5 & Q2 & ->). exfalso. eapply Nn; eauto. }
  rewrite (rbind_of _ _ _ _ _ E); cbn [rbind]; clear E. destruct (x_hms x h mi se) eqn:Eh.
  - split; [|split; [split; [discriminate|intro Q; contradiction]|discriminate]]. intro t. split.
    + intro Q. apply Ok_inj in Q. split; auto. exists y, mo, d, h, mi, se. repeat (split; [assumption|]). auto.
    + intros (_ & Y & MO & D & H & MI & SE & S1 & N1 & N2 & Q1 & N3 & N4 & N5 & Q2 & ->).
      apply Uy in S1. apply Umo in N1. apply Ud in N2. apply Uh in N3. apply Umi in N4. apply Use in N5. subst. reflexivity.
  - split; [|split; [split; [discriminate|intro Q; contradiction]|discriminate]]. intro t. split; [discriminate|].
    intros (_ & Y & MO & D & H & MI & SE & S1 & N1 & N2 & Q1 & N3 & N4 & N5 & Q2 & ->).
    apply Uh in N3. apply Umi in N4. apply Use in N5. subst. congruence.
Qed.
(** * Word by word *)
Definition sees (raw : list N) (pos : nat) (ws : list (list N)) : Prop := pos <= length raw /\ valid_utf8 (skipn pos raw) = true /\ words (skipn pos raw) ws.
Lemma sees_word : forall raw pos w ws, sees raw pos (w :: ws) -> valid_utf8 w = true /\ exists pos', read_str (mkSB raw pos) = (Ok (Some w), mkSB raw pos') /\ sees raw pos' ws.
Proof.
  intros raw pos w ws (P & V & W). inversion W as [|gap w' rest l G Nw Nws E HW Eq]; subst w' l. symmetry in Eq. rename Eq into Es.
  assert (As : asc false (gap ++ w ++ rest)) by (split; [congruence|discriminate]).
  pose proof (asc_gap false gap _ G As) as V1.
  assert (St : starts_char rest). { destruct E as [->|(c & r & -> & Hc)]; cbn [starts_char]; auto. apply cont_big, is_ws_ascii; auto. }
  destruct (asc_split false w rest St V1) as [[V2 _] [V3 _]]. split; [exact V2|]. exists (pos + length gap + length w). split.
  - apply (read_str_word raw pos gap w rest); auto. destruct E as [->|(c & r & -> & Hc)]; cbn [ends_ws]; auto.
  - assert (Er : skipn (pos + length gap + length w) raw = rest). { apply skipn_after with (a := w). apply skipn_after with (a := gap). exact Es. }
    split; [|rewrite Er; auto]. eapply pos_le. { apply skipn_after with (a := gap). exact Es. } eapply pos_le; eauto.
Qed.
Lemma sees_end : forall raw pos, sees raw pos [] -> exists b, read_str (mkSB raw pos) = (Ok None, b).
Proof. intros raw pos (P & V & W). inversion W; subst. rewrite read_str_none by auto. eauto. Qed.
Lemma time_run : forall x raw pos w ws, sees raw pos (w :: ws) -> exists pos', timestamp_from_str x (mkSB raw pos) = (time_word x w, mkSB raw pos') /\ sees raw pos' ws.
Proof.
  intros x raw pos w ws H. destruct (sees_word _ _ _ _ H) as (_ & pos' & E & H'). exists pos'. split; auto.
  unfold timestamp_from_str. unfold bind at 1. rewrite E. unfold time_word. destruct (negb _); [reflexivity|].
  unfold bind, lift, fail, ensure, ret. repeat (match goal with |- context [match rbind ?a ?b with _ => _ end] => destruct (rbind a b); cbn [rbind]; try reflexivity end;
    try (destruct (x_ymd _ _ _ _); [|reflexivity])). destruct (x_hms _ _ _ _); reflexivity.
Qed.
Lemma read_run : forall A (p : list N -> res A) raw pos w ws, sees raw pos (w :: ws) -> exists pos', sb_read p (mkSB raw pos) = (p w, mkSB raw pos') /\ sees raw pos' ws.
Proof. intros A p raw pos w ws H. destruct (sees_word _ _ _ _ H) as (_ & pos' & E & H'). exists pos'. split; auto. unfold sb_read, bind. rewrite E. reflexivity. Qed.
Lemma read_end : forall A (p : list N -> res A) raw pos, sees raw pos [] -> exists b, sb_read p (mkSB raw pos) = (Err, b).
Proof. intros A p raw pos H. destruct (sees_end _ _ H) as (b & E). exists b. unfold sb_read, bind. rewrite E. reflexivity. Qed.
(** A run that panics exactly if [P], and always ends. *)
Definition out {A} (r : res A) (P : Prop) : Prop := (r = Panic <-> P) /\ r <> Hang.
Lemma out_bind : forall A B (m : M sbuf A) (k : A -> M sbuf B) b r b' (P : Prop), m b = (r, b') -> r <> Hang ->
  (forall a, r = Ok a -> out (fst (k a b')) P) -> (r = Panic -> P) -> (r = Err -> ~ P) -> out (fst (bind m k b)) P.
Proof.
  intros A B m k b r b' P E H K Hp He. unfold bind. rewrite E. destruct r as [a| | |]; cbn [fst].
  - apply K. reflexivity.
  - split; [|discriminate]. split; [discriminate|]. intro Q. exfalso. apply He; auto.
  - split; [|discriminate]. split; auto.
  - congruence.
Qed.
Lemma out_good : forall A (m : M sbuf A) Q raw pos ws, goodP false m Q -> sees raw pos ws -> out (fst (m (mkSB raw pos))) False.
Proof. intros A m Q raw pos ws G (P & V & _). destruct (G raw pos P) as [[S1 S2] _]; [split; [exact V|discriminate]|]. split; auto. split; [intro; contradiction|contradiction]. Qed.
Lemma out_iff : forall A (r : res A) P Q, out r P -> (P <-> Q) -> out r Q.
Proof. intros A r P Q [H1 H2] E. split; auto. rewrite H1. exact E. Qed.
(** A word read by a parser that does not panic. *)
Lemma out_read : forall A B (p : list N -> res A) (k : A -> M sbuf B) raw pos ws (P : Prop), (forall s, safe (p s)) -> sees raw pos ws ->
  (P -> exists w ws' a, ws = w :: ws' /\ p w = Ok a) ->
  (forall w ws' a pos', ws = w :: ws' -> p w = Ok a -> sees raw pos' ws' -> out (fst (k a (mkSB raw pos'))) P) -> out (fst (bind (sb_read p) k (mkSB raw pos))) P.
Proof.
  intros A B p k raw pos ws P Sf H Need K. destruct ws as [|w ws].
  - destruct (read_end _ p _ _ H) as (b & E). eapply out_bind; [exact E|discriminate|discriminate|discriminate|]. intros _ Q. destruct (Need Q) as (w & ws' & a & X & _). discriminate.
  - destruct (read_run _ p _ _ _ _ H) as (pos' & E & H'). eapply out_bind; [exact E|apply Sf| | |].
    + intros a Ea. eapply K; eauto.
    + intro Ep. destruct (Sf w). congruence.
    + intros Ee Q. destruct (Need Q) as (w' & ws' & a & X & Y). injection X as <- <-. congruence.
Qed.
Lemma is_number_iff : forall bound w, (0 < bound)%N -> is_number bound w <-> exists v, parse_uint bound w = Ok v.
Proof. intros bound w H. unfold is_number. split; intros (v & Q); exists v; apply parse_uint_iff; auto. Qed.
Lemma bind_assoc : forall A B C (m : M sbuf A) (f : A -> M sbuf B) (g : B -> M sbuf C) b, bind (bind m f) g b = bind m (fun a => bind (f a) g) b.
Proof. intros. unfold bind. destruct (m b) as [[a| | |] b']; reflexivity. Qed.
Lemma bind_ret_l : forall A B (a : A) (g : A -> M sbuf B) b, bind (ret a) g b = g a b.
Proof. reflexivity. Qed.
Lemma bind_ext : forall A B (m : M sbuf A) (f g : A -> M sbuf B) b, (forall a b', f a b' = g a b') -> bind m f b = bind m g b.
Proof. intros A B m f g b H. unfold bind. destruct (m b) as [[a| | |] b']; auto. Qed.
Lemma field_read : forall A B (p : M sbuf A) (c : A -> fval) (k : fval -> M sbuf B) b, bind (let! v := p in ret (c v)) k b = bind p (fun v => k (c v)) b.
Proof. intros. rewrite bind_assoc. apply bind_ext. reflexivity. Qed.
Lemma tail_good : forall x, goodP false (fields_from_str x [(KU16, PU16); (KName, PName); (KBin, PB64)]) (fun _ => True).
Proof. intro x. apply good_fields. intros _ kd K. cbn [In] in K. repeat (destruct K as [<-|K]; [discriminate|]). contradiction. Qed.
Lemma seq_good : forall A B st (m : M sbuf A) (k : A -> B), goodP st m (fun _ => True) -> goodP st (let! v := m in ret (k v)) (fun _ => True).
Proof. intros. eapply good_bind; [eassumption|]. intros. apply good_ret. exact I. Qed.
Lemma out_time : forall B x (k : N -> M sbuf B) raw pos ws (P : Prop), sees raw pos ws ->
  (P -> exists w ws', ws = w :: ws' /\ (torn_time x w \/ exists t, time_text x w t)) ->
  (forall w ws', ws = w :: ws' -> torn_time x w -> P) ->
  (forall w ws' t pos', ws = w :: ws' -> time_text x w t -> sees raw pos' ws' -> out (fst (k t (mkSB raw pos'))) P) ->
  out (fst (bind (timestamp_from_str x) k (mkSB raw pos))) P.
Proof.
  intros B x k raw pos ws P H Need Tn K. destruct ws as [|w ws].
  - destruct (sees_end _ _ H) as (b & E). eapply (out_bind _ _ _ _ _ Err); [unfold timestamp_from_str, bind; rewrite E; reflexivity|discriminate|discriminate|discriminate|].
    intros _ Q. destruct (Need Q) as (w & ws' & X & _). discriminate.
  - destruct (sees_word _ _ _ _ H) as (Vw & _). destruct (time_word_spec x w Vw) as (T1 & T2 & T3). destruct (time_run x _ _ _ _ H) as (pos' & E & H').
    eapply out_bind; [exact E|exact T3| | |].
    + intros t Et. eapply K; eauto. apply T1. exact Et.
    + intro Ep. eapply Tn; eauto. apply T2. exact Ep.
    + intros Ee Q. destruct (Need Q) as (w' & ws' & X & [Y|(t & Y)]); injection X as <- <-; [apply T2 in Y|apply T1 in Y]; congruence.
Qed.
Lemma out_cons : forall x ds v b P, out (fst (fields_from_str x ds b)) P -> out (fst ((let! vs := fields_from_str x ds in ret (v :: vs)) b)) P.
Proof. intros x ds v b P H. unfold bind. destruct (fields_from_str x ds b) as [[a| | |] b']; cbn [fst ret] in *; auto; destruct H as [H1 H2]; split; try congruence; rewrite <- H1; split; discriminate. Qed.
Lemma step_read : forall x A d (p : list N -> res A) (c : A -> fval) ds raw pos ws (P : Prop), field_from_str x d = (let! v := sb_read p in ret (c v)) ->
  (forall s, safe (p s)) -> sees raw pos ws -> (P -> exists w ws' a, ws = w :: ws' /\ p w = Ok a) ->
  (forall w ws' a pos', ws = w :: ws' -> p w = Ok a -> sees raw pos' ws' -> out (fst (fields_from_str x ds (mkSB raw pos'))) P) ->
  out (fst (fields_from_str x (d :: ds) (mkSB raw pos))) P.
Proof. intros x A d p c ds raw pos ws P E Sf H Need K. cbn [fields_from_str]. rewrite E, field_read. eapply out_read; eauto. intros. apply out_cons. eauto. Qed.
Lemma step_time : forall x k ds raw pos ws (P : Prop), sees raw pos ws ->
  (P -> exists w ws', ws = w :: ws' /\ (torn_time x w \/ exists t, time_text x w t)) -> (forall w ws', ws = w :: ws' -> torn_time x w -> P) ->
  (forall w ws' t pos', ws = w :: ws' -> time_text x w t -> sees raw pos' ws' -> out (fst (fields_from_str x ds (mkSB raw pos'))) P) ->
  out (fst (fields_from_str x ((k, PTime) :: ds) (mkSB raw pos))) P.
Proof.
  intros x k ds raw pos ws P H Need Tn K. cbn [fields_from_str]. unfold field_from_str at 1. cbn [snd]. rewrite field_read. eapply out_time; eauto. intros. apply out_cons. eauto.
Qed.
Lemma rrsig_out : forall x raw pos ws, sees raw pos ws -> out (fst (fields_from_str x (text_schema DRRSig) (mkSB raw pos))) (torn_rrsig x ws).
Proof.
  intros x raw pos ws H. cbn [text_schema].
  assert (Inv : torn_rrsig x ws -> exists ty alg lab ottl exp rest, ws = ty :: alg :: lab :: ottl :: exp :: rest /\
    (exists t, rrtype_from_str (string_of ty) = Ok t) /\ (exists v, parse_u8 alg = Ok v) /\ (exists v, parse_u8 lab = Ok v) /\ (exists v, parse_u32 ottl = Ok v) /\
    (torn_time x exp \/ (exists t, time_text x exp t) /\ exists inc rest', rest = inc :: rest' /\ torn_time x inc)).
  { intros (ty & alg & lab & ottl & exp & rest & -> & Q1 & Q2 & Q3 & Q4 & Q5). exists ty, alg, lab, ottl, exp, rest. split; auto. split; auto.
    rewrite is_number_iff in Q2, Q3, Q4 by reflexivity. auto. }
  eapply step_read; [reflexivity|intro; apply find_code_safe|exact H| |].
  { intro Q. apply Inv in Q. destruct Q as (ty & alg & lab & ottl & exp & rest & -> & (t & Q1) & _). eauto. }
  intros ty ws1 t p1 -> Et H1. cbv beta in Et. eapply step_read; [reflexivity|intro; apply parse_uint_safe|exact H1| |].
  { intro Q. apply Inv in Q. destruct Q as (ty' & alg & lab & ottl & exp & rest & E & _ & (v & Q2) & _). injection E; intros; subst. eauto. }
  intros alg ws2 a p2 -> Ea H2. eapply step_read; [reflexivity|intro; apply parse_uint_safe|exact H2| |].
  { intro Q. apply Inv in Q. destruct Q as (ty' & alg' & lab & ottl & exp & rest & E & _ & _ & (v & Q2) & _). injection E; intros; subst. eauto. }
  intros lab ws3 l p3 -> El H3. eapply step_read; [reflexivity|intro; apply parse_uint_safe|exact H3| |].
  { intro Q. apply Inv in Q. destruct Q as (ty' & alg' & lab' & ottl & exp & rest & E & _ & _ & _ & (v & Q2) & _). injection E; intros; subst. eauto. }
  intros ottl ws4 o p4 -> Eo H4.
  assert (Mk : forall exp rest, torn_time x exp \/ (exists t, time_text x exp t) /\ (exists inc rest', rest = inc :: rest' /\ torn_time x inc) ->
    torn_rrsig x (ty :: alg :: lab :: ottl :: exp :: rest)).
  { intros exp rest Q. exists ty, alg, lab, ottl, exp, rest. split; auto. split; [eauto|]. rewrite !is_number_iff by reflexivity. repeat (split; [eauto|]). exact Q. }
  eapply step_time; [exact H4| | |].
  { intro Q. apply Inv in Q. destruct Q as (ty' & alg' & lab' & ottl' & exp & rest & E & _ & _ & _ & _ & Q). injection E; intros; subst.
    exists exp, rest. split; auto. destruct Q as [Q|[Q _]]; auto. }
  { intros w ws' -> Q. apply Mk. auto. }
  intros exp ws5 t1 p5 -> Et1 H5. destruct H4 as (P4 & V4 & W4).
  assert (Nt : ~ torn_time x exp).
  { intro Q. assert (S4 : sees raw p4 (exp :: ws5)) by (split; auto). destruct (sees_word _ _ _ _ S4) as (Vw & _). destruct (time_word_spec x exp Vw) as (T1 & T2 & _).
    apply T1 in Et1. apply T2 in Q. congruence. }
  eapply step_time; [exact H5| | |].
  { intro Q. apply Inv in Q. destruct Q as (ty' & alg' & lab' & ottl' & exp' & rest & E & _ & _ & _ & _ & Q). injection E; intros; subst.
    destruct Q as [Q|(_ & inc & rest' & -> & Q)]; [contradiction|]. eauto. }
  { intros inc rest -> Q. apply Mk. right. split; eauto. }
  intros inc ws6 t2 p6 -> Et2 H6. destruct H5 as (P5 & V5 & W5).
  assert (Nt2 : ~ torn_time x inc).
  { intro Q. assert (S5 : sees raw p5 (inc :: ws6)) by (split; auto). destruct (sees_word _ _ _ _ S5) as (Vw & _). destruct (time_word_spec x inc Vw) as (T1 & T2 & _).
    apply T1 in Et2. apply T2 in Q. congruence. }
  eapply out_iff.
  - eapply (out_good _ _ (fun _ => True)); [apply tail_good|exact H6].
  - split; [contradiction|]. intro Q. apply Inv in Q. destruct Q as (ty' & alg' & lab' & ottl' & exp' & rest & E & _ & _ & _ & _ & Q). injection E; intros; subst.
    destruct Q as [Q|(_ & inc' & rest' & E2 & Q)]; [contradiction|]. injection E2; intros; subst. contradiction.
Qed.
Lemma rdata_out : forall x t raw pos ws, sees raw pos ws -> out (fst (rdata_from_sb x t (mkSB raw pos))) (t = TRRSIG /\ torn_rrsig x ws).
Proof.
  intros x t raw pos ws H. destruct (rrtype_eqb t TRRSIG) eqn:Eq.
  - destruct t; cbv in Eq; try discriminate. unfold rdata_from_sb. cbn [variant_of_type]. pose proof (rrsig_out x raw pos ws H) as Q. unfold bind.
    destruct (fields_from_str x (text_schema DRRSig) (mkSB raw pos)) as [[a| | |] b']; cbn [fst ret] in *; destruct Q as [Q1 Q2]; split; try congruence; try tauto;
    (split; [discriminate|intros (_ & X); apply Q1 in X; discriminate]).
  - eapply out_iff; [eapply (out_good _ _ (fun _ => True)); [apply good_rdata; intros _ ->; discriminate|exact H]|]. split; [contradiction|]. intros (-> & _). discriminate.
Qed.
Lemma rrsig_not_class : forall s, rrtype_from_str s = Ok TRRSIG -> rrclass_from_str s = Err.
Proof.
  intros s H. unfold rrtype_from_str, rrclass_from_str, match_str in *. destruct (find _ rrtype_table) as [[m t]|] eqn:E; [|discriminate]. cbn [snd] in H. apply Ok_inj in H. subst t.
  apply find_some in E. destruct E as [I E]. cbn [fst] in E. apply String.eqb_eq in E. rewrite <- E. cbn [rrtype_table In] in I.
  repeat (destruct I as [I|I]; [try discriminate; injection I as <-; reflexivity|]). contradiction.
Qed.
Lemma rrset_out : forall x raw ws, sees raw 0 ws -> out (fst (rrset_from_sb x (mkSB raw 0))) (torn_line x ws).
Proof.
  intros x raw ws H. unfold rrset_from_sb.
  assert (Inv : torn_line x ws -> exists owner ttl tail data, ws = owner :: ttl :: tail /\ (exists n, name_new owner = Ok n) /\ (exists v, parse_u32 ttl = Ok v) /\
    (exists ty, rrtype_from_str (string_of ty) = Ok TRRSIG /\ (tail = ty :: data \/ exists c cls, tail = c :: ty :: data /\ rrclass_from_str (string_of c) = Ok cls)) /\ torn_rrsig x data).
  { intros (owner & ttl & tail & data & -> & Q1 & Q2 & Q3 & Q4). exists owner, ttl, tail, data. rewrite is_number_iff in Q2 by reflexivity. repeat (split; [auto|]). exact Q4. }
  eapply out_read; [apply name_new_safe|exact H| |].
  { intro Q. apply Inv in Q. destruct Q as (owner & ttl & tail & data & -> & (n & Q) & _). eauto. }
  intros owner ws1 n p1 -> En H1. eapply out_read; [intro; apply parse_uint_safe|exact H1| |].
  { intro Q. apply Inv in Q. destruct Q as (owner' & ttl & tail & data & E & _ & (n' & Q) & _). injection E; intros; subst. eauto. }
  intros ttl ws2 v p2 -> Ev H2. eapply out_read; [intro; apply safe_ok|exact H2| |].
  { intro Q. apply Inv in Q. destruct Q as (owner' & ttl' & tail & data & E & _ & _ & (ty & _ & [-> |(c & cls & -> & _)]) & _); injection E; intros; subst; eauto. }
  intros c ws3 c' p3 -> Ec H3. apply Ok_inj in Ec. subst c'.
  assert (Fin : forall t cl p data, sees raw p data -> out (fst ((let! rd := rdata_from_sb x t in ret (mkRRset n t cl v [rd])) (mkSB raw p))) (t = TRRSIG /\ torn_rrsig x data)).
  { intros t cl p data S. pose proof (rdata_out x t raw p data S) as Q. unfold bind. destruct (rdata_from_sb x t (mkSB raw p)) as [[a| | |] b']; cbn [fst ret] in *; auto.
    all: destruct Q as [Q1 Q2]; split; try congruence; rewrite <- Q1; split; intro; first [discriminate|reflexivity]. }
  assert (Num : is_number 4294967296 ttl) by (apply is_number_iff; [reflexivity|eauto]).
  assert (Alt : rrclass_from_str (string_of c) = Err ->
    out (fst ((let! t := lift (rrtype_from_str (string_of c)) in let! rd := rdata_from_sb x t in ret (mkRRset n t CIN v [rd])) (mkSB raw p3))) (torn_line x (owner :: ttl :: c :: ws3))).
  { intro Nc. eapply out_bind; [reflexivity|apply find_code_safe| | |].
    - intros t Et. eapply out_iff; [apply (Fin t CIN p3 ws3); exact H3|]. split.
      + intros (-> & Q). exists owner, ttl, (c :: ws3), ws3. split; auto. split; [eauto|]. split; auto. split; [|exact Q]. exists c. auto.
      + intro Q. apply Inv in Q. destruct Q as (o' & ttl' & tail & data & E & _ & _ & (ty & Ty & [-> |(c0 & cls & -> & Cl)]) & Q); injection E; intros; subst.
        * split; [congruence|auto].
        * congruence.
    - intro Ep. destruct (proj1 (find_code_safe (string_of c))). congruence.
    - intros Ee Q. apply Inv in Q. destruct Q as (o' & ttl' & tail & data & E & _ & _ & (ty & Ty & [-> |(c0 & cls & -> & Cl)]) & Q); injection E; intros; subst; congruence. }
  destruct (rrclass_from_str (string_of c)) as [cl| | |] eqn:Cl.
  - eapply out_read; [intro; apply find_code_safe|exact H3| |].
    + intro Q. apply Inv in Q. destruct Q as (o' & ttl' & tail & data & E & _ & _ & (ty & Ty & [-> |(c0 & cls & -> & Cl')]) & Q); injection E; intros; subst.
      * apply rrsig_not_class in Ty. congruence.
      * exists ty, data, TRRSIG. auto.
    + intros ty data t p4 -> Et H4. cbv beta in Et. eapply out_iff; [apply (Fin t cl p4 data); exact H4|]. split.
      * intros (-> & Q). exists owner, ttl, (c :: ty :: data), data. split; auto. split; [eauto|]. split; auto. split; [|exact Q]. exists ty. split; auto. right. eauto.
      * intro Q. apply Inv in Q. destruct Q as (o' & ttl' & tail & data' & E & _ & _ & (ty' & Ty & [-> |(c0 & cls & -> & Cl')]) & Q); injection E; intros; subst.
        -- apply rrsig_not_class in Ty. congruence.
        -- split; [congruence|auto].
  - apply Alt; auto.
  - destruct (proj2 (find_code_safe (string_of c))). congruence.
  - destruct (proj2 (find_code_safe (string_of c))). congruence.
Qed.
Lemma start_sees : forall s ws, valid_utf8 s = true -> words s ws -> sees s 0 ws.
Proof. intros s ws V W. split; [lia|]. split; auto. Qed.
(** * The parsers of whole texts *)
Lemma rdata_panics : forall md x t s ws, valid_utf8 s = true -> words s ws ->
  (rdata_from_str md x t s = Panic <-> (md = Debug /\ s = []) \/ (t = TRRSIG /\ torn_rrsig x ws)) /\ rdata_from_str md x t s <> Hang.
Proof.
  intros md x t s ws V W. unfold rdata_from_str. pose proof (rdata_out x t s 0 ws (start_sees s ws V W)) as [Q1 Q2]. destruct s as [|c s].
  - destruct md; cbn [sb_new rbind]; [split; [split; [auto|reflexivity]|discriminate]|]. split; auto. rewrite Q1. split; [auto|]. intros [[Q _]|Q]; [discriminate|auto].
  - rewrite sb_new_ok by (right; discriminate). cbn [rbind]. split; auto. rewrite Q1. split; [auto|]. intros [[_ Q]|Q]; [discriminate|auto].
Qed.
Lemma rrset_panics : forall md x s ws, valid_utf8 s = true -> words (trim s) ws ->
  (rrset_from_str md x s = Panic <-> (md = Debug /\ trim s = []) \/ torn_line x ws) /\ rrset_from_str md x s <> Hang.
Proof.
  intros md x s ws V W. unfold rrset_from_str. assert (Va : asc false (trim s)) by (apply trim_asc; split; [exact V|discriminate]). destruct Va as [Va _].
  pose proof (rrset_out x (trim s) ws (start_sees _ ws Va W)) as [Q1 Q2]. destruct (trim s) as [|c r].
  - destruct md; cbn [sb_new rbind]; [split; [split; [auto|reflexivity]|discriminate]|]. split; auto. rewrite Q1. split; [auto|]. intros [[Q _]|Q]; [discriminate|auto].
  - rewrite sb_new_ok by (right; discriminate). cbn [rbind]. split; auto. rewrite Q1. split; [auto|]. intros [[_ Q]|Q]; [discriminate|auto].
Qed.
(** * RRset::from_strs *)
Definition add_line (md : mode) (x : ext) (rs : rrset) (s : list N) : res rrset :=
  let? cur := rrset_from_str md x s in
  if negb (rrtype_eqb (rs_type rs) (rs_type cur)) then Err
  else let? d := idx (rs_rdatas cur) 0 in Ok (mkRRset (rs_name rs) (rs_type rs) (rs_class rs) (rs_ttl rs) (rs_rdatas rs ++ [d])).
Lemma add_line_cases : forall md x rs s, (add_line md x rs s = Panic <-> rrset_from_str md x s = Panic) /\ (rrset_from_str md x s <> Hang -> add_line md x rs s <> Hang) /\
  forall rs', add_line md x rs s = Ok rs' -> rs_type rs' = rs_type rs.
Proof.
  intros md x rs s. unfold add_line. destruct (rrset_from_str md x s) as [cur| | |] eqn:E; cbn [rbind]; try (split; [split; congruence|split; congruence]).
  destruct (from_str_one _ _ _ _ E) as (d & Ed). rewrite Ed. unfold idx. cbn [nth_error rbind].
  destruct (negb _); (split; [split; discriminate|split; [discriminate|]]); intros rs' Q; [discriminate|]. apply Ok_inj in Q. subst rs'. reflexivity.
Qed.
Lemma rfold_app : forall A B (f : A -> B -> res A) l1 l2 a, rfold f (l1 ++ l2) a = let? a' := rfold f l1 a in rfold f l2 a'.
Proof. intros A B f l1. induction l1 as [|b l1 IH]; intros l2 a; cbn [rfold app rbind]; auto. destruct (f a b); cbn [rbind]; auto. Qed.
Lemma fold_panic : forall md x l a, rfold (add_line md x) l a = Panic <->
  exists pre s post a', l = pre ++ s :: post /\ rfold (add_line md x) pre a = Ok a' /\ rrset_from_str md x s = Panic.
Proof.
  intros md x l. induction l as [|s l IH]; intro a.
  - cbn [rfold]. split; [discriminate|]. intros (pre & s & post & a' & E & _). destruct pre; discriminate.
  - cbn [rfold]. destruct (add_line_cases md x a s) as (C1 & _). destruct (add_line md x a s) as [a1| | |] eqn:E; cbn [rbind].
    + rewrite IH. split.
      * intros (pre & s' & post & a' & -> & F & P). exists (s :: pre), s', post, a'. split; [reflexivity|]. split; [cbn [rfold]; rewrite E; exact F|exact P].
      * intros (pre & s' & post & a' & Eq & F & P). destruct pre as [|s0 pre].
        -- injection Eq as <- <-. apply C1 in P. discriminate.
        -- injection Eq as <- ->. cbn [rfold] in F. rewrite E in F. cbn [rbind] in F. exists pre, s', post, a'. auto.
    + split; [discriminate|]. intros (pre & s' & post & a' & Eq & F & P). destruct pre as [|s0 pre].
      * injection Eq as <- <-. apply C1 in P. discriminate.
      * injection Eq as <- ->. cbn [rfold] in F. rewrite E in F. discriminate.
    + split; [|reflexivity]. intros _. exists [], s, l, a. split; [reflexivity|]. split; [reflexivity|]. apply C1. reflexivity.
    + split; [discriminate|]. intros (pre & s' & post & a' & Eq & F & P). destruct pre as [|s0 pre].
      * injection Eq as <- <-. apply C1 in P. discriminate.
      * injection Eq as <- ->. cbn [rfold] in F. rewrite E in F. discriminate.
Qed.
Lemma fold_hang : forall md x l a, Forall (fun s => rrset_from_str md x s <> Hang) l -> rfold (add_line md x) l a <> Hang.
Proof.
  intros md x l. induction l as [|s l IH]; intros a F; cbn [rfold]; [discriminate|]. inversion F as [|? ? F1 F2]; subst.
  destruct (add_line_cases md x a s) as (_ & C2 & _). specialize (C2 F1). destruct (add_line md x a s); cbn [rbind]; auto; discriminate.
Qed.
Lemma from_strs_unfold : forall md x s0 rest, rrset_from_strs md x (s0 :: rest) =
  let? last := rrset_from_str md x s0 in match rest with [] => Ok last | _ => if rrtype_eqb (rs_type last) TOPT then Err else rfold (add_line md x) rest last end.
Proof. reflexivity. Qed.
Lemma opt_eqb : forall t, rrtype_eqb t TOPT = true <-> t = TOPT.
Proof. intro t. split; [|intros ->; reflexivity]. destruct t; cbn; intro H; try discriminate; reflexivity. Qed.
Lemma fold_type : forall md x l a a', rfold (add_line md x) l a = Ok a' -> rs_type a' = rs_type a.
Proof.
  intros md x l. induction l as [|s l IH]; intros a a' H; cbn [rfold] in H; [apply Ok_inj in H; subst; auto|].
  apply rbind_ok in H. destruct H as (a1 & E & H). apply IH in H. rewrite H. eapply add_line_cases. exact E.
Qed.
Lemma from_strs_panics : forall md x ss, rrset_from_strs md x ss = Panic <->
  ss = [] \/ exists pre s post, ss = pre ++ s :: post /\ rrset_from_str md x s = Panic /\ (pre = [] \/ exists rs, rrset_from_strs md x pre = Ok rs /\ rs_type rs <> TOPT).
Proof.
  intros md x ss. destruct ss as [|s0 rest]; [cbn; split; auto|]. rewrite from_strs_unfold. destruct (rrset_from_str md x s0) as [r0| | |] eqn:E0; cbn [rbind].
  - destruct rest as [|s1 rest].
    + split; [discriminate|]. intros [Q|(pre & s & post & Eq & P & _)]; [discriminate|]. destruct pre as [|p pre]; [injection Eq as <- <-; congruence|].
      injection Eq as <- Eq. destruct pre; discriminate.
    + destruct (rrtype_eqb (rs_type r0) TOPT) eqn:Eo.
      * apply opt_eqb in Eo. split; [discriminate|]. intros [Q|(pre & s & post & Eq & P & H)]; [discriminate|]. destruct pre as [|p pre]; [injection Eq as <- <-; congruence|].
        destruct H as [H|(rs & H & Nt)]; [discriminate|]. injection Eq as <- Eq. rewrite from_strs_unfold, E0 in H. cbn [rbind] in H. destruct pre as [|p pre].
        -- apply Ok_inj in H. subst. congruence.
        -- rewrite (proj2 (opt_eqb _) Eo) in H. discriminate.
      * assert (No : rs_type r0 <> TOPT) by (intro Q; apply opt_eqb in Q; congruence). rewrite fold_panic. split.
        -- intros (pre & s & post & a' & Eq & F & P). right. exists (s0 :: pre), s, post. split; [cbn [app]; rewrite Eq; reflexivity|]. split; auto. right. exists a'.
           assert (Q : rrset_from_strs md x (s0 :: pre) = Ok a'). { rewrite from_strs_unfold, E0. cbn [rbind]. rewrite Eo. destruct pre; exact F. }
           split; auto. apply fold_type in F. congruence.
        -- intros [Q|(pre & s & post & Eq & P & H)]; [discriminate|]. destruct pre as [|p pre]; [injection Eq as <- <-; congruence|].
           destruct H as [H|(rs & H & Nt)]; [discriminate|]. injection Eq as <- Eq. exists pre, s, post, rs. split; auto. split; auto.
           rewrite from_strs_unfold, E0 in H. cbn [rbind] in H. rewrite Eo in H. destruct pre; exact H.
  - split; [discriminate|]. intros [Q|(pre & s & post & Eq & P & H)]; [discriminate|]. destruct pre as [|p pre]; [injection Eq as <- <-; congruence|].
    destruct H as [H|(rs & H & _)]; [discriminate|]. injection Eq as <- Eq. rewrite from_strs_unfold, E0 in H. discriminate.
  - split; [|reflexivity]. intros _. right. exists [], s0, rest. auto.
  - split; [discriminate|]. intros [Q|(pre & s & post & Eq & P & H)]; [discriminate|]. destruct pre as [|p pre]; [injection Eq as <- <-; congruence|].
    destruct H as [H|(rs & H & _)]; [discriminate|]. injection Eq as <- Eq. rewrite from_strs_unfold, E0 in H. discriminate.
Qed.
Lemma from_strs_ends : forall md x ss, Forall (fun s => valid_utf8 s = true) ss -> rrset_from_strs md x ss <> Hang.
Proof.
  intros md x ss F. assert (F' : Forall (fun s => rrset_from_str md x s <> Hang) ss).
  { eapply Forall_impl; [|exact F]. intros s V. destruct (words_exist (trim s)) as (ws & W). apply (rrset_panics md x s ws V W). }
  destruct ss as [|s0 rest]; [discriminate|]. rewrite from_strs_unfold. inversion F' as [|? ? F1 F2]; subst.
  destruct (rrset_from_str md x s0) as [r0| | |]; cbn [rbind]; try discriminate; [|congruence]. destruct rest as [|s1 rest]; [discriminate|].
  destruct (rrtype_eqb _ _); [discriminate|]. apply fold_hang. exact F2.
Qed.
Lemma time_field : forall x s w ws, valid_utf8 s = true -> words s (w :: ws) ->
  (forall t, fst (timestamp_from_str x (mkSB s 0)) = Ok t <-> time_text x w t) /\ (fst (timestamp_from_str x (mkSB s 0)) = Panic <-> torn_time x w) /\
  fst (timestamp_from_str x (mkSB s 0)) <> Hang.
Proof.
  intros x s w ws V W. pose proof (start_sees s _ V W) as H. destruct (sees_word _ _ _ _ H) as (Vw & _). destruct (time_run x _ _ _ _ H) as (p & E & _). rewrite E. cbn [fst].
  apply time_word_spec. exact Vw.
Qed.

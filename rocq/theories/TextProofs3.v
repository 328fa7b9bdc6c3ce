(** Proofs about quoted strings. *)
From Verif Require Import Base BaseLemmas NameModel RenderModel CodesModel RDataModel MsgModel TextModel SpecName SpecBuf SpecCodes SpecMsg SpecText TextProofs TextProofs2.
Open Scope list_scope.
Open Scope nat_scope.

Lemma is_digit_iff : forall c, is_digit c = true <-> is_dec c.
Proof. intros. unfold is_digit, is_dec. rewrite andb_true_iff, !N.leb_le. lia. Qed.
Lemma is_digit_no : forall c, is_digit c = false <-> ~ is_dec c.
Proof. intros. rewrite <- is_digit_iff. destruct (is_digit c); intuition congruence. Qed.
Lemma parse_u8_3 : forall x y z v, is_dec x -> parse_u8 [x; y; z] = Ok v <->
  is_dec y /\ is_dec z /\ v = (digit_val x * 100 + digit_val y * 10 + digit_val z)%N /\ (v < 256)%N.
Proof.
  intros x y z v Hx. unfold parse_u8. rewrite parse_uint_iff by reflexivity. unfold number_text. split.
  - intros ((ds & [E|E] & Nn & F & V) & B).
    + subst ds. inversion F as [|? ? _ F1]; subst. inversion F1 as [|? ? Fy F2]; subst. inversion F2 as [|? ? Fz F3]; subst.
      repeat split; auto; try apply Fy; try apply Fz. unfold dec_val. cbn [dec_val_from]. lia.
    + injection E as E _; subst x. unfold is_dec in Hx. lia.
  - intros (Hy & Hz & V & B). split; auto. exists [x; y; z]. split; [auto|]. split; [discriminate|]. split; [repeat constructor; auto; try apply Hx; try apply Hy; try apply Hz|].
    subst. unfold dec_val. cbn [dec_val_from]. lia.
Qed.
Lemma len_ltb : forall (l : list N), length l <= 255 -> (MAX_CHARSTRING_LEN <? length l) = false.
Proof. intros. apply Nat.ltb_ge. exact H. Qed.
Lemma char_loop_complete : forall t d, quoted t d -> forall raw pos acc rest fuel,
  skipn pos raw = t ++ 34%N :: rest -> pos <= length raw -> length t < fuel -> acc ++ d <> [] -> length (acc ++ d) <= 255 ->
  char_loop fuel acc false (mkSB raw pos) = (Ok (acc ++ d), mkSB raw (pos + length t + 1)).
Proof.
  induction 1 as [|c t d C1 C2 Q IH|c t d C Q IH|x y z t d X Y Z V Q IH]; intros raw pos acc rest fuel H P F Nn L;
    (destruct fuel as [|fuel]; [cbn [length] in F; lia|]); cbn [char_loop].
  - cbn [app] in H. destruct (skipn_cons_idx _ _ _ _ H) as (I & _ & Lt). rewrite sb_eos_lt by exact Lt.
    unfold bind, sb_cur. cbn [sb_raw sb_pos]. rewrite I. cbn [negb andb]. change (34 =? 92)%N with false. cbn [andb]. rewrite N.eqb_refl. cbn [andb].
    unfold sb_advance. cbn [sb_raw sb_pos length]. rewrite app_nil_r in *. rewrite Nat.add_0_r. destruct acc; [congruence|]. reflexivity.
  - cbn [app] in H. destruct (skipn_cons_idx _ _ _ _ H) as (I & H2 & Lt). rewrite sb_eos_lt by exact Lt.
    unfold bind at 1, sb_cur. cbn [sb_raw sb_pos]. rewrite I. apply N.eqb_neq in C1. apply N.eqb_neq in C2. rewrite C1, C2. cbn [andb].
    unfold bind, sb_advance, ret. cbn [sb_raw sb_pos].
    assert (E : acc ++ c :: d = (acc ++ [c]) ++ d) by (rewrite <- app_assoc; reflexivity). rewrite E in *.
    rewrite len_ltb by (rewrite app_length in L; lia).
    rewrite (IH raw (pos + 1) (acc ++ [c]) rest); auto; cbn [length] in *; try lia.
    f_equal. f_equal. lia.
  - cbn [app] in H. destruct (skipn_cons_idx _ _ _ _ H) as (I & H2 & Lt). rewrite sb_eos_lt by exact Lt.
    unfold bind at 1, sb_cur at 1. cbn [sb_raw sb_pos]. rewrite I. rewrite N.eqb_refl. cbn [negb andb].
    unfold bind at 1, sb_advance at 1. cbn [sb_raw sb_pos].
    destruct fuel as [|fuel]; [cbn [length] in F; lia|]. cbn [char_loop].
    destruct (skipn_cons_idx _ _ _ _ H2) as (I2 & H3 & Lt2). rewrite sb_eos_lt by exact Lt2.
    unfold bind at 1, sb_cur at 1. cbn [sb_raw sb_pos]. rewrite I2. rewrite !andb_false_r.
    rewrite (proj2 (is_digit_no c) C). cbn [negb andb]. unfold bind, sb_advance, ret. cbn [sb_raw sb_pos].
    assert (E : acc ++ c :: d = (acc ++ [c]) ++ d) by (rewrite <- app_assoc; reflexivity). rewrite E in *.
    rewrite len_ltb by (rewrite app_length in L; lia).
    rewrite (IH raw (pos + 1 + 1) (acc ++ [c]) rest); auto; cbn [length] in *; try lia.
    f_equal. f_equal. lia.
  - cbn [app] in H. destruct (skipn_cons_idx _ _ _ _ H) as (I & H2 & Lt). rewrite sb_eos_lt by exact Lt.
    unfold bind at 1, sb_cur at 1. cbn [sb_raw sb_pos]. rewrite I. rewrite N.eqb_refl. cbn [negb andb].
    unfold bind at 1, sb_advance at 1. cbn [sb_raw sb_pos].
    destruct fuel as [|fuel]; [cbn [length] in F; lia|]. cbn [char_loop].
    destruct (skipn_cons_idx _ _ _ _ H2) as (I2 & H3 & Lt2). rewrite sb_eos_lt by exact Lt2.
    unfold bind at 1, sb_cur at 1. cbn [sb_raw sb_pos]. rewrite I2. rewrite !andb_false_r.
    rewrite (proj2 (is_digit_iff x) X). cbn [negb andb].
    assert (E : acc ++ (digit_val x * 100 + digit_val y * 10 + digit_val z)%N :: d = (acc ++ [(digit_val x * 100 + digit_val y * 10 + digit_val z)%N]) ++ d) by (rewrite <- app_assoc; reflexivity). rewrite E in *. clear E.
    assert (H2' : skipn (pos + 1) raw = [x; y; z] ++ t ++ 34%N :: rest) by exact H2.
    pose proof (pos_le _ _ _ _ H2' ltac:(lia)) as P3. cbn [length] in P3.
    unfold bind at 1. unfold bind at 1, get. unfold bind at 1, lift. cbn [sb_raw sb_pos]. rewrite csub_ok by lia.
    rewrite (proj2 (Nat.ltb_ge _ _)) by lia.
    pose proof (slice_unread _ _ _ _ H2' ltac:(lia)) as Sl. cbn [length] in Sl.
    unfold bind at 1, lift. rewrite Sl. unfold bind at 1, lift, utf8_try.
    rewrite utf8_ascii by (repeat constructor; unfold is_dec in *; lia).
    unfold bind at 1, lift. rewrite (proj2 (parse_u8_3 x y z _ X) (conj Y (conj Z (conj eq_refl V)))).
    unfold bind at 1, sb_advance, ret. cbn [sb_raw sb_pos].
    rewrite len_ltb by (rewrite app_length in L; lia).
    rewrite (IH raw (pos + 1 + 3) _ rest); auto; cbn [length] in *; try lia.
    + f_equal. f_equal. lia.
    + exact (skipn_after _ _ _ _ H2').
Qed.
Ltac stp H := let a := fresh "a" in let s := fresh "s" in let E := fresh "E" in
  apply bind_ok in H; destruct H as (a & s & E & H).
Lemma char_loop_sound : forall fuel acc esc raw pos d' b', pos <= length raw -> length acc <= 255 ->
  char_loop fuel acc esc (mkSB raw pos) = (Ok d', b') ->
  exists t rest d, skipn pos raw = t ++ 34%N :: rest /\ quoted (if esc then 92%N :: t else t) d /\ d' = acc ++ d /\ d' <> [] /\
    length d' <= 255 /\ b' = mkSB raw (pos + length t + 1).
Proof.
  induction fuel as [|fuel IH]; intros acc esc raw pos d' b' P La H; cbn [char_loop] in H; [discriminate|].
  destruct (sb_eos (mkSB raw pos)) eqn:Eo; [discriminate|].
  unfold sb_eos in Eo. cbn [sb_pos sb_raw] in Eo. apply Nat.eqb_neq in Eo.
  destruct (skipn pos raw) as [|c r] eqn:Sk; [apply skipn_nil_pos in Sk; auto; lia|].
  destruct (skipn_cons_idx _ _ _ _ Sk) as (I & Sk2 & Lt).
  unfold bind at 1, sb_cur in H. cbn [sb_raw sb_pos] in H. rewrite I in H.
  destruct ((c =? 92)%N && negb esc) eqn:B1.
  - apply andb_true_iff in B1. destruct B1 as [B1 B2]. apply N.eqb_eq in B1. apply negb_true_iff in B2. subst c esc.
    unfold bind, sb_advance in H. cbn [sb_raw sb_pos] in H. apply IH in H; [|lia|exact La].
    destruct H as (t & rest & d & K & Q & E & Nn & L & B). exists (92%N :: t), rest, d. rewrite Sk2 in K. rewrite K. cbn [app length].
    repeat split; auto. rewrite B. f_equal. lia.
  - destruct ((c =? 34)%N && negb esc) eqn:B3.
    + apply andb_true_iff in B3. destruct B3 as [B3 B2]. apply N.eqb_eq in B3. apply negb_true_iff in B2. subst c esc.
      unfold bind, sb_advance in H. cbn [sb_raw sb_pos] in H. destruct acc as [|a0 acc]; [discriminate|].
      unfold ret in H. apply pair_inj in H. destruct H as [E B]. apply Ok_inj in E. exists [], r, []. rewrite app_nil_r. subst d'. cbn [app length].
      repeat split; auto; [constructor|discriminate|]. rewrite <- B. f_equal. lia.
    + unfold bind at 1 in H. destruct (esc && is_digit c) eqn:B4.
      * apply andb_true_iff in B4. destruct B4 as [-> B4]. apply is_digit_iff in B4.
        unfold bind at 1, get in H. unfold bind at 1, lift in H. cbn [sb_raw sb_pos] in H. rewrite csub_ok in H by lia.
        destruct (length raw - pos <? 3) eqn:L3; [discriminate|]. apply Nat.ltb_ge in L3.
        destruct r as [|y [|z r]].
        { apply (f_equal (@length _)) in Sk. rewrite skipn_length in Sk. cbn [length] in Sk. lia. }
        { apply (f_equal (@length _)) in Sk. rewrite skipn_length in Sk. cbn [length] in Sk. lia. }
        assert (Sk' : skipn pos raw = [c; y; z] ++ r) by exact Sk.
        pose proof (slice_unread _ _ _ _ Sk' P) as Sl. cbn [length] in Sl.
        unfold bind at 1, lift in H. rewrite Sl in H. unfold bind at 1, lift, utf8_try in H.
        destruct (valid_utf8 [c; y; z]); [|discriminate].
        unfold bind at 1, lift in H. destruct (parse_u8 [c; y; z]) as [num| | |] eqn:Pn; try discriminate.
        apply parse_u8_3 in Pn; [|exact B4]. destruct Pn as (Hy & Hz & V & B).
        unfold bind at 1, sb_advance, ret in H. cbn [sb_raw sb_pos] in H.
        destruct (MAX_CHARSTRING_LEN <? length (acc ++ [num])) eqn:Lm; [discriminate|]. apply Nat.ltb_ge in Lm.
        apply IH in H; [|lia|exact Lm].
        destruct H as (t & rest & d & K & Q & E & Nn & L & Bb). exists (c :: y :: z :: t), rest, (num :: d).
        rewrite (skipn_after _ _ [c; y; z] r Sk' : skipn (pos + 3) raw = r) in K. rewrite K. cbn [app length].
        repeat split; auto.
        -- rewrite V. apply q_dec; auto. rewrite <- V. exact B.
        -- rewrite E, <- app_assoc. reflexivity.
        -- rewrite Bb. f_equal. lia.
      * unfold bind at 1, sb_advance, ret in H. cbn [sb_raw sb_pos] in H.
        destruct (MAX_CHARSTRING_LEN <? length (acc ++ [c])) eqn:Lm; [discriminate|]. apply Nat.ltb_ge in Lm.
        apply IH in H; [|lia|exact Lm].
        destruct H as (t & rest & d & K & Q & E & Nn & L & Bb). rewrite Sk2 in K. exists (c :: t), rest, (c :: d).
        rewrite K. cbn [app length]. repeat split; auto.
        -- destruct esc.
           ++ apply q_esc; auto. cbn [andb] in B4. apply is_digit_no. exact B4.
           ++ cbn [negb] in B1, B3. rewrite andb_true_r in B1, B3. apply N.eqb_neq in B1. apply N.eqb_neq in B3. apply q_plain; auto.
        -- rewrite E, <- app_assoc. reflexivity.
        -- rewrite Bb. f_equal. lia.
Qed.
Lemma char_loop_safe : forall fuel acc esc raw pos, pos <= length raw -> length raw - pos < fuel ->
  safe (fst (char_loop fuel acc esc (mkSB raw pos))).
Proof.
  induction fuel as [|fuel IH]; intros acc esc raw pos P F; [lia|]. cbn [char_loop].
  destruct (sb_eos (mkSB raw pos)) eqn:Eo; [split; discriminate|].
  unfold sb_eos in Eo. cbn [sb_pos sb_raw] in Eo. apply Nat.eqb_neq in Eo.
  destruct (skipn pos raw) as [|c r] eqn:Sk; [apply skipn_nil_pos in Sk; auto; lia|].
  destruct (skipn_cons_idx _ _ _ _ Sk) as (I & Sk2 & Lt).
  unfold bind at 1, sb_cur. cbn [sb_raw sb_pos]. rewrite I.
  destruct (_ && _). { unfold bind, sb_advance. cbn [sb_raw sb_pos]. apply IH; lia. }
  destruct (_ && _). { unfold bind, sb_advance. cbn [sb_raw sb_pos]. destruct acc; split; discriminate. }
  unfold bind at 1. destruct (esc && is_digit c).
  - unfold bind at 1, get. unfold bind at 1, lift. cbn [sb_raw sb_pos]. rewrite csub_ok by lia.
    destruct (length raw - pos <? 3) eqn:L3; [split; discriminate|]. apply Nat.ltb_ge in L3.
    destruct r as [|y [|z r]].
    { apply (f_equal (@length _)) in Sk. rewrite skipn_length in Sk. cbn [length] in Sk. lia. }
    { apply (f_equal (@length _)) in Sk. rewrite skipn_length in Sk. cbn [length] in Sk. lia. }
    assert (Sk' : skipn pos raw = [c; y; z] ++ r) by exact Sk.
    pose proof (slice_unread _ _ _ _ Sk' P) as Sl. cbn [length] in Sl.
    unfold bind at 1, lift. rewrite Sl. unfold bind at 1, lift, utf8_try.
    destruct (valid_utf8 [c; y; z]); [|split; discriminate].
    unfold bind at 1, lift. unfold parse_u8. destruct (parse_uint_total 256 [c; y; z]) as [-> |(n & ->)]; [split; discriminate|].
    unfold bind at 1, sb_advance, ret. cbn [sb_raw sb_pos].
    destruct (_ <? _); [split; discriminate|]. apply IH; lia.
  - unfold bind at 1, sb_advance, ret. cbn [sb_raw sb_pos].
    destruct (_ <? _); [split; discriminate|]. apply IH; lia.
Qed.
(** * read_char_string *)
Lemma read_char_string_complete : forall raw pos gap t rest d, skipn pos raw = gap ++ 34%N :: t ++ 34%N :: rest -> pos <= length raw ->
  forallb is_ws gap = true -> quoted t d -> 1 <= length d <= 255 ->
  read_char_string (mkSB raw pos) = (Ok d, mkSB raw (pos + length gap + length t + 2)).
Proof.
  intros raw pos gap t rest d H P G Q L. unfold read_char_string. unfold bind at 1.
  rewrite (skip_whitespace_spec raw pos gap _ H P G) by reflexivity.
  pose proof (skipn_after _ _ _ _ H) as H2. pose proof (pos_le _ _ _ _ H P) as P2.
  destruct (skipn_cons_idx _ _ _ _ H2) as (I & H3 & Lt).
  unfold bind at 1, get. rewrite sb_eos_lt by exact Lt. unfold bind at 1, sb_cur. cbn [sb_raw sb_pos]. rewrite I, N.eqb_refl. cbn [negb].
  unfold bind, sb_advance. cbn [sb_raw sb_pos].
  rewrite (char_loop_complete t d Q _ _ [] rest); cbn [app]; auto; try lia.
  - f_equal. f_equal. lia.
  - pose proof (unread_len _ _ _ _ H3). lia.
  - destruct d; [cbn [length] in L; lia|discriminate].
Qed.
Lemma span_unread : forall raw pos, pos <= length raw -> exists gap rest, skipn pos raw = gap ++ rest /\ forallb is_ws gap = true /\ ends_nws rest.
Proof. intros. destruct (span_ws is_ws (skipn pos raw)) as (a & b & E & A & B). exists a, b. auto. Qed.
Lemma read_char_string_sound : forall raw pos d b', pos <= length raw -> read_char_string (mkSB raw pos) = (Ok d, b') ->
  exists gap t rest, skipn pos raw = gap ++ 34%N :: t ++ 34%N :: rest /\ forallb is_ws gap = true /\ quoted t d /\ 1 <= length d <= 255 /\
    b' = mkSB raw (pos + length gap + length t + 2).
Proof.
  intros raw pos d b' P H. destruct (span_unread raw pos P) as (gap & r & Sk & G & E).
  unfold read_char_string in H. unfold bind at 1 in H. rewrite (skip_whitespace_spec raw pos gap r Sk P G E) in H.
  pose proof (skipn_after _ _ _ _ Sk) as H2. pose proof (pos_le _ _ _ _ Sk P) as P2.
  unfold bind at 1, get in H. destruct (sb_eos _) eqn:Eo; [discriminate|].
  unfold sb_eos in Eo. cbn [sb_pos sb_raw] in Eo. apply Nat.eqb_neq in Eo.
  destruct r as [|c r]; [apply skipn_nil_pos in H2; auto; lia|].
  destruct (skipn_cons_idx _ _ _ _ H2) as (I & H3 & Lt).
  unfold bind at 1, sb_cur in H. cbn [sb_raw sb_pos] in H. rewrite I in H.
  destruct (c =? 34)%N eqn:Ec; cbn [negb] in H; [apply N.eqb_eq in Ec; subst c|discriminate].
  unfold bind, sb_advance in H. cbn [sb_raw sb_pos] in H.
  apply char_loop_sound in H; [|lia|cbn [length]; lia].
  destruct H as (t & rest & d0 & K & Q & -> & Nn & L & B). exists gap, t, rest. rewrite H3 in K. subst r. cbn [app] in *.
  split; [exact Sk|]. split; [exact G|]. split; [exact Q|]. split; [destruct d0; [congruence|cbn [length] in *; lia]|]. rewrite B. f_equal. lia.
Qed.
Lemma read_char_string_safe : forall raw pos, pos <= length raw -> safe (fst (read_char_string (mkSB raw pos))).
Proof.
  intros raw pos P. destruct (span_unread raw pos P) as (gap & r & Sk & G & E).
  unfold read_char_string. unfold bind at 1. rewrite (skip_whitespace_spec raw pos gap r Sk P G E).
  pose proof (skipn_after _ _ _ _ Sk) as H2. pose proof (pos_le _ _ _ _ Sk P) as P2.
  unfold bind at 1, get. destruct (sb_eos _) eqn:Eo; [split; discriminate|].
  unfold sb_eos in Eo. cbn [sb_pos sb_raw] in Eo. apply Nat.eqb_neq in Eo.
  destruct r as [|c r]; [apply skipn_nil_pos in H2; auto; lia|].
  destruct (skipn_cons_idx _ _ _ _ H2) as (I & H3 & Lt).
  unfold bind at 1, sb_cur. cbn [sb_raw sb_pos]. rewrite I.
  destruct (c =? 34)%N; cbn [negb]; [|split; discriminate].
  unfold bind, sb_advance. cbn [sb_raw sb_pos]. apply char_loop_safe; lia.
Qed.
(** * Printing *)
Lemma digs3 : forall c, (c < 256)%N -> (c / 100 mod 10 = c / 100 /\ c / 100 < 10 /\ c / 10 mod 10 < 10 /\ c mod 10 < 10 /\ (c / 100) * 100 + (c / 10 mod 10) * 10 + c mod 10 = c)%N.
Proof.
  intros c H. assert (H1 : (c / 100 < 10)%N) by (apply N.div_lt_upper_bound; lia).
  rewrite (N.mod_small (c/100)) by exact H1. repeat split; auto; try (apply N.mod_lt; discriminate).
  pose proof (N.div_mod c 10 ltac:(discriminate)) as A. pose proof (N.div_mod (c / 10) 10 ltac:(discriminate)) as B.
  rewrite N.div_div in B by discriminate. change (10 * 10)%N with 100%N in B.
  revert A B. generalize (c / 10)%N (c mod 10)%N (c / 100)%N (c / 10 mod 10)%N. intros. lia.
Qed.
Lemma escape_quoted : forall c t d, (c < 256)%N -> quoted t d -> quoted (escape_char c ++ t) (c :: d).
Proof.
  intros c t d B Q. unfold escape_char.
  destruct ((c <? 32) || (127 <=? c))%N eqn:E1.
  - destruct (digs3 c B) as (D0 & D1 & D2 & D3 & D4). rewrite D0. cbn [app].
    replace c with (digit_val (48 + c / 100) * 100 + digit_val (48 + c / 10 mod 10) * 10 + digit_val (48 + c mod 10))%N at 4.
    + apply q_dec; auto; try (apply is_dec_add; assumption).
      unfold digit_val. revert D4 B. generalize (c / 100)%N (c / 10 mod 10)%N (c mod 10)%N. intros. lia.
    + unfold digit_val. revert D4. generalize (c / 100)%N (c / 10 mod 10)%N (c mod 10)%N. intros. lia.
  - apply orb_false_iff in E1. destruct E1 as [E1 E2]. rewrite N.ltb_ge in E1. rewrite N.leb_gt in E2.
    destruct ((c =? 34) || (c =? 59) || (c =? 92))%N eqn:E3; cbn [app].
    + apply q_esc; auto. rewrite !orb_true_iff, !N.eqb_eq in E3. unfold is_dec. lia.
    + rewrite !orb_false_iff, !N.eqb_neq in E3. apply q_plain; auto; tauto.
Qed.
Lemma escape_all_quoted : forall d, bytes d -> quoted (flat_map escape_char d) d.
Proof. induction 1 as [|c d B D IH]; [constructor|]. cbn [flat_map]. apply escape_quoted; auto. Qed.
Lemma escape_ascii : forall c, (c < 256)%N -> Forall (fun x => 32 <= x <= 126)%N (escape_char c).
Proof.
  intros c B. unfold escape_char. destruct ((c <? 32) || (127 <=? c))%N eqn:E1.
  - destruct (digs3 c B) as (D0 & D1 & D2 & D3 & D4). rewrite D0. revert D1 D2 D3. clear. generalize (c / 100)%N (c / 10 mod 10)%N (c mod 10)%N. intros.
    repeat constructor; lia.
  - apply orb_false_iff in E1. destruct E1 as [E1 E2]. rewrite N.ltb_ge in E1. rewrite N.leb_gt in E2.
    destruct (_ || _); repeat constructor; lia.
Qed.
Lemma string_to_str_ascii : forall d, bytes d -> Forall (fun x => 32 <= x <= 126)%N (string_to_str d).
Proof.
  intros d H. unfold string_to_str. cbn [app]. constructor; [lia|]. apply Forall_app. split; [|repeat constructor; lia].
  induction H as [|c d B D IH]; cbn [flat_map]; [constructor|]. apply Forall_app. split; auto. apply escape_ascii; auto.
Qed.
Lemma string_round_trip : forall raw pos gap d rest, skipn pos raw = gap ++ string_to_str d ++ rest -> pos <= length raw -> forallb is_ws gap = true ->
  bytes d -> 1 <= length d <= 255 ->
  read_char_string (mkSB raw pos) = (Ok d, mkSB raw (pos + length gap + length (string_to_str d))).
Proof.
  intros raw pos gap d rest H P G B L.
  assert (E : string_to_str d ++ rest = 34%N :: flat_map escape_char d ++ 34%N :: rest).
  { unfold string_to_str. cbn [app]. rewrite <- app_assoc. reflexivity. }
  rewrite E in H. rewrite (read_char_string_complete raw pos gap _ rest d H P G (escape_all_quoted d B) L).
  f_equal. f_equal. unfold string_to_str. cbn [app length]. rewrite app_length. cbn [length]. lia.
Qed.
(** * Lists of strings *)
Lemma read_char_string_len : forall raw pos d b', pos <= length raw -> read_char_string (mkSB raw pos) = (Ok d, b') -> sb_raw b' = raw /\ pos < sb_pos b' <= length raw.
Proof.
  intros raw pos d b' P H. apply read_char_string_sound in H; auto. destruct H as (gap & t & rest & Sk & _ & _ & _ & ->). cbn [sb_raw sb_pos].
  apply (f_equal (@length _)) in Sk. rewrite skipn_length, app_length in Sk. cbn [length] in Sk. rewrite app_length in Sk. cbn [length] in Sk. split; [reflexivity|lia].
Qed.
Lemma text_loop_complete : forall s ds, texts s ds -> forall raw pos fuel acc, skipn pos raw = s -> pos <= length raw -> length s < fuel ->
  text_loop_str fuel acc (mkSB raw pos) = (Ok (acc ++ ds), mkSB raw (length raw)).
Proof.
  induction 1 as [gap t d G Q L|gap t d rest ds G Q L T IH]; intros raw pos fuel acc Sk P F; (destruct fuel as [|fuel]; [lia|]); cbn [text_loop_str].
  - assert (Sk' : skipn pos raw = gap ++ 34%N :: t ++ 34%N :: []) by exact Sk.
    unfold bind at 1. rewrite (read_char_string_complete raw pos gap t [] d Sk' P G Q L).
    assert (E : pos + length gap + length t + 2 = length raw).
    { apply (f_equal (@length _)) in Sk. rewrite skipn_length, app_length in Sk. cbn [length] in Sk. rewrite app_length in Sk. cbn [length] in Sk. lia. }
    rewrite E. unfold bind, get. rewrite sb_eos_end. reflexivity.
  - unfold bind at 1. rewrite (read_char_string_complete raw pos gap t rest d Sk P G Q L).
    assert (E : pos + length gap + length t + 2 < length raw).
    { apply (f_equal (@length _)) in Sk. rewrite skipn_length, app_length in Sk. cbn [length] in Sk. rewrite app_length in Sk. cbn [length] in Sk.
      assert (rest <> []) by (inversion T; destruct gap0; discriminate). destruct rest; [congruence|]. cbn [length] in Sk. lia. }
    unfold bind, get. rewrite sb_eos_lt by exact E. rewrite IH.
    + rewrite <- app_assoc. reflexivity.
    + replace (pos + length gap + length t + 2) with (pos + length (gap ++ 34%N :: t ++ [34%N])).
      * apply skipn_after. rewrite Sk. rewrite <- app_assoc. cbn [app]. rewrite <- app_assoc. reflexivity.
      * rewrite app_length. cbn [length]. rewrite app_length. cbn [length]. lia.
    + lia.
    + rewrite app_length in F. cbn [length] in F. rewrite app_length in F. cbn [length] in F. lia.
Qed.
Lemma text_loop_sound : forall fuel acc raw pos ds b', pos <= length raw -> text_loop_str fuel acc (mkSB raw pos) = (Ok ds, b') ->
  exists e, ds = acc ++ e /\ texts (skipn pos raw) e /\ b' = mkSB raw (length raw).
Proof.
  induction fuel as [|fuel IH]; intros acc raw pos ds b' P H; cbn [text_loop_str] in H; [discriminate|].
  apply bind_ok in H. destruct H as (d & b1 & R & H). apply bind_ok in H. destruct H as (b2 & b3 & R2 & H).
  unfold get in R2. apply pair_inj in R2. destruct R2 as [R2 R3]. apply Ok_inj in R2. subst b2 b3.
  apply read_char_string_sound in R; auto. destruct R as (gap & t & rest & Sk & G & Q & L & ->).
  assert (Ln : length raw = pos + length gap + length t + 2 + length rest).
  { apply (f_equal (@length _)) in Sk. rewrite skipn_length, app_length in Sk. cbn [length] in Sk. rewrite app_length in Sk. cbn [length] in Sk. lia. }
  unfold sb_eos in H. cbn [sb_pos sb_raw] in H. destruct (Nat.eqb_spec (pos + length gap + length t + 2) (length raw)) as [Eq|Ne].
  - unfold ret in H. apply pair_inj in H. destruct H as [H <-]. apply Ok_inj in H. exists [d]. split; [auto|]. split; [|f_equal; exact Eq].
    destruct rest; [|cbn [length] in Ln; lia]. rewrite Sk. apply texts_one; auto.
  - apply IH in H; [|lia]. destruct H as (e & -> & T & ->). exists (d :: e). split; [rewrite <- app_assoc; reflexivity|]. split; [|reflexivity].
    replace (skipn (pos + length gap + length t + 2) raw) with rest in T.
    + rewrite Sk. apply texts_more; auto.
    + symmetry. replace (pos + length gap + length t + 2) with (pos + length (gap ++ 34%N :: t ++ [34%N])).
      * apply skipn_after. rewrite Sk. rewrite <- app_assoc. cbn [app]. rewrite <- app_assoc. reflexivity.
      * rewrite app_length. cbn [length]. rewrite app_length. cbn [length]. lia.
Qed.
Lemma text_loop_safe : forall fuel acc raw pos, pos <= length raw -> length raw - pos < fuel -> safe (fst (text_loop_str fuel acc (mkSB raw pos))).
Proof.
  induction fuel as [|fuel IH]; intros acc raw pos P F; [lia|]. cbn [text_loop_str].
  pose proof (read_char_string_safe raw pos P) as Sf. unfold bind at 1.
  destruct (read_char_string (mkSB raw pos)) as [r b1] eqn:R. cbn [fst] in Sf. destruct Sf as [S1 S2].
  destruct r as [d| | |]; try congruence; [|split; discriminate].
  destruct (read_char_string_len _ _ _ _ P R) as [Er Lp]. destruct b1 as [raw1 pos1]. cbn [sb_raw sb_pos] in *. subst raw1.
  unfold bind, get. destruct (sb_eos _); [split; discriminate|]. apply IH; lia.
Qed.
Lemma read_text_iff : forall raw pos ds b', pos <= length raw ->
  read_text (mkSB raw pos) = (Ok ds, b') <-> texts (skipn pos raw) ds /\ b' = mkSB raw (length raw).
Proof.
  intros raw pos ds b' P. unfold read_text. split.
  - intro H. unfold bind at 1, get in H. cbn [sb_raw] in H. apply bind_ok in H. destruct H as (d & b1 & R & H).
    apply text_loop_sound in R; auto. destruct R as (e & -> & T & ->). cbn [app] in *.
    destruct e; cbn [bind ensure ret] in H; unfold bind, ensure, ret, fail in H; [discriminate|].
    apply pair_inj in H. destruct H as [H <-]. apply Ok_inj in H. subst ds. auto.
  - intros [T ->]. unfold bind at 1, get. cbn [sb_raw]. unfold bind at 1.
    rewrite (text_loop_complete _ _ T raw pos _ [] eq_refl P) by (rewrite skipn_length; lia).
    destruct ds; [inversion T|]. reflexivity.
Qed.
Lemma read_text_safe : forall raw pos, pos <= length raw -> safe (fst (read_text (mkSB raw pos))).
Proof.
  intros raw pos P. unfold read_text. unfold bind at 1, get. cbn [sb_raw].
  pose proof (text_loop_safe (length raw + 1) [] raw pos P ltac:(lia)) as Sf. unfold bind at 1.
  destruct (text_loop_str _ _ _) as [r b1]. cbn [fst] in Sf. destruct Sf as [S1 S2]. destruct r as [d| | |]; try congruence; [|split; discriminate].
  destruct d; split; discriminate.
Qed.
Lemma text_to_str_texts : forall ds, ds <> [] -> Forall (fun d => bytes d /\ 1 <= length d <= 255) ds -> texts (text_to_str ds) ds.
Proof.
  intros ds Nn F. induction F as [|d ds [B L] F IH]; [congruence|]. unfold text_to_str. cbn [flat_map]. fold (text_to_str ds).
  destruct ds as [|d2 ds].
  - cbn [text_to_str flat_map]. rewrite app_nil_r. unfold string_to_str. apply (texts_one [] _ d); auto. apply escape_all_quoted; auto.
  - unfold string_to_str at 1. rewrite <- !app_assoc. apply (texts_more [] _ d _ (d2 :: ds)); auto. apply escape_all_quoted; auto. apply IH. discriminate.
Qed.

From Verif Require Import Base BaseLemmas NameModel SpecName SpecEsc NameWireProofs NameOpsProofs NameOpsProofs2 NameCmpProofs NameCmpProofs2 NameTextProofs.

Definition opt_app (cur : list N) (o : option (list N)) : option (list N) :=
  match o with Some l => Some (cur ++ l) | None => None end.
Definition rd (cur text : list N) : option (list label) :=
  match split_dots text with
  | [] => None
  | [h] => match opt_app cur (esc_octets false h) with Some l => Some [l] | None => None end
  | h :: t => match opt_app cur (esc_octets true h), pieces_reading t with
              | Some l, Some ls => Some (l :: ls) | _, _ => None end
  end.
Definition eout (ab : bool) (ls : list label) (o : option (list label)) (op : bool) : res (list N * list N) :=
  match o with
  | None => Err
  | Some L => if forallb okl (ls ++ L) && ((wire_len (ls ++ L) <=? 255) || ((wire_len (ls ++ L) =? 256) && op))
              then Ok (if ab then (enc (ls ++ L), offs_from 0 (ls ++ L)) else (body (ls ++ L), obody 0 (ls ++ L)))
              else Err
  end.

(** States of the automaton: [ls] closed labels, [cur] the octets so far of the current one, [p] the part of an escape
    that has been read. *)
Inductive pend := P0 | P1 | P2 (x : N) | P3 (x y : N).
Definition ptext (p : pend) : list N :=
  match p with P0 => [] | P1 => [92%N] | P2 x => [92%N; x] | P3 x y => [92%N; x; y] end.
Definition pok (p : pend) : Prop :=
  match p with P0 | P1 => True | P2 x => is_digit x = true | P3 x y => is_digit x = true /\ is_digit y = true end.
Definition est (ls : list label) (cur : label) (p : pend) dg v : spst :=
  let d := body ls ++ [0%N] ++ cur in let o := offs_from 0 ls in let c := blen cur in
  match p with
  | P0 => mkSp d o c dg v FOrdinary
  | P1 => mkSp d o c dg v FEscape
  | P2 x => mkSp d o c 1 (digitvalue x) FEscdecimal
  | P3 x y => mkSp d o c 2 (digitvalue x * 10 + digitvalue y) FEscdecimal
  end.

Lemma est_data : forall ls cur p dg v, length (sp_data (est ls cur p dg v)) = elen ls + (1 + length cur).
Proof. intros. destruct p; simpl; rewrite !app_length, body_len; reflexivity. Qed.

Lemma opt_cons_app : forall cur c o, opt_app cur (opt_cons c o) = opt_app (cur ++ [c]) o.
Proof. intros. destruct o; simpl; auto. rewrite <- app_assoc. reflexivity. Qed.

Lemma rd_cons : forall cur c rest, c <> 46%N -> c <> 92%N -> rd cur (c :: rest) = rd (cur ++ [c]) rest.
Proof.
  intros. unfold rd. simpl split_dots. apply N.eqb_neq in H. apply N.eqb_neq in H0. rewrite H.
  destruct (split_dots_ne rest) as (h & t & ->). destruct t; cbn [esc_octets]; rewrite H0, opt_cons_app; reflexivity.
Qed.
Lemma rd_esc : forall cur c rest, is_digit c = false -> rd cur (92%N :: c :: rest) = rd (cur ++ [c]) (c :: rest).
Proof.
  intros. unfold rd. simpl split_dots. destruct (c =? 46)%N eqn:D.
  - apply N.eqb_eq in D. subst. destruct (split_dots_ne rest) as (h & t & ->). cbn [esc_octets opt_app]. rewrite app_nil_r. reflexivity.
  - destruct (split_dots_ne rest) as (h & t & ->).
    assert (E : forall b, esc_octets b (92%N :: c :: h) = opt_cons c (esc_octets b (c :: h))).
    { intros. change (esc_octets b (92%N :: c :: h)) with (if dec_digit c then match h with | y :: z :: t3 =>
                  if dec_digit y && dec_digit z && ((c - 48) * 100 + (y - 48) * 10 + (z - 48) <=? 255)%N
                  then opt_cons z (esc_octets b t3) else None | _ => None end else opt_cons c (esc_octets b (c :: h))).
      unfold dec_digit. unfold is_digit in H. rewrite H. reflexivity. }
    destruct t; rewrite E, opt_cons_app; reflexivity.
Qed.
Lemma rd_dec : forall cur x y z rest, is_digit x = true -> is_digit y = true -> is_digit z = true ->
  rd cur (92%N :: x :: y :: z :: rest) =
  if ((x - 48) * 100 + (y - 48) * 10 + (z - 48) <=? 255)%N then rd (cur ++ [z]) rest else None.
Proof.
  assert (D : forall c, is_digit c = true -> (c =? 46)%N = false). { intros. unfold is_digit in H. bl. apply N.eqb_neq. lia. }
  intros. unfold rd. simpl split_dots. rewrite !D by auto. 
  destruct (split_dots_ne rest) as (h & t & ->).
  assert (E : forall b, esc_octets b (92%N :: x :: y :: z :: h) = if ((x - 48) * 100 + (y - 48) * 10 + (z - 48) <=? 255)%N
                  then opt_cons z (esc_octets b h) else None).
  { intros. cbn [esc_octets N.eqb Pos.eqb]. unfold dec_digit. unfold is_digit in *. rewrite H, H0, H1. reflexivity. }
  destruct t; rewrite E; destruct (_ <=? 255)%N; rewrite ?opt_cons_app; reflexivity.
Qed.
Lemma rd_dec_bad1 : forall cur x c rest, is_digit x = true -> is_digit c = false -> rd cur (92%N :: x :: c :: rest) = None.
Proof.
  intros. assert (D : (x =? 46)%N = false) by (unfold is_digit in H; bl; apply N.eqb_neq; lia).
  unfold rd. simpl split_dots. rewrite D. destruct (split_dots_ne rest) as (h & t & ->).
  destruct (c =? 46)%N.
  - cbn [esc_octets N.eqb Pos.eqb]. unfold dec_digit. unfold is_digit in H. rewrite H. reflexivity.
  - destruct t; cbn [esc_octets N.eqb Pos.eqb]; unfold dec_digit; unfold is_digit in *; rewrite H; destruct h; rewrite ?H0; simpl; reflexivity.
Qed.
Lemma rd_dec_bad2 : forall cur x y c rest, is_digit x = true -> is_digit y = true -> is_digit c = false -> rd cur (92%N :: x :: y :: c :: rest) = None.
Proof.
  assert (D : forall c, is_digit c = true -> (c =? 46)%N = false). { intros. unfold is_digit in H. bl. apply N.eqb_neq. lia. }
  intros. unfold rd. simpl split_dots. rewrite !D by auto. destruct (split_dots_ne rest) as (h & t & ->).
  destruct (c =? 46)%N.
  - cbn [esc_octets N.eqb Pos.eqb]. unfold dec_digit. unfold is_digit in H. rewrite H. reflexivity.
  - destruct t; cbn [esc_octets N.eqb Pos.eqb]; unfold dec_digit; unfold is_digit in *; rewrite H, H0, H1; simpl; reflexivity.
Qed.
Lemma rd_end : forall cur p, pok p -> rd cur (ptext p) = match p with P0 => Some [cur] | _ => None end.
Proof.
  assert (D : forall c, is_digit c = true -> (c =? 46)%N = false). { intros. unfold is_digit in H. bl. apply N.eqb_neq. lia. }
  intros. unfold rd. destruct p; simpl in *; rewrite ?app_nil_r; auto.
  - rewrite D by auto. cbn [esc_octets N.eqb Pos.eqb]. unfold dec_digit. unfold is_digit in H. rewrite H. reflexivity.
  - destruct H. rewrite !D by auto. cbn [esc_octets N.eqb Pos.eqb]. unfold dec_digit. unfold is_digit in H. rewrite H. reflexivity.
Qed.
Lemma rd_dot : forall cur rest, rd cur (46%N :: rest) = match pieces_reading (split_dots rest) with Some ls => Some (cur :: ls) | None => None end.
Proof. intros. unfold rd. simpl. destruct (split_dots_ne rest) as (h & t & ->). rewrite app_nil_r. reflexivity. Qed.
Lemma rd_len : forall cur text L, rd cur text = Some L -> exists l L', L = l :: L' /\ length cur <= length l.
Proof.
  intros cur text L. unfold rd. destruct (split_dots_ne text) as (h & t & ->).
  destruct t as [|h2 t]; [destruct (esc_octets false h) as [o|]; cbn [opt_app]; [|discriminate]|destruct (esc_octets true h) as [o|]; cbn [opt_app]; [|discriminate]].
  - intros [= <-]. do 2 eexists. split; [reflexivity|]. rewrite app_length. lia.
  - destruct (pieces_reading (h2 :: t)); [|discriminate]. intros [= <-]. do 2 eexists. split; [reflexivity|]. rewrite app_length. lia.
Qed.
Lemma open_ne : forall t o, open_escape t = true -> esc_octets true t = Some o -> 1 <= length o.
Proof.
  intros t o H E. destruct t as [|c t]; [discriminate|]. cbn [esc_octets open_escape] in *.
  destruct (c =? 92)%N.
  - destruct t as [|x t]; [injection E as <-; simpl; lia|].
    destruct (dec_digit x).
    + destruct t as [|y [|z t]]; try discriminate. destruct (_ && _); [|discriminate].
      destruct (esc_octets true t); [|discriminate]. injection E as <-. simpl. lia.
    + destruct (esc_octets true (x :: t)); [|discriminate]. injection E as <-. simpl. lia.
  - destruct (esc_octets true t); [|discriminate]. injection E as <-. simpl. lia.
Qed.
(** [ends_escaped] with a first piece whose opening has been consumed. *)
Definition op (text : list N) : bool := ends_escaped (split_dots text).
Lemma op_dot : forall rest, rest <> [] -> op (46%N :: rest) = op rest.
Proof.
  intros. unfold op. simpl split_dots. cbn [ends_escaped]. destruct rest; [congruence|].
  simpl split_dots. destruct (_ =? 46)%N.
  - destruct (split_dots_ne rest) as (h & t & ->). reflexivity.
  - destruct (split_dots_ne rest) as (h & t & ->). reflexivity.
Qed.
Lemma op_cons : forall c rest, c <> 46%N -> c <> 92%N -> op (c :: rest) = op rest.
Proof.
  intros. unfold op. simpl split_dots. apply N.eqb_neq in H. apply N.eqb_neq in H0. rewrite H.
  destruct (split_dots_ne rest) as (h & t & ->). cbn [ends_escaped open_escape]. rewrite H0. reflexivity.
Qed.
Lemma op_esc : forall c rest, is_digit c = false -> c <> 46%N -> op (92%N :: c :: rest) = op (c :: rest).
Proof.
  intros. unfold op. simpl split_dots. apply N.eqb_neq in H0. rewrite H0.
  destruct (split_dots_ne rest) as (h & t & ->). cbn [ends_escaped]. 
  assert (E : open_escape (92%N :: c :: h) = open_escape (c :: h)).
  { change (open_escape (92%N :: c :: h)) with (if dec_digit c then match h with _ :: _ :: t3 => open_escape t3 | _ => false end else open_escape (c :: h)).
    unfold dec_digit. unfold is_digit in H. rewrite H. reflexivity. }
  rewrite E. reflexivity.
Qed.
Lemma op_esc_dot : forall rest, rest <> [] -> op (92%N :: 46%N :: rest) = op (46%N :: rest).
Proof.
  intros. unfold op. simpl split_dots. destruct rest; [congruence|].
  simpl split_dots. destruct (_ =? 46)%N; destruct (split_dots_ne rest) as (h & t & ->); reflexivity.
Qed.
Lemma op_dec : forall x y z rest, is_digit x = true -> is_digit y = true -> is_digit z = true -> op (92%N :: x :: y :: z :: rest) = op rest.
Proof.
  assert (D : forall c, is_digit c = true -> (c =? 46)%N = false). { intros. unfold is_digit in H. bl. apply N.eqb_neq. lia. }
  intros. unfold op. simpl split_dots. rewrite !D by auto. 
  destruct (split_dots_ne rest) as (h & t & ->). cbn [ends_escaped open_escape N.eqb Pos.eqb]. unfold dec_digit. unfold is_digit in H. rewrite H. reflexivity.
Qed.
(** A label that is closed by an escaped dot is not empty. *)
Lemma pieces_op_len : forall ps L, pieces_reading ps = Some L -> ends_escaped ps = true -> 2 <= elen L.
Proof.
  induction ps as [|p ps IH]; intros L H E; [discriminate|].
  destruct ps as [|p2 ps]; [cbn [ends_escaped] in E; discriminate|].
  change (pieces_reading (p :: p2 :: ps)) with (match label_reading true p, pieces_reading (p2 :: ps) with Some l, Some ls => Some (l :: ls) | _, _ => None end) in H.
  destruct (label_reading true p) as [l|] eqn:LR; [|discriminate]. destruct (pieces_reading (p2 :: ps)) as [L'|] eqn:PR; [|discriminate].
  injection H as <-. rewrite elen_cons.
  cbn [ends_escaped] in E. destruct p2 as [|c p2].
  - destruct ps as [|p3 ps].
    + assert (1 <= length l); [|lia]. unfold label_reading in LR. destruct (hd 0%N p =? 92)%N.
      * destruct (esc_octets true p); [|discriminate]. injection LR as <-. simpl. lia.
      * eapply open_ne; eauto.
    + specialize (IH _ eq_refl E). lia.
  - specialize (IH _ eq_refl E). lia.
Qed.
Lemma rd_op_len : forall cur text L, rd cur text = Some L -> op text = true -> 2 + length cur <= elen L.
Proof.
  intros cur text L. unfold rd, op. destruct (split_dots text) as [|h t]; [discriminate|].
  destruct t as [|h2 t].
  - cbn [ends_escaped]. discriminate.
  - destruct (esc_octets true h) as [o|] eqn:EO; [|discriminate]. cbn [opt_app]. destruct (pieces_reading (h2 :: t)) as [L'|] eqn:PR; [|discriminate].
    intros [= <-] E. rewrite elen_cons, app_length. cbn [ends_escaped] in E. destruct h2 as [|c h2].
    + destruct t as [|h3 t].
      * pose proof (open_ne _ _ E EO). lia.
      * pose proof (pieces_op_len _ _ PR E). lia.
    + pose proof (pieces_op_len _ _ PR E). lia.
Qed.
Lemma eout_long : forall ab ls cur text, 254 <= elen ls + length cur -> eout ab ls (rd cur text) (op text) = Err.
Proof.
  intros. unfold eout. destruct (rd cur text) as [L|] eqn:R; auto.
  destruct (forallb okl (ls ++ L)); auto. simpl andb.
  destruct (rd_len _ _ _ R) as (l & L' & -> & LE).
  rewrite wire_elen, elen_app, elen_cons.
  destruct (op text) eqn:O.
  - pose proof (rd_op_len _ _ _ R O). rewrite elen_cons in *. 
    replace (elen ls + (1 + length l + elen L') + 1 <=? 255) with false by (symmetry; apply Nat.leb_gt; lia).
    replace (elen ls + (1 + length l + elen L') + 1 =? 256) with false by (symmetry; apply Nat.eqb_neq; lia). reflexivity.
  - rewrite andb_false_r, orb_false_r.
    replace (elen ls + (1 + length l + elen L') + 1 <=? 255) with false by (symmetry; apply Nat.leb_gt; lia). reflexivity.
Qed.
Lemma eout_wide : forall ab ls cur text o, 63 < length cur -> eout ab ls (rd cur text) o = Err.
Proof.
  intros. unfold eout. destruct (rd cur text) as [L|] eqn:R; auto.
  destruct (rd_len _ _ _ R) as (l & L' & -> & LE).
  rewrite forallb_app. simpl forallb. replace (okl l) with false by (symmetry; unfold okl; apply andb_false_iff; right; apply Nat.leb_gt; lia).
  rewrite !andb_false_r. reflexivity.
Qed.

Lemma outer_long : forall s c rest ab, 255 <= length (sp_data s) -> fin (sp_outer s (c :: rest)) ab = Err.
Proof.
  intros. cbn [sp_outer]. unfold MAX_WIRE_LEN. apply Nat.leb_le in H. rewrite H. unfold fin. cbn [rbind].
  unfold ensure_r, MAX_WIRE_LEN. apply Nat.leb_le in H. replace (length (sp_data s) <? 255) with false by (symmetry; apply Nat.ltb_ge; auto). reflexivity.
Qed.
Definition lastb (rest : list N) : bool := match rest with [] => true | _ => false end.
Definition cont (ab : bool) (rest : list N) (r : spinner) : res (list N * list N) :=
  fin (match r with
       | InBreak s' => sp_outer s' rest
       | InDone s' => Ok (s', true, lastb rest)
       | InErr => Err | InPanic => Panic | InHang => Hang end) ab.
Lemma outer_short : forall s c rest ab, length (sp_data s) < 255 ->
  fin (sp_outer s (c :: rest)) ab = cont ab rest (sp_inner sp_inner_fuel s c (lastb rest)).
Proof.
  intros. cbn [sp_outer]. unfold MAX_WIRE_LEN. apply Nat.leb_gt in H. rewrite H. reflexivity.
Qed.
Lemma inner_S : forall f s c last, sp_inner (S f) s c last =
  match sp_step s c last with SpLoop s' => sp_inner f s' c last | SpBreak s' => InBreak s' | SpDone s' => InDone s' | SpErr => InErr | SpPanic => InPanic end.
Proof. reflexivity. Qed.
Lemma ends_dot_cons : forall c rest, rest <> [] -> ends_dot (c :: rest) = ends_dot rest.
Proof. intros. destruct rest; [congruence|reflexivity]. Qed.
Lemma est_push : forall ls cur c dg v, mkSp ((body ls ++ [0%N] ++ cur) ++ [c]) (offs_from 0 ls) (blen cur + 1) dg v FOrdinary = est ls (cur ++ [c]) P0 dg v.
Proof. intros. unfold est. f_equal; [rewrite <- !app_assoc; reflexivity|]. rewrite blen_app. reflexivity. Qed.
Lemma okl_true : forall l, 1 <= length l <= 63 -> okl l = true.
Proof. intros. unfold okl. rewrite andb_true_iff, !Nat.leb_le. lia. Qed.
Lemma pieces_first_empty : forall ab ls L o, eout ab ls (Some ([] :: L)) o = Err.
Proof. intros. unfold eout. rewrite forallb_app. simpl. rewrite !andb_false_r. reflexivity. Qed.
Lemma eout_shift : forall ab ls cur o op, 
  eout ab ls (match o with Some L => Some (cur :: L) | None => None end) op = eout ab (ls ++ [cur]) o op.
Proof. intros. unfold eout. destruct o; auto. rewrite <- !app_shift. reflexivity. Qed.
Lemma pieces_start : forall c rest, c <> 46%N -> c <> 92%N -> pieces_reading (split_dots (c :: rest)) = rd [] (c :: rest).
Proof.
  intros. unfold rd. simpl split_dots. apply N.eqb_neq in H. apply N.eqb_neq in H0. rewrite H. destruct (split_dots_ne rest) as (h & t & ->).
  destruct t.
  - cbn [pieces_reading]. unfold label_reading. simpl hd. rewrite H0. destruct (esc_octets false (c :: h)); reflexivity.
  - change (pieces_reading ((c :: h) :: l :: t)) with (match label_reading true (c :: h), pieces_reading (l :: t) with Some l, Some ls => Some (l :: ls) | _, _ => None end).
    unfold label_reading. simpl hd. rewrite H0. destruct (esc_octets true (c :: h)); reflexivity.
Qed.
Lemma pieces_start_bs : forall rest, pieces_reading (split_dots (92%N :: rest)) = rd [92%N] (92%N :: rest).
Proof.
  intros. unfold rd. simpl split_dots. destruct (split_dots_ne rest) as (h & t & ->).
  destruct t.
  - cbn [pieces_reading]. unfold label_reading. simpl hd. destruct (esc_octets false (92%N :: h)); reflexivity.
  - change (pieces_reading ((92%N :: h) :: l :: t)) with (match label_reading true (92%N :: h), pieces_reading (l :: t) with Some l, Some ls => Some (l :: ls) | _, _ => None end).
    unfold label_reading. simpl hd. destruct (esc_octets true (92%N :: h)); reflexivity.
Qed.
Lemma pieces_start_dot : forall rest, exists o, pieces_reading (split_dots (46%N :: rest)) = match o with Some L => Some ([] :: L) | None => None end.
Proof.
  intros. simpl split_dots. destruct (split_dots_ne rest) as (h & t & ->). exists (pieces_reading (h :: t)). reflexivity.
Qed.
Lemma pieces_len : forall c rest L, pieces_reading (split_dots (c :: rest)) = Some L -> exists l L', L = l :: L'.
Proof.
  intros c rest L H. destruct (N.eq_dec c 46) as [->|N1].
  - destruct (pieces_start_dot rest) as (o & E). rewrite E in H. destruct o; [|discriminate]. injection H as <-. eauto.
  - destruct (N.eq_dec c 92) as [->|N2].
    + rewrite pieces_start_bs in H. destruct (rd_len _ _ _ H) as (l & L' & -> & _). eauto.
    + rewrite pieces_start in H by auto. destruct (rd_len _ _ _ H) as (l & L' & -> & _). eauto.
Qed.
Lemma eout_start_long : forall ab ls c rest o, 255 <= elen ls -> eout ab ls (pieces_reading (split_dots (c :: rest))) o = Err.
Proof.
  intros. unfold eout. destruct (pieces_reading _) as [L|] eqn:P; auto. destruct (pieces_len _ _ _ P) as (l & L' & ->).
  rewrite forallb_app. simpl forallb. destruct (okl l) eqn:K; [|rewrite !andb_false_r; reflexivity].
  unfold okl in K. bl. rewrite wire_elen, elen_app, elen_cons.
  replace (elen ls + (1 + length l + elen L') + 1 <=? 255) with false by (symmetry; apply Nat.leb_gt; lia).
  replace (elen ls + (1 + length l + elen L') + 1 =? 256) with false by (symmetry; apply Nat.eqb_neq; lia).
  simpl. rewrite andb_false_r. reflexivity.
Qed.

Lemma esc_run : forall ab rest,
  (forall ls cur p dg v, pok p -> 1 <= length cur <= 63 -> forallb okl ls = true ->
     fin (sp_outer (est ls cur p dg v) rest) ab = eout (ab || ends_dot rest) ls (rd cur (ptext p ++ rest)) (op (ptext p ++ rest))) /\
  (forall ls cnt dg v, rest <> [] -> forallb okl ls = true ->
     fin (sp_outer (st_s ls cnt dg v) rest) ab = eout (ab || ends_dot rest) ls (pieces_reading (split_dots rest)) (op rest)).
Proof.
  intros ab. induction rest as [|c rest [IHe IHs]].
  - split; [|congruence]. intros ls cur p dg v PK HC HL. rewrite app_nil_r, rd_end by auto. cbn [sp_outer]. unfold fin. cbn [rbind].
    rewrite est_data. unfold ensure_r, MAX_WIRE_LEN.
    destruct p; try (destruct (_ <? 255); reflexivity).
    simpl orb. rewrite orb_false_r. unfold eout. rewrite forallb_app, HL. simpl forallb. rewrite okl_true by auto.
    rewrite wire_elen, elen_snoc. simpl andb. rewrite andb_false_r, orb_false_r.
    destruct (elen ls + (1 + length cur) <? 255) eqn:E; bl.
    + cbn [rbind assert_r est ft_eqb sp_state sp_count]. replace (blen cur =? 0)%N with false by (symmetry; apply N.eqb_neq; unfold blen; lia).
      cbn [negb rbind assert_r]. rewrite set_len_cur. cbn [rbind]. ift. 
      rewrite <- body_snoc. cbn [sp_offsets sp_data sp_count]. unfold blen at 1. rewrite body_len.
      rewrite as_u8_small by (rewrite elen_snoc; lia). rewrite <- offs_snoc. destruct ab; [reflexivity|].
      f_equal. f_equal. rewrite obody_app. unfold offs_from. reflexivity.
    + cbn [rbind]. iff_. reflexivity.
  - assert (ORD : forall f ls cur dg v esc, length cur <= 63 -> forallb okl ls = true ->
        (1 <= length cur -> elen ls + (1 + length cur) <= 254 + (if esc : bool then 1 else 0)) -> is_digit c = false \/ esc = false -> (c = 92%N -> cur <> []) ->
        cont ab rest (sp_inner (S f) (est ls cur P0 dg v) c (lastb rest)) =
        eout (ab || ends_dot (c :: rest)) ls (rd cur (c :: rest)) (if esc then op (92%N :: c :: rest) else op (c :: rest))).
    { intros f ls cur dg v esc HC HL HE ND NBS. rewrite inner_S. unfold sp_step. unfold est at 1. unfold CH_DOT, CH_BSL.
      destruct (c =? 46)%N eqn:ED; bl.
      - subst c. rewrite rd_dot.
        destruct (blen cur =? 0)%N eqn:EB; bl.
        + assert (cur = []) by (destruct cur; auto; unfold blen in EB; simpl in EB; lia). subst cur.
          destruct (pieces_reading (split_dots rest)); [rewrite pieces_first_empty|]; reflexivity.
        + rewrite eout_shift. unfold est. rewrite set_len_cur, <- body_snoc.
          assert (LC : 1 <= length cur) by (unfold blen in EB; lia). specialize (HE LC).
          cbn [sp_offsets sp_data sp_count]. replace (blen (body (ls ++ [cur]))) with (N.of_nat (elen (ls ++ [cur]))) by (unfold blen; rewrite body_len; reflexivity).
          rewrite as_u8_small by (rewrite elen_snoc; destruct esc; lia). rewrite <- offs_snoc.
          assert (OK : forallb okl (ls ++ [cur]) = true).
          { rewrite forallb_app, HL. simpl. rewrite okl_true by lia. reflexivity. }
          destruct rest as [|c2 rest].
          * simpl lastb. cbn [cont]. unfold cont, fin. cbn [rbind sp_data sp_offsets]. simpl ends_dot. rewrite orb_true_r.
            simpl pieces_reading. unfold eout. rewrite app_nil_r, OK, wire_elen, elen_snoc.
            destruct esc.
            -- change (op [92%N; 46%N]) with true. rewrite andb_true_r.
               destruct (elen ls + 1 + length cur + 1 <=? 255) eqn:Q; bl; [reflexivity|]. replace (elen ls + 1 + length cur + 1 =? 256) with true by (symmetry; apply Nat.eqb_eq; lia). reflexivity.
            -- change (op [46%N]) with false. rewrite andb_false_r, orb_false_r. ift. reflexivity.
          * simpl lastb. unfold cont.
            assert (O : (if esc then op (92%N :: 46%N :: c2 :: rest) else op (46%N :: c2 :: rest)) = op (c2 :: rest)).
            { destruct esc; [rewrite op_esc_dot by discriminate|]; apply op_dot; discriminate. }
            rewrite O, ends_dot_cons by discriminate. rewrite <- (IHs (ls ++ [cur]) (blen cur) dg v); auto. discriminate.
      - assert (O : (if esc then op (92%N :: c :: rest) else op (c :: rest)) = op (c :: rest)).
        { destruct esc; auto. apply op_esc; auto. destruct ND; auto; discriminate. }
        rewrite O. clear O.
        assert (EDT : ends_dot (c :: rest) = ends_dot rest).
        { destruct rest; [|reflexivity]. simpl. apply N.eqb_neq in ED. rewrite ED. reflexivity. }
        rewrite EDT.
        destruct (c =? 92)%N eqn:EB; bl.
        + subst c. unfold cont. destruct cur as [|c0 cur].
          * exfalso. apply NBS; reflexivity.
          * change (mkSp (body ls ++ [0%N] ++ c0 :: cur) (offs_from 0 ls) (blen (c0 :: cur)) dg v FEscape) with (est ls (c0 :: cur) P1 dg v).
            rewrite IHe; auto; [exact I|simpl in *; lia].
        + rewrite rd_cons, op_cons by auto. unfold MAX_LABEL_LEN.
          destruct (63 <? blen cur + 1)%N eqn:EL; bl.
          * rewrite eout_wide; [reflexivity|]. rewrite app_length. simpl. unfold blen in EL. lia.
          * rewrite est_push. unfold cont. rewrite IHe; auto; [exact I|]. rewrite app_length. simpl. unfold blen in EL. lia. }
    assert (EDD : c <> 46%N -> ends_dot (c :: rest) = ends_dot rest).
    { intros H. destruct rest; [|reflexivity]. simpl. apply N.eqb_neq in H. rewrite H. reflexivity. }
    assert (DN : is_digit c = true -> c <> 46%N). { unfold is_digit. intros H. bl. lia. }
    split.
    + intros ls cur p dg v PK HC HL.
      destruct (le_lt_dec 255 (elen ls + (1 + length cur))) as [LG|SH].
      { rewrite outer_long by (rewrite est_data; lia). rewrite eout_long by lia. reflexivity. }
      rewrite outer_short by (rewrite est_data; lia). unfold sp_inner_fuel.
      destruct p as [| |x|x y]; cbn [ptext app pok] in *.
      * rewrite (ORD 5 ls cur dg v false); auto; try lia. intros _ X. subst. simpl in HC. lia.
      * rewrite inner_S. cbn [est sp_step].
        destruct (is_digit c) eqn:DG; cbn [negb].
        -- rewrite inner_S. cbn [sp_step]. rewrite DG. cbn [negb]. change (0 + 1 =? 3)%N with false. cbn iota. unfold cont.
           change (sp_outer _ rest) with (sp_outer (est ls cur (P2 c) dg v) rest).
           rewrite IHe; auto. cbn [ptext app]. rewrite EDD by auto. reflexivity.
        -- unfold MAX_LABEL_LEN. rewrite rd_esc by auto.
           destruct (63 <? blen cur + 1)%N eqn:EL; bl.
           ++ rewrite eout_wide; [reflexivity|]. rewrite app_length. simpl. unfold blen in EL. lia.
           ++ rewrite est_push. rewrite (ORD 4 ls (cur ++ [c]) dg v true); auto.
              ** rewrite app_length. simpl. unfold blen in EL. lia.
              ** rewrite app_length. simpl. lia.
              ** intros _ X. destruct cur; discriminate.
      * rewrite inner_S. cbn [est sp_step].
        destruct (is_digit c) eqn:DG; cbn [negb].
        -- change (1 + 1 =? 3)%N with false. cbn iota. unfold cont.
           change (sp_outer _ rest) with (sp_outer (est ls cur (P3 x c) dg v) rest).
           rewrite IHe; auto; [|split; auto]. cbn [ptext app]. rewrite EDD by auto. reflexivity.
        -- rewrite rd_dec_bad1 by auto. reflexivity.
      * destruct PK as [PX PY]. rewrite inner_S. cbn [est sp_step].
        destruct (is_digit c) eqn:DG; cbn [negb].
        -- change (2 + 1 =? 3)%N with true. cbn iota. rewrite rd_dec, op_dec by auto.
           assert (V : (255 <? (digitvalue x * 10 + digitvalue y) * 10 + digitvalue c)%Z = negb ((x - 48) * 100 + (y - 48) * 10 + (c - 48) <=? 255)%N).
           { unfold digitvalue. rewrite PX, PY, DG. unfold is_digit in PX, PY, DG. bl.
             destruct (_ <=? 255)%N eqn:Q; bl; cbn [negb]; [apply Z.ltb_ge|apply Z.ltb_lt]; lia. }
           rewrite V. destruct (_ <=? 255)%N; cbn [negb]; [|reflexivity].
           unfold MAX_LABEL_LEN. destruct (63 <? blen cur + 1)%N eqn:EL; bl.
           ++ rewrite eout_wide; [reflexivity|]. rewrite app_length. simpl. unfold blen in EL. lia.
           ++ unfold cont. rewrite est_push. rewrite IHe; auto; [|exact I|].
              ** cbn [ptext app]. rewrite EDD by auto. reflexivity.
              ** rewrite app_length. simpl. unfold blen in EL. lia.
        -- rewrite rd_dec_bad2 by auto. reflexivity.
    + intros ls cnt dg v _ HL.
      destruct (le_lt_dec 255 (elen ls)) as [LG|SH].
      { rewrite outer_long by (simpl; rewrite body_len; lia). rewrite eout_start_long by lia. reflexivity. }
      rewrite outer_short by (simpl; rewrite body_len; lia). unfold sp_inner_fuel.
      rewrite inner_S. unfold st_s. cbn [sp_step]. unfold CH_BSL.
      destruct (c =? 92)%N eqn:EB; bl.
      * subst c. rewrite inner_S. cbn [sp_step]. unfold CH_LBR. cbn [N.eqb Pos.eqb].
        rewrite inner_S. cbn [sp_step]. change (is_digit 92) with false. cbn [negb]. unfold MAX_LABEL_LEN. change (63 <? 0 + 1)%N with false. cbn iota.
        rewrite pieces_start_bs.
        replace (mkSp ((body ls ++ [0%N]) ++ [92%N]) (offs_from 0 ls) (0 + 1) dg v FOrdinary) with (est ls [92%N] P0 dg v).
        2:{ unfold est. f_equal. rewrite <- app_assoc. reflexivity. }
        rewrite inner_S. cbn [est sp_step]. unfold CH_DOT, CH_BSL. cbn [N.eqb Pos.eqb]. unfold cont.
        change (mkSp (body ls ++ [0%N] ++ [92%N]) (offs_from 0 ls) (blen [92%N]) dg v FEscape) with (est ls [92%N] P1 dg v).
        rewrite IHe; auto; [|exact I|simpl; lia]. cbn [ptext app]. rewrite EDD by discriminate. reflexivity.
      * replace (mkSp (body ls ++ [0%N]) (offs_from 0 ls) 0 dg v FOrdinary) with (est ls [] P0 dg v).
        2:{ unfold est. rewrite app_nil_r. reflexivity. }
        rewrite (ORD 4 ls [] dg v false); auto; try (simpl; lia); try (intros X; contradiction).
        destruct (N.eq_dec c 46) as [->|N1].
        -- rewrite rd_dot. destruct (pieces_start_dot rest) as (o & E). rewrite E.
           destruct (pieces_reading (split_dots rest)); [rewrite pieces_first_empty|]; (destruct o; [rewrite pieces_first_empty|]; reflexivity).
        -- rewrite pieces_start by auto. reflexivity.
Qed.

Lemma parse_esc : forall s ab, s <> [] -> not_at_root s ->
  string_parse s ab = eout (ab || ends_dot s) [] (pieces_reading (split_dots s)) (ends_escaped (split_dots s)).
Proof.
  intros s ab NE [N1 N2]. rewrite string_parse_fin.
  destruct (esc_run ab s) as [_ P]. fold (op s). rewrite <- (P [] 0%N 0%N 0%Z NE eq_refl).
  destruct s as [|c s]; [congruence|].
  destruct (N.eq_dec c 46) as [->|N3].
  - rewrite (P [] 0%N 0%N 0%Z NE eq_refl). destruct (pieces_start_dot s) as (o & E). rewrite E.
    destruct s as [|c2 s]; [congruence|].
    destruct o; [rewrite pieces_first_empty|]; reflexivity.
  - rewrite !outer_short by (simpl; lia). f_equal. unfold sp_inner_fuel.
    rewrite inner_S. cbn [sp_step]. unfold CH_DOT, CH_AT. apply N.eqb_neq in N3. rewrite N3. cbn [andb orb].
    replace ((c =? 64)%N && lastb s) with false.
    2:{ symmetry. destruct (c =? 64)%N eqn:Q; auto. bl. subst. destruct s; [congruence|reflexivity]. }
    unfold st_s. rewrite (inner_S 4), (inner_S 5). cbn [sp_step body flat_map app].
    destruct (c =? CH_BSL)%N eqn:Q; [|].
    + unfold CH_BSL in Q. bl. subst c. reflexivity.
    + rewrite (inner_S 3), (inner_S 4). 
      pose proof (ord_step [0%N] [0%N] 0 0 0 c (lastb s)) as OS.
      change (offs_from 0 []) with [0%N].
      destruct (sp_step (mkSp [0%N] [0%N] 0 0 0 FOrdinary) c (lastb s)) eqn:Z; auto.
      exfalso. apply OS. { exists [], 0%N. simpl. split; auto. } lia.
Qed.
Lemma name_new_esc : forall s,
  (forall ls, esc_legal s ls -> name_new s = Ok (name_of ls)) /\ ((forall ls, ~ esc_legal s ls) -> name_new s = Err).
Proof.
  intros s. unfold name_new, esc_legal.
  destruct (list_eq_dec N.eq_dec s []) as [->|N0].
  { split; [intros ls [X _]; discriminate|reflexivity]. }
  destruct (list_eq_dec N.eq_dec s [46%N]) as [->|N1].
  { split.
    - intros ls ([= <-] & _). reflexivity.
    - intros H. exfalso. apply (H []). split; [reflexivity|]. split; [constructor|]. left. vm_compute. lia. }
  destruct (list_eq_dec N.eq_dec s [64%N]) as [->|N2].
  { split.
    - intros ls ([= <-] & _). reflexivity.
    - intros H. exfalso. apply (H []). split; [reflexivity|]. split; [constructor|]. left. vm_compute. lia. }
  rewrite parse_esc by (auto; split; auto). simpl orb.
  assert (T : text_reading s = pieces_reading (split_dots s)).
  { unfold text_reading. destruct s; [congruence|]. destruct (list_eq_dec _ _ _); [congruence|]. destruct (list_eq_dec _ _ _); [congruence|]. reflexivity. }
  rewrite T. unfold eout. destruct (pieces_reading (split_dots s)) as [L|].
  - rewrite app_nil_l. split.
    + intros ls ([= <-] & F & W). rewrite (proj2 (okl_spec _) F). 
      replace ((wire_len L <=? 255) || ((wire_len L =? 256) && ends_escaped (split_dots s))) with true; [reflexivity|].
      symmetry. destruct W as [W|[W ->]].
      * apply Nat.leb_le in W. rewrite W. reflexivity.
      * rewrite W. reflexivity.
    + intros H. destruct (_ && _) eqn:E; [|reflexivity]. exfalso. apply (H L). split; [reflexivity|].
      apply andb_true_iff in E. destruct E as [E1 E2]. split; [apply okl_spec; auto|].
      apply orb_true_iff in E2. destruct E2 as [E2|E2]; [left; apply Nat.leb_le; auto|right].
      apply andb_true_iff in E2. destruct E2 as [E2 E3]. apply Nat.eqb_eq in E2. auto.
  - split; [intros ls [X _]; discriminate|reflexivity].
Qed.

(** Only text that ends in backslash, dot has its last dot escaped. *)
Lemma open_ends : forall n p, length p <= n -> open_escape p = true -> exists q, p = q ++ [92%N].
Proof.
  induction n; intros p L H; [destruct p; [discriminate|simpl in L; lia]|].
  destruct p as [|c p]; [discriminate|]. simpl in L. cbn [open_escape] in H. destruct (c =? 92)%N eqn:E.
  - bl. subst. destruct p as [|x p]; [exists []; reflexivity|].
    destruct (dec_digit x).
    + destruct p as [|y [|z p]]; try discriminate. simpl in L. destruct (IHn p) as (q & ->); [lia|auto|]. exists (92%N :: x :: y :: z :: q). reflexivity.
    + destruct (IHn (x :: p)) as (q & ->); [lia|auto|]. exists (92%N :: q). reflexivity.
  - destruct (IHn p) as (q & ->); [lia|auto|]. exists (c :: q). reflexivity.
Qed.
Lemma split_one_end : forall s h, split_dots s = [h; []] -> s = h ++ [46%N].
Proof.
  induction s as [|c s IH]; intros h H; [discriminate|]. simpl in H. destruct (c =? 46)%N eqn:E.
  - bl. subst. injection H as <- H. destruct s as [|c s]; [reflexivity|]. exfalso. simpl in H.
    destruct (c =? 46)%N; destruct (split_dots_ne s) as (h & t & X); rewrite X in H; discriminate.
  - destruct (split_dots s) as [|h2 t] eqn:Q; [discriminate|]. injection H as <- ->. rewrite (IH h2 eq_refl). reflexivity.
Qed.
Lemma ends_escaped_text : forall s, ends_escaped (split_dots s) = true -> exists r, s = r ++ [92; 46]%N.
Proof.
  induction s as [|c s IH]; intros H; [discriminate|].
  assert (NX : forall p t, t <> [[]] -> ends_escaped (p :: t) = ends_escaped t).
  { intros p t N. destruct t as [|[|a b] [|d t]]; try reflexivity. congruence. }
  assert (REC : ends_escaped (split_dots s) = true -> exists r, c :: s = r ++ [92; 46]%N).
  { intros X. destruct (IH X) as (r & ->). exists (c :: r). reflexivity. }
  simpl in H. destruct (c =? 46)%N eqn:E.
  - destruct (list_eq_dec (list_eq_dec N.eq_dec) (split_dots s) [[]]) as [Q|Q]; [rewrite Q in H; discriminate|].
    rewrite NX in H by auto. auto.
  - destruct (split_dots s) as [|h t] eqn:Q; [discriminate|].
    destruct (list_eq_dec (list_eq_dec N.eq_dec) t [[]]) as [->|T].
    + cbn [ends_escaped] in H. destruct (open_ends _ (c :: h) (le_n _) H) as (q & EQ).
      rewrite (split_one_end s h Q). change (c :: h ++ [46%N]) with ((c :: h) ++ [46%N]). rewrite EQ. exists q. rewrite <- app_assoc. reflexivity.
    + rewrite NX in H by auto. apply REC. rewrite NX by auto. auto.
Qed.
(** Octets read are octets of the text, or a dot. *)
Lemma esc_bytes : forall b n t o, length t <= n -> bytes t -> esc_octets b t = Some o -> bytes o.
Proof.
  intros b. induction n; intros t o L B H.
  { destruct t; [|simpl in L; lia]. injection H as <-. constructor. }
  destruct t as [|c t]; [injection H as <-; constructor|]. simpl in L. inversion B; subst.
  cbn [esc_octets] in H. destruct (c =? 92)%N.
  - destruct t as [|x t].
    + destruct b; [|discriminate]. injection H as <-. constructor; [unfold byte; lia|constructor].
    + inversion H3; subst. destruct (dec_digit x).
      * destruct t as [|y [|z t]]; try discriminate. destruct (_ && _ && _); [|discriminate].
        destruct (esc_octets b t) as [o'|] eqn:E; [|discriminate]. injection H as <-. inversion H5; subst. inversion H6; subst. constructor; auto.
        simpl in L. apply (IHn t); auto; lia.
      * destruct (esc_octets b (x :: t)) as [o'|] eqn:E; [|discriminate]. injection H as <-. constructor; auto. apply (IHn (x :: t)); auto; lia.
  - destruct (esc_octets b t) as [o'|] eqn:E; [|discriminate]. injection H as <-. constructor; auto. apply (IHn t); auto; lia.
Qed.
Lemma label_reading_bytes : forall b t o, bytes t -> label_reading b t = Some o -> bytes o.
Proof.
  intros b t o B H. unfold label_reading in H. destruct (_ =? 92)%N.
  - destruct (esc_octets b t) as [o'|] eqn:E; [|discriminate]. injection H as <-. constructor; [unfold byte; lia|]. eapply esc_bytes; eauto.
  - eapply esc_bytes; eauto.
Qed.
Lemma pieces_bytes : forall ps L, Forall bytes ps -> pieces_reading ps = Some L -> Forall bytes L.
Proof.
  induction ps as [|p ps IH]; intros L F H; [injection H as <-; constructor|]. inversion F; subst.
  destruct ps as [|p2 ps].
  - destruct p; [injection H as <-; constructor|]. cbn [pieces_reading] in H. destruct (label_reading false _) eqn:E; [|discriminate].
    injection H as <-. constructor; [eapply label_reading_bytes; eauto|constructor].
  - change (pieces_reading (p :: p2 :: ps)) with (match label_reading true p, pieces_reading (p2 :: ps) with Some l, Some ls => Some (l :: ls) | _, _ => None end) in H.
    destruct (label_reading true p) eqn:E; [|discriminate]. destruct (pieces_reading (p2 :: ps)) eqn:Q; [|discriminate]. injection H as <-.
    constructor; auto. eapply label_reading_bytes; eauto.
Qed.

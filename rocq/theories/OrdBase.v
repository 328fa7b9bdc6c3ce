(** The comparison of labels as a pure function. *)
From Verif Require Import Base BaseLemmas NameModel RenderModel SpecName SpecOrd SpecScope
  NameWireProofs NameOpsProofs NameOpsProofs2 NameCmpProofs NameCmpProofs2.
Open Scope list_scope.
Open Scope nat_scope.

(** * The comparison loop on lists *)
Fixpoint pcmp (md : mode) (ra rb : list label) (n : nat) (ldiff : Z) : res cmp_result :=
  match ra, rb with
  | x :: ra', y :: rb' =>
      let? r := cmp_bytes md x y in
      match r with
      | Some d => Ok (mkCmp d (as_u8 (N.of_nat n)) (rel_of n))
      | None =>
          if negb (Z.of_N (blen x) - Z.of_N (blen y) =? 0)%Z then Ok (mkCmp (wrap_i8 (Z.of_N (blen x) - Z.of_N (blen y))) (as_u8 (N.of_nat n)) (rel_of n))
          else pcmp md ra' rb' (n + 1) ldiff
      end
  | _, _ => Ok (mkCmp (wrap_i8 ldiff) (as_u8 (N.of_nat n)) (if (ldiff <? 0)%Z then SuperDomain else if (0 <? ldiff)%Z then SubDomain else Equal))
  end.
Lemma blen_nrml : forall cs x, blen (nrml cs x) = blen x.
Proof. intros. unfold blen, nrml. rewrite map_length. reflexivity. Qed.
Lemma cmp_loop_pcmp : forall md cs a b fa fb, slice_rep a fa -> slice_rep b fb -> forall l pa pb sa sb n ldiff,
  fa = pa ++ sa -> fb = pb ++ sb -> l = Nat.min (length pa) (length pb) ->
  cmp_loop md cs a b l (length pa) (length pb) n ldiff = pcmp md (rev (nrmls cs pa)) (rev (nrmls cs pb)) n ldiff.
Proof.
  intros md cs a b fa fb Ra Rb. induction l as [|l IH]; intros pa pb sa sb n ldiff Ea Eb El.
  - cbn [cmp_loop]. destruct pa as [|x pa]; [reflexivity|]. destruct pb as [|y pb]; [|cbn in El; lia]. cbn [nrmls map rev]. destruct (rev _ ++ _); reflexivity.
  - assert (NEa : pa <> []) by (destruct pa; simpl in El; try discriminate).
    assert (NEb : pb <> []) by (destruct pb; simpl in El; try discriminate; rewrite Nat.min_0_r in El; discriminate).
    destruct (@exists_last _ pa NEa) as (pa' & x & ->). destruct (@exists_last _ pb NEb) as (pb' & y & ->).
    rewrite !app_length in *. simpl length in *.
    assert (El' : l = Nat.min (length pa') (length pb')) by lia.
    cbn [cmp_loop]. rewrite !csub_ok by lia. cbn [rbind].
    replace (length pa' + 1 - 1) with (length pa') by lia. replace (length pb' + 1 - 1) with (length pb') by lia.
    rewrite <- app_assoc in Ea, Eb. simpl app in Ea, Eb.
    destruct (rep_label a fa pa' x sa Ra Ea) as (d1 & d2 & Da & Ia).
    destruct (rep_label b fb pb' y sb Rb Eb) as (e1 & e2 & Db & Ib).
    rewrite Ia, Ib. cbn [rbind]. rewrite !Nat2N.id. rewrite Da, Db.
    unfold enc_label. simpl app. rewrite !idx_app_mid by auto. cbn [rbind].
    replace (d1 ++ blen x :: x ++ d2) with ((d1 ++ [blen x]) ++ x ++ d2) by (rewrite <- app_assoc; reflexivity).
    replace (e1 ++ blen y :: y ++ e2) with ((e1 ++ [blen y]) ++ y ++ e2) by (rewrite <- app_assoc; reflexivity).
    replace (length d1 + 1) with (length (d1 ++ [blen x])) by (rewrite app_length; reflexivity).
    replace (length e1 + 1) with (length (e1 ++ [blen y])) by (rewrite app_length; reflexivity).
    replace (N.to_nat (blen x)) with (length x) by (unfold blen; lia).
    replace (N.to_nat (blen y)) with (length y) by (unfold blen; lia).
    rewrite cmp_label_bytes.
    unfold nrmls. rewrite !map_app, !rev_app_distr. cbn [map rev app pcmp]. rewrite !blen_nrml.
    destruct (cmp_bytes md (nrml cs x) (nrml cs y)) as [[d|]| | |]; cbn [rbind]; auto.
    destruct (negb _); auto. rewrite (IH pa' pb' (x :: sa) (y :: sb)) by auto. reflexivity.
Qed.
Lemma signed_as_i8 : forall c, byte c -> as_i8 c = signed c.
Proof.
  intros c B. unfold as_i8, signed. rewrite N.mod_small by exact B. destruct (N.ltb_spec c 128); destruct (Z.ltb_spec (Z.of_N c) 128); lia.
Qed.
Lemma signed_range : forall c, byte c -> (-128 <= signed c <= 127)%Z.
Proof. intros c B. unfold signed, byte in *. destruct (N.ltb_spec c 128); lia. Qed.
Lemma signed_inj : forall a b, byte a -> byte b -> signed a = signed b -> a = b.
Proof. intros a b A B. unfold signed, byte in *. destruct (N.ltb_spec a 128), (N.ltb_spec b 128); lia. Qed.
Lemma i8_signed : forall md a b, byte a -> byte b -> i8_diff md a b =
  if overflows (a, b) then match md with Debug => Panic | Release => Ok (wrap_i8 (signed a - signed b)) end else Ok (signed a - signed b)%Z.
Proof. intros md a b A B. unfold i8_diff, overflows. cbn [fst snd]. rewrite !signed_as_i8 by auto. destruct (_ && _); reflexivity. Qed.
Lemma wrap_opp : forall a b, byte a -> byte b -> overflows (a, b) = true -> (wrap_i8 (signed a - signed b) ?= 0)%Z = CompOpp (signed a ?= signed b)%Z.
Proof.
  intros a b A B O. unfold overflows in O. cbn [fst snd] in O. apply negb_true_iff in O. apply andb_false_iff in O. pose proof (signed_range a A). pose proof (signed_range b B).
  set (d := (signed a - signed b)%Z) in *. assert (D : (128 <= d <= 255 \/ -255 <= d <= -129)%Z) by (unfold d in *; destruct O as [O|O]; apply Z.leb_gt in O; lia).
  destruct D as [D|D].
  - assert (E : wrap_i8 d = (d - 256)%Z) by (unfold wrap_i8; rewrite Z.mod_small by lia; destruct (Z.ltb_spec d 128); lia). rewrite E.
    rewrite (proj2 (Z.compare_gt_iff (signed a) (signed b))) by (unfold d in *; lia). apply Z.compare_lt_iff. lia.
  - assert (M : (d mod 256 = d + 256)%Z) by (replace d with (d + 256 + (-1) * 256)%Z at 1 by lia; rewrite Z_mod_plus_full; apply Z.mod_small; lia).
    assert (E : wrap_i8 d = (d + 256)%Z) by (unfold wrap_i8; rewrite M; destruct (Z.ltb_spec (d + 256) 128); lia). rewrite E.
    rewrite (proj2 (Z.compare_lt_iff (signed a) (signed b))) by (unfold d in *; lia). apply Z.compare_gt_iff. lia.
Qed.
Lemma cmp_bytes_exact : forall md x y, bytes x -> bytes y ->
  cmp_bytes md x y = match clash_octets x y with
                     | None => Ok None
                     | Some (a, b) => let? d := i8_diff md a b in Ok (Some d)
                     end.
Proof.
  intros md. induction x as [|a x IH]; intros [|b y] Bx By; try reflexivity. inversion Bx as [|? ? Ba Bx']; subst. inversion By as [|? ? Bb By']; subst. cbn [cmp_bytes clash_octets].
  destruct (N.eqb_spec a b) as [->|Ne].
  - rewrite i8_signed by auto. unfold overflows. cbn [fst snd]. rewrite Z.sub_diag. cbn. apply IH; auto.
  - rewrite i8_signed by auto. assert (Nz : signed a <> signed b) by (intros H; apply Ne; apply signed_inj; auto).
    destruct (overflows (a, b)) eqn:O; cbn [rbind].
    + destruct md; cbn [rbind]; [reflexivity|]. pose proof (wrap_opp a b Ba Bb O) as W. destruct (Z.eqb_spec (wrap_i8 (signed a - signed b)) 0) as [E|E]; cbn [negb]; [|reflexivity].
      rewrite E in W. cbn in W. destruct (Z.compare_spec (signed a) (signed b)); cbn in W; try discriminate. congruence.
    + destruct (Z.eqb_spec (signed a - signed b) 0); [lia|]. reflexivity.
Qed.
Lemma clash_bytes : forall x y a b, bytes x -> bytes y -> clash_octets x y = Some (a, b) -> byte a /\ byte b /\ a <> b.
Proof.
  induction x as [|c x IH]; intros [|d y] a b Bx By H; try discriminate. inversion Bx; inversion By; subst. cbn in H. destruct (N.eqb_spec c d); [eapply IH; eauto|]. inversion H; subst. auto.
Qed.
Lemma clash_none : forall x y, clash_octets x y = None -> length x = length y -> x = y.
Proof. induction x as [|c x IH]; intros [|d y] H L; try discriminate; auto. cbn in H. destruct (N.eqb_spec c d); [|discriminate]. subst. f_equal. apply IH; auto. Qed.
Lemma clash_lex : forall x y, clash_octets x y = None -> lex_bytes x y = Nat.compare (length x) (length y).
Proof. induction x as [|c x IH]; intros [|d y] H; try reflexivity. cbn in *. destruct (N.eqb_spec c d); [|discriminate]. subst. rewrite N.compare_refl. apply IH; auto. Qed.
(** The pure comparison: [Panic] exactly at an overflowing clash, and its order. *)
Definition small (l : label) : Prop := length l <= 63 /\ bytes l.
Lemma pcmp_exact : forall md ra rb n ldiff, Forall small ra -> Forall small rb -> (ldiff = Z.of_nat (length ra) - Z.of_nat (length rb))%Z -> (-128 <= ldiff <= 127)%Z ->
  match clash_labels ra rb with
  | Some (x, y) => if overflows (x, y) && (match md with Debug => true | Release => false end) then pcmp md ra rb n ldiff = Panic
                   else exists r, pcmp md ra rb n ldiff = Ok r /\ cr_order r <> 0%Z /\ (cr_order r ?= 0)%Z = (if overflows (x, y) then CompOpp (signed x ?= signed y)%Z else (signed x ?= signed y)%Z)
  | None => exists r, pcmp md ra rb n ldiff = Ok r /\ (cr_order r ?= 0)%Z = lex_labels ra rb
  end.
Proof.
  intros md. induction ra as [|x ra IH]; intros [|y rb] n ldiff Fa Fb E R; cbn [clash_labels pcmp lex_labels].
  1-3: eexists; (split; [reflexivity|]); cbn [cr_order]; rewrite wrap_i8_small by exact R; subst ldiff; cbn [length];
    first [apply Z.compare_eq_iff; lia|apply Z.compare_lt_iff; lia|apply Z.compare_gt_iff; lia].
  inversion Fa as [|? ? [Lx Bx] Fa']; subst. inversion Fb as [|? ? [Ly By] Fb']; subst. rewrite cmp_bytes_exact by auto.
  destruct (clash_octets x y) as [[a b]|] eqn:C.
  - destruct (clash_bytes _ _ _ _ Bx By C) as (Ba & Bb & Ne). rewrite i8_signed by auto. assert (Nz : signed a <> signed b) by (intros H; apply Ne; apply signed_inj; auto).
    destruct (overflows (a, b)) eqn:O; cbn [andb].
    + destruct md; cbn [rbind]; [reflexivity|]. eexists. split; [reflexivity|]. cbn [cr_order]. pose proof (wrap_opp a b Ba Bb O) as W. split; [|exact W].
      intros Z0. rewrite Z0 in W. cbn in W. destruct (Z.compare_spec (signed a) (signed b)); cbn in W; try discriminate. congruence.
    + cbn [rbind]. eexists. split; [reflexivity|]. cbn [cr_order]. split; [lia|]. destruct (Z.compare_spec (signed a) (signed b)); [lia|apply Z.compare_lt_iff; lia|apply Z.compare_gt_iff; lia].
  - cbn [rbind]. rewrite (clash_lex _ _ C). destruct (Nat.eqb_spec (length x) (length y)) as [El|El].
    + rewrite El, Nat.compare_refl. replace (Z.of_N (blen x) - Z.of_N (blen y) =? 0)%Z with true by (symmetry; apply Z.eqb_eq; unfold blen; lia). cbn [negb].
      cbn [length] in R. specialize (IH rb (n + 1) (Z.of_nat (length (x :: ra)) - Z.of_nat (length (y :: rb)))%Z Fa' Fb' ltac:(cbn [length]; lia) ltac:(cbn [length]; lia)). exact IH.
    + replace (Z.of_N (blen x) - Z.of_N (blen y) =? 0)%Z with false by (symmetry; apply Z.eqb_neq; unfold blen; lia). cbn [negb]. eexists. split; [reflexivity|]. cbn [cr_order].
      rewrite wrap_i8_small by (unfold blen; lia). destruct (Nat.compare_spec (length x) (length y)); [lia|apply Z.compare_lt_iff; unfold blen; lia|apply Z.compare_gt_iff; unfold blen; lia].
Qed.
Lemma pcmp_debug : forall ra rb n ldiff, Forall small ra -> Forall small rb ->
  pcmp Debug ra rb n ldiff = match clash_labels ra rb with Some p => if overflows p then Panic else pcmp Release ra rb n ldiff | None => pcmp Release ra rb n ldiff end.
Proof.
  induction ra as [|x ra IH]; intros [|y rb] n ldiff Fa Fb; cbn [clash_labels pcmp]; try reflexivity.
  inversion Fa as [|? ? [Lx Bx] Fa']; subst. inversion Fb as [|? ? [Ly By] Fb']; subst. rewrite !cmp_bytes_exact by auto.
  destruct (clash_octets x y) as [[a b]|] eqn:C.
  - destruct (clash_bytes _ _ _ _ Bx By C) as (Ba & Bb & Ne). rewrite !i8_signed by auto. destruct (overflows (a, b)) eqn:O; reflexivity.
  - cbn [rbind]. destruct (Nat.eqb_spec (length x) (length y)) as [El|El].
    + replace (Z.of_N (blen x) - Z.of_N (blen y) =? 0)%Z with true by (symmetry; apply Z.eqb_eq; unfold blen; lia). cbn [negb]. apply IH; auto.
    + replace (Z.of_N (blen x) - Z.of_N (blen y) =? 0)%Z with false by (symmetry; apply Z.eqb_neq; unfold blen; lia). reflexivity.
Qed.
Lemma sl_compare_pcmp : forall md a b fa fb, slice_rep a fa -> slice_rep b fb ->
  sl_compare md false a b = pcmp md (rev (lc_labels fa)) (rev (lc_labels fb)) 0 (Z.of_nat (length fa) - Z.of_nat (length fb))%Z.
Proof.
  intros md a b fa fb Ra Rb. unfold sl_compare. rewrite (rep_label_count _ _ Ra), (rep_label_count _ _ Rb).
  rewrite (cmp_loop_pcmp md false a b fa fb Ra Rb (Nat.min (length fa) (length fb)) fa fb [] []); auto; rewrite app_nil_r; auto.
Qed.
Lemma small_lc : forall fls, Forall small fls -> Forall small (rev (lc_labels fls)).
Proof.
  intros fls H. apply Forall_rev. unfold lc_labels. apply Forall_map. eapply Forall_impl; [|exact H]. intros l [L B]. unfold lc_label. split; [rewrite map_length; exact L|].
  unfold bytes. apply Forall_map. eapply Forall_impl; [|exact B]. apply lc_byte.
Qed.

(** * The signed order of labels *)
Lemma okey_inj : forall a b, okey a = okey b -> a = b.
Proof. intros a b. unfold okey. destruct (N.ltb_spec a 128), (N.ltb_spec b 128), (N.ltb_spec a 256), (N.ltb_spec b 256); lia. Qed.
Lemma okey_signed : forall a b, byte a -> byte b -> (okey a ?= okey b)%N = (signed a ?= signed b)%Z.
Proof.
  assert (K : forall c, byte c -> Z.of_N (okey c) = (signed c + 128)%Z).
  { intros c B. unfold okey, signed, byte in *. destruct (N.ltb_spec c 128), (N.ltb_spec c 256); lia. }
  intros a b A B. rewrite <- N2Z.inj_compare, !K by auto. destruct (Z.compare_spec (signed a) (signed b)); [apply Z.compare_eq_iff|apply Z.compare_lt_iff|apply Z.compare_gt_iff]; lia.
Qed.
Lemma slex_refl : forall a, slex a a = Eq.
Proof. intros a. apply lex_bytes_refl. Qed.
Lemma slex_eq : forall a b, slex a b = Eq -> a = b.
Proof.
  intros a b H. apply lex_bytes_eq in H. revert b H. induction a as [|x a IH]; intros [|y b] H; try discriminate; auto. cbn [map] in H. inversion H as [[H1 H2]]. apply okey_inj in H1. subst. f_equal. auto.
Qed.
Lemma slex_opp : forall a b, slex b a = CompOpp (slex a b).
Proof. intros. apply lex_bytes_opp. Qed.
Lemma slex_trans : forall a b c, slex a b = Lt -> slex b c = Lt -> slex a c = Lt.
Proof. intros a b c. apply lex_bytes_trans. Qed.
Lemma slex_clash : forall x y a b, bytes x -> bytes y -> clash_octets x y = Some (a, b) -> slex x y = (signed a ?= signed b)%Z.
Proof.
  induction x as [|c x IH]; intros [|d y] a b Bx By H; try discriminate. inversion Bx; inversion By; subst. cbn in H. unfold slex. cbn [map lex_bytes]. destruct (N.eqb_spec c d).
  - subst. rewrite N.compare_refl. apply IH; auto.
  - inversion H; subst. rewrite okey_signed by auto. destruct (Z.compare_spec (signed a) (signed b)) as [E| |]; auto. apply signed_inj in E; auto. congruence.
Qed.
Lemma slex_none : forall x y, clash_octets x y = None -> slex x y = Nat.compare (length x) (length y).
Proof. induction x as [|c x IH]; intros [|d y] H; try reflexivity. cbn in H. destruct (N.eqb_spec c d); [|discriminate]. subst. unfold slex. cbn [map lex_bytes]. rewrite N.compare_refl. apply IH; auto. Qed.
(** The order that the comparison reports for lists that differ in their first label. *)
Lemma pcmp_hd : forall md x y ra rb n ldiff, small x -> small y -> x <> y -> pcmp md (x :: ra) (y :: rb) n ldiff = Panic \/
  match clash_octets x y with Some p => overflows p = true | None => False end \/ exists r, pcmp md (x :: ra) (y :: rb) n ldiff = Ok r /\ (cr_order r ?= 0)%Z = slex x y.
Proof.
  intros md x y ra rb n ldiff [Lx Bx] [Ly By] Ne. cbn [pcmp]. rewrite cmp_bytes_exact by auto. destruct (clash_octets x y) as [[a b]|] eqn:C.
  - destruct (overflows (a, b)) eqn:O; [auto|]. right. right. destruct (clash_bytes _ _ _ _ Bx By C) as (Ba & Bb & Nab). rewrite i8_signed, O by auto. cbn [rbind]. eexists. split; [reflexivity|]. cbn [cr_order].
    rewrite (slex_clash _ _ _ _ Bx By C). destruct (Z.compare_spec (signed a) (signed b)); [apply Z.compare_eq_iff; lia|apply Z.compare_lt_iff; lia|apply Z.compare_gt_iff; lia].
  - right. right. cbn [rbind]. rewrite (slex_none _ _ C). destruct (Nat.eqb_spec (length x) (length y)) as [E|E]; [exfalso; apply Ne; apply clash_none; auto|].
    replace (Z.of_N (blen x) - Z.of_N (blen y) =? 0)%Z with false by (symmetry; apply Z.eqb_neq; unfold blen; lia). cbn [negb]. eexists. split; [reflexivity|]. cbn [cr_order].
    rewrite wrap_i8_small by (unfold blen; lia). destruct (Nat.compare_spec (length x) (length y)); [lia|apply Z.compare_lt_iff; unfold blen; lia|apply Z.compare_gt_iff; unfold blen; lia].
Qed.
Lemma clash_labels_hd : forall x y ra rb p, clash_octets x y = Some p -> clash_labels (x :: ra) (y :: rb) = Some p.
Proof. intros x y ra rb p H. cbn [clash_labels]. rewrite H. reflexivity. Qed.
Lemma clash_labels_in : forall ra rb p, clash_labels ra rb = Some p -> exists x y, In x ra /\ In y rb /\ clash_octets x y = Some p.
Proof.
  induction ra as [|x ra IH]; intros [|y rb] p H; try discriminate. cbn [clash_labels] in H. destruct (clash_octets x y) as [q|] eqn:C.
  - inversion H; subst. exists x, y. cbn. auto.
  - destruct (length x =? length y); [|discriminate]. destruct (IH _ _ H) as (u & v & A & B & D). exists u, v. cbn. auto.
Qed.

(** labels compared octet by octet as signed numbers *)
Lemma slabels : forall a b, Forall small a -> Forall small b -> lex_labels (map (map okey) a) (map (map okey) b) =
  match clash_labels a b with Some (x, y) => (signed x ?= signed y)%Z | None => lex_labels a b end.
Proof.
  induction a as [|x a IH]; intros [|y b] Fa Fb; try reflexivity. inversion Fa as [|? ? [Lx Bx] Fa']; subst. inversion Fb as [|? ? [Ly By] Fb']; subst. cbn [map lex_labels clash_labels].
  change (lex_bytes (map okey x) (map okey y)) with (slex x y). destruct (clash_octets x y) as [[u v]|] eqn:C.
  - rewrite (slex_clash _ _ _ _ Bx By C). destruct (clash_bytes _ _ _ _ Bx By C) as (Bu & Bv & Ne). destruct (Z.compare_spec (signed u) (signed v)) as [E| |]; auto. apply signed_inj in E; auto. congruence.
  - rewrite (slex_none _ _ C), (clash_lex _ _ C). destruct (Nat.eqb_spec (length x) (length y)) as [E|E].
    + rewrite E, Nat.compare_refl. apply IH; auto.
    + destruct (Nat.compare_spec (length x) (length y)); [contradiction|reflexivity|reflexivity].
Qed.
Lemma slice_of_seqf : forall fls, fls <> [] -> elen fls <= 255 -> exists cs, slice_of_seq (seqf fls) = Ok cs /\ slice_rep cs fls.
Proof.
  intros fls N L. unfold slice_of_seq, seqf. cbn [ls_offsets ls_data]. rewrite obody_len. assert (0 < length fls) by (destruct fls; [congruence|cbn; lia]).
  rewrite csub_ok by lia. cbn [rbind]. eexists. split; [reflexivity|]. split; auto. exists [], [], [], []. cbn [sl_data sl_offsets sl_first sl_last app length]. rewrite !app_nil_r. repeat split; auto; lia.
Qed.

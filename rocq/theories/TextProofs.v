(** Proofs about hex, numbers and the tokenizer. *)
From Verif Require Import Base BaseLemmas NameModel RenderModel CodesModel RDataModel MsgModel TextModel SpecName SpecBuf SpecCodes SpecMsg SpecText.
Open Scope list_scope.
Open Scope nat_scope.

Lemma within_iff : forall a b c, within a b c = true <-> (a <= c <= b)%N.
Proof. intros. unfold within. rewrite andb_true_iff, !N.leb_le. reflexivity. Qed.
Lemma within_no : forall a b c, within a b c = false <-> ~ (a <= c <= b)%N.
Proof. intros. rewrite <- within_iff. destruct (within a b c); intuition congruence. Qed.

(** * Hex *)
Lemma lor_nib : forall a d, (d < 16)%N -> N.lor (as_u8 (N.shiftl a 4)) d = ((a mod 16) * 16 + d)%N.
Proof.
  intros a d H. unfold as_u8. rewrite N.shiftl_mul_pow2. change (2 ^ 4)%N with 16%N.
  replace (a * 16 mod 256)%N with (N.shiftl (a mod 16) 4).
  - rewrite N.shiftl_mul_pow2. change (2^4)%N with 16%N.
    rewrite <- N.lxor_lor, <- N.add_nocarry_lxor; auto.
    + apply N.bits_inj. intro i. rewrite N.land_spec, N.bits_0.
      destruct (N.lt_ge_cases i 4) as [L|L].
      * change 16%N with (2^4)%N. rewrite N.mul_pow2_bits_low by exact L. reflexivity.
      * replace d with (d mod 2^4)%N by (apply N.mod_small; exact H). rewrite N.mod_pow2_bits_high by exact L. apply andb_false_r.
    + apply N.bits_inj. intro i. rewrite N.land_spec, N.bits_0.
      destruct (N.lt_ge_cases i 4) as [L|L].
      * change 16%N with (2^4)%N. rewrite N.mul_pow2_bits_low by exact L. reflexivity.
      * replace d with (d mod 2^4)%N by (apply N.mod_small; exact H). rewrite N.mod_pow2_bits_high by exact L. apply andb_false_r.
  - rewrite N.shiftl_mul_pow2. change (2^4)%N with 16%N. change 256%N with (16*16)%N.
    rewrite N.mul_mod_distr_r by discriminate. reflexivity.
Qed.
Lemma shr_nib : forall a, N.shiftr (as_u8 (N.shiftl a 4)) 4 = (a mod 16)%N.
Proof.
  intros. unfold as_u8. rewrite N.shiftl_mul_pow2, N.shiftr_div_pow2. change (2 ^ 4)%N with 16%N. change 256%N with (16*16)%N.
  rewrite N.mul_mod_distr_r by discriminate. apply N.div_mul. discriminate.
Qed.
(** One digit step in terms of the specification's classification. *)
Lemma hex_step : forall c s b m buf, m <= 1 ->
  from_hex_loop (c :: s) b m buf =
  match hex_value c with
  | Some v => match m with
              | 0 => from_hex_loop s b 1 ((buf mod 16) * 16 + v)%N
              | _ => from_hex_loop s (b ++ [(buf mod 16) * 16 + v]%N) 0 ((buf mod 16) * 16 + v)%N
              end
  | None => if hex_space c then from_hex_loop s b m (buf mod 16)%N else None
  end.
Proof.
  intros c s b m buf Hm. cbn [from_hex_loop]. unfold hex_value, hex_space.
  assert (D : forall v, (v < 16)%N ->
    (if m + 1 =? 2 then from_hex_loop s (b ++ [N.lor (as_u8 (N.shiftl buf 4)) v]) 0 (N.lor (as_u8 (N.shiftl buf 4)) v)
     else from_hex_loop s b (m + 1) (N.lor (as_u8 (N.shiftl buf 4)) v)) =
    match m with 0 => from_hex_loop s b 1 ((buf mod 16) * 16 + v)%N
              | _ => from_hex_loop s (b ++ [(buf mod 16) * 16 + v]%N) 0 ((buf mod 16) * 16 + v)%N end).
  { intros v Hv. rewrite lor_nib by exact Hv. destruct m as [|[|]]; [reflexivity|reflexivity|lia]. }
  destruct (within 65 70 c) eqn:E1; [|destruct (within 97 102 c) eqn:E2; [|destruct (within 48 57 c) eqn:E3]].
  - apply within_iff in E1. rewrite (proj2 (within_no 48 57 c)), (proj2 (within_no 97 102 c)) by lia.
    replace (c - 55)%N with (c - 65 + 10)%N by lia. apply D. lia.
  - apply within_iff in E2. rewrite (proj2 (within_no 48 57 c)) by lia.
    replace (c - 87)%N with (c - 97 + 10)%N by lia. apply D. lia.
  - apply within_iff in E3. apply D. lia.
  - rewrite shr_nib. destruct (c =? 32)%N, (c =? 9)%N, (c =? 10)%N, (c =? 13)%N; reflexivity.
Qed.
Lemma hex_value_lt : forall c v, hex_value c = Some v -> (v < 16)%N /\ hex_space c = false.
Proof.
  unfold hex_value, hex_space. intros c v. destruct (within 48 57 c) eqn:E; [|destruct (within 97 102 c) eqn:E2; [|destruct (within 65 70 c) eqn:E3; [|discriminate]]];
  intro H; apply Some_inj in H; subst v; rewrite within_iff in *; (split; [lia|]);
  rewrite !orb_false_iff, !N.eqb_neq; lia.
Qed.
(** The loop decodes: [pre] are pending high nibbles. *)
Lemma hex_loop_some : forall s b m buf d, m <= 1 ->
  from_hex_loop s b m buf = Some d <->
  exists e ds, d = b ++ e /\ map hex_value (hex_digits s) = map Some ds /\
    (match m with 0 => [] | _ => [buf mod 16]%N end) ++ ds = flat_map nibbles e /\ bytes e.
Proof.
  induction s as [|c s IH]; intros b m buf d Hm.
  - destruct m as [|[|]]; [| |lia]; cbn [from_hex_loop hex_digits filter map app].
    + split.
      * intro H. apply Some_inj in H. subst. exists [], []. rewrite app_nil_r. repeat split; constructor.
      * intros (e & ds & -> & H & H2 & _). symmetry in H. apply map_eq_nil in H. subst. cbn [app] in H2.
        destruct e; [rewrite app_nil_r; reflexivity|discriminate].
    + split; [discriminate|]. intros (e & ds & -> & H & H2 & _). symmetry in H. apply map_eq_nil in H. subst. destruct e; discriminate.
  - rewrite hex_step by exact Hm. unfold hex_digits. cbn [filter].
    destruct (hex_value c) as [v|] eqn:E.
    + destruct (hex_value_lt _ _ E) as [L Sp]. rewrite Sp. cbn [negb map]. fold (hex_digits s).
      destruct m as [|[|]]; [| |lia].
      * rewrite IH by lia. replace (((buf mod 16) * 16 + v) mod 16)%N with v.
        2:{ rewrite N.add_comm, N.mod_add by discriminate. symmetry. apply N.mod_small. exact L. }
        split.
        -- intros (e & ds & -> & H & H2 & H3). exists e, (v :: ds). cbn [map app] in *. rewrite E, H. auto.
        -- intros (e & ds & -> & H & H2 & H3). destruct ds as [|v' ds]; [discriminate|]. cbn [map] in H.
           rewrite E in H. injection H as -> H. exists e, ds. cbn [app] in *. auto.
      * rewrite IH by lia. set (h := (buf mod 16)%N). assert (Hh : (h < 16)%N) by (apply N.mod_lt; discriminate).
        assert (NB : nibbles (h * 16 + v) = [h; v]).
        { unfold nibbles. rewrite N.div_add_l, (N.div_small v), N.add_0_r by (exact L || discriminate).
          rewrite N.add_comm, N.mod_add, N.mod_small by (exact L || discriminate). reflexivity. }
        split.
        -- intros (e & ds & -> & H & H2 & H3). exists ((h * 16 + v)%N :: e), (v :: ds). rewrite <- app_assoc. cbn [map app flat_map] in *. rewrite E, H, NB, H2.
           repeat split; auto. constructor; auto. unfold byte. lia.
        -- intros (e & ds & -> & H & H2 & H3). destruct ds as [|v' ds]; [discriminate|]. cbn [map] in H. rewrite E in H. injection H as -> H.
           destruct e as [|x e]; [discriminate|]. change (flat_map nibbles (x :: e)) with ((x / 16)%N :: (x mod 16)%N :: flat_map nibbles e) in H2. cbn [app] in H2. injection H2 as A B C.
           inversion H3 as [|? ? Bx Be]; subst v' ds. exists e, (flat_map nibbles e). rewrite <- app_assoc. cbn [app].
           replace (h * 16 + x mod 16)%N with x. 2:{ rewrite A, N.mul_comm. apply N.div_mod. discriminate. }
           auto.
    + destruct (hex_space c) eqn:Sp; cbn [negb]; fold (hex_digits s).
      * rewrite IH by exact Hm. rewrite N.mod_mod by discriminate. reflexivity.
      * split; [discriminate|]. intros (e & ds & _ & H & _). cbn [map] in H. rewrite E in H. destruct ds; discriminate.
Qed.
Lemma from_hex_iff : forall s d, from_hex s = Some d <-> map hex_value (hex_digits s) = map Some (flat_map nibbles d) /\ bytes d.
Proof.
  intros. unfold from_hex. rewrite hex_loop_some by lia. split.
  - intros (e & ds & -> & H & H2 & H3). cbn [app] in *. subst. auto.
  - intros (H & H3). exists d, (flat_map nibbles d). auto.
Qed.
Lemma nibbles_of : forall ds, Forall (fun v => v < 16)%N ds -> Nat.even (length ds) = true -> exists d, ds = flat_map nibbles d /\ bytes d.
Proof.
  intros ds. remember (length ds) as n. revert ds Heqn. induction n as [n IH] using lt_wf_ind. intros ds Hn F Ev.
  destruct ds as [|a [|b ds]].
  - exists []. split; constructor.
  - subst. discriminate.
  - inversion F as [|? ? Fa F']. inversion F' as [|? ? Fb F'']. subst. cbn [length Nat.even] in Ev.
    destruct (IH (length ds) ltac:(cbn [length]; lia) ds eq_refl F'' Ev) as (d & -> & B).
    exists ((a * 16 + b)%N :: d). cbn [flat_map]. unfold nibbles at 2.
    rewrite N.div_add_l, (N.div_small b), N.add_0_r by (assumption || discriminate).
    rewrite N.add_comm, N.mod_add, N.mod_small by (assumption || discriminate).
    split; [reflexivity|]. constructor; auto. unfold byte. lia.
Qed.
Lemma from_hex_none : forall s, from_hex s = None <->
  (exists c, In c s /\ hex_space c = false /\ hex_value c = None) \/ Nat.odd (length (hex_digits s)) = true.
Proof.
  intro s. split.
  - intro H. destruct (existsb (fun c => negb (hex_space c) && match hex_value c with None => true | _ => false end) s) eqn:E.
    + left. apply existsb_exists in E. destruct E as (c & I & E). apply andb_true_iff in E. destruct E as [E1 E2].
      exists c. split; auto. split; [destruct (hex_space c); [discriminate|reflexivity]|destruct (hex_value c); [discriminate|reflexivity]].
    + right. destruct (Nat.odd (length (hex_digits s))) eqn:O; auto. exfalso.
      assert (X : exists ds, map hex_value (hex_digits s) = map Some ds /\ Forall (fun v => v < 16)%N ds).
      { clear H O. unfold hex_digits. induction s as [|c s IH]; [exists []; split; constructor|]. cbn [existsb] in E.
        apply orb_false_iff in E. destruct E as [E1 E2]. destruct (IH E2) as (ds & D & F). cbn [filter].
        destruct (hex_space c) eqn:Sp; cbn [negb] in *; [eauto|]. destruct (hex_value c) eqn:V; [|discriminate].
        exists (n :: ds). cbn [map]. rewrite V, D. split; auto. constructor; auto. eapply hex_value_lt; eauto. }
      destruct X as (ds & D & F). destruct (nibbles_of ds F) as (d & -> & B).
      { apply (f_equal (@length _)) in D. rewrite !map_length in D. rewrite <- D. rewrite <- Nat.negb_odd, O. reflexivity. }
      assert (Y : from_hex s = Some d) by (apply from_hex_iff; auto). congruence.
  - intro H. destruct (from_hex s) as [d|] eqn:E; auto. exfalso. apply from_hex_iff in E. destruct E as [E B].
    destruct H as [(c & I & Sp & V)|O].
    + assert (J : In (hex_value c) (map hex_value (hex_digits s))) by (apply in_map, filter_In; rewrite Sp; auto).
      rewrite E, V in J. apply in_map_iff in J. destruct J as (? & ? & ?). discriminate.
    + apply (f_equal (@length _)) in E. rewrite !map_length in E. rewrite E in O.
      assert (X : forall l, length (flat_map nibbles l) = 2 * length l).
      { induction l; cbn [flat_map length]; [reflexivity|]. rewrite app_length, IHl. cbn [nibbles length]. lia. }
      rewrite X in O. rewrite Nat.odd_mul in O. discriminate.
Qed.
Definition hex_digit_of (v : N) : N := nth (N.to_nat v) CHARS 0%N.
Lemma chars_idx : forall v, (v < 16)%N -> idx CHARS (N.to_nat v) = Ok (hex_digit_of v) /\ hex_value (hex_digit_of v) = Some v /\ hex_space (hex_digit_of v) = false /\ (33 <= hex_digit_of v <= 126)%N.
Proof.
  intros v H. assert (J : forall n, n < 16 -> idx CHARS n = Ok (hex_digit_of (N.of_nat n)) /\ hex_value (hex_digit_of (N.of_nat n)) = Some (N.of_nat n) /\ hex_space (hex_digit_of (N.of_nat n)) = false /\ (33 <= hex_digit_of (N.of_nat n) <= 126)%N).
  { intros n L. do 16 (destruct n as [|n]; [vm_compute; repeat split; congruence|]). lia. }
  specialize (J (N.to_nat v)). rewrite N2Nat.id in J. apply J. lia.
Qed.
Definition hex_text (d : list N) : list N := flat_map (fun b => [hex_digit_of (b / 16); hex_digit_of (b mod 16)]%N) d.
Lemma to_hex_text : forall d, bytes d -> to_hex d = Ok (hex_text d).
Proof.
  intros d H. unfold to_hex. assert (G : forall acc, rfold (fun v byte => let? a := idx CHARS (N.to_nat (N.shiftr byte 4)) in
                       let? c := idx CHARS (N.to_nat (N.land byte 15)) in Ok (v ++ [a; c])) d acc = Ok (acc ++ hex_text d)).
  { induction H as [|b d B D IH]; intro acc; cbn [rfold hex_text flat_map]; [rewrite app_nil_r; reflexivity|].
    unfold byte in B.
    rewrite N.shiftr_div_pow2. change (2^4)%N with 16%N. change 15%N with (N.ones 4). rewrite N.land_ones. change (2^4)%N with 16%N.
    destruct (chars_idx (b / 16)) as (-> & _). { apply N.div_lt_upper_bound; [discriminate|exact B]. }
    cbn [rbind]. destruct (chars_idx (b mod 16)) as (-> & _). { apply N.mod_lt. discriminate. }
    cbn [rbind]. rewrite IH. rewrite <- app_assoc. reflexivity. }
  rewrite G. reflexivity.
Qed.
Lemma nib_lt : forall b, (b < 256)%N -> (b / 16 < 16 /\ b mod 16 < 16)%N.
Proof. intros. split; [apply N.div_lt_upper_bound; [discriminate|assumption]|apply N.mod_lt; discriminate]. Qed.
Lemma hex_text_ascii : forall d, bytes d -> Forall (fun c => 33 <= c <= 126)%N (hex_text d).
Proof.
  intros d H. induction H as [|b d B D IH]; cbn [hex_text flat_map app]; constructor; destruct (nib_lt b B).
  - eapply chars_idx; assumption.
  - constructor; auto. eapply chars_idx; assumption.
Qed.
Lemma from_hex_text : forall d, bytes d -> from_hex (hex_text d) = Some d.
Proof.
  intros d H. apply from_hex_iff. split; auto. induction H as [|b d B D IH]; [reflexivity|].
  destruct (nib_lt b B) as [L1 L2]. destruct (chars_idx _ L1) as (_ & V1 & S1 & _). destruct (chars_idx _ L2) as (_ & V2 & S2 & _).
  cbn [hex_text flat_map app hex_digits filter]. rewrite S1, S2. cbn [negb map].
  fold (hex_text d) (hex_digits (hex_text d)). rewrite V1, V2, IH. cbn [nibbles app map]. reflexivity.
Qed.
Lemma to_from_hex : forall d, bytes d -> exists t, to_hex d = Ok t /\ Forall (fun c => 33 <= c <= 126)%N t /\ from_hex t = Some d.
Proof. intros d H. exists (hex_text d). split; [apply to_hex_text|split; [apply hex_text_ascii|apply from_hex_text]]; auto. Qed.

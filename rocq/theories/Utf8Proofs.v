(** [valid_utf8] is UTF-8. *)
From Verif Require Import Base TextModel SpecUtf8.
Open Scope list_scope.
Open Scope N_scope.

Lemma split2 : forall c, exists q r, c = 64 * q + r /\ r < 64 /\ c / 64 = q /\ c mod 64 = r.
Proof. intros c. exists (c / 64), (c mod 64). pose proof (N.div_mod c 64). pose proof (N.mod_lt c 64). repeat split; try reflexivity; [apply H|apply H0]; discriminate. Qed.
Lemma div64 : forall a b, b < 64 -> (64 * a + b) / 64 = a. Proof. intros. symmetry. apply (N.div_unique _ 64 a b); auto. Qed.
Lemma mod64 : forall a b, b < 64 -> (64 * a + b) mod 64 = b. Proof. intros. symmetry. apply (N.mod_unique _ 64 a b); auto. Qed.
Lemma d4096 : forall c, c / 4096 = c / 64 / 64. Proof. intros. rewrite N.div_div by discriminate. reflexivity. Qed.
Lemma d262144 : forall c, c / 262144 = c / 64 / 64 / 64. Proof. intros. rewrite !N.div_div by discriminate. reflexivity. Qed.
Lemma within_iff : forall a b c, within a b c = true <-> a <= c <= b.
Proof. intros. unfold within. rewrite andb_true_iff, !N.leb_le. reflexivity. Qed.

Lemma u1 : forall a, a < 128 -> utf8 a = [a].
Proof. intros a H. unfold utf8. rewrite (proj2 (N.ltb_lt _ _) H). reflexivity. Qed.
Lemma u2 : forall x y, 2 <= x < 32 -> y < 64 -> utf8 (64 * x + y) = [192 + x; 128 + y].
Proof.
  intros x y H1 H2. unfold utf8. rewrite (proj2 (N.ltb_ge _ _)) by lia. rewrite (proj2 (N.ltb_lt _ _)) by lia. rewrite div64, mod64 by assumption. reflexivity.
Qed.
Lemma u3 : forall x y z, x < 16 -> y < 64 -> z < 64 -> 2048 <= 64 * (64 * x + y) + z -> utf8 (64 * (64 * x + y) + z) = [224 + x; 128 + y; 128 + z].
Proof.
  intros x y z H1 H2 H3 H4. unfold utf8. rewrite (proj2 (N.ltb_ge _ _)) by lia. rewrite (proj2 (N.ltb_ge _ _)) by lia. rewrite (proj2 (N.ltb_lt _ _)) by lia.
  rewrite d4096, !div64, !mod64 by assumption. reflexivity.
Qed.
Lemma u4 : forall w x y z, x < 64 -> y < 64 -> z < 64 -> 65536 <= 64 * (64 * (64 * w + x) + y) + z ->
  utf8 (64 * (64 * (64 * w + x) + y) + z) = [240 + w; 128 + x; 128 + y; 128 + z].
Proof.
  intros w x y z H1 H2 H3 H4. unfold utf8. rewrite (proj2 (N.ltb_ge _ _)) by lia. rewrite (proj2 (N.ltb_ge _ _)) by lia. rewrite (proj2 (N.ltb_ge _ _)) by lia.
  rewrite d262144, d4096, !div64, !mod64 by assumption. reflexivity.
Qed.
(** sizes: every scalar value is of one of the four forms *)
Lemma forms : forall c, scalar c -> c < 128 \/ (exists x y, c = 64 * x + y /\ 2 <= x < 32 /\ y < 64) \/
  (exists x y z, c = 64 * (64 * x + y) + z /\ x < 16 /\ y < 64 /\ z < 64 /\ 2048 <= c) \/
  (exists w x y z, c = 64 * (64 * (64 * w + x) + y) + z /\ x < 64 /\ y < 64 /\ z < 64 /\ 65536 <= c).
Proof.
  intros c S. destruct (split2 c) as (q & z & E1 & Z & _). destruct (split2 q) as (q2 & y & E2 & Y & _). destruct (split2 q2) as (w & x & E3 & X & _).
  destruct (N.lt_ge_cases c 128) as [C|C]; [auto|right]. destruct (N.lt_ge_cases c 2048) as [C2|C2]; [left; exists q, z; lia|right].
  destruct (N.lt_ge_cases c 65536) as [C3|C3]; [left; exists q2, y, z; subst; repeat split; auto; lia|right]. exists w, x, y, z. subst. repeat split; auto.
Qed.
Ltac wb := repeat match goal with
  | |- context [within ?a ?b ?c] => first [rewrite (proj2 (within_iff a b c)) by lia | let H := fresh in assert (H : within a b c = false) by (apply not_true_is_false; rewrite within_iff; lia); rewrite H; clear H]
  | |- context [(?a <? ?b)] => first [rewrite (proj2 (N.ltb_lt a b)) by lia | rewrite (proj2 (N.ltb_ge a b)) by lia]
  | |- context [(?a =? ?b)] => first [rewrite (proj2 (N.eqb_eq a b)) by lia | rewrite (proj2 (N.eqb_neq a b)) by lia]
  end; cbn [andb orb].
Lemma v_app : forall c l, scalar c -> valid_utf8 (utf8 c ++ l) = valid_utf8 l.
Proof.
  intros c l S. destruct (forms c S) as [C|[(x & y & -> & A & B)|[(x & y & z & E & A & B & C & D)|(w & x & y & z & E & A & B & C & D)]]].
  - rewrite u1 by assumption. cbn [app valid_utf8]. wb. reflexivity.
  - rewrite u2 by assumption. cbn [app valid_utf8]. unfold cont. wb. reflexivity.
  - rewrite E, u3 by lia. unfold scalar in S. cbn [app valid_utf8]. unfold cont. wb.
    destruct (N.eq_dec x 0) as [->|X0]; [wb; reflexivity|]. destruct (N.eq_dec x 13) as [->|X1]; [wb; reflexivity|].
    destruct (N.lt_ge_cases x 13); wb; reflexivity.
  - rewrite E, u4 by lia. unfold scalar in S. cbn [app valid_utf8]. unfold cont. wb.
    destruct (N.eq_dec w 0) as [->|X0]; [wb; reflexivity|]. destruct (N.eq_dec w 4) as [->|X1]; [wb; reflexivity|]. wb. reflexivity.
Qed.
Lemma valid_encoded : forall cs, Forall scalar cs -> valid_utf8 (flat_map utf8 cs) = true.
Proof. induction cs as [|c cs IH]; intros F; [reflexivity|]. inversion F; subst. cbn [flat_map]. rewrite v_app by assumption. auto. Qed.

Lemma valid_decodes : forall n l, (length l <= n)%nat -> valid_utf8 l = true -> exists cs, Forall scalar cs /\ l = flat_map utf8 cs.
Proof.
  induction n as [|n IH]; intros l L V.
  - destruct l; [exists []; auto|cbn in L; lia].
  - assert (ST : forall c m, scalar c -> l = utf8 c ++ m -> (length m <= n)%nat -> valid_utf8 m = true -> exists cs, Forall scalar cs /\ l = flat_map utf8 cs).
    { intros c m S -> LM VM. destruct (IH m LM VM) as (cs & F & ->). exists (c :: cs). split; [constructor; assumption|reflexivity]. }
    destruct l as [|a r]; [exists []; auto|]. cbn [valid_utf8] in V. destruct (a <? 128) eqn:A.
    + apply N.ltb_lt in A. apply (ST a r); [left; lia|rewrite u1 by lia; reflexivity|cbn in L; lia|exact V].
    + apply N.ltb_ge in A. destruct r as [|b r1]; [discriminate|]. cbn [length] in L. unfold cont in V. destruct (within 194 223 a) eqn:A2.
      * apply within_iff in A2. apply andb_prop in V. destruct V as [B V]. apply within_iff in B.
        apply (ST (64 * (a - 192) + (b - 128)) r1); [left; lia|rewrite u2 by lia; cbn [app]; f_equal; [lia|f_equal; lia]|lia|exact V].
      * destruct r1 as [|c r2]; [discriminate|]. cbn [length] in L.
        assert (T3 : forall lo hi, within lo hi b = true -> within 128 191 c = true -> valid_utf8 r2 = true -> 224 <= a < 240 -> 128 <= lo -> hi <= 191 ->
                  (a = 224 -> 160 <= lo) -> (a = 237 -> hi <= 159) -> exists cs, Forall scalar cs /\ a :: b :: c :: r2 = flat_map utf8 cs).
        { intros lo hi B C V2 RA LO HI X0 X1. apply within_iff in B. apply within_iff in C.
          assert (SC : scalar (64 * (64 * (a - 224) + (b - 128)) + (c - 128))).
          { unfold scalar. destruct (N.lt_ge_cases a 237) as [Y|Y]; [left; lia|]. destruct (N.eq_dec a 237) as [Y2|Y2]; [left; specialize (X1 Y2); lia|right; lia]. }
          assert (LW : 2048 <= 64 * (64 * (a - 224) + (b - 128)) + (c - 128)) by (destruct (N.eq_dec a 224) as [Y|Y]; [specialize (X0 Y); lia|lia]).
          apply (ST _ r2 SC); [|lia|exact V2]. rewrite u3; try lia. cbn [app]. f_equal; [lia|]. f_equal; [lia|]. f_equal. lia. }
        destruct (a =? 224) eqn:A3.
        { apply N.eqb_eq in A3. apply andb_prop in V. destruct V as [V V2]. apply andb_prop in V. destruct V as [B C]. apply (T3 160 191); auto; lia. }
        destruct (within 225 236 a || within 238 239 a)%bool eqn:A4.
        { apply orb_prop in A4. apply andb_prop in V. destruct V as [V V2]. apply andb_prop in V. destruct V as [B C]. apply N.eqb_neq in A3. rewrite !within_iff in A4. apply (T3 128 191); auto; lia. }
        destruct (a =? 237) eqn:A5.
        { apply N.eqb_eq in A5. apply andb_prop in V. destruct V as [V V2]. apply andb_prop in V. destruct V as [B C]. apply (T3 128 159); auto; lia. }
        destruct r2 as [|d r3]; [discriminate|]. cbn [length] in L.
        assert (T4 : forall lo hi, within lo hi b = true -> within 128 191 c = true -> within 128 191 d = true -> valid_utf8 r3 = true -> 240 <= a <= 244 -> 128 <= lo -> hi <= 191 ->
                  (a = 240 -> 144 <= lo) -> (a = 244 -> hi <= 143) -> exists cs, Forall scalar cs /\ a :: b :: c :: d :: r3 = flat_map utf8 cs).
        { intros lo hi B C D V2 RA LO HI X0 X1. apply within_iff in B. apply within_iff in C. apply within_iff in D.
          assert (LW : 65536 <= 64 * (64 * (64 * (a - 240) + (b - 128)) + (c - 128)) + (d - 128)) by (destruct (N.eq_dec a 240) as [Y|Y]; [specialize (X0 Y); lia|lia]).
          assert (SC : scalar (64 * (64 * (64 * (a - 240) + (b - 128)) + (c - 128)) + (d - 128))).
          { unfold scalar. right. split; [lia|]. destruct (N.eq_dec a 244) as [Y|Y]; [specialize (X1 Y); lia|lia]. }
          apply (ST _ r3 SC); [|lia|exact V2]. rewrite u4; try lia. cbn [app]. f_equal; [lia|]. f_equal; [lia|]. f_equal; [lia|]. f_equal. lia. }
        destruct (a =? 240) eqn:A6.
        { apply N.eqb_eq in A6. apply andb_prop in V. destruct V as [V V2]. apply andb_prop in V. destruct V as [V D]. apply andb_prop in V. destruct V as [B C]. apply (T4 144 191); auto; lia. }
        destruct (within 241 243 a) eqn:A7.
        { apply within_iff in A7. apply andb_prop in V. destruct V as [V V2]. apply andb_prop in V. destruct V as [V D]. apply andb_prop in V. destruct V as [B C]. apply (T4 128 191); auto; lia. }
        destruct (a =? 244) eqn:A8; [|discriminate].
        { apply N.eqb_eq in A8. apply andb_prop in V. destruct V as [V V2]. apply andb_prop in V. destruct V as [V D]. apply andb_prop in V. destruct V as [B C]. apply (T4 128 143); auto; lia. }
Qed.
Theorem utf8_spec : forall s, valid_utf8 s = true <-> exists cs, Forall scalar cs /\ s = flat_map utf8 cs.
Proof. intros s. split; [apply (valid_decodes (length s)); apply le_n|]. intros (cs & F & ->). apply valid_encoded. exact F. Qed.

(** Proofs about codes, flags and the header. *)
From Coq Require Import String Ascii.
From Verif Require Import Base NameModel RenderModel CodesModel SpecName SpecBuf SpecCodes BaseLemmas BitLemmas NameWireProofs
  NameOpsProofs RenderProofs RenderProofs2 BufProofs.
Open Scope list_scope.
Open Scope nat_scope.

(** Check a decidable property of all numbers below a bound by computation. *)
Fixpoint all_below (k : nat) (i : N) (P : N -> bool) : bool :=
  match k with O => true | S k' => P i && all_below k' (i + 1) P end.
Lemma all_below_ok : forall k i P, all_below k i P = true -> forall n, (i <= n < i + N.of_nat k)%N -> P n = true.
Proof.
  induction k; intros i P H n Hn; [lia|]. cbn [all_below] in H. apply andb_true_iff in H. destruct H as [H1 H2].
  destruct (N.eq_dec n i); [subst; auto|]. eapply IHk; eauto. lia.
Qed.
Definition all_lt (b : N) (P : N -> bool) : bool := all_below (N.to_nat b) 0 P.
Lemma all_lt_ok : forall b P, all_lt b P = true -> forall n, (n < b)%N -> P n = true.
Proof. intros b P H n Hn. eapply all_below_ok; [exact H|]. rewrite N2Nat.id. split; [apply N.le_0_l|rewrite N.add_0_l; exact Hn]. Qed.

(** * Codes *)
Lemma rrtype_num : forall v, rrtype_u16 (rrtype_new v) = v.
Proof.
  intros v. unfold rrtype_new. destruct v as [|v]; [reflexivity|].
  do 9 (try destruct v as [v|v|]); reflexivity.
Qed.
Lemma rrclass_num : forall v, rrclass_u16 (rrclass_new v) = v.
Proof.
  intros v. unfold rrclass_new. destruct v as [|v]; [reflexivity|].
  do 9 (try destruct v as [v|v|]); reflexivity.
Qed.
Lemma rrtype_back : forall t, (forall v, t <> TUnknown v) -> rrtype_new (rrtype_u16 t) = t.
Proof. intros t H. destruct t; try reflexivity. exfalso. eapply H; eauto. Qed.
Lemma rrclass_back : forall t, (forall v, t <> CUnknown v) -> rrclass_new (rrclass_u16 t) = t.
Proof. intros t H. destruct t; try reflexivity. exfalso. eapply H; eauto. Qed.
Lemma rrtype_unknown : forall v, (forall s, ~ In (s, v) iana_types) -> rrtype_new v = TUnknown v.
Proof.
  intros v H. unfold rrtype_new. destruct v as [|v]; [reflexivity|].
  do 9 (try destruct v as [v|v|]); try reflexivity;
  exfalso; eapply H; unfold iana_types; repeat (first [left; reflexivity|right]).
Qed.
Lemma rrclass_unknown : forall v, (forall s, ~ In (s, v) iana_classes) -> rrclass_new v = CUnknown v.
Proof.
  intros v H. unfold rrclass_new. destruct v as [|v]; [reflexivity|].
  do 9 (try destruct v as [v|v|]); try reflexivity;
  exfalso; eapply H; unfold iana_classes; repeat (first [left; reflexivity|right]).
Qed.
Lemma opcode_back : forall o, opcode_new (opcode_u8 o) = o. Proof. destruct o; reflexivity. Qed.
Lemma rcode_back : forall o, rcode_new (rcode_u8 o) = o. Proof. destruct o; reflexivity. Qed.

(** * Text *)
Lemma upper_lc : forall a b, lc (N_of_ascii a) = lc (N_of_ascii b) -> upper_ascii a = upper_ascii b.
Proof.
  intros a b.
  assert (G : forall a, upper_ascii a = ascii_of_N (let n := lc (N_of_ascii a) in if ((97 <=? n) && (n <=? 122))%N then n - 32 else n)%N).
  { clear. intros [b0 b1 b2 b3 b4 b5 b6 b7].
    destruct b0, b1, b2, b3, b4, b5, b6, b7; reflexivity. }
  intros H. rewrite (G a), (G b). rewrite H. reflexivity.
Qed.
Lemma lc_high : forall x y, lc x = lc y -> (128 <= x)%N -> x = y.
Proof. intros x y H L. unfold lc in H. destruct ((65 <=? x) && (x <=? 90))%N eqn:A; destruct ((65 <=? y) && (y <=? 90))%N eqn:B; rewrite ?andb_true_iff, ?andb_false_iff, ?N.leb_le, ?N.leb_gt in *; lia. Qed.
Lemma lc_eqb : forall x y k, lc x = lc y -> (128 <= k)%N -> (x =? k)%N = (y =? k)%N.
Proof.
  intros x y k H L. destruct (N.eqb_spec x k) as [->|A]; destruct (N.eqb_spec y k) as [->|B]; auto.
  - exfalso. apply B. symmetry. apply lc_high; auto.
  - exfalso. apply A. symmetry. apply lc_high; auto.
Qed.
Lemma upper2_lc : forall a b a' b', lc (N_of_ascii a) = lc (N_of_ascii a') -> lc (N_of_ascii b) = lc (N_of_ascii b') -> upper2 a b = upper2 a' b'.
Proof.
  intros a b a' b' H1 H2. unfold upper2.
  rewrite (lc_eqb _ _ 195 H1), (lc_eqb _ _ 196 H1), (lc_eqb _ _ 197 H1), (lc_eqb _ _ 159 H2), (lc_eqb _ _ 177 H2), (lc_eqb _ _ 191 H2) by lia. reflexivity.
Qed.
Lemma upper3_high : forall a b c, (N_of_ascii c < 128)%N -> upper3 a b c = None.
Proof.
  intros a b c H. unfold upper3. destruct ((N_of_ascii a =? 239)%N && (N_of_ascii b =? 172)%N); auto. destruct (N_of_ascii c) as [|q]; auto.
  do 8 (try destruct q as [q|q|]); auto; exfalso; lia.
Qed.
Lemma upper3_lc : forall a b c a' b' c', lc (N_of_ascii a) = lc (N_of_ascii a') -> lc (N_of_ascii b) = lc (N_of_ascii b') -> lc (N_of_ascii c) = lc (N_of_ascii c') -> upper3 a b c = upper3 a' b' c'.
Proof.
  intros a b c a' b' c' H1 H2 H3. destruct (N.lt_ge_cases (N_of_ascii c) 128) as [L|L].
  - rewrite upper3_high by auto. destruct (N.lt_ge_cases (N_of_ascii c') 128) as [L'|L']; [rewrite upper3_high; auto|]. symmetry in H3. apply lc_high in H3; auto. lia.
  - apply lc_high in H3; auto. unfold upper3. rewrite (lc_eqb _ _ 239 H1), (lc_eqb _ _ 172 H2), H3 by lia. reflexivity.
Qed.
Lemma to_uppercase_step : forall a s1, to_uppercase (String a s1) =
  match s1 with
  | EmptyString => String (upper_ascii a) EmptyString
  | String b s2 =>
      match upper2 a b with
      | Some u => append u (to_uppercase s2)
      | None =>
          match s2 with
          | EmptyString => String (upper_ascii a) (to_uppercase s1)
          | String c s3 => match upper3 a b c with Some u => append u (to_uppercase s3) | None => String (upper_ascii a) (to_uppercase s1) end
          end
      end
  end.
Proof. intros a [|b s2]; reflexivity. Qed.
Lemma same_text_cons : forall x a y b, same_text (String x a) (String y b) -> lc (N_of_ascii x) = lc (N_of_ascii y) /\ same_text a b.
Proof. intros x a y b H. unfold same_text, of_string in *. cbn in H. injection H as H1 H2. auto. Qed.
Lemma same_text_upper : forall a b, same_text a b -> to_uppercase a = to_uppercase b.
Proof.
  intros a. remember (String.length a) as n eqn:En. assert (Ln : String.length a <= n) by lia. clear En. revert a Ln.
  induction n as [|n IH]; intros a Ln b H; [destruct a; [|cbn in Ln; lia]; destruct b; [auto|discriminate]|].
  destruct a as [|x a]; destruct b as [|y b]; try discriminate; auto. cbn in Ln. pose proof (same_text_cons _ _ _ _ H) as [H1 H2].
  pose proof (IH a ltac:(lia) b H2) as Hs. rewrite !to_uppercase_step. destruct a as [|x2 a]; destruct b as [|y2 b]; try discriminate; [f_equal; apply upper_lc; auto|].
  pose proof (same_text_cons _ _ _ _ H2) as [H3 H4]. cbn in Ln. rewrite (upper2_lc _ _ _ _ H1 H3). destruct (upper2 y y2); [f_equal; apply IH; auto; lia|].
  destruct a as [|x3 a]; destruct b as [|y3 b]; try discriminate; [f_equal; auto; apply upper_lc; auto|].
  pose proof (same_text_cons _ _ _ _ H4) as [H5 H6]. cbn in Ln. rewrite (upper3_lc _ _ _ _ _ _ H1 H3 H5). destruct (upper3 y y2 y3); [f_equal; apply IH; auto; lia|].
  f_equal; [apply upper_lc; auto|exact Hs].
Qed.
Lemma same_text_refl : forall a, same_text a a. Proof. reflexivity. Qed.
Lemma match_str_same : forall A (t : list (string * A)) a b, same_text a b -> match_str t a = match_str t b.
Proof. intros. unfold match_str. rewrite (same_text_upper a b); auto. Qed.

Lemma find_some_text : forall A (t : list (string * A)) s v, match_str t s = Ok v -> exists n, In (n, v) t /\ n = to_uppercase s.
Proof.
  unfold match_str. intros A t s v H. destruct (find _ t) as [[n x]|] eqn:E; inversion H; subst.
  apply find_some in E. destruct E as [E1 E2]. exists n. cbn [fst snd] in *. split; auto. apply String.eqb_eq. auto.
Qed.

(** * Flags *)
Lemma flag_mask_bit : forall f, flag_mask f = (2 ^ flag_bit f)%N. Proof. destruct f; reflexivity. Qed.
Lemma flag_bit_inj : forall f g, flag_bit f = flag_bit g -> f = g. Proof. destruct f, g; intros; try reflexivity; discriminate. Qed.
Lemma hf_is_set_bit : forall w f, hf_is_set w f = N.testbit w (flag_bit f).
Proof.
  intros. unfold hf_is_set. rewrite flag_mask_bit.
  destruct (N.testbit w (flag_bit f)) eqn:E.
  - apply negb_true_iff. apply N.eqb_neq. intros Z.
    assert (N.testbit (N.land w (2 ^ flag_bit f)) (flag_bit f) = true) by (rewrite N.land_spec, E, N.pow2_bits_true; auto).
    rewrite Z, N.bits_0 in H. discriminate.
  - apply negb_false_iff. apply N.eqb_eq. apply N.bits_inj. intro i. rewrite N.land_spec, N.bits_0.
    destruct (N.eq_dec i (flag_bit f)); [subst; rewrite E; auto|]. rewrite N.pow2_bits_false by auto. apply andb_false_r.
Qed.
Lemma hf_set_bit : forall w f i, N.testbit (hf_set w f) i = N.testbit w i || (i =? flag_bit f)%N.
Proof.
  intros. unfold hf_set. rewrite flag_mask_bit, N.lor_spec, N.pow2_bits_eqb. rewrite N.eqb_sym. auto.
Qed.
Lemma hf_clear_bit : forall w f i, (w < 65536)%N -> N.testbit (hf_clear w f) i = N.testbit w i && negb (i =? flag_bit f)%N.
Proof.
  intros w f i H. unfold hf_clear. rewrite flag_mask_bit, N.land_spec, N.lxor_spec, N.pow2_bits_eqb.
  change 65535%N with (N.ones 16). destruct (N.lt_ge_cases i 16).
  - rewrite N.ones_spec_low by auto. rewrite xorb_true_l, N.eqb_sym. auto.
  - rewrite (testbit_small w 16 i) by auto. auto.
Qed.
Lemma hf_set_bound : forall w f, (w < 65536)%N -> (hf_set w f < 65536)%N.
Proof.
  intros w f H. unfold hf_set.
  assert (hf_set w f = hf_set w f mod 2 ^ 16)%N.
  { apply N.bits_inj. intro i. destruct (N.lt_ge_cases i 16).
    - rewrite N.mod_pow2_bits_low; auto.
    - rewrite N.mod_pow2_bits_high by auto. rewrite hf_set_bit. rewrite (testbit_small w 16) by auto.
      destruct f; cbn [flag_bit orb]; apply N.eqb_neq; lia. }
  unfold hf_set in H0. rewrite H0. apply N.mod_lt. discriminate.
Qed.
Lemma hf_clear_bound : forall w f, (w < 65536)%N -> (hf_clear w f < 65536)%N.
Proof.
  intros w f H.
  assert (hf_clear w f = hf_clear w f mod 2 ^ 16)%N.
  { apply N.bits_inj. intro i. destruct (N.lt_ge_cases i 16).
    - rewrite N.mod_pow2_bits_low; auto.
    - rewrite N.mod_pow2_bits_high by auto. rewrite hf_clear_bit by auto. rewrite (testbit_small w 16) by auto. auto. }
  rewrite H0. apply N.mod_lt. discriminate.
Qed.

(** * Header *)
Lemma mask_bits : forall i, N.testbit HEADERFLAG_MASK i = existsb (fun f => i =? flag_bit f)%N all_flags.
Proof.
  intros i. destruct (N.lt_ge_cases i 16).
  - assert (G : forallb (fun n => Bool.eqb (N.testbit HEADERFLAG_MASK (N.of_nat n)) (existsb (fun f => N.of_nat n =? flag_bit f)%N all_flags)) (seq 0 16) = true) by reflexivity.
    rewrite forallb_forall in G. specialize (G (N.to_nat i)). rewrite N2Nat.id in G. apply eqb_prop. apply G. apply in_seq. lia.
  - rewrite (testbit_small HEADERFLAG_MASK 16 i) by (auto; reflexivity).
    symmetry. apply not_true_iff_false. intro E. apply existsb_exists in E. destruct E as (f & _ & E). apply N.eqb_eq in E.
    destruct f; cbn in E; lia.
Qed.
Lemma flag_masked : forall w, (forall i, N.testbit w i = true -> exists f, i = flag_bit f) -> N.land w HEADERFLAG_MASK = w.
Proof.
  intros w H. apply N.bits_inj. intro i. rewrite N.land_spec, mask_bits. destruct (N.testbit w i) eqn:E; auto.
  destruct (H i E) as [f ->]. cbn [andb]. apply existsb_exists. exists f. split; [destruct f; cbn; auto 10|apply N.eqb_refl].
Qed.
Lemma masked_bound : forall w, N.land w HEADERFLAG_MASK = w -> (w < 65536)%N.
Proof.
  intros w H. rewrite <- H. assert (N.land w HEADERFLAG_MASK = N.land w HEADERFLAG_MASK mod 2 ^ 16)%N.
  { apply N.bits_inj. intro i. destruct (N.lt_ge_cases i 16); [rewrite N.mod_pow2_bits_low; auto|].
    rewrite N.mod_pow2_bits_high by auto. rewrite N.land_spec. rewrite (testbit_small HEADERFLAG_MASK 16 i) by (auto; reflexivity).
    apply andb_false_r. }
  rewrite H0. apply N.mod_lt. discriminate.
Qed.
Definition all_opcodes := [OQuery; OIQuery; OStatus; ONotify; OUpdate; OReserved].
Definition all_rcodes := [RNoError; RFormErr; RServFail; RNXDomain; RNotImp; RRefused; RYXDomain; RYXRRset; RNXRRset; RNotAuth; RNotZone; RReserved].
Definition word_of (o : opcode) (c : rcode) (f : N) : N := header_flag (mkHeader 0 f o c 0 0 0 0).
Definition word_check (f : N) : bool :=
  if (N.land f HEADERFLAG_MASK =? f)%N then
    (forallb (fun o => forallb (fun c =>
       let w := word_of o c f in
       (w <? 65536)%N && (N.land w HEADERFLAG_MASK =? f)%N &&
       (as_u8 (N.shiftr (N.land w OPCODE_MASK) OPCODE_SHIFT) =? opcode_u8 o)%N &&
       (as_u8 (N.land w RCODE_MASK) =? rcode_u8 c)%N &&
       (opcode_field w =? opcode_u8 o)%N && (rcode_field w =? rcode_u8 c)%N) all_rcodes) all_opcodes)
  else true.
Lemma word_checked : all_lt 65536 word_check = true. Proof. vm_compute. reflexivity. Qed.
Lemma word_ok : forall o c f, N.land f HEADERFLAG_MASK = f ->
  let w := word_of o c f in
  (w < 65536)%N /\ N.land w HEADERFLAG_MASK = f /\
  as_u8 (N.shiftr (N.land w OPCODE_MASK) OPCODE_SHIFT) = opcode_u8 o /\ as_u8 (N.land w RCODE_MASK) = rcode_u8 c /\
  opcode_field w = opcode_u8 o /\ rcode_field w = rcode_u8 c.
Proof.
  intros o c f H w. pose proof (all_lt_ok _ _ word_checked f (masked_bound f H)) as G. unfold word_check in G.
  rewrite (proj2 (N.eqb_eq _ _) H) in G. rewrite forallb_forall in G.
  specialize (G o). assert (In o all_opcodes) by (destruct o; cbn; auto 10). apply G in H0. rewrite forallb_forall in H0.
  specialize (H0 c). assert (In c all_rcodes) by (destruct c; cbn; auto 20). apply H0 in H1. cbv zeta in H1. subst w. bl.
  repeat split; auto; try (apply N.eqb_eq; auto; fail).
Qed.

(** * Statements used by PropCodes.v *)
Lemma rrtype_of_code : forall t, (forall v, t = TUnknown v -> forall s, ~ In (s, v) iana_types) -> rrtype_new (rrtype_u16 t) = t.
Proof.
  intros t H. destruct t; try reflexivity. cbn [rrtype_u16]. apply rrtype_unknown. apply H. reflexivity.
Qed.
Lemma rrclass_of_code : forall t, (forall v, t = CUnknown v -> forall s, ~ In (s, v) iana_classes) -> rrclass_new (rrclass_u16 t) = t.
Proof.
  intros t H. destruct t; try reflexivity. cbn [rrclass_u16]. apply rrclass_unknown. apply H. reflexivity.
Qed.
Ltac in_table H := cbn [In] in H; repeat (destruct H as [H|H]; [injection H as <- <-|]); try contradiction.
Lemma rrtype_iana : forall s v, In (s, v) iana_types -> rrtype_from_str s = Ok (rrtype_new v) /\ forall x, rrtype_new v <> TUnknown x.
Proof. intros s v H. unfold iana_types in H. in_table H; (split; [reflexivity|discriminate]). Qed.
Lemma rrclass_iana : forall s v, In (s, v) iana_classes -> rrclass_from_str s = Ok (rrclass_new v) /\ rrclass_str (rrclass_new v) = s.
Proof. intros s v H. unfold iana_classes in H. in_table H; split; reflexivity. Qed.
Lemma opcode_iana : (forall o, opcode_new (opcode_u8 o) = o) /\
  forall s v, In (s, v) iana_opcodes -> opcode_u8 (opcode_new v) = v /\ opcode_str (opcode_new v) = s.
Proof. split; [exact opcode_back|]. intros s v H. unfold iana_opcodes in H. in_table H; split; reflexivity. Qed.
Lemma rcode_iana : (forall o, rcode_new (rcode_u8 o) = o) /\
  forall s v, In (s, v) iana_rcodes -> rcode_u8 (rcode_new v) = v /\ rcode_str (rcode_new v) = s.
Proof. split; [exact rcode_back|]. intros s v H. unfold iana_rcodes in H. in_table H; split; reflexivity. Qed.
Lemma rrtype_text : forall t s, (forall v, t <> TUnknown v) -> t <> TCERT -> same_text s (rrtype_str t) -> rrtype_from_str s = Ok t.
Proof.
  intros t s U C H. unfold rrtype_from_str. rewrite (match_str_same _ _ _ _ H).
  destruct t; try reflexivity; [congruence|exfalso; eapply U; eauto].
Qed.
Lemma rrclass_text : forall t s, (forall v, t <> CUnknown v) -> same_text s (rrclass_str t) -> rrclass_from_str s = Ok t.
Proof.
  intros t s U H. unfold rrclass_from_str. rewrite (match_str_same _ _ _ _ H).
  destruct t; try reflexivity. exfalso; eapply U; eauto.
Qed.
Lemma rcode_text : forall t s, same_text s (rcode_str t) -> rcode_from_str s = Ok t.
Proof. intros t s H. unfold rcode_from_str. rewrite (match_str_same _ _ _ _ H). destruct t; reflexivity. Qed.
Lemma lc_upper : forall a, lc (N_of_ascii (upper_ascii a)) = lc (N_of_ascii a).
Proof. intros [b0 b1 b2 b3 b4 b5 b6 b7]. destruct b0, b1, b2, b3, b4, b5, b6, b7; reflexivity. Qed.
(** ** What is accepted *)
Definition up_char (c : ascii) : bool := let n := N_of_ascii c in (n <? 97)%N.
(** upper case ASCII without the pairs that a ligature or a sharp s stands for *)
Fixpoint plain_up (m : string) : bool :=
  match m with
  | EmptyString => true
  | String a m1 => up_char a && match m1 with
      | String b _ => negb (existsb (fun p => (N_of_ascii a =? fst p)%N && (N_of_ascii b =? snd p)%N) [(83, 83); (70, 70); (70, 73); (70, 76); (83, 84)]%N)
      | EmptyString => true end && plain_up m1
  end.
Lemma upper2_out : forall a b u, upper2 a b = Some u -> N_of_ascii a = 195%N /\ N_of_ascii b = 159%N /\ u = "SS"%string \/
  N_of_ascii a = 196%N /\ N_of_ascii b = 177%N /\ u = "I"%string \/ N_of_ascii a = 197%N /\ N_of_ascii b = 191%N /\ u = "S"%string.
Proof.
  intros a b u H. unfold upper2 in H. destruct ((N_of_ascii a =? 195)%N && (N_of_ascii b =? 159)%N) eqn:A; [|destruct ((N_of_ascii a =? 196)%N && (N_of_ascii b =? 177)%N) eqn:B; [|destruct ((N_of_ascii a =? 197)%N && (N_of_ascii b =? 191)%N) eqn:C; [|discriminate]]];
    injection H as <-; rewrite ?andb_true_iff, ?N.eqb_eq in *; intuition.
Qed.
Lemma upper3_out : forall a b c u, upper3 a b c = Some u -> exists v, In u (map (fun p => append p v) ["FF"; "FI"; "FL"; "ST"]%string).
Proof.
  intros a b c u H. unfold upper3 in H. destruct (_ && _); [|discriminate].
  assert (D : In u ["FF"; "FI"; "FL"; "FFI"; "FFL"; "ST"]%string).
  { destruct (N_of_ascii c) as [|q]; [discriminate|]. do 8 (try destruct q as [q|q|]); try discriminate; injection H as <-; cbn [In]; auto 10. }
  cbn [In] in D. repeat (destruct D as [<-|D]; [first [exists ""%string; cbn; auto; fail|exists "I"%string; cbn; auto; fail|exists "L"%string; cbn; auto]|]). contradiction.
Qed.
Lemma app_str_assoc : forall a b c : string, append (append a b) c = append a (append b c).
Proof. induction a as [|x a IH]; intros; cbn; [auto|]. rewrite IH. auto. Qed.
Lemma of_string_cons : forall a s, of_string (String a s) = N_of_ascii a :: of_string s.
Proof. reflexivity. Qed.
Lemma plain_up_tl : forall a m, plain_up (String a m) = true -> plain_up m = true.
Proof. intros a m H. cbn [plain_up] in H. apply andb_true_iff in H. apply H. Qed.
Lemma upper_spells : forall s, plain_up (to_uppercase s) = true -> spells (of_string s) (of_string (to_uppercase s)).
Proof.
  intros s. remember (String.length s) as n eqn:En. assert (Ln : String.length s <= n) by lia. clear En. revert s Ln.
  induction n as [|n IH]; intros s Ln H; [destruct s; [constructor|cbn in Ln; lia]|]. destruct s as [|a s1]; [constructor|]. cbn in Ln.
  assert (Step : to_uppercase (String a s1) = String (upper_ascii a) (to_uppercase s1) -> spells (of_string (String a s1)) (of_string (to_uppercase (String a s1)))).
  { intros E. rewrite E in *. rewrite !of_string_cons. constructor; [symmetry; apply lc_upper|]. apply IH; [lia|]. eapply plain_up_tl; exact H. }
  pose proof (to_uppercase_step a s1) as E. destruct s1 as [|b s2]; [apply Step; exact E|]. cbn in Ln. destruct (upper2 a b) as [u|] eqn:U2.
  - rewrite E in *. apply upper2_out in U2. destruct U2 as [(A & B & ->)|[(A & B & ->)|(A & B & ->)]].
    + exfalso. cbn in H. discriminate.
    + change (append "I" (to_uppercase s2)) with (String "I"%char (to_uppercase s2)) in *. rewrite !of_string_cons, A, B. apply spl_dotless_i. apply IH; [lia|]. eapply plain_up_tl; exact H.
    + change (append "S" (to_uppercase s2)) with (String "S"%char (to_uppercase s2)) in *. rewrite !of_string_cons, A, B. apply spl_long_s. apply IH; [lia|]. eapply plain_up_tl; exact H.
  - destruct s2 as [|c s3]; [apply Step; exact E|]. destruct (upper3 a b c) as [u|] eqn:U3; [|apply Step; exact E].
    exfalso. rewrite E in H. apply upper3_out in U3. destruct U3 as (v & D). cbn [map In] in D. clear - H D.
    repeat (destruct D as [<-|D]; [rewrite app_str_assoc in H; cbn in H; discriminate|]). contradiction.
Qed.
Lemma lc_up : forall a d, up_char d = true -> lc (N_of_ascii a) = lc (N_of_ascii d) -> upper_ascii a = d.
Proof.
  intros a d U H. rewrite (upper_lc _ _ H). unfold up_char in U. unfold upper_ascii. apply N.ltb_lt in U.
  replace (97 <=? N_of_ascii d)%N with false by (symmetry; apply N.leb_gt; auto). reflexivity.
Qed.
Lemma low_no_upper : forall a s1, (N_of_ascii a < 128)%N -> to_uppercase (String a s1) = String (upper_ascii a) (to_uppercase s1).
Proof.
  intros a s1 L. rewrite to_uppercase_step. destruct s1 as [|b s2]; auto. destruct (upper2 a b) as [u|] eqn:U2; [apply upper2_out in U2; lia|].
  destruct s2 as [|c s3]; auto. unfold upper3. replace (N_of_ascii a =? 239)%N with false by (symmetry; apply N.eqb_neq; lia). reflexivity.
Qed.
Lemma spells_upper : forall s m, spells (of_string s) (of_string m) -> plain_up m = true -> to_uppercase s = m.
Proof.
  intros s m H. remember (of_string s) as x eqn:Ex. remember (of_string m) as y eqn:Ey. revert s m Ex Ey.
  induction H as [|c d x y E _ IH|x y _ IH|x y _ IH]; intros s m Ex Ey P.
  - destruct s; [|discriminate]. destruct m; [auto|discriminate].
  - destruct s as [|a s]; [discriminate|]. destruct m as [|b m]; [discriminate|]. rewrite of_string_cons in *. injection Ex as -> ->. injection Ey as -> ->.
    assert (U : up_char b = true) by (cbn [plain_up] in P; apply andb_true_iff in P; destruct P as [P _]; apply andb_true_iff in P; apply P).
    pose proof (lc_up _ _ U E) as Ea. rewrite low_no_upper.
    + rewrite Ea. f_equal. apply IH; auto. eapply plain_up_tl; exact P.
    + destruct (N.lt_ge_cases (N_of_ascii a) 128) as [L|L]; auto. apply lc_high in E; auto. unfold up_char in U. apply N.ltb_lt in U. lia.
  - destruct s as [|a [|b s]]; try discriminate. destruct m as [|d m]; [discriminate|]. rewrite !of_string_cons in *. injection Ex as A B ->. injection Ey as D ->.
    rewrite to_uppercase_step. unfold upper2. rewrite <- A, <- B. cbn [N.eqb Pos.eqb andb]. rewrite (IH s m eq_refl eq_refl (plain_up_tl _ _ P)).
    assert (d = "S"%char) by (rewrite <- (ascii_N_embedding d), <- D; reflexivity). subst d. reflexivity.
  - destruct s as [|a [|b s]]; try discriminate. destruct m as [|d m]; [discriminate|]. rewrite !of_string_cons in *. injection Ex as A B ->. injection Ey as D ->.
    rewrite to_uppercase_step. unfold upper2. rewrite <- A, <- B. cbn [N.eqb Pos.eqb andb]. rewrite (IH s m eq_refl eq_refl (plain_up_tl _ _ P)).
    assert (d = "I"%char) by (rewrite <- (ascii_N_embedding d), <- D; reflexivity). subst d. reflexivity.
Qed.
Lemma match_str_exact : forall A (t : list (string * A)) s v, NoDup (map fst t) -> forallb (fun p => plain_up (fst p)) t = true ->
  (match_str t s = Ok v <-> exists m, In (m, v) t /\ spells (of_string s) (of_string m)).
Proof.
  intros A t s v ND P. rewrite forallb_forall in P. split.
  - intros H. apply find_some_text in H. destruct H as (n & I & ->). exists (to_uppercase s). split; auto. apply upper_spells. exact (P _ I).
  - intros (m & I & Sp). pose proof (P _ I) as Pm. cbn [fst] in Pm. apply spells_upper in Sp; auto. unfold match_str. rewrite Sp.
    destruct (find (fun p => String.eqb (fst p) m) t) as [p|] eqn:F.
    + apply find_some in F. destruct F as [Ip Ep]. apply String.eqb_eq in Ep. destruct p as [m' v']. cbn [fst snd] in *. subst m'. f_equal.
      clear - ND I Ip. induction t as [|[k x] t IH]; [contradiction|]. cbn [map fst] in ND. inversion ND as [|? ? N1 N2]; subst.
      destruct I as [I|I]; destruct Ip as [J|J].
      * congruence.
      * injection I as -> ->. exfalso. apply N1. apply (in_map fst) in J. exact J.
      * injection J as -> ->. exfalso. apply N1. apply (in_map fst) in I. exact I.
      * auto.
    + exfalso. pose proof (find_none _ _ F _ I) as C. cbn [fst] in C. rewrite String.eqb_refl in C. discriminate.
Qed.
Lemma spells_ascii : forall s m, spells s m -> Forall (fun c => (c < 128)%N) s -> map lc s = map lc m.
Proof.
  induction 1 as [|c d s m E _ IH|s m _ IH|s m _ IH]; intros F; auto.
  - inversion F; subst. cbn. rewrite E, IH; auto.
  - inversion F; subst. lia.
  - inversion F; subst. lia.
Qed.
Ltac nd := repeat constructor; cbn; intuition discriminate.
Lemma rrtype_exact : forall s t, rrtype_from_str s = Ok t <-> exists m, In (m, t) rrtype_table /\ spells (of_string s) (of_string m).
Proof. intros s t. apply match_str_exact; [nd|reflexivity]. Qed.
Lemma rrclass_exact0 : forall s t, rrclass_from_str s = Ok t <-> exists m, In (m, t) rrclass_table /\ spells (of_string s) (of_string m).
Proof. intros s t. apply match_str_exact; [nd|reflexivity]. Qed.
Lemma rcode_exact0 : forall s t, rcode_from_str s = Ok t <-> exists m, In (m, t) rcode_table /\ spells (of_string s) (of_string m).
Proof. intros s t. apply match_str_exact; [nd|reflexivity]. Qed.
Lemma rrtype_accepts : forall s t, type_ok t -> (rrtype_from_str s = Ok t <-> exists m, In (m, rrtype_u16 t) iana_types /\ spells (of_string s) (of_string m)).
Proof.
  intros s t K. rewrite rrtype_exact. split; intros (m & I & Sp); exists m; split; auto; clear Sp.
  - unfold rrtype_table in I. in_table I; unfold iana_types; cbn [rrtype_u16 In]; auto 40.
  - destruct K as [_ K]. rewrite <- K. clear K. revert I. generalize (rrtype_u16 t). intros v I. unfold iana_types in I. in_table I; unfold rrtype_table; cbn [In]; auto 40.
Qed.
Lemma rrclass_accepts : forall s t, class_ok t -> (rrclass_from_str s = Ok t <-> exists m, In (m, rrclass_u16 t) iana_classes /\ spells (of_string s) (of_string m)).
Proof.
  intros s t K. rewrite rrclass_exact0. split; intros (m & I & Sp); exists m; split; auto; clear Sp.
  - unfold rrclass_table in I. in_table I; unfold iana_classes; cbn [rrclass_u16 In]; auto 40.
  - destruct K as [_ K]. rewrite <- K. clear K. revert I. generalize (rrclass_u16 t). intros v I. unfold iana_classes in I. in_table I; unfold rrclass_table; cbn [In]; auto 40.
Qed.
Lemma rcode_accepts : forall s t, t <> RReserved -> (rcode_from_str s = Ok t <-> exists m, In (m, rcode_u8 t) iana_rcodes /\ spells (of_string s) (of_string m)).
Proof.
  intros s t K. rewrite rcode_exact0. split; intros (m & I & Sp); exists m; split; auto; clear Sp.
  - unfold rcode_table in I. in_table I; unfold iana_rcodes; cbn [rcode_u8 In]; auto 40; try congruence.
  - rewrite <- (rcode_back t). clear K. revert I. generalize (rcode_u8 t). intros v I. unfold iana_rcodes in I. in_table I; unfold rcode_table; cbn [In]; auto 40.
Qed.
Lemma rrtype_only : forall s t, rrtype_from_str s = Ok t -> exists m, In (m, rrtype_u16 t) iana_types /\ spells (of_string s) (of_string m).
Proof.
  intros s t H. apply rrtype_exact in H. destruct H as (m & I & Sp). exists m. split; auto. clear Sp. unfold rrtype_table in I. in_table I; unfold iana_types; cbn [rrtype_u16 In]; auto 40.
Qed.

Lemma rrtype_only_ascii : forall s t, Forall (fun c => (c < 128)%N) (of_string s) -> rrtype_from_str s = Ok t ->
  exists m, In (m, rrtype_u16 t) iana_types /\ same_text s m.
Proof. intros s t F H. destruct (rrtype_only s t H) as (m & I & Sp). exists m. split; auto. unfold same_text. apply spells_ascii; auto. Qed.

Lemma testbit_bound : forall w, (forall i, N.testbit w i = true -> (i < 16)%N) -> (w < 65536)%N.
Proof.
  intros w H. assert (w = w mod 2 ^ 16)%N.
  { apply N.bits_inj. intro i. destruct (N.lt_ge_cases i 16); [rewrite N.mod_pow2_bits_low; auto|].
    rewrite N.mod_pow2_bits_high by auto. destruct (N.testbit w i) eqn:E; auto. apply H in E. lia. }
  rewrite H0. apply N.mod_lt. discriminate.
Qed.
Lemma set_flag_spec : forall h f g b, (h_flag h < 65536)%N ->
  header_is_set (header_set_flag h f b) g = (if N.eqb (flag_bit f) (flag_bit g) then b else header_is_set h g) /\
  h_id (header_set_flag h f b) = h_id h /\ h_opcode (header_set_flag h f b) = h_opcode h /\
  h_rcode (header_set_flag h f b) = h_rcode h /\ h_qd (header_set_flag h f b) = h_qd h /\ h_an (header_set_flag h f b) = h_an h /\
  h_ns (header_set_flag h f b) = h_ns h /\ h_ar (header_set_flag h f b) = h_ar h /\ (h_flag (header_set_flag h f b) < 65536)%N.
Proof.
  intros h f g b Hb. unfold header_is_set, header_set_flag. cbn [h_flag h_id h_opcode h_rcode h_qd h_an h_ns h_ar].
  split; [|repeat split; auto; destruct b; [apply hf_set_bound|apply hf_clear_bound]; auto].
  destruct b; rewrite !hf_is_set_bit.
  - rewrite hf_set_bit. rewrite (N.eqb_sym (flag_bit g)). destruct (flag_bit f =? flag_bit g)%N; [apply orb_true_r|apply orb_false_r].
  - rewrite hf_clear_bit by auto. rewrite (N.eqb_sym (flag_bit g)). destruct (flag_bit f =? flag_bit g)%N; [apply andb_false_r|apply andb_true_r].
Qed.
Lemma setted_spec : forall w f, (In f (hf_setted w) <-> hf_is_set w f = true) /\ NoDup (hf_setted w).
Proof.
  intros w f. split.
  - unfold hf_setted. rewrite filter_In. split; [intros [_ H]; auto|]. intros H. split; auto. destruct f; cbn; auto 10.
  - unfold hf_setted. apply NoDup_filter. repeat constructor; cbn; intuition discriminate.
Qed.
Lemma set_flag_ok : forall h f b, header_ok h -> header_ok (header_set_flag h f b).
Proof.
  intros h f b [A B]. split; [exact A|]. cbn [header_set_flag h_flag]. intros i H. destruct b.
  - rewrite hf_set_bit in H. apply orb_true_iff in H. destruct H as [H|H]; [auto|]. apply N.eqb_eq in H. eauto.
  - rewrite hf_clear_bit in H.
    + apply andb_true_iff in H. apply B. apply H.
    + apply testbit_bound. intros j Hj. destruct (B j Hj) as [g ->]. destruct g; reflexivity.
Qed.

From Verif Require Import Base BaseLemmas NameModel SpecName NameWireProofs NameOpsProofs NameOpsProofs2 NameCmpProofs NameCmpProofs2.

(** ** no panic, no hang *)
Definition lastle (offs : list N) (k : nat) : Prop := exists i o, offs = i ++ [o] /\ N.to_nat o <= k.
Definition lastlt (offs : list N) (k : nat) : Prop := exists i o, offs = i ++ [o] /\ N.to_nat o < k.
Definition sp_inv (s : spst) : Prop :=
  match sp_state s with
  | FInit => lastle (sp_offsets s) (length (sp_data s))
  | FStart => lastle (sp_offsets s) (length (sp_data s))
  | FOrdinary => lastlt (sp_offsets s) (length (sp_data s)) /\ sp_count s <> 0%N
  | _ => lastlt (sp_offsets s) (length (sp_data s))
  end.
Lemma set_len_ok : forall s, lastlt (sp_offsets s) (length (sp_data s)) ->
  exists d, sp_set_len s = Ok d /\ length d = length (sp_data s).
Proof.
  intros s (i & o & E & L). unfold sp_set_len. rewrite E, app_length. simpl length. rewrite csub_ok by lia. cbn [rbind].
  rewrite idx_app_mid by lia. cbn [rbind]. unfold upd_r. ift. eexists. split; [reflexivity|]. apply upd_length.
Qed.
Lemma as_u8_le : forall n, (as_u8 n <= n)%N.
Proof. intros. unfold as_u8. apply N.mod_le. lia. Qed.

Ltac ll := unfold lastlt, lastle in *; repeat match goal with
  | H : exists _ _, _ = _ ++ [_] /\ _ |- _ => destruct H as (? & ? & ? & ?) end;
  do 2 eexists; split; [eassumption || reflexivity|]; rewrite ?app_length; simpl; try lia.

Lemma ord_step : forall data offs count digits value c last,
  lastlt offs (length data) ->
  (count <> 0%N \/ count = 0%N) ->
  match sp_step (mkSp data offs count digits value FOrdinary) c last with
  | SpBreak s' => sp_inv s'
  | SpDone _ | SpErr => True
  | _ => False
  end.
Proof.
  intros data offs count digits value c last H _. unfold sp_step.
  destruct (c =? CH_DOT)%N.
  - destruct (count =? 0)%N eqn:E; auto.
    destruct (set_len_ok (mkSp data offs count digits value FOrdinary)) as (d & D & L); [exact H|]. rewrite D.
    destruct last; auto. unfold sp_inv. simpl. exists offs, (as_u8 (blen d)). split; auto.
    pose proof (as_u8_le (blen d)). unfold blen in *. lia.
  - destruct (c =? CH_BSL)%N; [unfold sp_inv; simpl; auto|].
    destruct (MAX_LABEL_LEN <? count + 1)%N; auto. unfold sp_inv. simpl. split; [ll|lia].
Qed.

Lemma inner_inv : forall s c last, sp_inv s ->
  match sp_inner sp_inner_fuel s c last with
  | InBreak s' => sp_inv s'
  | InDone _ | InErr => True
  | _ => False
  end.
Proof.
  assert (ORD : forall f data offs count digits value c last, lastlt offs (length data) ->
     match sp_inner (S f) (mkSp data offs count digits value FOrdinary) c last with
     | InBreak s' => sp_inv s' | InDone _ | InErr => True | _ => False end).
  { intros. cbn [sp_inner]. pose proof (ord_step data offs count digits value c last H ltac:(lia)).
    destruct (sp_step _ c last); auto; contradiction. }
  assert (DEC : forall f data offs count digits value c last, lastlt offs (length data) ->
     match sp_inner (S f) (mkSp data offs count digits value FEscdecimal) c last with
     | InBreak s' => sp_inv s' | InDone _ | InErr => True | _ => False end).
  { intros. cbn [sp_inner sp_step]. destruct (negb (is_digit c)); auto.
    destruct (digits + 1 =? 3)%N.
    - destruct (255 <? _)%Z; auto. destruct (MAX_LABEL_LEN <? count + 1)%N; auto.
      unfold sp_inv. simpl. split; [ll|lia].
    - unfold sp_inv. simpl. auto. }
  assert (ESC : forall f data offs count digits value c last, lastlt offs (length data) ->
     match sp_inner (S (S f)) (mkSp data offs count digits value FEscape) c last with
     | InBreak s' => sp_inv s' | InDone _ | InErr => True | _ => False end).
  { intros. change (sp_inner (S (S f)) ?s c last) with
      (match sp_step s c last with SpLoop s' => sp_inner (S f) s' c last | SpBreak s' => InBreak s' | SpDone s' => InDone s' | SpErr => InErr | SpPanic => InPanic end).
    cbn [sp_step]. destruct (negb (is_digit c)).
    - destruct (MAX_LABEL_LEN <? count + 1)%N; auto. apply ORD. ll.
    - apply DEC. auto. }
  assert (IESC : forall f data offs count digits value c last, lastlt offs (length data) ->
     match sp_inner (S (S (S f))) (mkSp data offs count digits value FInitialescape) c last with
     | InBreak s' => sp_inv s' | InDone _ | InErr => True | _ => False end).
  { intros. change (sp_inner (S (S (S f))) ?s c last) with
      (match sp_step s c last with SpLoop s' => sp_inner (S (S f)) s' c last | SpBreak s' => InBreak s' | SpDone s' => InDone s' | SpErr => InErr | SpPanic => InPanic end).
    cbn [sp_step]. destruct (c =? CH_LBR)%N; auto. apply ESC. auto. }
  assert (STA : forall f data offs count digits value c last, lastle offs (length data) ->
     match sp_inner (S (S (S (S f)))) (mkSp data offs count digits value FStart) c last with
     | InBreak s' => sp_inv s' | InDone _ | InErr => True | _ => False end).
  { intros. change (sp_inner (S (S (S (S f)))) ?s c last) with
      (match sp_step s c last with SpLoop s' => sp_inner (S (S (S f))) s' c last | SpBreak s' => InBreak s' | SpDone s' => InDone s' | SpErr => InErr | SpPanic => InPanic end).
    cbn [sp_step]. assert (lastlt offs (length (data ++ [0%N]))) by ll. destruct (c =? CH_BSL)%N; [apply IESC|apply ORD]; auto. }
  intros [data offs count digits value st] c last H. unfold sp_inv in H. cbn [sp_state sp_offsets sp_data sp_count] in H.
  unfold sp_inner_fuel. destruct st.
  - change (sp_inner 6 ?s c last) with
      (match sp_step s c last with SpLoop s' => sp_inner 5 s' c last | SpBreak s' => InBreak s' | SpDone s' => InDone s' | SpErr => InErr | SpPanic => InPanic end).
    cbn [sp_step]. destruct ((c =? CH_DOT)%N && negb last); auto.
    destruct ((c =? CH_DOT)%N || _); auto. apply STA. auto.
  - apply STA. auto.
  - apply ORD. tauto.
  - apply IESC. auto.
  - apply ESC. auto.
  - apply DEC. auto.
Qed.
Lemma outer_inv : forall rest s, sp_inv s ->
  match sp_outer s rest with
  | Ok (s', done, at_end) => done = true \/ (sp_inv s' /\ (at_end = true \/ 255 <= length (sp_data s')))
  | Err => True
  | _ => False
  end.
Proof.
  induction rest; intros s H; cbn [sp_outer]; auto.
  destruct (MAX_WIRE_LEN <=? length (sp_data s)) eqn:E; bl; [unfold MAX_WIRE_LEN in E; auto|].
  pose proof (inner_inv s a (match rest with [] => true | _ => false end) H).
  destruct (sp_inner _ _ _ _); auto; try contradiction.
  apply IHrest. auto.
Qed.
Lemma string_parse_safe : forall s ab, safe (string_parse s ab).
Proof.
  intros. unfold string_parse, safe.
  assert (I : sp_inv (mkSp [] [0%N] 0 0 0 FInit)). { unfold sp_inv. simpl. exists [], 0%N. simpl. auto. }
  pose proof (outer_inv s _ I). destruct (sp_outer _ _) as [[[st done] at_end]| | |]; cbn [rbind]; try contradiction; try (split; discriminate).
  destruct done; [split; discriminate|]. destruct H as [|[H A]]; [discriminate|].
  unfold ensure_r. destruct (length (sp_data st) <? MAX_WIRE_LEN) eqn:L; cbn [rbind]; [|split; discriminate]. bl. unfold MAX_WIRE_LEN in L.
  assert (at_end = true) by (destruct A; auto; lia). subst. cbn [assert_r rbind].
  destruct (ft_eqb (sp_state st) FOrdinary) eqn:F; cbn [rbind]; [|split; discriminate].
  unfold sp_inv in H. destruct (sp_state st); try discriminate. destruct H as [H C].
  replace (sp_count st =? 0)%N with false by (symmetry; apply N.eqb_neq; auto). cbn [negb assert_r rbind].
  destruct (set_len_ok st H) as (d & D & _). rewrite D. cbn [rbind]. destruct ab; split; discriminate.
Qed.
Lemma name_new_safe : forall s, safe (name_new s).
Proof.
  intros. unfold name_new. pose proof (string_parse_safe s true). unfold safe in *.
  destruct (string_parse s true) as [[]| | |]; cbn [rbind]; tauto || (split; discriminate).
Qed.

(** ** escape-free text *)
Definition st_o (ls : list label) (cur : label) dg v : spst :=
  mkSp (body ls ++ [0%N] ++ cur) (offs_from 0 ls) (blen cur) dg v FOrdinary.
Definition st_s (ls : list label) cnt dg v : spst :=
  mkSp (body ls) (offs_from 0 ls) cnt dg v FStart.

Definition okl (l : label) : bool := (1 <=? length l) && (length l <=? 63).
Definition legalb (ls : list label) : bool := forallb okl ls && (wire_len ls <=? 255).
Definition fin (r : res (spst * bool * bool)) (as_absolute : bool) : res (list N * list N) :=
  let? (st, done, at_end) := r in
  if done : bool then Ok (sp_data st, sp_offsets st)
  else
    let? _ := ensure_r (length (sp_data st) <? MAX_WIRE_LEN) in
    let? _ := assert_r at_end in
    let? _ := ensure_r (ft_eqb (sp_state st) FOrdinary) in
    let? _ := assert_r (negb (sp_count st =? 0)%N) in
    let? data := sp_set_len st in
    if as_absolute
    then Ok (data ++ [0%N], sp_offsets st ++ [as_u8 (blen data)])
    else Ok (data, sp_offsets st).
Fixpoint ends_dot (s : list N) : bool :=
  match s with [] => false | [c] => (c =? 46)%N | _ :: r => ends_dot r end.
Definition outcome (ab : bool) (L : list label) : res (list N * list N) :=
  if legalb L then Ok (if ab then (enc L, offs_from 0 L) else (body L, obody 0 L)) else Err.

Lemma dle_cons : forall x X, X <> [] -> drop_last_empty (x :: X) = x :: drop_last_empty X.
Proof.
  intros. unfold drop_last_empty. simpl rev. destruct (rev X) as [|y r] eqn:E.
  - apply (f_equal (@rev _)) in E. rewrite rev_involutive in E. simpl in E. contradiction.
  - simpl. destruct y; auto. rewrite rev_app_distr. reflexivity.
Qed.
Lemma split_dots_ne : forall s, exists h t, split_dots s = h :: t.
Proof. induction s; simpl; eauto. destruct (a =? 46)%N; eauto. destruct IHs as (h & t & ->). eauto. Qed.

Lemma set_len_cur : forall ls cur cnt dg v st, sp_set_len (mkSp (body ls ++ [0%N] ++ cur) (offs_from 0 ls) cnt dg v st) = Ok (body ls ++ cnt :: cur).
Proof.
  intros. unfold sp_set_len. cbn [sp_offsets sp_data sp_count]. rewrite offs_len, csub_ok by lia. cbn [rbind].
  unfold offs_from. rewrite idx_app_mid by (rewrite obody_len; lia). cbn [rbind].
  simpl app. rewrite upd_r_app_mid by (rewrite body_len; lia). reflexivity.
Qed.
Lemma body_snoc : forall ls cur, body (ls ++ [cur]) = body ls ++ blen cur :: cur.
Proof. intros. rewrite body_app. simpl. rewrite app_nil_r. reflexivity. Qed.
Lemma elen_snoc : forall ls cur, elen (ls ++ [cur]) = elen ls + 1 + length cur.
Proof. intros. rewrite elen_app, elen_cons, elen_nil. lia. Qed.
Lemma offs_snoc : forall ls cur, offs_from 0 (ls ++ [cur]) = offs_from 0 ls ++ [N.of_nat (elen (ls ++ [cur]))].
Proof.
  intros. rewrite offs_app. unfold offs_from. rewrite <- app_assoc. f_equal. simpl. rewrite body_len, app_nil_r, elen_snoc. f_equal. f_equal. f_equal. lia.
Qed.

Definition nobs (s : list N) : Prop := Forall (fun c => c <> 92%N) s.

Lemma legal_app_long : forall a b, 255 <= elen a -> legalb (a ++ b) = false.
Proof.
  intros. unfold legalb. apply andb_false_iff. right. apply Nat.leb_gt. rewrite wire_elen, elen_app. lia.
Qed.
Lemma legal_app_bad : forall a x b, okl x = false -> legalb (a ++ x :: b) = false.
Proof. intros. unfold legalb. rewrite forallb_app. simpl. rewrite H. rewrite !andb_false_r. reflexivity. Qed.
Lemma legal_app_long2 : forall a x b, 255 <= elen a + 1 + length x -> legalb (a ++ x :: b) = false.
Proof.
  intros. unfold legalb. apply andb_false_iff. right. apply Nat.leb_gt. rewrite wire_elen, elen_app, elen_cons. lia.
Qed.

Lemma app_shift : forall A (ls : list A) cur r, ls ++ cur :: r = (ls ++ [cur]) ++ r.
Proof. intros. rewrite <- app_assoc. reflexivity. Qed.

Lemma plain_run : forall ab rest,
  (forall ls cur dg v, nobs rest -> 1 <= length cur <= 63 -> forallb okl ls = true ->
     fin (sp_outer (st_o ls cur dg v) rest) ab =
     outcome (ab || ends_dot rest)
       (ls ++ match split_dots rest with h :: t => drop_last_empty ((cur ++ h) :: t) | [] => [] end)) /\
  (forall ls cnt dg v, rest <> [] -> nobs rest -> forallb okl ls = true ->
     fin (sp_outer (st_s ls cnt dg v) rest) ab =
     outcome (ab || ends_dot rest) (ls ++ drop_last_empty (split_dots rest))).
Proof.
  intros ab. induction rest as [|c rest [IHo IHs]].
  - split; [|congruence]. intros ls cur dg v _ HC HL. cbn [sp_outer]. unfold fin. cbn [rbind].
    unfold st_o at 1 2 3 4. cbn [sp_data sp_state sp_count sp_offsets ft_eqb]. rewrite !app_length, body_len. simpl (length [0%N]).
    unfold ensure_r, MAX_WIRE_LEN.
    assert (X : ls ++ match split_dots [] with h :: t => drop_last_empty ((cur ++ h) :: t) | [] => [] end = ls ++ [cur]).
    { simpl. rewrite app_nil_r. unfold drop_last_empty. simpl. destruct cur; [simpl in HC; lia|reflexivity]. }
    rewrite X. unfold outcome, legalb. rewrite forallb_app, HL. simpl forallb.
    replace (okl cur) with true by (symmetry; unfold okl; rewrite andb_true_iff, !Nat.leb_le; lia).
    rewrite wire_elen, elen_snoc. simpl andb.
    destruct (elen ls + (1 + length cur) <? 255) eqn:E; bl.
    + cbn [rbind assert_r]. replace (blen cur =? 0)%N with false by (symmetry; apply N.eqb_neq; unfold blen; lia). cbn [negb rbind assert_r].
      unfold st_o. rewrite set_len_cur. cbn [rbind]. ift. rewrite orb_false_r.
      rewrite <- body_snoc. cbn [sp_offsets sp_data sp_count]. unfold blen at 1. rewrite body_len.
      rewrite as_u8_small by (rewrite elen_snoc; lia). rewrite <- offs_snoc. destruct ab; [reflexivity|].
      f_equal. f_equal. rewrite obody_app. unfold offs_from. reflexivity.
    + cbn [rbind]. iff_. reflexivity.
  - assert (ORD : forall ls cur dg v, c <> 92%N -> nobs rest -> length cur <= 63 -> forallb okl ls = true -> elen ls <= 254 ->
       (1 <= length cur -> length cur + 1 + elen ls < 255) ->
       fin (match sp_step (st_o ls cur dg v) c (match rest with [] => true | _ => false end) with
            | SpBreak s' => sp_outer s' rest
            | SpDone s' => Ok (s', true, match rest with [] => true | _ => false end)
            | SpErr => Err
            | SpPanic => Panic
            | SpLoop s' => Hang
            end) ab =
       outcome (ab || ends_dot (c :: rest))
        (ls ++ match split_dots (c :: rest) with h :: t => drop_last_empty ((cur ++ h) :: t) | [] => [] end)).
    { intros ls cur dg v NB NR HC HL HE HE2. unfold sp_step. unfold st_o at 1. unfold CH_DOT, CH_BSL.
      simpl split_dots. destruct (split_dots_ne rest) as (h & t & SD).
      destruct (c =? 46)%N eqn:ED; bl.
      - rewrite app_nil_r.
        destruct (blen cur =? 0)%N eqn:EB; bl.
        + assert (cur = []) by (destruct cur; auto; unfold blen in EB; simpl in EB; lia). subst cur.
          cbn [fin rbind]. rewrite dle_cons by (rewrite SD; discriminate). unfold outcome. rewrite legal_app_bad by reflexivity. reflexivity.
        + fold (st_o ls cur dg v). unfold st_o. rewrite set_len_cur. rewrite <- body_snoc.
          assert (LC : 1 <= length cur) by (unfold blen in EB; lia). specialize (HE2 LC).
          cbn [sp_offsets sp_data sp_count]. replace (blen (body (ls ++ [cur]))) with (N.of_nat (elen (ls ++ [cur]))) by (unfold blen; rewrite body_len; reflexivity).
          rewrite as_u8_small by (rewrite elen_snoc; lia). rewrite <- offs_snoc.
          rewrite dle_cons by (rewrite SD; discriminate).
          rewrite (app_shift _ ls cur (drop_last_empty (split_dots rest))).
          assert (OK : forallb okl (ls ++ [cur]) = true).
          { rewrite forallb_app, HL. simpl. rewrite andb_true_r. unfold okl. rewrite andb_true_iff, !Nat.leb_le. lia. }
          destruct rest as [|c2 rest].
          * unfold fin. cbn [rbind sp_data sp_offsets]. change (drop_last_empty (split_dots [])) with (@nil label). rewrite app_nil_r.
            unfold outcome, legalb. rewrite OK, wire_elen, elen_snoc. simpl andb. ift. subst c. simpl ends_dot. rewrite orb_true_r. reflexivity.
          * change (fin (sp_outer (st_s (ls ++ [cur]) (blen cur) dg v) (c2 :: rest)) ab = outcome (ab || ends_dot (c :: c2 :: rest)) ((ls ++ [cur]) ++ drop_last_empty (split_dots (c2 :: rest)))). rewrite IHs; auto; discriminate.
      - replace (c =? 92)%N with false by (symmetry; apply N.eqb_neq; auto).
        unfold MAX_LABEL_LEN. rewrite SD.
        destruct (63 <? blen cur + 1)%N eqn:EL; bl.
        + cbn [fin rbind]. unfold outcome.
          destruct t as [|t1 t].
          * replace (drop_last_empty [cur ++ c :: h]) with [cur ++ c :: h] by (unfold drop_last_empty; simpl; destruct cur; reflexivity).
            rewrite legal_app_bad; auto. unfold okl. rewrite app_length. simpl length. apply andb_false_iff. right. apply Nat.leb_gt. unfold blen in EL. lia.
          * rewrite dle_cons by discriminate. rewrite legal_app_bad; auto. unfold okl. rewrite app_length. simpl length. apply andb_false_iff. right. apply Nat.leb_gt. unfold blen in EL. lia.
        + replace (mkSp ((body ls ++ [0%N] ++ cur) ++ [c]) (offs_from 0 ls) (blen cur + 1) dg v FOrdinary) with (st_o ls (cur ++ [c]) dg v).
          2:{ unfold st_o. f_equal; [rewrite <- !app_assoc; reflexivity|]. rewrite blen_app. reflexivity. }
          rewrite IHo; auto.
          * rewrite SD. rewrite <- app_assoc. simpl app. f_equal. destruct rest; [|reflexivity].
            simpl. apply N.eqb_neq in ED. rewrite ED. reflexivity.
          * rewrite app_length. simpl. unfold blen in EL. lia. }
    split.
    + intros ls cur dg v NB HC HL. inversion NB; subst. cbn [sp_outer].
      unfold st_o at 1. cbn [sp_data]. rewrite !app_length, body_len. simpl (length [0%N]). unfold MAX_WIRE_LEN.
      destruct (255 <=? elen ls + (1 + length cur)) eqn:E; bl.
      * unfold fin. cbn [rbind]. unfold st_o at 1. cbn [sp_data]. rewrite !app_length, body_len. simpl (length [0%N]). unfold ensure_r, MAX_WIRE_LEN.
        iff_. cbn [rbind]. unfold outcome. destruct (split_dots_ne (c :: rest)) as (h & t & ->).
        destruct t as [|t1 t].
        -- replace (drop_last_empty [cur ++ h]) with [cur ++ h] by (unfold drop_last_empty; simpl; destruct cur; [simpl in HC; lia|reflexivity]).
           rewrite legal_app_long2; auto. rewrite app_length. lia.
        -- rewrite dle_cons by discriminate. rewrite legal_app_long2; auto. rewrite app_length. lia.
      * rewrite <- (ORD ls cur dg v); auto; try lia. unfold sp_inner_fuel. cbn [sp_inner]. 
        pose proof (ord_step (body ls ++ [0%N] ++ cur) (offs_from 0 ls) (blen cur) dg v c (match rest with [] => true | _ => false end)) as OS.
        fold (st_o ls cur dg v) in OS.
        destruct (sp_step (st_o ls cur dg v) c (match rest with [] => true | _ => false end)); auto.
        exfalso. apply OS. { exists (obody 0 ls), (N.of_nat (0 + elen ls)). split; [reflexivity|]. rewrite !app_length, body_len. simpl. lia. } lia.
    + intros ls cnt dg v _ NB HL. inversion NB; subst. cbn [sp_outer].
      unfold st_s at 1. cbn [sp_data]. rewrite body_len. unfold MAX_WIRE_LEN.
      destruct (255 <=? elen ls) eqn:E; bl.
      * unfold fin. cbn [rbind]. unfold st_s at 1. cbn [sp_data]. rewrite body_len. unfold ensure_r, MAX_WIRE_LEN.
        iff_. cbn [rbind]. unfold outcome. rewrite legal_app_long; auto.
      * pose proof (ORD ls [] dg v H1 H2 ltac:(simpl; lia) HL ltac:(lia) ltac:(simpl; lia)) as O.
        destruct (split_dots_ne (c :: rest)) as (h & t & SD). rewrite SD in *. simpl app in O. rewrite <- O. clear O.
        unfold sp_inner_fuel. cbn [sp_inner].
        unfold sp_step at 1. unfold st_s at 1. unfold CH_BSL. replace (c =? 92)%N with false by (symmetry; apply N.eqb_neq; auto).
        replace (mkSp (body ls ++ [0%N]) (offs_from 0 ls) 0 dg v FOrdinary) with (st_o ls [] dg v).
        2:{ unfold st_o. rewrite app_nil_r. reflexivity. }
        pose proof (ord_step (body ls ++ [0%N] ++ []) (offs_from 0 ls) (blen (@nil N)) dg v c (match rest with [] => true | _ => false end)) as OS.
        fold (st_o ls [] dg v) in OS.
        destruct (sp_step (st_o ls [] dg v) c (match rest with [] => true | _ => false end)); auto.
        exfalso. apply OS. { exists (obody 0 ls), (N.of_nat (0 + elen ls)). split; [reflexivity|]. rewrite !app_length, body_len. simpl. lia. } lia.
Qed.

Lemma string_parse_fin : forall s ab, string_parse s ab = fin (sp_outer (mkSp [] [0%N] 0 0 0 FInit) s) ab.
Proof. reflexivity. Qed.

Definition not_at_root (s : list N) : Prop := s <> [46%N] /\ s <> [64%N].
Lemma parse_plain : forall s ab, nobs s -> s <> [] -> not_at_root s ->
  string_parse s ab = outcome (ab || ends_dot s) (drop_last_empty (split_dots s)).
Proof.
  intros s ab NB NE [N1 N2]. rewrite string_parse_fin.
  destruct (plain_run ab s) as [_ P]. rewrite <- (app_nil_l (drop_last_empty _)).
  destruct (N.eq_dec (hd 0%N s) 46).
  - (* leading dot with more text: error *)
    destruct s as [|c s]; [congruence|]. simpl in e. subst c.
    destruct s as [|c2 s]; [congruence|].
    cbn [sp_outer]. unfold MAX_WIRE_LEN. simpl (255 <=? _). unfold sp_inner_fuel. cbn [sp_inner sp_step]. unfold CH_DOT. simpl.
    unfold outcome. destruct (split_dots_ne (c2 :: s)) as (h & t & SD).
    change (if (c2 =? 46)%N then [] :: split_dots s else match split_dots s with [] => [[c2]] | l :: ls => (c2 :: l) :: ls end) with (split_dots (c2 :: s)).
    rewrite SD. rewrite dle_cons by discriminate. reflexivity.
  - rewrite <- (P [] 0%N 0%N 0%Z NE NB eq_refl). f_equal.
    destruct s as [|c s]; [congruence|]. simpl in n.
    cbn [sp_outer]. unfold st_s. cbn [sp_data body flat_map length]. unfold MAX_WIRE_LEN. simpl (255 <=? _).
    change (255 <=? 0) with false. cbn iota.
    unfold sp_inner_fuel.
    set (lst := match s with [] => true | _ => false end).
    assert (E : sp_inner 6 (mkSp [] [0%N] 0 0 0 FInit) c lst = sp_inner 5 (mkSp [] (offs_from 0 []) 0 0 0 FStart) c lst).
    { change (sp_inner 6 ?s c lst) with
      (match sp_step s c lst with SpLoop s' => sp_inner 5 s' c lst | SpBreak s' => InBreak s' | SpDone s' => InDone s' | SpErr => InErr | SpPanic => InPanic end).
      cbn [sp_step]. unfold CH_DOT, CH_AT. replace (c =? 46)%N with false by (symmetry; apply N.eqb_neq; auto). cbn [andb orb].
      destruct ((c =? 64)%N && lst) eqn:X; [|reflexivity]. bl. destruct s; [|discriminate]. congruence. }
    rewrite E.
    assert (F : forall st, sp_inner 6 (mkSp [] (offs_from 0 []) 0 0 0 FStart) c lst = st -> sp_inner 5 (mkSp [] (offs_from 0 []) 0 0 0 FStart) c lst = st).
    { intros st <-. change (sp_inner 6 ?s c lst) with
      (match sp_step s c lst with SpLoop s' => sp_inner 5 s' c lst | SpBreak s' => InBreak s' | SpDone s' => InDone s' | SpErr => InErr | SpPanic => InPanic end).
      change (sp_inner 5 ?s c lst) with
      (match sp_step s c lst with SpLoop s' => sp_inner 4 s' c lst | SpBreak s' => InBreak s' | SpDone s' => InDone s' | SpErr => InErr | SpPanic => InPanic end) at 1.
      cbn [sp_step]. unfold CH_BSL.
      assert (c <> 92%N) by (inversion NB; auto).
      replace (c =? 92)%N with false by (symmetry; apply N.eqb_neq; auto).
      cbn [sp_inner].
      match goal with |- context [sp_step ?a c lst] => pose proof (ord_step [0%N] (offs_from 0 []) 0 0 0 c lst) as OS; destruct (sp_step a c lst) eqn:Q; auto end.
      simpl app in Q. rewrite Q in OS. exfalso. apply OS. { exists [], 0%N. simpl. split; auto. } lia. }
    rewrite (F _ eq_refl). reflexivity.
Qed.
Lemma okl_spec : forall ls, forallb okl ls = true <-> Forall (fun l => 1 <= length l <= 63) ls.
Proof.
  intros. rewrite forallb_forall, Forall_forall. unfold okl. split; intros H l Hl; specialize (H l Hl).
  - bl. lia.
  - rewrite andb_true_iff, !Nat.leb_le. lia.
Qed.

(** Full statement for names. *)
Lemma name_new_plain : forall s, nobs s ->
  (text_legal s -> name_new s = Ok (name_of (text_labels s))) /\
  (~ text_legal s -> name_new s = Err).
Proof.
  intros s NB. unfold name_new.
  destruct (list_eq_dec N.eq_dec s [46%N]) as [->|N1].
  { split; [intros _; reflexivity|]. intros H. exfalso. apply H. left. auto. }
  destruct (list_eq_dec N.eq_dec s [64%N]) as [->|N2].
  { split; [intros _; reflexivity|]. intros H. exfalso. apply H. right. left. auto. }
  destruct (list_eq_dec N.eq_dec s []) as [->|N3].
  { split; [|reflexivity]. intros [|[|(X & _)]]; congruence. }
  rewrite parse_plain by (auto; split; auto). simpl orb. unfold outcome.
  assert (T : text_labels s = drop_last_empty (split_dots s)).
  { unfold text_labels. destruct s as [|c [|c2 s]]; auto.
    - assert (c <> 46%N) by congruence. assert (c <> 64%N) by congruence.
      destruct c as [|p]; [reflexivity|]. do 8 (try destruct p as [p|p|]; try reflexivity); congruence.
    - destruct c as [|p]; [reflexivity|]. do 8 (try destruct p as [p|p|]; try reflexivity). }
  rewrite <- T. unfold legalb. split.
  - intros [X|[X|(_ & _ & F & W)]]; try congruence.
    rewrite (proj2 (okl_spec _) F). apply Nat.leb_le in W. rewrite W. reflexivity.
  - intros NL. destruct (forallb okl (text_labels s) && (wire_len (text_labels s) <=? 255)) eqn:E; [|reflexivity].
    exfalso. apply NL. right. right. bl. split; auto. split.
    + intros X. rewrite T, X in *.
      destruct s as [|c s]; [congruence|]. simpl in X.
      destruct (c =? 46)%N eqn:D.
      * destruct (split_dots_ne s) as (h & t & SD). rewrite SD in X. rewrite dle_cons in X by discriminate. discriminate.
      * destruct (split_dots_ne s) as (h & t & SD). rewrite SD in X. unfold drop_last_empty in X.
        destruct (rev ((c :: h) :: t)) eqn:R.
        -- discriminate.
        -- destruct l; [|discriminate].
           simpl in R. destruct (rev t) eqn:RT; simpl in R; [discriminate|]. injection R as R1 R2. subst.
           simpl in X. rewrite rev_app_distr in X. discriminate.
    + split; [apply okl_spec; auto|auto].
Qed.

(** Totality of the text parsers, and RRset::from_strs. *)
From Coq Require Import String.
From Verif Require Import Base BaseLemmas NameModel RenderModel CodesModel RDataModel MsgModel TextModel SpecName SpecBuf SpecCodes SpecMsg SpecText
  NameTextProofs NameTextProofs2 CodesProofs TextProofs TextProofs2 TextProofs3 TextProofs4 TextProofs5.
Open Scope list_scope.
Open Scope nat_scope.

Definition asc (strict : bool) (l : list N) : Prop := valid_utf8 l = true /\ (strict = true -> ascii l).
Definition goodP {A} (strict : bool) (m : M sbuf A) (Q : A -> Prop) : Prop := forall raw pos, pos <= length raw -> asc strict (skipn pos raw) ->
  safe (fst (m (mkSB raw pos))) /\
  forall a b', m (mkSB raw pos) = (Ok a, b') -> Q a /\ exists pos', b' = mkSB raw pos' /\ pos' <= length raw /\ asc strict (skipn pos' raw).
Lemma good_bind : forall A B st (m : M sbuf A) (k : A -> M sbuf B) Q R, goodP st m Q -> (forall a, Q a -> goodP st (k a) R) -> goodP st (bind m k) R.
Proof.
  intros A B st m k Q R Hm Hk raw pos P V. destruct (Hm raw pos P V) as [Sf Pc]. unfold bind.
  destruct (m (mkSB raw pos)) as [r b1]. cbn [fst] in Sf. destruct Sf as [S1 S2]. destruct r as [a| | |]; try congruence.
  - destruct (Pc a b1 eq_refl) as (Qa & pos' & -> & P' & V'). apply (Hk a Qa raw pos' P' V').
  - split; [split; discriminate|]. intros a b' E. discriminate.
Qed.
Lemma good_ret : forall A st (a : A) (Q : A -> Prop), Q a -> goodP st (ret a) Q.
Proof.
  intros A st a Q H raw pos P V. split; [split; discriminate|]. intros a' b' E. unfold ret in E. apply pair_inj in E. destruct E as [E <-]. apply Ok_inj in E. subst a'.
  split; auto. exists pos. auto.
Qed.
Lemma good_fail : forall A st (Q : A -> Prop), goodP st fail Q.
Proof. intros A st Q raw pos P V. split; [split; discriminate|]. intros a b' E. discriminate. Qed.
Lemma good_lift : forall A st (r : res A) (Q : A -> Prop), safe r -> (forall a, r = Ok a -> Q a) -> goodP st (lift r) Q.
Proof.
  intros A st r Q S H raw pos P V. split; [exact S|]. intros a b' E. unfold lift in E. apply pair_inj in E. destruct E as [E <-]. subst r.
  split; auto. exists pos. auto.
Qed.
Lemma good_ensure : forall st b, goodP st (ensure b) (fun _ => True).
Proof. intros. destruct b; [apply good_ret; auto|apply good_fail]. Qed.
Lemma good_of_opt : forall A st (o : option A), goodP st (of_opt o) (fun _ => True).
Proof. intros. destruct o; [apply good_ret; auto|apply good_fail]. Qed.
Lemma good_weaken : forall A st (m : M sbuf A) (Q R : A -> Prop), goodP st m Q -> (forall a, Q a -> R a) -> goodP st m R.
Proof. intros A st m Q R H I raw pos P V. destruct (H raw pos P V) as [S Pc]. split; auto. intros a b' E. destruct (Pc a b' E). split; auto. Qed.
Lemma asc_split : forall st a b, starts_char b -> asc st (a ++ b) -> asc st a /\ asc st b.
Proof.
  intros st a b S [V A]. destruct (utf8_split (length a) a b) as [V1 V2]; auto. unfold asc.
  assert (X : st = true -> ascii a /\ ascii b) by (intro E; specialize (A E); apply Forall_app in A; exact A).
  repeat split; auto; intro E; apply X; exact E.
Qed.
Lemma asc_gap : forall st g b, forallb is_ws g = true -> asc st (g ++ b) -> asc st b.
Proof.
  intros st g b G [V A]. rewrite utf8_gap in V by auto. split; auto. intro E. specialize (A E). apply Forall_app in A. apply A.
Qed.
Lemma good_read_str : forall st, goodP st read_str (fun o => match o with Some w => asc st w | None => True end).
Proof.
  intros st raw pos P V. destruct (words_exist (skipn pos raw)) as (l & W). remember (skipn pos raw) as s eqn:Es. symmetry in Es.
  destruct W as [s W|gap w rest l G Nw W E HW].
  - subst s. rewrite read_str_none by auto. split; [split; discriminate|]. intros a b' E. apply pair_inj in E. destruct E as [E <-]. apply Ok_inj in E. subst a.
    split; [exact I|]. exists (length raw). repeat split; auto; rewrite skipn_all; [reflexivity|constructor].
  - pose proof (asc_gap st gap _ G V) as V1.
    assert (St : starts_char rest). { destruct E as [->|(c & r & -> & Hc)]; cbn [starts_char]; auto. apply cont_big, is_ws_ascii; auto. }
    destruct (asc_split st w rest St V1) as [V2 V3].
    rewrite (read_str_word raw pos gap w rest); auto; [|destruct E as [->|(c & r & -> & Hc)]; cbn [ends_ws]; auto|apply V2].
    split; [split; discriminate|]. intros a b' E'. apply pair_inj in E'. destruct E' as [E' <-]. apply Ok_inj in E'. subst a. split; [exact V2|].
    exists (pos + length gap + length w). split; [reflexivity|]. split.
    + eapply pos_le. { apply skipn_after with (a := gap). exact Es. } eapply pos_le; eauto.
    + replace (skipn (pos + length gap + length w) raw) with rest; [exact V3|]. symmetry. apply skipn_after with (a := w). apply skipn_after with (a := gap). exact Es.
Qed.
Lemma good_read_left : forall st, goodP st read_left (fun _ => True).
Proof.
  intros st raw pos P V. unfold read_left. destruct (sb_eos _).
  - split; [split; discriminate|]. intros a b' E. apply pair_inj in E. destruct E as [E <-]. split; auto. exists pos. auto.
  - unfold bind, lift. cbn [sb_raw sb_pos].
    replace (slice raw pos (length raw)) with (Ok (skipn pos raw)).
    2:{ symmetry. assert (Sk : skipn pos raw = skipn pos raw ++ []) by (rewrite app_nil_r; reflexivity).
        pose proof (slice_unread _ _ _ _ Sk P) as S. rewrite skipn_length in S. replace (pos + (length raw - pos)) with (length raw) in S by lia. exact S. }
    unfold utf8_unwrap. destruct V as [V _]. rewrite V. unfold put, ret. split; [split; discriminate|]. intros a b' E. apply pair_inj in E. destruct E as [E <-].
    split; auto. exists (length raw). repeat split; auto; rewrite skipn_all; [reflexivity|constructor].
Qed.
Lemma good_read_char_string : forall st, goodP st read_char_string (fun _ => True).
Proof.
  intros st raw pos P V. split; [apply read_char_string_safe; auto|]. intros a b' E. apply read_char_string_sound in E; auto.
  destruct E as (gap & t & rest & Sk & G & Q & L & ->). split; auto. eexists. split; [reflexivity|].
  assert (Sk' : skipn pos raw = (gap ++ 34%N :: t) ++ 34%N :: rest) by (rewrite <- app_assoc; exact Sk).
  rewrite Sk' in V. apply asc_split in V; [|reflexivity]. destruct V as [_ [V A]]. rewrite utf8_cons_ascii in V by reflexivity.
  assert (Sk2 : skipn pos raw = (gap ++ 34%N :: t ++ [34%N]) ++ rest) by (rewrite Sk, <- app_assoc; cbn [app]; rewrite <- app_assoc; reflexivity).
  assert (El : pos + length gap + length t + 2 = pos + length (gap ++ 34%N :: t ++ [34%N])).
  { rewrite app_length. cbn [length]. rewrite app_length. cbn [length]. lia. }
  rewrite El. split; [eapply pos_le; eauto|]. rewrite (skipn_after _ _ _ _ Sk2). split; auto. intro E. specialize (A E). inversion A; auto.
Qed.
Lemma good_read_text : forall st, goodP st read_text (fun _ => True).
Proof.
  intros st raw pos P V. split; [apply read_text_safe; auto|]. intros a b' E. apply read_text_iff in E; auto. destruct E as [_ ->].
  split; auto. exists (length raw). repeat split; auto; rewrite skipn_all; [reflexivity|constructor].
Qed.
Lemma good_sb_read : forall A st (p : list N -> res A), (forall s, safe (p s)) -> goodP st (sb_read p) (fun a => exists s, p s = Ok a).
Proof.
  intros A st p H. unfold sb_read. eapply good_bind; [apply good_read_str|]. intros o _. destruct o as [s|]; [|apply good_fail].
  apply good_lift; auto. intros a E. exists s. exact E.
Qed.
Lemma safe_opt : forall A (o : option A), safe (opt_res o).
Proof. destruct o; split; discriminate. Qed.
Lemma parse_uint_safe : forall b s, safe (parse_uint b s).
Proof. intros. destruct (parse_uint_total b s) as [->|(n & ->)]; split; discriminate. Qed.
Lemma parse_i32_safe : forall s, safe (parse_i32 s).
Proof.
  intros. assert (X : forall s, safe (let? v := parse_uint 2147483648 s in Ok (Z.of_N v))).
  { intros s0. destruct (parse_uint_total 2147483648 s0) as [->|(n & ->)]; split; discriminate. }
  unfold parse_i32. destruct s as [|c [|c2 r]]; try apply X. destruct (c =? 45)%N; [|apply X].
  destruct (parse_digits_total (c2 :: r) 2147483649 0) as (v & E & [->|(n & ->)]); rewrite E; split; discriminate.
Qed.
Lemma find_code_safe : forall s, safe (rrtype_from_str s) /\ safe (rrclass_from_str s).
Proof.
  assert (X : forall A (tb : list (String.string * A)) s, safe (match_str tb s)).
  { intros A tb s. unfold match_str. destruct (find (fun p => String.eqb (fst p) (to_uppercase s)) tb); split; discriminate. }
  intro s. split; apply X.
Qed.
Lemma ascii_slice : forall s a b, ascii s -> a <= b <= length s -> exists t, str_slice s a b = Ok t.
Proof.
  intros s a b A L. unfold str_slice. rewrite !boundary_ascii by (auto; lia). rewrite (proj2 (Nat.leb_le _ _)) by lia. cbn [andb].
  unfold slice. rewrite (proj2 (Nat.leb_le a b)), (proj2 (Nat.leb_le b _)) by lia. cbn [andb]. eauto.
Qed.
Lemma good_timestamp : forall x, goodP true (timestamp_from_str x) (fun _ => True).
Proof.
  intro x. unfold timestamp_from_str. eapply good_bind; [apply good_read_str|]. intros o A. destruct o as [s|]; [|apply good_fail].
  destruct (Nat.eqb_spec (length s) 14) as [L|L]; cbn [negb]; [|apply good_fail]. destruct A as [_ A]. specialize (A eq_refl).
  Ltac tstep s A L a b := eapply good_bind;
    [apply good_lift with (Q := fun _ => True); auto;
     let t := fresh "t" in let E := fresh "E" in destruct (ascii_slice s a b A) as (t & E); [lia|]; rewrite E; cbn [rbind]; first [apply parse_i32_safe|apply parse_uint_safe]
    |intros ? _].
  tstep s A L 0 4. tstep s A L 4 6. tstep s A L 6 8. eapply good_bind; [apply good_ensure|intros _ _].
  tstep s A L 8 10. tstep s A L 10 12. tstep s A L 12 14. eapply good_bind; [apply good_ensure|intros _ _]. apply good_ret. exact I.
Qed.
Lemma good_field : forall st x kd, (st = false -> snd kd <> PTime) -> goodP st (field_from_str x kd) (fun _ => True).
Proof.
  intros st x [k d] H. unfold field_from_str. cbn [snd fst] in *.
  destruct d; try (eapply good_bind; [|intros; apply good_ret; exact I]); try (apply good_sb_read; intros; first [apply safe_opt|apply name_new_safe|apply parse_uint_safe|apply find_code_safe]).
  - apply good_read_text.
  - apply good_read_char_string.
  - destruct st; [apply good_timestamp|]. exfalso. apply H; reflexivity.
  - unfold binary_from_str. eapply good_bind; [apply good_read_str|]. intros o _. destruct o; [apply good_of_opt|apply good_fail].
  - unfold base64_from_str. eapply good_bind; [apply good_read_left|]. intros o _. destruct o; [apply good_of_opt|apply good_fail].
Qed.
Lemma good_fields : forall st x ds, (st = false -> forall kd, In kd ds -> snd kd <> PTime) -> goodP st (fields_from_str x ds) (fun _ => True).
Proof.
  intros st x ds. induction ds as [|d ds IH]; intro H; cbn [fields_from_str]; [apply good_ret; exact I|].
  eapply good_bind; [apply good_field; intros E; apply H; [exact E|left; reflexivity]|intros v _].
  eapply good_bind; [apply IH; intros E kd K; apply H; [exact E|right; exact K]|intros vs _]. apply good_ret. exact I.
Qed.
Lemma good_rdata : forall st x t, (st = false -> t <> TRRSIG) -> goodP st (rdata_from_sb x t) (fun _ => True).
Proof.
  intros st x t H. unfold rdata_from_sb. destruct (variant_of_type t) as [v|] eqn:E; [|apply good_fail].
  eapply good_bind; [apply good_fields|intros; apply good_ret; exact I].
  intros F kd K. specialize (H F). destruct t; cbn [variant_of_type] in E; try discriminate; apply Some_inj in E; subst v; cbn [text_schema In] in K;
  repeat (destruct K as [<-|K]; [discriminate|]); try contradiction.
Qed.
Lemma good_start : forall A st (m : M sbuf A) Q s, goodP st m Q -> asc st s -> safe (fst (m (mkSB s 0))).
Proof. intros A st m Q s H V. apply (H s 0); [lia|exact V]. Qed.
Lemma sb_new_ok : forall md s, md = Release \/ s <> [] -> sb_new md s = Ok (mkSB s 0).
Proof. intros md s H. unfold sb_new. destruct md; auto. destruct s; auto. destruct H; congruence. Qed.
Lemma rdata_from_str_safe : forall md x t s, (valid_utf8 s = true /\ t <> TRRSIG) \/ ascii s -> md = Release \/ s <> [] -> safe (rdata_from_str md x t s).
Proof.
  intros md x t s H N. unfold rdata_from_str. rewrite sb_new_ok by auto. cbn [rbind]. destruct H as [[V T]|A].
  - eapply (good_start _ false); [apply good_rdata; auto|]. split; [exact V|discriminate].
  - eapply (good_start _ true); [apply good_rdata; discriminate|]. split; [apply utf8_ascii; exact A|auto].
Qed.
(** * Trimming keeps valid texts valid *)
Lemma strip_prefix_inv : forall p l r, strip_prefix p l = Some r -> l = p ++ r.
Proof.
  induction p as [|a p IH]; intros l r H; cbn [strip_prefix] in H; [apply Some_inj in H; auto|]. destruct l as [|b l]; [discriminate|].
  destruct (N.eqb_spec a b) as [->|]; [|discriminate]. cbn [app]. f_equal. auto.
Qed.
Lemma strip_ws_inv : forall cs l r, strip_ws cs l = Some r -> exists c, In c cs /\ l = c ++ r.
Proof.
  induction cs as [|c cs IH]; intros l r H; cbn [strip_ws] in H; [discriminate|]. destruct (strip_prefix c l) as [l'|] eqn:E.
  - apply Some_inj in H. subst. exists c. split; [left; auto|apply strip_prefix_inv; auto].
  - destruct (IH _ _ H) as (c' & I & Q). exists c'. split; [right; auto|auto].
Qed.
Lemma ws_char_forms : forall c, In c ws_chars -> (forall l, valid_utf8 (c ++ l) = valid_utf8 l) /\ forall l, starts_char (c ++ l).
Proof.
  intros c H. cbn [ws_chars In] in H. repeat (destruct H as [<-|H]; [split; reflexivity|]). contradiction.
Qed.
Lemma trim_start_asc : forall st fuel l, asc st l -> asc st (trim_start fuel ws_chars l).
Proof.
  intros st. induction fuel as [|fuel IH]; intros l H; cbn [trim_start]; auto. destruct (strip_ws ws_chars l) as [r|] eqn:E; auto. apply IH.
  apply strip_ws_inv in E. destruct E as (c & I & ->). destruct H as [V A]. destruct (ws_char_forms c I) as [F _]. rewrite F in V. split; auto.
  intro S. specialize (A S). apply Forall_app in A. apply A.
Qed.
Lemma trim_end_asc : forall st fuel l, asc st (rev l) -> asc st (rev (trim_start fuel (map (@rev N) ws_chars) l)).
Proof.
  intros st. induction fuel as [|fuel IH]; intros l H; cbn [trim_start]; auto. destruct (strip_ws (map (@rev N) ws_chars) l) as [r|] eqn:E; auto. apply IH.
  apply strip_ws_inv in E. destruct E as (c & I & ->). apply in_map_iff in I. destruct I as (c0 & <- & I). rewrite rev_app_distr, rev_involutive in H.
  destruct (ws_char_forms c0 I) as [_ F]. specialize (F []). rewrite app_nil_r in F. exact (proj1 (asc_split st (rev r) c0 F H)).
Qed.
Lemma trim_asc : forall st s, asc st s -> asc st (trim s).
Proof. intros st s H. unfold trim. apply trim_end_asc. rewrite rev_involutive. apply trim_start_asc. exact H. Qed.
(** * RRset::from_str *)
Lemma type_rrsig : forall s, rrtype_from_str s = Ok TRRSIG -> spells (of_string s) (of_string (rrtype_str TRRSIG)).
Proof. intros s H. destruct (rrtype_only s _ H) as (m & I & E). cbn [iana_types In rrtype_u16] in I. repeat (destruct I as [I|I]; [try discriminate; injection I as <-; exact E|]). contradiction. Qed.
Lemma safe_ok : forall A (a : A), safe (Ok a).
Proof. split; discriminate. Qed.
Lemma good_rrset_strict : forall x, goodP true (rrset_from_sb x) (fun _ => True).
Proof.
  intro x. unfold rrset_from_sb.
  eapply good_bind; [apply good_sb_read, name_new_safe|intros n _]. eapply good_bind; [apply good_sb_read; intro; apply parse_uint_safe|intros ttl _].
  eapply good_bind; [apply good_sb_read; intro; apply safe_ok|intros cs _].
  assert (R : forall n t c, goodP true (let! rd := rdata_from_sb x t in ret (mkRRset n t c ttl [rd])) (fun _ => True)).
  { intros. eapply good_bind; [apply good_rdata; discriminate|intros; apply good_ret; exact I]. }
  destruct (rrclass_from_str (string_of cs)).
  - eapply good_bind; [apply good_sb_read; intro; apply find_code_safe|intros t _]. apply R.
  - eapply good_bind; [apply good_lift with (Q := fun _ => True); [apply find_code_safe|auto]|intros t _]. apply R.
  - eapply good_bind; [apply good_lift with (Q := fun _ => True); [apply find_code_safe|auto]|intros t _]. apply R.
  - eapply good_bind; [apply good_lift with (Q := fun _ => True); [apply find_code_safe|auto]|intros t _]. apply R.
Qed.
Lemma rrset_from_str_safe : forall md x s, ascii s -> md = Release \/ trim s <> [] -> safe (rrset_from_str md x s).
Proof.
  intros md x s A N. unfold rrset_from_str. rewrite sb_new_ok by auto. cbn [rbind]. eapply (good_start _ true); [apply good_rrset_strict|].
  apply trim_asc. split; [apply utf8_ascii; exact A|auto].
Qed.

(** * Where a panic can come from *)
Definition tracked (raw : list N) (pos : nat) : Prop := pos <= length raw /\ asc false (skipn pos raw) /\
  exists pre, forall l, words (skipn pos raw) l -> words raw (pre ++ l).
Lemma sb_read_cases : forall A (p : list N -> res A) raw pos, (forall s, safe (p s)) -> tracked raw pos ->
  fst (sb_read p (mkSB raw pos)) = Err \/
  exists w v pos', sb_read p (mkSB raw pos) = (Ok v, mkSB raw pos') /\ p w = Ok v /\ occurs w raw /\ tracked raw pos'.
Proof.
  intros A p raw pos Sf (P & V & pre & Tr). destruct (words_exist (skipn pos raw)) as (l & W). unfold sb_read, bind.
  remember (skipn pos raw) as s eqn:Es. symmetry in Es. destruct W as [s W|gap w rest l G Nw W E HW].
  - left. subst s. rewrite read_str_none by auto. reflexivity.
  - pose proof (asc_gap false gap _ G V) as V1.
    assert (St : starts_char rest). { destruct E as [->|(c & r & -> & Hc)]; cbn [starts_char]; auto. apply cont_big, is_ws_ascii; auto. }
    destruct (asc_split false w rest St V1) as [V2 V3].
    rewrite (read_str_word raw pos gap w rest); auto; [|destruct E as [->|(c & r & -> & Hc)]; cbn [ends_ws]; auto|apply V2].
    unfold lift. destruct (p w) as [v| | |] eqn:Ep; [|left; reflexivity|exfalso; destruct (Sf w); congruence|exfalso; destruct (Sf w); congruence].
    right. exists w, v, (pos + length gap + length w). split; [reflexivity|]. split; [exact Ep|].
    assert (Er : skipn (pos + length gap + length w) raw = rest). { apply skipn_after with (a := w). apply skipn_after with (a := gap). exact Es. }
    split; [|split; [|split]].
    + exists (pre ++ w :: l). split; [apply Tr; apply words_cons; auto|]. apply in_or_app. right. left. reflexivity.
    + eapply pos_le. { apply skipn_after with (a := gap). exact Es. } eapply pos_le; eauto.
    + rewrite Er. exact V3.
    + exists (pre ++ [w]). intros l' W'. rewrite Er in W'. rewrite <- app_assoc. cbn [app]. apply Tr. apply words_cons; auto.
Qed.
Lemma rrset_from_str_panic : forall md x s, valid_utf8 s = true -> ~ safe (rrset_from_str md x s) ->
  (md = Debug /\ trim s = []) \/ exists w, occurs w (trim s) /\ spells (of_string (string_of w)) (of_string "RRSIG"%string).
Proof.
  intros md x s V H. unfold rrset_from_str in H. destruct (list_eq_dec N.eq_dec (trim s) []) as [En|Nn].
  - destruct md; [left; auto|]. exfalso. apply H. rewrite En. cbn [sb_new rbind]. split; vm_compute; discriminate.
  - right. rewrite sb_new_ok in H by auto. cbn [rbind] in H.
    assert (Va : asc false (trim s)) by (apply trim_asc; split; [exact V|discriminate]). revert H Va Nn. generalize (trim s). clear. intros raw H Va Nn.
    assert (T0 : tracked raw 0). { split; [lia|]. split; [exact Va|]. exists []. auto. }
    unfold rrset_from_sb in H. unfold bind at 1 in H.
    destruct (sb_read_cases _ name_new raw 0 name_new_safe T0) as [E|(w1 & n & p1 & E & _ & _ & T1)].
    { destruct (sb_read name_new _) as [r b]. cbn [fst] in E. subst r. exfalso. apply H. split; discriminate. }
    rewrite E in H. clear E. unfold bind at 1 in H.
    destruct (sb_read_cases _ parse_u32 raw p1 (parse_uint_safe _) T1) as [E|(w2 & ttl & p2 & E & _ & _ & T2)].
    { destruct (sb_read parse_u32 _) as [r b]. cbn [fst] in E. subst r. exfalso. apply H. split; discriminate. }
    rewrite E in H. clear E. unfold bind at 1 in H.
    destruct (sb_read_cases _ (@Ok (list N)) raw p2 (@safe_ok _) T2) as [E|(w3 & cs & p3 & E & Ec & Oc & T3)].
    { destruct (sb_read (@Ok (list N)) _) as [r b]. cbn [fst] in E. subst r. exfalso. apply H. split; discriminate. }
    rewrite E in H. clear E. apply Ok_inj in Ec. subst cs.
    assert (Fin : forall w t c p, occurs w raw -> rrtype_from_str (string_of w) = Ok t -> tracked raw p ->
      ~ safe (fst ((let! rd := rdata_from_sb x t in ret (mkRRset n t c ttl [rd])) (mkSB raw p))) -> exists w, occurs w raw /\ spells (of_string (string_of w)) (of_string "RRSIG"%string)).
    { intros w t c p O Et (P & V & _) Ns. exists w. split; auto. destruct (rrtype_eqb t TRRSIG) eqn:Eq.
      - apply type_rrsig. destruct t; cbv in Eq; try discriminate. exact Et.
      - exfalso. apply Ns. assert (G : goodP false (let! rd := rdata_from_sb x t in ret (mkRRset n t c ttl [rd])) (fun _ => True)).
        { eapply good_bind; [apply good_rdata; intros _ ->; discriminate|intros; apply good_ret; exact I]. }
        apply (G raw p P V). }
    assert (Alt : ~ safe (fst ((let! t := lift (rrtype_from_str (string_of w3)) in let! rd := rdata_from_sb x t in ret (mkRRset n t CIN ttl [rd])) (mkSB raw p3))) ->
      exists w, occurs w raw /\ spells (of_string (string_of w)) (of_string "RRSIG"%string)).
    { intro Ns. unfold bind at 1, lift in Ns. destruct (rrtype_from_str (string_of w3)) as [t| | |] eqn:Et.
      - eapply Fin; eauto.
      - exfalso. apply Ns. split; discriminate.
      - exfalso. destruct (proj1 (find_code_safe (string_of w3))). congruence.
      - exfalso. destruct (proj1 (find_code_safe (string_of w3))). congruence. }
    destruct (rrclass_from_str (string_of w3)) as [cls| | |]; auto.
    unfold bind at 1 in H.
    destruct (sb_read_cases _ (fun s => rrtype_from_str (string_of s)) raw p3 (fun s => proj1 (find_code_safe (string_of s))) T3) as [E|(w4 & t & p4 & E & Et & Ot & T4)].
    { destruct (sb_read (fun s => rrtype_from_str (string_of s)) _) as [r b]. cbn [fst] in E. subst r. exfalso. apply H. split; discriminate. }
    rewrite E in H. eapply Fin; eauto.
Qed.
(** * RRset::from_strs *)
Lemma from_str_one : forall md x s rs, rrset_from_str md x s = Ok rs -> exists d, rs_rdatas rs = [d].
Proof.
  intros md x s rs H. unfold rrset_from_str in H. apply rbind_ok in H. destruct H as (b & _ & H).
  destruct (rrset_from_sb x b) as [r b'] eqn:E. cbn [fst] in H. subst r. unfold rrset_from_sb in E.
  apply bind_ok in E. destruct E as (n & b1 & _ & E). apply bind_ok in E. destruct E as (ttl & b2 & _ & E). apply bind_ok in E. destruct E as (cs & b3 & _ & E).
  assert (R : forall t c b, (let! rd := rdata_from_sb x t in ret (mkRRset n t c ttl [rd])) b = (Ok rs, b') -> exists d, rs_rdatas rs = [d]).
  { intros t c b0 Q. apply bind_ok in Q. destruct Q as (rd & b4 & _ & Q). unfold ret in Q. apply pair_inj in Q. destruct Q as [Q _]. apply Ok_inj in Q. subst rs. exists rd. reflexivity. }
  destruct (rrclass_from_str (string_of cs)); apply bind_ok in E; destruct E as (t & b4 & _ & E); eapply R; exact E.
Qed.
Lemma from_strs_ok : forall md x ss rs, ss <> [] -> rrset_from_strs md x ss = Ok rs <->
  exists sets r0, Forall2 (fun s r => rrset_from_str md x s = Ok r) ss sets /\ nth_error sets 0 = Some r0 /\
    Forall (fun r => rs_type r = rs_type r0) sets /\ (length ss > 1 -> rs_type r0 <> TOPT) /\
    rs = mkRRset (rs_name r0) (rs_type r0) (rs_class r0) (rs_ttl r0) (flat_map rs_rdatas sets).
Proof.
  intros md x ss rs Nn. destruct ss as [|s0 rest]; [congruence|]. clear Nn. cbn [rrset_from_strs].
  assert (TE : forall a b, rrtype_eqb a b = true <-> a = b).
  { intros a b. split; [|intros ->; destruct b; cbn; try reflexivity; apply N.eqb_refl].
    destruct a, b; cbn; intro Q; try discriminate; try reflexivity. apply N.eqb_eq in Q. subst. reflexivity. }
  set (f := fun rs s => let? cur := rrset_from_str md x s in
            if negb (rrtype_eqb (rs_type rs) (rs_type cur)) then Err
            else let? d := idx (rs_rdatas cur) 0 in Ok (mkRRset (rs_name rs) (rs_type rs) (rs_class rs) (rs_ttl rs) (rs_rdatas rs ++ [d]))).
  assert (F : forall l a, rfold f l a = Ok rs <-> exists sets, Forall2 (fun s r => rrset_from_str md x s = Ok r) l sets /\ Forall (fun r => rs_type r = rs_type a) sets /\
      rs = mkRRset (rs_name a) (rs_type a) (rs_class a) (rs_ttl a) (rs_rdatas a ++ flat_map rs_rdatas sets)).
  { induction l as [|s l IH]; intro a; cbn [rfold].
    - split.
      + intro E. apply Ok_inj in E. subst a. exists []. cbn [flat_map]. rewrite app_nil_r. repeat split; try constructor. destruct rs; reflexivity.
      + intros (sets & F2 & _ & ->). inversion F2; subst. cbn [flat_map]. rewrite app_nil_r. destruct a; reflexivity.
    - split.
      + intro E. apply rbind_ok in E. destruct E as (a' & E1 & E2). unfold f in E1. apply rbind_ok in E1. destruct E1 as (cur & Ec & E1).
        destruct (rrtype_eqb (rs_type a) (rs_type cur)) eqn:Et; cbn [negb] in E1; [|discriminate]. apply TE in Et.
        destruct (from_str_one _ _ _ _ Ec) as (d & Ed). rewrite Ed in E1. unfold idx in E1. cbn [nth_error rbind] in E1. apply Ok_inj in E1. subst a'.
        apply IH in E2. cbn [rs_name rs_type rs_class rs_ttl rs_rdatas] in E2. destruct E2 as (sets & F2 & Ft & ->). exists (cur :: sets).
        split; [constructor; auto|]. split; [constructor; auto|]. cbn [flat_map]. rewrite Ed, <- app_assoc. reflexivity.
      + intros (sets & F2 & Ft & E). inversion F2 as [|? cur ? sets' Ec F3]; subst. inversion Ft as [|? ? Et Ft']; subst.
        destruct (from_str_one _ _ _ _ Ec) as (d & Ed).
        assert (X : f a s = Ok (mkRRset (rs_name a) (rs_type a) (rs_class a) (rs_ttl a) (rs_rdatas a ++ [d]))).
        { unfold f. rewrite Ec. cbn [rbind]. rewrite (proj2 (TE _ _) (eq_sym Et)). cbn [negb]. rewrite Ed. reflexivity. }
        rewrite X. cbn [rbind]. apply IH. exists sets'. cbn [rs_name rs_type rs_class rs_ttl rs_rdatas]. split; [exact F3|]. split; [exact Ft'|].
        cbn [flat_map]. rewrite Ed, <- app_assoc. reflexivity. }
  split.
  - intro H. apply rbind_ok in H. destruct H as (r0 & E0 & H). destruct rest as [|s1 rest].
    + apply Ok_inj in H. subst rs. exists [r0], r0. split; [repeat constructor; exact E0|]. split; [reflexivity|]. split; [repeat constructor|]. split; [cbn [length]; lia|].
      cbn [flat_map]. rewrite app_nil_r. destruct r0; reflexivity.
    + destruct (rrtype_eqb (rs_type r0) TOPT) eqn:Eo; [discriminate|]. apply F in H. destruct H as (sets & F2 & Ft & ->). exists (r0 :: sets), r0.
      split; [constructor; auto|]. split; [reflexivity|]. split; [constructor; auto|]. split; [|reflexivity].
      intros _ Q. apply TE in Q. congruence.
  - intros (sets & r0 & F2 & E0 & Ft & No & ->). inversion F2 as [|? r1 ? sets' Er F3]; subst. cbn [nth_error] in E0. apply Some_inj in E0. subst r1.
    rewrite Er. cbn [rbind]. destruct rest as [|s1 rest].
    + inversion F3; subst. cbn [flat_map]. rewrite app_nil_r. destruct r0; reflexivity.
    + destruct (rrtype_eqb (rs_type r0) TOPT) eqn:Eo; [apply TE in Eo; exfalso; apply No; [cbn [length]; lia|exact Eo]|].
      inversion Ft; subst. apply F. exists sets'. auto.
Qed.
(** * Display is total *)
Lemma field_display_total : forall x k d v, wf_field k v -> compat k d = true -> exists s, field_to_str x d v = Ok s.
Proof.
  intros x k d v W C. destruct k, v; cbn [wf_field] in W; try contradiction; destruct d; cbn [compat] in C; try discriminate; cbn [field_to_str]; eauto.
  - destruct W as (ls & W & ->). exists (show_name ls). apply name_display_spec; auto.
  - eexists. apply to_hex_text. apply W.
  - eexists. apply to_hex_text. exact W.
Qed.
Lemma fields_display_total : forall x ds vs, Forall2 wf_field (map fst ds) vs -> (forall k d, In (k, d) ds -> compat k d = true) -> exists s, fields_to_str x ds vs = Ok s.
Proof.
  intros x. induction ds as [|[k d] ds IH]; intros vs F C; [exists []; reflexivity|]. cbn [map fst] in F. inversion F as [|? v ? vs' F1 F2]; subst.
  destruct (field_display_total x k d v F1 (C k d (or_introl eq_refl))) as (a & A). destruct ds as [|d2 ds]; [exists a; exact A|].
  destruct (IH vs' F2 ltac:(intros; apply C; right; assumption)) as (b & B).
  exists (a ++ [32%N] ++ b). change (fields_to_str x ((k, d) :: d2 :: ds) (v :: vs')) with (let? a := field_to_str x d v in let? b := fields_to_str x (d2 :: ds) vs' in Ok (a ++ [32%N] ++ b)).
  rewrite A, B. reflexivity.
Qed.
Lemma rrset_display_total : forall x rs, wf_name (rs_name rs) -> Forall (wf_rdata (rs_type rs)) (rs_rdatas rs) -> exists s, rrset_display x rs = Ok s.
Proof.
  intros x rs (ls & W & E) F. unfold rrset_display. pose proof (rrset_header_ok rs ls W E) as Hh. revert Hh. generalize (rrset_header rs). intros h Hh.
  assert (G : forall acc, exists s, rfold (fun acc rd => let? h := h in let? r := rdata_display x rd in Ok (acc ++ h ++ [9%N] ++ r ++ [10%N])) (rs_rdatas rs) acc = Ok s).
  { revert F. generalize (rs_rdatas rs). induction l as [|rd l IH]; intros F acc; cbn [rfold]; [eauto|]. inversion F as [|? ? (D & ks & L & Fw) F']; subst h; subst.
    destruct (schema_facts _ _ ks D L) as (Ek & _ & _ & _ & C).
    destruct (fields_display_total x (text_schema (rd_var rd)) (rd_fields rd)) as (s & S1). { rewrite Ek. exact Fw. } { intros k d I. apply C. exact I. }
    unfold rdata_display. rewrite S1. cbn [rbind]. apply IH. exact F'. }
  apply G.
Qed.

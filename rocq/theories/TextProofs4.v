(** Round trip of records in text form. *)
From Coq Require String Ascii.
From Verif Require Import Base BaseLemmas NameModel RenderModel CodesModel RDataModel MsgModel TextModel SpecName SpecBuf SpecCodes SpecMsg SpecText
  NameTextProofs NameTextProofs2 CodesProofs TextProofs TextProofs2 TextProofs3.
Open Scope list_scope.
Open Scope nat_scope.

Definition vis (c : N) : Prop := (33 <= c <= 126)%N.
Definition good_text (s : list N) : Prop :=
  Forall (fun c => 32 <= c <= 126)%N s /\ (exists c r, s = c :: r /\ vis c) /\ (exists r c, s = r ++ [c] /\ vis c).
Lemma word_good : forall s, word_text s -> good_text s.
Proof.
  intros s [Nn F]. split; [eapply Forall_impl; [|exact F]; cbn beta; intros; lia|]. split.
  - destruct s as [|c r]; [congruence|]. exists c, r. split; auto. inversion F; auto.
  - destruct (exists_last Nn) as (r & c & ->). exists r, c. split; auto. apply Forall_app in F. destruct F as [_ F]. inversion F; auto.
Qed.
Lemma vis_nws : forall c, vis c -> is_ws c = false.
Proof. unfold vis, is_ws. intros c H. rewrite !orb_false_iff, !N.eqb_neq. lia. Qed.
Lemma word_nws : forall s, word_text s -> forallb (fun c => negb (is_ws c)) s = true.
Proof. intros s [_ F]. apply forallb_forall. rewrite Forall_forall in F. intros c I. rewrite vis_nws; auto. apply F; auto. Qed.
Lemma word_utf8 : forall s, word_text s -> valid_utf8 s = true.
Proof. intros s [_ F]. apply utf8_ascii. eapply Forall_impl; [|exact F]. cbn beta. intros. lia. Qed.
Lemma sb_read_word : forall A (p : list N -> res A) raw pos gap w rest, skipn pos raw = gap ++ w ++ rest -> pos <= length raw -> forallb is_ws gap = true ->
  word_text w -> ends_ws rest -> sb_read p (mkSB raw pos) = (p w, mkSB raw (pos + length gap + length w)).
Proof.
  intros A p raw pos gap w rest H P G W E. unfold sb_read, bind.
  rewrite (read_str_word raw pos gap w rest); auto; [destruct W; auto|apply word_nws; auto|apply word_utf8; auto].
Qed.
Lemma dec_word : forall n, (n < 4294967296)%N -> word_text (dec n).
Proof.
  intros n H. destruct (dec_spec n H) as ((C1 & C2 & C3) & V). split; auto. eapply Forall_impl; [|exact C2]. unfold is_dec. cbn beta. intros. lia.
Qed.
Lemma show_word : forall ls, wf_labels ls -> word_text (show_name ls).
Proof.
  intros ls W. split.
  - unfold show_name. destruct ls; [discriminate|]. cbn [flat_map]. destruct (show_label l); discriminate.
  - eapply Forall_impl; [|apply show_name_ascii; exact W]. cbn beta. intros. lia.
Qed.
Lemma name_new_show : forall ls, wf_labels ls -> plain_labels ls -> name_new (show_name ls) = Ok (name_of ls).
Proof. intros ls W P. destruct (show_plain_text ls W P) as (NB & TL & E). rewrite <- E at 2. apply name_new_plain; auto. Qed.
Lemma string_of_of : forall s, string_of (of_string s) = s.
Proof.
  intro s. unfold string_of, of_string. rewrite map_map. rewrite (map_ext _ (fun a => a)) by apply Ascii.ascii_N_embedding.
  rewrite map_id. apply String.string_of_list_ascii_of_string.
Qed.
Lemma type_word : forall t, readable_type t -> word_text (of_string (rrtype_str t)) /\ rrtype_from_str (string_of (of_string (rrtype_str t))) = Ok t /\
  mnemonic iana_types (rrtype_u16 t) (of_string (rrtype_str t)).
Proof.
  intros t [H1 H2]. split; [|split].
  - destruct t; try (split; [discriminate|repeat constructor; vm_compute; congruence]).
  - rewrite string_of_of. apply rrtype_text; auto. reflexivity.
  - exists (rrtype_str t). split; auto. destruct t; try (cbv; tauto); try congruence.
Qed.
Lemma class_word : forall t, (forall v, t <> CUnknown v) -> word_text (of_string (rrclass_str t)) /\ rrclass_from_str (string_of (of_string (rrclass_str t))) = Ok t /\
  mnemonic iana_classes (rrclass_u16 t) (of_string (rrclass_str t)).
Proof.
  intros t H2. split; [|split].
  - destruct t; try (split; [discriminate|repeat constructor; vm_compute; congruence]).
  - rewrite string_of_of. apply rrclass_text; auto. reflexivity.
  - exists (rrclass_str t). split; auto. destruct t; try (cbv; tauto); try congruence.
Qed.
(** * Padded numbers *)
Lemma pad_spec : forall k n, (n < 10 ^ N.of_nat k)%N -> length (pad k n) = k /\ Forall is_dec (pad k n) /\ dec_val (pad k n) = n.
Proof.
  induction k as [|k IH]; intros n H; cbn [pad].
  - cbn in H. assert (n = 0%N) by lia. subst. repeat split; constructor.
  - assert (M : (n mod 10 < 10)%N) by (apply N.mod_lt; discriminate).
    destruct (IH (n / 10)%N) as (L & F & V).
    { apply N.div_lt_upper_bound; [discriminate|]. rewrite <- N.pow_succ_r'. replace (N.succ (N.of_nat k)) with (N.of_nat (S k)) by lia. exact H. }
    split; [rewrite app_length, L; cbn [length]; lia|]. split; [apply Forall_app; split; auto; constructor; [apply is_dec_add; exact M|constructor]|].
    unfold dec_val in *. rewrite dvf_app, V. cbn [dec_val_from]. unfold digit_val. pose proof (N.div_mod n 10 ltac:(discriminate)) as DM.
    revert DM. clear. generalize (n / 10)%N (n mod 10)%N. intros. lia.
Qed.
Lemma parse_pad : forall bound k n, (n < 10 ^ N.of_nat k)%N -> k <> 0 -> (n < bound)%N -> parse_uint bound (pad k n) = Ok n.
Proof.
  intros bound k n H K B. destruct (pad_spec k n H) as (L & F & V). apply parse_uint_iff; [lia|]. split; auto.
  exists (pad k n). repeat split; auto. intro E. rewrite E in L. cbn [length] in L. lia.
Qed.
Lemma parse_i32_dec : forall s n, s <> [] -> Forall is_dec s -> parse_uint 2147483648 s = Ok n -> parse_i32 s = Ok (Z.of_N n).
Proof.
  intros s n Nn F H. unfold parse_i32. destruct s as [|c [|c2 r]]; [congruence| |].
  - rewrite H. reflexivity.
  - inversion F as [|? ? Hc]; subst. replace (c =? 45)%N with false by (symmetry; apply N.eqb_neq; unfold is_dec in Hc; lia).
    rewrite H. reflexivity.
Qed.
Lemma boundary_ascii : forall s i, Forall (fun c => c < 128)%N s -> i <= length s -> boundary s i = true.
Proof.
  intros s i F L. unfold boundary. destruct (nth_error s i) as [c|] eqn:E.
  - apply nth_error_In in E. rewrite Forall_forall in F. rewrite cont_big by (apply F; exact E). reflexivity.
  - apply nth_error_None in E. apply Nat.eqb_eq. lia.
Qed.
Lemma str_slice_mid : forall (a b c : list N) s e, Forall (fun c => c < 128)%N (a ++ b ++ c) -> s = length a -> e = length a + length b -> str_slice (a ++ b ++ c) s e = Ok b.
Proof.
  intros a b c s e F -> ->. unfold str_slice. rewrite !boundary_ascii by (auto; rewrite !app_length; lia).
  rewrite (proj2 (Nat.leb_le _ _)) by lia. cbn [andb]. apply slice_mid; reflexivity.
Qed.
Lemma dec_ascii : forall s, Forall is_dec s -> Forall (fun c => c < 128)%N s.
Proof. intros s F. eapply Forall_impl; [|exact F]. unfold is_dec. cbn beta. intros. lia. Qed.
Lemma time_word : forall x n, ext_ok x -> (n < 4294967296)%N -> word_text (x_time_str x n).
Proof.
  intros x n X H. destruct (eo_time x X n H) as (y & mo & d & h & mi & s & (By & Bmo & Bd & Bh & Bmi & Bs) & -> & _).
  destruct (pad_spec 4 y) as (L1 & F1 & _); [exact By|]. destruct (pad_spec 2 mo) as (_ & F2 & _); [exact Bmo|]. destruct (pad_spec 2 d) as (_ & F3 & _); [exact Bd|].
  destruct (pad_spec 2 h) as (_ & F4 & _); [exact Bh|]. destruct (pad_spec 2 mi) as (_ & F5 & _); [exact Bmi|]. destruct (pad_spec 2 s) as (_ & F6 & _); [exact Bs|].
  split.
  - destruct (pad 4 y); [discriminate|]. discriminate.
  - assert (F : Forall is_dec (pad 4 y ++ pad 2 mo ++ pad 2 d ++ pad 2 h ++ pad 2 mi ++ pad 2 s)) by (repeat (apply Forall_app; split; auto)).
    eapply Forall_impl; [|exact F]. unfold is_dec. cbn beta. intros. lia.
Qed.
Lemma time_read : forall x n raw pos gap rest, ext_ok x -> (n < 4294967296)%N -> skipn pos raw = gap ++ x_time_str x n ++ rest -> pos <= length raw -> forallb is_ws gap = true -> ends_ws rest ->
  timestamp_from_str x (mkSB raw pos) = (Ok n, mkSB raw (pos + length gap + length (x_time_str x n))).
Proof.
  intros x n raw pos gap rest X H Sk P G E. pose proof (time_word x n X H) as W. unfold timestamp_from_str. unfold bind at 1.
  rewrite (read_str_word raw pos gap (x_time_str x n) rest); auto; [|destruct W; auto|apply word_nws; auto|apply word_utf8; auto].
  set (b := mkSB _ _). destruct (eo_time x X n H) as (y & mo & d & h & mi & s & (By & Bmo & Bd & Bh & Bmi & Bs) & Et & Xd & Xt & Xu). rewrite Et.
  destruct (pad_spec 4 y) as (L1 & F1 & _); [exact By|]. destruct (pad_spec 2 mo) as (L2 & F2 & _); [exact Bmo|]. destruct (pad_spec 2 d) as (L3 & F3 & _); [exact Bd|].
  destruct (pad_spec 2 h) as (L4 & F4 & _); [exact Bh|]. destruct (pad_spec 2 mi) as (L5 & F5 & _); [exact Bmi|]. destruct (pad_spec 2 s) as (L6 & F6 & _); [exact Bs|].
  assert (P1 : parse_i32 (pad 4 y) = Ok (Z.of_N y)).
  { apply parse_i32_dec; auto; [intro Q; rewrite Q in L1; discriminate|]. apply parse_pad; [exact By|discriminate|lia]. }
  assert (P2 : parse_u8 (pad 2 mo) = Ok mo) by (apply parse_pad; [exact Bmo|discriminate|lia]).
  assert (P3 : parse_u8 (pad 2 d) = Ok d) by (apply parse_pad; [exact Bd|discriminate|lia]).
  assert (P4 : parse_u8 (pad 2 h) = Ok h) by (apply parse_pad; [exact Bh|discriminate|lia]).
  assert (P5 : parse_u8 (pad 2 mi) = Ok mi) by (apply parse_pad; [exact Bmi|discriminate|lia]).
  assert (P6 : parse_u8 (pad 2 s) = Ok s) by (apply parse_pad; [exact Bs|discriminate|lia]).
  clear By Bmo Bd Bh Bmi Bs Et W Sk.
  set (ty := pad 4 y) in *. set (tmo := pad 2 mo) in *. set (td := pad 2 d) in *. set (th := pad 2 h) in *. set (tmi := pad 2 mi) in *. set (ts := pad 2 s) in *.
  assert (F : Forall (fun c => c < 128)%N (ty ++ tmo ++ td ++ th ++ tmi ++ ts)) by (apply dec_ascii; repeat (apply Forall_app; split; auto)).
  assert (S1 : str_slice (ty ++ tmo ++ td ++ th ++ tmi ++ ts) 0 4 = Ok ty).
  { apply (str_slice_mid [] ty (tmo ++ td ++ th ++ tmi ++ ts)); auto. }
  assert (S2 : str_slice (ty ++ tmo ++ td ++ th ++ tmi ++ ts) 4 6 = Ok tmo).
  { apply (str_slice_mid ty tmo (td ++ th ++ tmi ++ ts)); auto. }
  assert (S3 : str_slice (ty ++ tmo ++ td ++ th ++ tmi ++ ts) 6 8 = Ok td).
  { replace (ty ++ tmo ++ td ++ th ++ tmi ++ ts) with ((ty ++ tmo) ++ td ++ th ++ tmi ++ ts) in * by (rewrite <- !app_assoc; reflexivity).
    apply (str_slice_mid (ty ++ tmo) td (th ++ tmi ++ ts)); auto; rewrite app_length; lia. }
  assert (S4 : str_slice (ty ++ tmo ++ td ++ th ++ tmi ++ ts) 8 10 = Ok th).
  { replace (ty ++ tmo ++ td ++ th ++ tmi ++ ts) with ((ty ++ tmo ++ td) ++ th ++ tmi ++ ts) in * by (rewrite <- !app_assoc; reflexivity).
    apply (str_slice_mid (ty ++ tmo ++ td) th (tmi ++ ts)); auto; rewrite !app_length; lia. }
  assert (S5 : str_slice (ty ++ tmo ++ td ++ th ++ tmi ++ ts) 10 12 = Ok tmi).
  { replace (ty ++ tmo ++ td ++ th ++ tmi ++ ts) with ((ty ++ tmo ++ td ++ th) ++ tmi ++ ts) in * by (rewrite <- !app_assoc; reflexivity).
    apply (str_slice_mid (ty ++ tmo ++ td ++ th) tmi ts); auto; rewrite !app_length; lia. }
  assert (S6 : str_slice (ty ++ tmo ++ td ++ th ++ tmi ++ ts) 12 14 = Ok ts).
  { replace (ty ++ tmo ++ td ++ th ++ tmi ++ ts) with ((ty ++ tmo ++ td ++ th ++ tmi) ++ ts ++ []) in * by (rewrite app_nil_r, <- !app_assoc; reflexivity).
    apply (str_slice_mid (ty ++ tmo ++ td ++ th ++ tmi) ts []); auto; rewrite !app_length; lia. }
  rewrite (proj2 (Nat.eqb_eq _ 14)) by (rewrite !app_length; lia). cbn [negb].
  rewrite S1, S2, S3, S4, S5, S6. cbn [rbind]. rewrite P1, P2, P3, P4, P5, P6.
  unfold bind, lift, ensure, ret. rewrite Xd, Xt, Xu. f_equal. f_equal. rewrite Z.mod_small by lia. apply N2Z.id.
Qed.
(** * White space removal *)
Lemma strip_ws_vis : forall c l, vis c -> strip_ws ws_chars (c :: l) = None.
Proof.
  intros c l V. unfold ws_chars. cbn [strip_ws strip_prefix].
  repeat match goal with |- context [(?n =? c)%N] => replace (n =? c)%N with false by (symmetry; apply N.eqb_neq; unfold vis in V; lia) end.
  reflexivity.
Qed.
Lemma remove_ws_vis : forall s fuel, Forall vis s -> length s <= fuel -> remove_ws fuel s = s.
Proof.
  induction s as [|c s IH]; intros fuel F L; [destruct fuel; reflexivity|]. destruct fuel as [|fuel]; [cbn [length] in L; lia|].
  inversion F; subst. cbn [remove_ws]. rewrite strip_ws_vis by auto. f_equal. apply IH; auto. cbn [length] in L. lia.
Qed.
Lemma strip_ws_ws : forall c l, is_ws c = true -> strip_ws ws_chars (c :: l) = Some l.
Proof.
  intros c l V. unfold is_ws in V. rewrite !orb_true_iff, !N.eqb_eq in V. destruct V as [[[[->| ->]| ->]| ->]| ->]; reflexivity.
Qed.
Lemma remove_ws_gap : forall gap s fuel, forallb is_ws gap = true -> Forall vis s -> length gap + length s <= fuel -> remove_ws fuel (gap ++ s) = s.
Proof.
  induction gap as [|c gap IH]; intros s fuel G F L; [apply remove_ws_vis; auto|]. destruct fuel as [|fuel]; [cbn [length] in L; lia|].
  cbn [forallb] in G. apply andb_true_iff in G. destruct G as [G1 G2]. cbn [app remove_ws]. rewrite strip_ws_ws by auto. apply IH; auto. cbn [length] in L. lia.
Qed.
(** * Fields *)
Definition last_only (d : disp) : bool := match d with PText | PB64 => true | _ => false end.
Definition compat (k : codec) (d : disp) : bool :=
  match k, d with
  | KIpv4, PIpv4 | KIpv6, PIpv6 | KName, PName | KU8, PU8 | KU16, PU16 | KU32, PU32 | KU32, PTime | KType, PType | KText, PText
  | KByteBin, PString | KByteBin, PHex | KByteBin, PB64 | KBin, PString | KBin, PHex | KBin, PB64 => true
  | _, _ => false
  end.
Definition pres_of (d : disp) : pres :=
  match d with
  | PIpv4 => FAddr4 | PIpv6 => FAddr6 | PName => FName | PU8 | PU16 | PU32 => FNum | PType => FType | PText => FStrings
  | PString => FString | PTime => FTime | PHex => FHex | PB64 => FBase64
  end.
Definition field_rt (x : ext) (kd : codec * disp) (v : fval) : Prop :=
  exists s, field_to_str x (snd kd) v = Ok s /\ good_text s /\ presented x (pres_of (snd kd)) v s /\
  forall raw pos gap rest, skipn pos raw = gap ++ s ++ rest -> pos <= length raw -> forallb is_ws gap = true -> ends_ws rest ->
    (last_only (snd kd) = true -> rest = []) ->
    field_from_str x kd (mkSB raw pos) = (Ok v, mkSB raw (pos + length gap + length s)).
Lemma quoted_good : forall d, bytes d -> good_text (string_to_str d).
Proof.
  intros d B. split; [apply string_to_str_ascii; auto|]. unfold string_to_str. split.
  - cbn [app]. exists 34%N, (flat_map escape_char d ++ [34%N]). split; auto. unfold vis. lia.
  - exists ([34%N] ++ flat_map escape_char d), 34%N. rewrite <- app_assoc. split; auto. unfold vis. lia.
Qed.
Lemma text_good : forall l, l <> [] -> Forall bytes l -> good_text (text_to_str l).
Proof.
  intros l Nn F. split; [|split].
  - unfold text_to_str. induction F as [|d l B F IH]; [congruence|]. cbn [flat_map]. apply Forall_app. split; [apply string_to_str_ascii; auto|].
    destruct l; [constructor|]. apply IH. discriminate.
  - destruct F as [|d l B F]; [congruence|]. unfold text_to_str. cbn [flat_map]. destruct (quoted_good d B) as (_ & (c & r & -> & V) & _). cbn [app]. eauto.
  - destruct (exists_last Nn) as (l' & d & ->). apply Forall_app in F. destruct F as [_ F]. inversion F as [|? ? B _]; subst.
    unfold text_to_str. rewrite flat_map_app. cbn [flat_map]. rewrite app_nil_r. destruct (quoted_good d B) as (_ & _ & (r & c & -> & V)). rewrite app_assoc. eauto.
Qed.
Lemma hex_text_word : forall d, bytes d -> d <> [] -> word_text (hex_text d).
Proof. intros d B Nn. split; [destruct d; [congruence|discriminate]|apply hex_text_ascii; auto]. Qed.
Lemma hex_text_values : forall d, bytes d -> map hex_value (hex_text d) = map Some (flat_map nibbles d).
Proof.
  induction 1 as [|b d B D IH]; [reflexivity|]. cbn [hex_text flat_map app map]. fold (hex_text d).
  destruct (nib_lt b B) as [L1 L2]. destruct (chars_idx _ L1) as (_ & -> & _). destruct (chars_idx _ L2) as (_ & -> & _). rewrite IH. reflexivity.
Qed.
Lemma field_ok : forall x t k d v, ext_ok x -> text_field t v -> same_kind k v -> compat k d = true -> (d = PString -> quotes_binary t) -> field_rt x (k, d) v.
Proof.
  intros x t k d v X T K C Q. unfold field_rt. cbn [snd].
  destruct v as [o|o|n|u|u|u|ty|l|b|b]; destruct k; cbn [same_kind] in K; try contradiction; cbn [text_field] in T; destruct d; cbn [compat] in C; try discriminate; cbn [field_to_str pres_of presented last_only].
  - destruct T as [L B]. destruct (eo_ip4 x X o L B) as [W Pa]. eexists. split; [reflexivity|]. split; [apply word_good; exact W|]. split; [reflexivity|].
    intros raw pos gap rest Sk P G E _. unfold field_from_str, snd, bind. rewrite (sb_read_word _ _ raw pos gap _ rest Sk P G W E). rewrite Pa. reflexivity.
  - destruct T as [L B]. destruct (eo_ip6 x X o L B) as [W Pa]. eexists. split; [reflexivity|]. split; [apply word_good; exact W|]. split; [reflexivity|].
    intros raw pos gap rest Sk P G E _. unfold field_from_str, snd, bind. rewrite (sb_read_word _ _ raw pos gap _ rest Sk P G W E). rewrite Pa. reflexivity.
  - destruct T as (ls & Wf & Pl & ->). pose proof (show_word ls Wf) as W. exists (show_name ls). split; [apply name_display_spec; auto|]. split; [apply word_good; exact W|]. split; [exists ls; auto|].
    intros raw pos gap rest Sk P G E _. unfold field_from_str, snd, bind. rewrite (sb_read_word _ _ raw pos gap _ rest Sk P G W E). rewrite name_new_show by auto. reflexivity.
  - assert (U : (u < 4294967296)%N) by lia. pose proof (dec_word u U) as W. eexists. split; [reflexivity|]. split; [apply word_good; exact W|]. split; [apply dec_spec; exact U|].
    intros raw pos gap rest Sk P G E _. unfold field_from_str, snd, bind. rewrite (sb_read_word _ _ raw pos gap _ rest Sk P G W E). unfold parse_u8. rewrite parse_dec by auto. reflexivity.
  - assert (U : (u < 4294967296)%N) by lia. pose proof (dec_word u U) as W. eexists. split; [reflexivity|]. split; [apply word_good; exact W|]. split; [apply dec_spec; exact U|].
    intros raw pos gap rest Sk P G E _. unfold field_from_str, snd, bind. rewrite (sb_read_word _ _ raw pos gap _ rest Sk P G W E). unfold parse_u16. rewrite parse_dec by auto. reflexivity.
  - pose proof (dec_word u T) as W. eexists. split; [reflexivity|]. split; [apply word_good; exact W|]. split; [apply dec_spec; exact T|].
    intros raw pos gap rest Sk P G E _. unfold field_from_str, snd, bind. rewrite (sb_read_word _ _ raw pos gap _ rest Sk P G W E). unfold parse_u32. rewrite parse_dec by auto. reflexivity.
  - eexists. split; [reflexivity|]. split; [apply word_good, time_word; auto|]. split; [reflexivity|].
    intros raw pos gap rest Sk P G E _. unfold field_from_str, snd, bind. rewrite (time_read x u raw pos gap rest X T Sk P G E). reflexivity.
  - destruct (type_word ty T) as (W & Pa & Mn). eexists. split; [reflexivity|]. split; [apply word_good; exact W|]. split; [exact Mn|].
    intros raw pos gap rest Sk P G E _. unfold field_from_str, snd, bind. rewrite (sb_read_word _ _ raw pos gap _ rest Sk P G W E). rewrite Pa. reflexivity.
  - destruct T as [Nn F]. assert (F' : Forall bytes l) by (eapply Forall_impl; [|exact F]; cbn beta; intros; tauto).
    pose proof (text_good l Nn F') as Gt. pose proof (text_to_str_texts l Nn F) as Tx. eexists. split; [reflexivity|]. split; [exact Gt|].
    split; [split; [exact Tx|destruct Gt as [Gt _]; rewrite Forall_forall in Gt; exact Gt]|].
    intros raw pos gap rest Sk P G E Rl. specialize (Rl eq_refl). subst rest. rewrite app_nil_r in Sk. unfold field_from_str, snd, bind.
    assert (Tx2 : texts (skipn pos raw) l).
    { rewrite Sk. generalize dependent (text_to_str l). clear - G. intros tt0 _ Tx _. destruct Tx as [g t d G2 Q2 L2|g t d r ds G2 Q2 L2 T2].
      - rewrite app_assoc. apply texts_one; auto. rewrite forallb_app, G, G2. reflexivity.
      - rewrite app_assoc. apply texts_more; auto. rewrite forallb_app, G, G2. reflexivity. }
    rewrite (proj2 (read_text_iff raw pos l _ P) (conj Tx2 eq_refl)). unfold ret. f_equal. f_equal.
    apply (f_equal (@length _)) in Sk. rewrite skipn_length, app_length in Sk. lia.
  - destruct T as (B & Nn & Lq). specialize (Lq (Q eq_refl)). eexists. split; [reflexivity|]. split; [apply quoted_good; auto|].
    split; [exists (flat_map escape_char b); split; [reflexivity|split; [apply escape_all_quoted; auto|pose proof (string_to_str_ascii b B) as A; rewrite Forall_forall in A; exact A]]|].
    intros raw pos gap rest Sk P G E _. unfold field_from_str, snd, fst, bind. rewrite (string_round_trip raw pos gap b rest Sk P G B); [reflexivity|].
    destruct b; [congruence|cbn [length] in *; lia].
  - destruct T as (B & Nn & _). pose proof (hex_text_word b B Nn) as W. exists (hex_text b). split; [apply to_hex_text; auto|]. split; [apply word_good; exact W|]. split; [apply hex_text_values; auto|].
    intros raw pos gap rest Sk P G E _. unfold field_from_str, snd, fst, bind. unfold binary_from_str, bind.
    rewrite (read_str_word raw pos gap (hex_text b) rest); auto; [|apply W|apply word_nws; exact W|apply word_utf8; exact W]. rewrite from_hex_text by auto. reflexivity.
  - destruct T as (B & Nn & _). destruct (eo_b64 x X b Nn B) as [W Pa]. eexists. split; [reflexivity|]. split; [apply word_good; exact W|]. split; [reflexivity|].
    intros raw pos gap rest Sk P G E Rl. specialize (Rl eq_refl). subst rest. rewrite app_nil_r in Sk. unfold field_from_str, snd, fst, bind. unfold base64_from_str, bind, read_left.
    assert (Ln : pos + length gap + length (x_b64_enc x b) = length raw).
    { apply (f_equal (@length _)) in Sk. rewrite skipn_length, app_length in Sk. lia. }
    rewrite sb_eos_lt by (destruct W as [W _]; destruct (x_b64_enc x b); [congruence|cbn [length] in Ln; lia]).
    unfold bind, lift. cbn [sb_raw sb_pos]. replace (slice raw pos (length raw)) with (Ok (gap ++ x_b64_enc x b)).
    2:{ symmetry. assert (Sk' : skipn pos raw = (gap ++ x_b64_enc x b) ++ []) by (rewrite app_nil_r; exact Sk).
        rewrite <- Ln, <- Nat.add_assoc, <- app_length. eapply slice_unread; eauto. }
    unfold utf8_unwrap. rewrite utf8_gap by auto. rewrite word_utf8 by exact W. unfold put, ret. rewrite app_length.
    rewrite remove_ws_gap by (auto; apply W). rewrite Pa. unfold of_opt, ret. rewrite Ln. reflexivity.
  - destruct T as (B & Nn & Lq). specialize (Lq (Q eq_refl)). eexists. split; [reflexivity|]. split; [apply quoted_good; auto|].
    split; [exists (flat_map escape_char b); split; [reflexivity|split; [apply escape_all_quoted; auto|pose proof (string_to_str_ascii b B) as A; rewrite Forall_forall in A; exact A]]|].
    intros raw pos gap rest Sk P G E _. unfold field_from_str, snd, fst, bind. rewrite (string_round_trip raw pos gap b rest Sk P G B); [reflexivity|].
    destruct b; [congruence|cbn [length] in *; lia].
  - destruct T as (B & Nn & _). pose proof (hex_text_word b B Nn) as W. exists (hex_text b). split; [apply to_hex_text; auto|]. split; [apply word_good; exact W|]. split; [apply hex_text_values; auto|].
    intros raw pos gap rest Sk P G E _. unfold field_from_str, snd, fst, bind. unfold binary_from_str, bind.
    rewrite (read_str_word raw pos gap (hex_text b) rest); auto; [|apply W|apply word_nws; exact W|apply word_utf8; exact W]. rewrite from_hex_text by auto. reflexivity.
  - destruct T as (B & Nn & _). destruct (eo_b64 x X b Nn B) as [W Pa]. eexists. split; [reflexivity|]. split; [apply word_good; exact W|]. split; [reflexivity|].
    intros raw pos gap rest Sk P G E Rl. specialize (Rl eq_refl). subst rest. rewrite app_nil_r in Sk. unfold field_from_str, snd, fst, bind. unfold base64_from_str, bind, read_left.
    assert (Ln : pos + length gap + length (x_b64_enc x b) = length raw).
    { apply (f_equal (@length _)) in Sk. rewrite skipn_length, app_length in Sk. lia. }
    rewrite sb_eos_lt by (destruct W as [W _]; destruct (x_b64_enc x b); [congruence|cbn [length] in Ln; lia]).
    unfold bind, lift. cbn [sb_raw sb_pos]. replace (slice raw pos (length raw)) with (Ok (gap ++ x_b64_enc x b)).
    2:{ symmetry. assert (Sk' : skipn pos raw = (gap ++ x_b64_enc x b) ++ []) by (rewrite app_nil_r; exact Sk).
        rewrite <- Ln, <- Nat.add_assoc, <- app_length. eapply slice_unread; eauto. }
    unfold utf8_unwrap. rewrite utf8_gap by auto. rewrite word_utf8 by exact W. unfold put, ret. rewrite app_length.
    rewrite remove_ws_gap by (auto; apply W). rewrite Pa. unfold of_opt, ret. rewrite Ln. reflexivity.
Qed.

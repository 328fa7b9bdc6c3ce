(** The standard library's address texts parse back, are words, and what parses is in range. *)
From Verif Require Import Base BaseLemmas TextModel StdNet SpecName SpecText TextProofs TextProofs2 BuildProofs.
Open Scope list_scope.
Open Scope nat_scope.

Lemma below16 : forall (P : N -> bool), forallb P [0;1;2;3;4;5;6;7;8;9;10;11;12;13;14;15]%N = true -> forall d, (d < 16)%N -> P d = true.
Proof.
  intros P H d L. rewrite forallb_forall in H. apply H.
  assert (X : forall n, n < 16 -> In (N.of_nat n) [0;1;2;3;4;5;6;7;8;9;10;11;12;13;14;15]%N) by (intros n Ln; do 16 (destruct n as [|n]; [cbn; tauto|]); lia).
  specialize (X (N.to_nat d)). rewrite N2Nat.id in X. apply X. lia.
Qed.
Lemma xdigit_val : forall radix d, (d < radix)%N -> (radix <= 16)%N -> to_digit radix (xdigit d) = Some d.
Proof.
  intros radix d L R. assert (X : (match to_digit 36 (xdigit d) with Some v => v =? d | None => false end)%N = true) by (apply (below16 (fun d => match to_digit 36 (xdigit d) with Some v => v =? d | None => false end)%N); [reflexivity|lia]).
  unfold to_digit in *. destruct (if within 48 57 (xdigit d) then _ else _) as [v|]; [|discriminate].
  destruct (v <? 36)%N; [|discriminate]. apply N.eqb_eq in X. subst v. destruct (N.ltb_spec d radix); [reflexivity|lia].
Qed.
Lemma xdigit_ok : forall d, (d < 16)%N -> (33 <= xdigit d <= 126)%N /\ xdigit d <> 46%N /\ xdigit d <> 58%N /\ (xdigit d = 48%N -> d = 0%N).
Proof.
  intros d L. assert (X : ((33 <=? xdigit d) && (xdigit d <=? 126) && negb (xdigit d =? 46) && negb (xdigit d =? 58) && (negb (xdigit d =? 48) || (d =? 0)))%N = true).
  { apply (below16 (fun d => ((33 <=? xdigit d) && (xdigit d <=? 126) && negb (xdigit d =? 46) && negb (xdigit d =? 58) && (negb (xdigit d =? 48) || (d =? 0)))%N)); [reflexivity|exact L]. }
  rewrite !andb_true_iff, orb_true_iff, !negb_true_iff, !N.leb_le, !N.eqb_neq, N.eqb_eq in X. destruct X as ((((X1 & X2) & X3) & X4) & X5). repeat split; auto; destruct X5; congruence.
Qed.
Definition stops (radix : N) (rest : list N) : Prop := match rest with [] => True | c :: _ => to_digit radix c = None end.
Definition val (radix : N) (ds : list N) (acc : N) : N := fold_left (fun a d => a * radix + d)%N ds acc.
Lemma num_ok : forall radix max rest, (radix <= 16)%N -> stops radix rest -> forall ds acc cnt, Forall (fun d => d < radix)%N ds -> cnt + length ds <= max ->
  num_loop radix max (map xdigit ds ++ rest) acc cnt = Some (val radix ds acc, cnt + length ds, rest).
Proof.
  intros radix max rest R St. induction ds as [|d ds IH]; intros acc cnt F L.
  - cbn [map app]. rewrite Nat.add_0_r. destruct rest as [|c rest]; [reflexivity|]. cbn [num_loop]. cbn [stops] in St. rewrite St. reflexivity.
  - inversion F as [|? ? Fd F']; subst. cbn [map app num_loop length] in *. rewrite (xdigit_val radix d Fd R).
    destruct (Nat.ltb_spec max (cnt + 1)); [lia|]. rewrite IH by (auto; lia). cbn [val fold_left]. do 3 f_equal. lia.
Qed.
Lemma number_ok : forall bound radix max zp rest ds, (radix <= 16)%N -> stops radix rest -> Forall (fun d => d < radix)%N ds -> ds <> [] -> length ds <= max ->
  (zp = false -> length ds = 1 \/ hd 0%N ds <> 0%N) -> (val radix ds 0 < bound)%N -> read_number bound radix max zp (map xdigit ds ++ rest) = Some (val radix ds 0, rest).
Proof.
  intros bound radix max zp rest ds R St F Nn L Z B. unfold read_number. rewrite (num_ok radix max rest R St ds 0 0 F) by lia. rewrite Nat.add_0_l.
  destruct (Nat.eqb_spec (length ds) 0) as [E0|_]; [destruct ds; [congruence|discriminate]|]. destruct (N.ltb_spec (val radix ds 0) bound); [|lia].
  destruct zp; cbn [negb andb]; [reflexivity|]. destruct ds as [|d ds]; [congruence|]. cbn [map app hd] in *. inversion F; subst.
  destruct (N.eqb_spec (xdigit d) 48) as [Ex|_]; cbn [andb]; [|reflexivity]. apply xdigit_ok in Ex; [|lia].
  destruct (Z eq_refl) as [Z1|Z1]; [|congruence]. rewrite Z1. reflexivity.
Qed.
Lemma bytes4 : forall a b c d, bytes [a; b; c; d] -> (a < 256 /\ b < 256 /\ c < 256 /\ d < 256)%N.
Proof. intros a b c d B. unfold bytes in B. rewrite !Forall_cons_iff in B. unfold byte in B. tauto. Qed.
(** ** IPv4 *)
Definition dec_digits (n : N) : list N := map (fun c => c - 48)%N (dec n).
Definition dec_check (n : N) : bool :=
  (if list_eq_dec N.eq_dec (dec n) (map xdigit (dec_digits n)) then true else false) && forallb (fun d => d <? 10)%N (dec_digits n) &&
  (length (dec_digits n) <=? 3) && negb (length (dec_digits n) =? 0) && ((length (dec_digits n) =? 1) || negb (hd 0 (dec_digits n) =? 0)%N) && (val 10 (dec_digits n) 0 =? n)%N.
Lemma dec_checks : forallb dec_check all8 = true. Proof. vm_compute. reflexivity. Qed.
Lemma dec_byte : forall n, (n < 256)%N -> exists ds, dec n = map xdigit ds /\ Forall (fun d => d < 10)%N ds /\ 1 <= length ds <= 3 /\ (length ds = 1 \/ hd 0%N ds <> 0%N) /\ val 10 ds 0 = n.
Proof.
  intros n H. pose proof dec_checks as C. rewrite forallb_forall in C. specialize (C n (all8_in n H)). unfold dec_check in C.
  rewrite !andb_true_iff, orb_true_iff, !negb_true_iff, Nat.leb_le, !Nat.eqb_eq, Nat.eqb_neq, N.eqb_neq, N.eqb_eq, forallb_forall in C.
  destruct C as (((((C1 & C2) & C3) & C4) & C5) & C6). exists (dec_digits n). destruct (list_eq_dec _ _ _) as [E0|]; [|discriminate].
  split; [exact E0|]. split; [apply Forall_forall; intros d I; apply N.ltb_lt, C2, I|]. split; [lia|]. split; [exact C5|exact C6].
Qed.
Definition dot_or_end (rest : list N) : Prop := rest = [] \/ exists r, rest = 46%N :: r.
Lemma read_byte : forall n rest, (n < 256)%N -> dot_or_end rest -> read_number 256 10 3 false (dec n ++ rest) = Some (n, rest).
Proof.
  intros n rest H D. destruct (dec_byte n H) as (ds & -> & F & L & Z & V). rewrite <- V in H |- *. apply number_ok; auto; try lia.
  - destruct D as [->|(r & ->)]; [exact Logic.I|reflexivity].
  - intros ->. cbn in L. lia.
Qed.
Lemma read_quad_ok : forall a b c d rest, (a < 256)%N -> (b < 256)%N -> (c < 256)%N -> (d < 256)%N -> dot_or_end rest -> read_ipv4 (ip4_str [a; b; c; d] ++ rest) = Some ([a; b; c; d], rest).
Proof.
  intros a b c d rest Ha Hb Hc Hd D. assert (Dt : forall r, dot_or_end (46%N :: r)) by (intros; right; eauto).
  unfold read_ipv4, ip4_str. rewrite <- !app_assoc. cbn [read_quad read_sep Nat.sub Nat.eqb app N.eqb Pos.eqb].
  rewrite (read_byte a) by auto. cbn [read_quad read_sep Nat.sub Nat.eqb app N.eqb Pos.eqb]. rewrite (read_byte b) by auto. cbn [read_quad read_sep Nat.sub Nat.eqb app N.eqb Pos.eqb].
  rewrite (read_byte c) by auto. cbn [read_quad read_sep Nat.sub Nat.eqb app N.eqb Pos.eqb]. rewrite (read_byte d) by auto. reflexivity.
Qed.
Lemma dec_byte_len : forall n, (n < 256)%N -> length (dec n) <= 3.
Proof. intros n H. destruct (dec_byte n H) as (ds & -> & _ & L & _). rewrite map_length. lia. Qed.
Lemma ip4_word : forall o, length o = 4 -> bytes o -> word_text (ip4_str o).
Proof.
  intros o L B. destruct o as [|a [|b [|c [|d [|]]]]]; try discriminate. apply bytes4 in B; destruct B as (Ba & Bb & Bc & Bd).
  assert (W : forall n, (n < 256)%N -> word_text (dec n)).
  { intros n H. destruct (dec_byte n H) as (ds & -> & F & Ln & _). split; [destruct ds; [cbn in Ln; lia|discriminate]|]. apply Forall_map. eapply Forall_impl; [|exact F]. cbn beta. intros x Hx. apply (xdigit_ok x). lia. }
  unfold byte in *. unfold ip4_str. split; [destruct (W a Ba) as [Wa _]; destruct (dec a); [congruence|discriminate]|].
  repeat (apply Forall_app; split); try (apply W; assumption); (constructor; [lia|constructor]).
Qed.
Lemma ip4_ok : forall o, length o = 4 -> bytes o -> word_text (ip4_str o) /\ ip4_parse (ip4_str o) = Some o.
Proof.
  intros o L B. split; [apply ip4_word; assumption|]. destruct o as [|a [|b [|c [|d [|]]]]]; try discriminate. apply bytes4 in B; destruct B as (Ba & Bb & Bc & Bd). unfold byte in *.
  unfold ip4_parse. assert (Ln : length (ip4_str [a; b; c; d]) <= 15).
  { unfold ip4_str. rewrite !app_length. cbn [length]. repeat match goal with |- context [length (dec ?n)] => pose proof (dec_byte_len n ltac:(assumption)); generalize dependent (length (dec n)); intros end. lia. }
  destruct (Nat.ltb_spec 15 (length (ip4_str [a; b; c; d]))); [lia|]. rewrite <- (app_nil_r (ip4_str _)), read_quad_ok; auto. left. reflexivity.
Qed.
Lemma read_number_range : forall bound radix max zp s v r, read_number bound radix max zp s = Some (v, r) -> (v < bound)%N.
Proof.
  intros bound radix max zp s v r H. unfold read_number in H. destruct (num_loop _ _ _ _ _) as [[[v0 c] r0]|]; [|discriminate]. destruct (c =? 0); [discriminate|]. destruct (_ && _); [discriminate|].
  destruct (N.ltb_spec v0 bound); [|discriminate]. inversion H; subst. assumption.
Qed.
Lemma read_sep_in : forall A sep i (p : list N -> option (A * list N)) s x, read_sep sep i p s = Some x -> exists s', p s' = Some x.
Proof. intros A sep i p s x H. unfold read_sep in H. destruct (i =? 0); [eauto|]. destruct s as [|c s]; [discriminate|]. destruct (c =? sep)%N; [eauto|discriminate]. Qed.
Lemma read_quad_range : forall k s l r, read_quad k s = Some (l, r) -> length l = k /\ bytes l.
Proof.
  induction k as [|k IH]; intros s l r H; cbn [read_quad] in H; [inversion H; split; [reflexivity|constructor]|].
  destruct (read_sep _ _ _ _) as [[v s']|] eqn:E0; [|discriminate]. destruct (read_quad k s') as [[l0 s2]|] eqn:E1; [|discriminate]. inversion H; subst.
  destruct (IH _ _ _ E1). apply read_sep_in in E0. destruct E0 as (s0 & E0). apply read_number_range in E0. split; [cbn; lia|constructor; assumption].
Qed.
Lemma ip4_range : forall s o, ip4_parse s = Some o -> length o = 4 /\ bytes o.
Proof.
  intros s o H. unfold ip4_parse in H. destruct (15 <? length s); [discriminate|]. destruct (read_ipv4 s) as [[l [|]]|] eqn:E0; try discriminate. inversion H; subst. exact (read_quad_range _ _ _ _ E0).
Qed.
(** ** IPv6 *)
Definition colon_or_end (rest : list N) : Prop := rest = [] \/ exists r, rest = 58%N :: r.
Lemma num_stop : forall ds rest max acc cnt v c r, Forall (fun d => d < 16)%N ds -> colon_or_end rest -> num_loop 10 max (map xdigit ds ++ rest) acc cnt = Some (v, c, r) ->
  match r with 46%N :: _ => False | _ => True end.
Proof.
  induction ds as [|d ds IH]; intros rest max acc cnt v c r F C H.
  - destruct C as [->|(r0 & ->)]; cbn in H; inversion H; exact Logic.I.
  - inversion F as [|? ? Fd F']; subst. cbn [map app num_loop] in H. destruct (to_digit 10 (xdigit d)).
    + destruct (max <? cnt + 1); [discriminate|]. eapply IH; eauto.
    + inversion H; subst. destruct (xdigit_ok d Fd) as (_ & X & _). destruct (N.eq_dec (xdigit d) 46); [congruence|]. destruct (xdigit d) as [|q]; [exact Logic.I|]. do 6 (destruct q as [q|q|]; try exact Logic.I). congruence.
Qed.
Lemma quad_fails : forall ds rest, Forall (fun d => d < 16)%N ds -> colon_or_end rest -> read_ipv4 (map xdigit ds ++ rest) = None.
Proof.
  intros ds rest F C. unfold read_ipv4. cbn [read_quad Nat.sub]. unfold read_sep at 1. cbn [Nat.eqb].
  destruct (read_number 256 10 3 false (map xdigit ds ++ rest)) as [[v s']|] eqn:E0; [|reflexivity].
  unfold read_number in E0. destruct (num_loop 10 3 _ 0 0) as [[[v0 c] r]|] eqn:E1; [|discriminate]. destruct (c =? 0); [discriminate|]. destruct (_ && _); [discriminate|]. destruct (v0 <? 256)%N; [|discriminate].
  inversion E0; subst. apply num_stop in E1; auto. unfold read_sep. cbn [Nat.eqb]. destruct s' as [|x s']; [reflexivity|]. destruct (N.eqb_spec x 46); [subst; contradiction|reflexivity].
Qed.
Lemma xdigits_ok : forall g, (g < 65536)%N -> Forall (fun d => d < 16)%N (xdigits g) /\ 1 <= length (xdigits g) <= 4 /\ val 16 (xdigits g) 0 = g.
Proof.
  intros g H. unfold xdigits.
  assert (D0 : (g = 16 * (g / 16) + g mod 16 /\ g mod 16 < 16)%N) by (split; [apply N.div_mod; discriminate|apply N.mod_lt; discriminate]).
  assert (D1 : (g / 16 = 16 * (g / 256) + g / 16 mod 16 /\ g / 16 mod 16 < 16)%N).
  { split; [|apply N.mod_lt; discriminate]. change 256%N with (16 * 16)%N. rewrite <- N.div_div by discriminate. apply N.div_mod. discriminate. }
  assert (D2 : (g / 256 = 16 * (g / 4096) + g / 256 mod 16 /\ g / 256 mod 16 < 16)%N).
  { split; [|apply N.mod_lt; discriminate]. change 4096%N with (256 * 16)%N. rewrite <- N.div_div by discriminate. apply N.div_mod. discriminate. }
  remember (g / 16 mod 16)%N as n eqn:En. remember (g / 256 mod 16)%N as k eqn:Ek. remember (g mod 16)%N as m eqn:Em. clear En Ek Em.
  remember (g / 4096)%N as c eqn:Ec. remember (g / 256)%N as b eqn:Eb. remember (g / 16)%N as a eqn:Ea. clear Ea Eb Ec. destruct D0 as (E0 & L0). destruct D1 as (E1 & L1). destruct D2 as (E2 & L2).
  destruct (N.ltb_spec g 16); [|destruct (N.ltb_spec g 256); [|destruct (N.ltb_spec g 4096)]]; cbn [skipn length val fold_left]; (split; [repeat (apply Forall_cons; [lia|]); apply Forall_nil|split; [lia|lia]]).
Qed.
Lemma colon_stops : forall rest, colon_or_end rest -> stops 16 rest.
Proof. intros rest [->|(r & ->)]; [exact Logic.I|reflexivity]. Qed.
Lemma group_ok : forall g rest, (g < 65536)%N -> colon_or_end rest -> read_number 65536 16 4 true (hex16 g ++ rest) = Some (g, rest) /\ read_ipv4 (hex16 g ++ rest) = None.
Proof.
  intros g rest H C. destruct (xdigits_ok g H) as (F & L & V). split; [|apply quad_fails; assumption]. unfold hex16. rewrite <- V at 2. apply number_ok; try exact F; try (apply colon_stops; exact C); try (rewrite V; exact H); try lia; try discriminate.
  intros X. rewrite X in L. cbn in L. lia.
Qed.
Definition cg (g : N) : list N := 58%N :: hex16 g.
Definition end_ok (rest : list N) : Prop := rest = [] \/ exists r, rest = 58%N :: 58%N :: r.
Lemma end_colon : forall l rest, end_ok rest -> colon_or_end (flat_map cg l ++ rest).
Proof. intros [|g l] rest E0; [destruct E0 as [->|(r & ->)]; [left; reflexivity|right; eexists; reflexivity]|right]. unfold cg. cbn [flat_map app]. eexists. reflexivity. Qed.
Lemma nothing_at : forall rest, colon_or_end rest -> read_ipv4 rest = None /\ read_number 65536 16 4 true rest = None.
Proof. intros rest [->|(r & ->)]; split; reflexivity. Qed.
Lemma groups_later : forall limit rest, end_ok rest -> forall l k, length l <= k -> k < limit -> Forall (fun g => g < 65536)%N l -> read_groups limit k (flat_map cg l ++ rest) = (l, false, rest).
Proof.
  intros limit rest En. induction l as [|g l IH]; intros k L K F.
  - cbn [flat_map app]. destruct k as [|k]; [reflexivity|]. cbn [read_groups]. unfold read_sep. destruct (Nat.eqb_spec (limit - S k) 0); [lia|].
    destruct En as [->|(r & ->)]; [destruct (_ <? _); reflexivity|]. cbn [N.eqb Pos.eqb]. destruct (nothing_at (58%N :: r)) as [-> ->]; [right; eauto|]. destruct (_ <? _); reflexivity.
  - cbn [length] in L. destruct k as [|k]; [lia|]. inversion F as [|? ? Fg F']; subst. cbn [flat_map]. unfold cg at 1. cbn [app]. rewrite <- app_assoc. cbn [read_groups]. unfold read_sep. destruct (Nat.eqb_spec (limit - S k) 0); [lia|].
    cbn [N.eqb Pos.eqb]. destruct (group_ok g (flat_map cg l ++ rest) Fg (end_colon _ _ En)) as [-> ->]. rewrite (IH k) by (auto; lia). destruct (_ <? _); reflexivity.
Qed.
Lemma groups_first : forall limit rest l, end_ok rest -> length l <= limit -> Forall (fun g => g < 65536)%N l -> read_groups limit limit (fmt_sub l ++ rest) = (l, false, rest).
Proof.
  intros limit rest l En L F. destruct limit as [|k]; [destruct l; [reflexivity|cbn in L; lia]|]. cbn [read_groups]. rewrite Nat.sub_diag. unfold read_sep. cbn [Nat.eqb].
  destruct l as [|g l].
  - cbn [fmt_sub app]. destruct (nothing_at rest) as [-> ->]; [apply (end_colon [] rest En)|]. destruct (_ <? _); reflexivity.
  - inversion F as [|? ? Fg F']; subst. cbn [length] in L. cbn [fmt_sub]. change (fun g0 : N => 58%N :: hex16 g0) with cg. rewrite <- app_assoc.
    destruct (group_ok g (flat_map cg l ++ rest) Fg (end_colon _ _ En)) as [-> ->]. rewrite (groups_later (S k) rest En l k) by (auto; lia). destruct (_ <? _); reflexivity.
Qed.
Lemma read_whole : forall l, length l = 8 -> Forall (fun g => g < 65536)%N l -> read_ipv6 (fmt_sub l) = Some (l, []).
Proof. intros l L F. unfold read_ipv6. rewrite <- (app_nil_r (fmt_sub l)), (groups_first 8 [] l) by (auto; try lia; left; reflexivity). rewrite L. reflexivity. Qed.
Lemma read_split : forall a b n, length a + n + length b = 8 -> 1 <= n -> Forall (fun g => g < 65536)%N a -> Forall (fun g => g < 65536)%N b ->
  read_ipv6 (fmt_sub a ++ [58; 58]%N ++ fmt_sub b) = Some (a ++ repeat 0%N n ++ b, []).
Proof.
  intros a b n L N1 Fa Fb. unfold read_ipv6. rewrite (groups_first 8 ([58; 58]%N ++ fmt_sub b) a) by (auto; try lia; right; eexists; reflexivity).
  destruct (Nat.eqb_spec (length a) 8); [lia|]. cbn [app N.eqb Pos.eqb andb]. rewrite <- (app_nil_r (fmt_sub b)), (groups_first (8 - (length a + 1)) [] b) by (auto; try lia; left; reflexivity).
  replace (8 - length a - length b) with n by lia. reflexivity.
Qed.
Fixpoint patterns (n : nat) : list (list bool) := match n with O => [[]] | S n' => flat_map (fun l => [true :: l; false :: l]) (patterns n') end.
Lemma patterns_in : forall n l, length l = n -> In l (patterns n).
Proof.
  induction n as [|n IH]; intros l L; [destruct l; [left; reflexivity|discriminate]|]. destruct l as [|b l]; [discriminate|]. cbn [patterns]. apply in_flat_map. exists l. split; [apply IH; cbn in L; lia|]. destruct b; cbn; tauto.
Qed.
Definition span_check (zs : list bool) : bool := let '(st, ln) := zero_span zs 0 0 0 0 0 in (st + ln <=? 8) && forallb (fun b => b) (firstn ln (skipn st zs)).
Lemma span_checks : forallb span_check (patterns 8) = true. Proof. vm_compute. reflexivity. Qed.
Lemma all_zero : forall l, forallb (fun b => b) (map (N.eqb 0) l) = true -> l = repeat 0%N (length l).
Proof. induction l as [|x l IH]; intros H; [reflexivity|]. cbn [map forallb] in H. apply andb_true_iff in H. destruct H as [H1 H2]. apply N.eqb_eq in H1. subst x. cbn [length repeat]. f_equal. auto. Qed.
Lemma Forall_in_part : forall (P : N -> Prop) l l', (forall x, In x l' -> In x l) -> Forall P l -> Forall P l'.
Proof. intros P l l' S F. rewrite Forall_forall in *. auto. Qed.
Lemma in_firstn : forall n (l : list N) x, In x (firstn n l) -> In x l.
Proof. intros n l x H. rewrite <- (firstn_skipn n l). apply in_or_app. left. exact H. Qed.
Lemma in_skipn : forall n (l : list N) x, In x (skipn n l) -> In x l.
Proof. intros n l x H. rewrite <- (firstn_skipn n l). apply in_or_app. right. exact H. Qed.
Lemma seg_parse : forall l, length l = 8 -> Forall (fun g => g < 65536)%N l -> read_ipv6 (seg_str l) = Some (l, []).
Proof.
  intros l L F. unfold seg_str. pose proof span_checks as C. rewrite forallb_forall in C. specialize (C (map (N.eqb 0) l) (patterns_in 8 _ ltac:(rewrite map_length; exact L))). unfold span_check in C.
  destruct (zero_span _ 0 0 0 0 0) as [st ln]. apply andb_true_iff in C. destruct C as [C1 C2]. apply Nat.leb_le in C1. rewrite skipn_map, firstn_map in C2. apply all_zero in C2.
  rewrite firstn_length, skipn_length, L, Nat.min_l in C2 by lia.
  destruct (Nat.ltb_spec 1 ln); [|apply read_whole; assumption].
  assert (D : l = firstn st l ++ repeat 0%N ln ++ skipn (st + ln) l).
  { rewrite <- C2. rewrite <- (firstn_skipn st l) at 1. f_equal. rewrite <- (firstn_skipn ln (skipn st l)) at 1. f_equal. rewrite skipn_add. reflexivity. }
  rewrite (read_split _ _ ln); [rewrite <- D; reflexivity| |lia| |].
  - rewrite firstn_length, skipn_length, L. lia.
  - eapply Forall_in_part; [|exact F]. apply in_firstn.
  - eapply Forall_in_part; [|exact F]. apply in_skipn.
Qed.
Lemma segments_ok : forall n o, length o = 2 * n -> bytes o -> length (segments o) = n /\ Forall (fun g => g < 65536)%N (segments o) /\ seg_octets (segments o) = o.
Proof.
  induction n as [|n IH]; intros o L B; [destruct o; [repeat constructor|discriminate]|]. destruct o as [|a [|b o]]; cbn [length] in L; try lia.
  inversion B as [|? ? Ba B1]; inversion B1 as [|? ? Bb B2]; subst. destruct (IH o ltac:(lia) B2) as (A1 & A2 & A3). unfold byte in *. cbn [segments length]. split; [lia|]. split; [constructor; [lia|exact A2]|].
  cbn [seg_octets flat_map]. fold (seg_octets (segments o)). rewrite A3. rewrite N.div_add_l, N.div_small, N.add_0_r by lia. replace ((a * 256 + b) mod 256)%N with b; [reflexivity|].
  rewrite N.add_comm, N.mod_add by lia. symmetry. apply N.mod_small. lia.
Qed.
Lemma hex16_word : forall g, (g < 65536)%N -> word_text (hex16 g).
Proof.
  intros g H. destruct (xdigits_ok g H) as (F & L & _). unfold hex16. split; [destruct (xdigits g); [cbn in L; lia|discriminate]|]. apply Forall_map. eapply Forall_impl; [|exact F]. intros x Hx. apply (xdigit_ok x Hx).
Qed.
Lemma fmt_chars : forall l, Forall (fun g => g < 65536)%N l -> Forall (fun c => 33 <= c <= 126)%N (fmt_sub l).
Proof.
  intros l F. destruct l as [|g l]; [constructor|]. inversion F as [|? ? Fg F']; subst. cbn [fmt_sub]. apply Forall_app. split; [apply hex16_word; exact Fg|]. clear - F'.
  induction F' as [|g l Fg F IH]; [constructor|]. cbn [flat_map app]. constructor; [lia|]. apply Forall_app. split; [apply hex16_word; exact Fg|exact IH].
Qed.
Lemma groups_step : forall limit k s, read_groups limit (S k) s =
  match (if limit - S k <? limit - 1 then read_sep 58 (limit - S k) read_ipv4 s else None) with
  | Some ([a; b; c; d], s') => ([a * 256 + b; c * 256 + d]%N, true, s')
  | _ => match read_sep 58 (limit - S k) (read_number 65536 16 4 true) s with Some (g, s') => let '(l, v4, s2) := read_groups limit k s' in (g :: l, v4, s2) | None => ([], false, s) end
  end.
Proof. reflexivity. Qed.
Lemma ip6_ok : forall o, length o = 16 -> bytes o -> word_text (ip6_str o) /\ ip6_parse (ip6_str o) = Some o.
Proof.
  intros o L B. unfold ip6_str. destruct (list_eq_dec N.eq_dec (firstn 12 o) mapped) as [M|_].
  - assert (Es : o = mapped ++ skipn 12 o) by (rewrite <- M; symmetry; apply firstn_skipn). assert (L4 : length (skipn 12 o) = 4) by (rewrite skipn_length, L; reflexivity).
    assert (B4 : bytes (skipn 12 o)) by (eapply Forall_in_part; [|exact B]; apply in_skipn). rewrite Es at 3. revert L4 B4. generalize (skipn 12 o). clear. intros v L B.
    destruct (ip4_word v L B) as [W1 W2]. split; [split; [discriminate|]; apply Forall_app; split; [repeat (apply Forall_cons; [lia|]); apply Forall_nil|exact W2]|].
    destruct v as [|a [|b [|c [|d [|]]]]]; try discriminate. apply bytes4 in B; destruct B as (Ba & Bb & Bc & Bd). unfold byte in *.
    unfold ip6_parse, read_ipv6. cbn [app]. pose proof (groups_first 8 (58 :: 58 :: 102 :: 102 :: 102 :: 102 :: 58 :: ip4_str [a; b; c; d])%N [] ltac:(right; eauto) ltac:(cbn; lia) ltac:(constructor)) as G0.
    cbn [fmt_sub app] in G0. rewrite G0. clear G0. cbn [length Nat.eqb N.eqb Pos.eqb andb Nat.add Nat.sub].
    assert (Cn : colon_or_end (58%N :: ip4_str [a; b; c; d])) by (right; eauto). destruct (group_ok 65535 (58%N :: ip4_str [a; b; c; d]) ltac:(lia) Cn) as [G1 G2].
    change (hex16 65535 ++ 58%N :: ip4_str [a; b; c; d]) with (102 :: 102 :: 102 :: 102 :: 58 :: ip4_str [a; b; c; d])%N in G1, G2.
    pose proof (read_quad_ok a b c d [] Ba Bb Bc Bd ltac:(left; reflexivity)) as G3. rewrite app_nil_r in G3.
    assert (G4 : read_groups 7 6 (58%N :: ip4_str [a; b; c; d]) = ([a * 256 + b; c * 256 + d]%N, true, [])).
    { rewrite groups_step. cbn [Nat.sub Nat.ltb Nat.leb]. unfold read_sep at 1. cbn [Nat.eqb N.eqb Pos.eqb]. rewrite G3. reflexivity. }
    assert (G5 : read_groups 7 7 (102 :: 102 :: 102 :: 102 :: 58 :: ip4_str [a; b; c; d])%N = ([65535; a * 256 + b; c * 256 + d]%N, true, [])).
    { rewrite groups_step. cbn [Nat.sub Nat.ltb Nat.leb]. unfold read_sep. cbn [Nat.eqb]. rewrite G2, G1, G4. reflexivity. }
    rewrite G5. clear G1 G2 G3 G4 G5. cbn [length Nat.sub repeat app seg_octets flat_map].
    assert (Q : forall x y, (x < 256)%N -> (y < 256)%N -> ((x * 256 + y) / 256 = x /\ (x * 256 + y) mod 256 = y)%N).
    { intros x y Hx Hy. rewrite N.div_add_l, N.div_small, N.add_0_r by lia. split; [reflexivity|]. rewrite N.add_comm, N.mod_add by lia. apply N.mod_small. lia. }
    destruct (Q a b) as [-> ->]; auto. destruct (Q c d) as [-> ->]; auto.
  - destruct (segments_ok 8 o ltac:(lia) B) as (S1 & S2 & S3). split; [|unfold ip6_parse; rewrite seg_parse by auto; rewrite S3; reflexivity].
    pose proof (seg_parse _ S1 S2) as P. split; [intros X; rewrite X in P; discriminate P|]. unfold seg_str. destruct (zero_span _ _ _ _ _ _) as [st ln]. destruct (1 <? ln); [|apply fmt_chars; exact S2].
    repeat (apply Forall_app; split); [apply fmt_chars; eapply Forall_in_part; [|exact S2]; apply in_firstn|repeat (apply Forall_cons; [lia|]); apply Forall_nil|apply fmt_chars; eapply Forall_in_part; [|exact S2]; apply in_skipn].
Qed.
Lemma groups_range : forall limit k s l v r, read_groups limit k s = (l, v, r) -> k <= limit -> length l <= k /\ Forall (fun g => g < 65536)%N l.
Proof.
  intros limit. induction k as [|k IH]; intros s l v r H K; cbn [read_groups] in H; [inversion H; split; [reflexivity|constructor]|].
  assert (NUM : match read_sep 58 (limit - S k) (read_number 65536 16 4 true) s with Some (g, s') => let '(l, v4, s2) := read_groups limit k s' in (g :: l, v4, s2) | None => ([], false, s) end = (l, v, r) -> length l <= S k /\ Forall (fun g => g < 65536)%N l).
  { clear H. intros H. destruct (read_sep 58 _ _ s) as [[g s']|] eqn:E0; [|inversion H; split; [cbn; lia|constructor]]. destruct (read_groups limit k s') as [[l0 v0] s2] eqn:E1. inversion H; subst.
    apply read_sep_in in E0. destruct E0 as (s0 & E0). apply read_number_range in E0. destruct (IH _ _ _ _ E1 ltac:(lia)). split; [cbn; lia|constructor; assumption]. }
  destruct (Nat.ltb_spec (limit - S k) (limit - 1)) as [Lt|_]; [|auto]. destruct (read_sep 58 (limit - S k) read_ipv4 s) as [[o s']|] eqn:E0; [|auto].
  apply read_sep_in in E0. destruct E0 as (s0 & E0). apply read_quad_range in E0. destruct E0 as [L B]. destruct o as [|a [|b [|c [|d [|]]]]]; try discriminate. inversion H; subst.
  apply bytes4 in B; destruct B as (Ba & Bb & Bc & Bd). unfold byte in *. split; [cbn; lia|]. repeat (apply Forall_cons; [lia|]); apply Forall_nil.
Qed.
Lemma octets_range : forall l, Forall (fun g => g < 65536)%N l -> length (seg_octets l) = 2 * length l /\ bytes (seg_octets l).
Proof.
  intros l F. induction F as [|g l Fg F [IH1 IH2]]; [split; [reflexivity|constructor]|]. cbn [seg_octets flat_map app length]. fold (seg_octets l). split; [lia|].
  constructor; [apply N.div_lt_upper_bound; lia|]. constructor; [apply N.mod_lt; lia|exact IH2].
Qed.
Lemma ip6_range : forall s o, ip6_parse s = Some o -> length o = 16 /\ bytes o.
Proof.
  intros s o H. unfold ip6_parse in H. destruct (read_ipv6 s) as [[l [|]]|] eqn:E0; try discriminate. inversion H; subst. clear H. unfold read_ipv6 in E0.
  destruct (read_groups 8 8 s) as [[hd v4] s1] eqn:G1. destruct (groups_range _ _ _ _ _ _ G1 (le_n _)) as [L1 F1].
  assert (X : length l = 8 /\ Forall (fun g => g < 65536)%N l).
  { destruct (Nat.eqb_spec (length hd) 8); [inversion E0; subst; auto|]. destruct v4; [discriminate|]. destruct s1 as [|c1 [|c2 s2]]; try discriminate. destruct (_ && _); [|discriminate].
    destruct (read_groups _ _ s2) as [[tl w] s3] eqn:G2. destruct (groups_range _ _ _ _ _ _ G2 (le_n _)) as [L2 F2]. assert (El : l = hd ++ repeat 0%N (8 - length hd - length tl) ++ tl) by congruence. rewrite El. clear E0. rewrite !app_length, repeat_length. split; [lia|].
    apply Forall_app. split; [exact F1|]. apply Forall_app. split; [|exact F2]. clear. induction (8 - length hd - length tl); constructor; [lia|assumption]. }
  destruct X as [X1 X2]. destruct (octets_range l X2) as [Y1 Y2]. split; [lia|exact Y2].
Qed.

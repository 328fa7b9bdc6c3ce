(** RRset equality. *)
From Coq Require Import Permutation Sorted.
From Verif Require Import Base NameModel RenderModel CodesModel RDataModel MsgModel EqModel SpecName SpecBuf SpecCodes SpecMsg SpecScope SpecEq
  BaseLemmas NameWireProofs NameOpsProofs NameOpsProofs2 NameCmpProofs NameCmpProofs2 CodesProofs RDataProofs DecodeProofs MsgProofs MsgProofs2 MsgProofs3 MsgProofs4 OrdBase OrdName.

(** * Lexicographic orders *)
Section Lex.
Context {A : Type} (c : A -> A -> comparison).
Fixpoint lexg (a b : list A) : comparison :=
  match a, b with
  | [], [] => Eq
  | [], _ :: _ => Lt
  | _ :: _, [] => Gt
  | x :: a', y :: b' => match c x y with Eq => lexg a' b' | d => d end
  end.
End Lex.
Definition laws {A} (c : A -> A -> comparison) : Prop :=
  (forall a b, c a b = Eq <-> a = b) /\ (forall a b, c b a = CompOpp (c a b)) /\ (forall x y z, c x y = Lt -> c y z = Lt -> c x z = Lt).
Lemma laws_lex : forall A (c : A -> A -> comparison), laws c -> laws (lexg c).
Proof.
  intros A c (E & O & T). split; [|split].
  - induction a as [|x a IH]; intros [|y b]; cbn; try (split; congruence). destruct (c x y) eqn:C.
    + apply E in C. subst. rewrite IH. split; congruence.
    + split; [discriminate|]. intros H. inversion H; subst. assert (c y y = Eq) by (apply E; auto). congruence.
    + split; [discriminate|]. intros H. inversion H; subst. assert (c y y = Eq) by (apply E; auto). congruence.
  - induction a as [|x a IH]; intros [|y b]; cbn; auto. rewrite O. destruct (c x y); cbn; auto.
  - induction x as [|x a IH]; intros [|y b] [|z d]; cbn; try congruence. intros H1 H2.
    destruct (c x y) eqn:C1; [apply E in C1; subst x|..]; destruct (c y z) eqn:C2; try discriminate.
    + eauto.
    + reflexivity.
    + apply E in C2. subst z. rewrite C1. reflexivity.
    + rewrite (T _ _ _ C1 C2). reflexivity.
Qed.
Lemma laws_N : laws N.compare.
Proof. split; [apply N.compare_eq_iff|]. split; [intros; apply N.compare_antisym|]. intros x y z H1 H2. apply N.compare_lt_iff in H1, H2. apply N.compare_lt_iff. eapply N.lt_trans; eauto. Qed.
Lemma octets_lex : forall a b, octets_cmp a b = lexg N.compare a b.
Proof. induction a as [|x a IH]; intros [|y b]; cbn; auto; try (rewrite IH; reflexivity). Qed.
Lemma strings_lex : forall a b, strings_cmp a b = lexg (lexg N.compare) a b.
Proof. induction a as [|x a IH]; intros [|y b]; cbn; auto; try (rewrite IH, octets_lex; reflexivity). Qed.
Lemma lex_bytes_lex : forall a b, lex_bytes a b = lexg N.compare a b.
Proof. induction a as [|x a IH]; intros [|y b]; cbn; auto; try (rewrite IH; reflexivity). Qed.
Lemma lex_labels_lex : forall a b, lex_labels a b = lexg (lexg N.compare) a b.
Proof. induction a as [|x a IH]; intros [|y b]; cbn; auto; try (rewrite IH, lex_bytes_lex; reflexivity). Qed.
Definition kcmp : list (list N) -> list (list N) -> comparison := lexg (lexg N.compare).
Lemma laws_k : laws kcmp.
Proof. apply laws_lex, laws_lex, laws_N. Qed.

(** * Keys *)
Inductive fkey : fval -> list (list N) -> Prop :=
| fk4 : forall o, fkey (VIpv4 o) [o] | fk6 : forall o, fkey (VIpv6 o) [o] | fkb : forall o, fkey (VByteBin o) [o] | fkB : forall o, fkey (VBin o) [o]
| fkn : forall ls, wf_labels ls -> fkey (VName (name_of ls)) (map (map okey) (rev (lc_labels ls)))
| fk8 : forall v, fkey (VU8 v) [[v]] | fk16 : forall v, fkey (VU16 v) [[v]] | fk32 : forall v, fkey (VU32 v) [[v]]
| fkt : forall t, type_ok t -> fkey (VType t) [[rrtype_u16 t]]
| fkT : forall d, fkey (VText d) d.
Lemma wf_field_key : forall k v, wf_field k v -> exists x, fkey v x.
Proof. intros [] [] H; cbn in H; try contradiction; try (eexists; constructor; auto; fail). destruct H as (ls & W & ->). eexists. constructor. auto. Qed.
Lemma octets_eqb_eq : forall a b, octets_eqb a b = true <-> a = b.
Proof.
  unfold octets_eqb. induction a as [|x a IH]; intros [|y b]; cbn; try (split; congruence). rewrite andb_true_iff, N.eqb_eq, IH.
  split; [intros [-> ->]; auto|intros H; inversion H; auto].
Qed.
Lemma strings_eqb_eq : forall a b, strings_eqb a b = true <-> a = b.
Proof.
  induction a as [|x a IH]; intros [|y b]; cbn; try (split; congruence). rewrite andb_true_iff, octets_eqb_eq, IH. split; [intros [-> ->]; auto|intros H; inversion H; auto].
Qed.
Lemma type_eqb_code : forall a b, type_ok a -> type_ok b -> rrtype_eqb a b = true <-> rrtype_u16 a = rrtype_u16 b.
Proof. intros a b [_ A] [_ B]. rewrite rrtype_eqb_eq. split; [congruence|]. intros E. rewrite <- A, <- B, E. reflexivity. Qed.
(** Two fields of the same codec compare like their keys. *)
Lemma field_eq_key : forall k a b x y, wf_field k a -> wf_field k b -> fkey a x -> fkey b y ->
  exists e, fval_eq a b = Ok e /\ (e = true <-> x = y).
Proof.
  intros k a b x y Wa Wb Ka Kb. destruct k; destruct a; cbn in Wa; try contradiction; destruct b; cbn in Wb; try contradiction;
    inversion Ka; subst; inversion Kb; subst; cbn [fval_eq]; eexists; (split; [try reflexivity|]).
  all: try (rewrite octets_eqb_eq; split; congruence). all: try (rewrite N.eqb_eq; split; congruence).
  - apply name_eq_spec; auto.
  - rewrite same_nameb_true. unfold same_name. split; [congruence|]. intros H. apply okeyss_inj in H. apply (f_equal (@rev label)) in H. rewrite !rev_involutive in H. auto.
  - rewrite type_eqb_code by auto. split; congruence.
  - rewrite strings_eqb_eq. split; congruence.
Qed.
Definition field_from (L : label -> Prop) (v : fval) : Prop := forall n, v = VName n -> exists ls, wf_labels ls /\ n = name_of ls /\ Forall L ls.
Lemma field_cmp_key : forall L md k a b x y, wf_field k a -> wf_field k b -> no_overflow L -> field_from L a -> field_from L b -> fkey a x -> fkey b y ->
  fval_cmp md a b = Ok (kcmp x y).
Proof.
  intros L md k a b x y Wa Wb NO Aa Ab Ka Kb. destruct k; destruct a; cbn in Wa; try contradiction; destruct b; cbn in Wb; try contradiction;
    inversion Ka; subst; inversion Kb; subst; cbn [fval_cmp].
  all: try (unfold kcmp; cbn [lexg]; rewrite octets_lex; destruct (lexg N.compare _ _); reflexivity).
  all: try (unfold kcmp; cbn [lexg]; destruct (N.compare _ _); reflexivity).
  - destruct (Aa _ eq_refl) as (l1 & W1 & E1 & A1). destruct (Ab _ eq_refl) as (l2 & W2 & E2 & A2).
    apply name_of_inj in E1; [|apply H0|apply W1]. apply name_of_inj in E2; [|apply H1|apply W2]. subst.
    rewrite (name_cmp_calm md L) by auto. unfold signed_cmp. rewrite lex_labels_lex. reflexivity.
  - rewrite strings_lex. reflexivity.
Qed.

(** * Keys as functions *)
Fixpoint split_raw (fuel : nat) (w : list N) : list label :=
  match fuel, w with
  | S f, l :: r => if (l =? 0)%N then [] else firstn (N.to_nat l) r :: split_raw f (skipn (N.to_nat l) r)
  | _, _ => []
  end.
Lemma split_enc : forall ls fuel, Forall wf_label ls -> length (enc ls) <= fuel -> split_raw fuel (enc ls) = ls.
Proof.
  induction ls as [|l ls IH]; intros fuel F Le; (destruct fuel as [|fuel]; [rewrite ?enc_cons in Le; cbn in Le; lia|]).
  - reflexivity.
  - apply Forall_inv in F as W. apply Forall_inv_tail in F. rewrite enc_cons in *. cbn [split_raw]. destruct W as [W _]. unfold blen in *.
    destruct (N.eqb_spec (N.of_nat (length l)) 0) as [E|E]; [lia|]. rewrite Nat2N.id, firstn_app, skipn_app, Nat.sub_diag, firstn_all, skipn_all, app_nil_r. cbn [skipn app].
    rewrite IH; auto. cbn [length] in Le. rewrite app_length in Le. lia.
Qed.
Definition fkeyf (v : fval) : list (list N) :=
  match v with
  | VIpv4 o | VIpv6 o | VByteBin o | VBin o => [o]
  | VName n => map (map okey) (rev (lc_labels (split_raw (length (n_raw n)) (n_raw n))))
  | VU8 v | VU16 v | VU32 v => [[v]]
  | VType t => [[rrtype_u16 t]]
  | VText d => d
  end.
Lemma fkeyf_key : forall k v, wf_field k v -> fkey v (fkeyf v).
Proof.
  intros [] [] H; cbn in H; try contradiction; try (constructor; auto; fail). destruct H as (ls & W & ->). cbn [fkeyf name_of n_raw].
  rewrite split_enc by (try apply W; auto). constructor. auto.
Qed.
Lemma lower_name : forall ls, wf_labels ls -> lower_field (VName (name_of ls)) = VName (name_of (lc_labels ls)).
Proof.
  intros ls [W _]. unfold lower_field, name_of. cbn [n_raw n_offsets]. rewrite lc_offs. do 2 f_equal. unfold enc. rewrite map_app, map_lc_body by auto. reflexivity.
Qed.
Lemma lower_wf : forall k v, wf_field k v -> wf_field k (lower_field v).
Proof. intros [] [] H; cbn in H; try contradiction; auto. destruct H as (ls & W & ->). rewrite lower_name by auto. exists (lc_labels ls). split; auto. apply wf_lc. auto. Qed.
Lemma lc_idem : forall c, lc (lc c) = lc c.
Proof. intros c. unfold lc. destruct ((65 <=? c)%N && (c <=? 90)%N) eqn:E; [|rewrite E; auto]. destruct ((65 <=? c + 32)%N && (c + 32 <=? 90)%N) eqn:E'; auto. apply andb_true_iff in E, E'. rewrite !N.leb_le in *. lia. Qed.
Lemma lc_labels_idem : forall ls, lc_labels (lc_labels ls) = lc_labels ls.
Proof. intros. unfold lc_labels. rewrite map_map. apply map_ext. intros l. unfold lc_label. rewrite map_map. apply map_ext. apply lc_idem. Qed.
Lemma key_lower : forall k v, wf_field k v -> fkeyf (lower_field v) = fkeyf v.
Proof.
  intros [] [] H; cbn in H; try contradiction; auto. destruct H as (ls & W & ->). rewrite lower_name by auto. cbn [fkeyf name_of n_raw].
  rewrite !split_enc by (try apply W; try apply (wf_lc _ W); auto). rewrite lc_labels_idem. reflexivity.
Qed.
Lemma key_inj : forall k a b, wf_field k a -> wf_field k b -> fkeyf a = fkeyf b -> lower_field a = lower_field b.
Proof.
  intros k a b Wa Wb E. destruct k; destruct a; cbn in Wa; try contradiction; destruct b; cbn in Wb; try contradiction; cbn in E |- *; try congruence.
  - destruct Wa as (x & Wx & ->). destruct Wb as (y & Wy & ->). cbn in E. rewrite !split_enc in E by (try apply Wx; try apply Wy; auto).
    apply okeyss_inj in E. apply (f_equal (@rev label)) in E. rewrite !rev_involutive in E. pose proof (lower_name x Wx) as P. pose proof (lower_name y Wy) as Q. unfold lower_field, lc_labels in P, Q. rewrite P, Q, E. reflexivity.
  - f_equal. destruct Wa as [_ A], Wb as [_ B]. inversion E as [E']. rewrite <- A, <- B, E'. reflexivity.
Qed.
Definition rkey (rd : rdata) : list (list (list N)) := map fkeyf (rd_fields rd).

Lemma wf2 : forall t a b, wf_rdata t a -> wf_rdata t b -> rd_var a = rd_var b /\ exists ks, Forall2 wf_field ks (rd_fields a) /\ Forall2 wf_field ks (rd_fields b).
Proof. intros t a b (D & ks & L & F) (D' & ks' & L' & F'). split; [congruence|]. exists ks. split; auto. replace ks with ks'; auto. congruence. Qed.
Lemma fields_eq_key : forall ks a b, Forall2 wf_field ks a -> Forall2 wf_field ks b ->
  exists e, fields_eq a b = Ok e /\ (e = true <-> map fkeyf a = map fkeyf b).
Proof.
  intros ks a b Fa. revert b. induction Fa as [|k x ks a Wx Fa IH]; intros b Fb; inversion Fb as [|k' y ks' b' Wy Fb']; subst; cbn [fields_eq map].
  - exists true. tauto.
  - destruct (field_eq_key k x y (fkeyf x) (fkeyf y) Wx Wy (fkeyf_key _ _ Wx) (fkeyf_key _ _ Wy)) as (e & -> & E). cbn [rbind].
    destruct (IH _ Fb') as (e' & P & E'). destruct e.
    + exists e'. split; auto. rewrite E'. split; [intros ->; f_equal; tauto|]. intros H. inversion H. auto.
    + exists false. split; auto. split; [discriminate|]. intros H. inversion H. tauto.
Qed.
Lemma fields_key_lower : forall ks a b, Forall2 wf_field ks a -> Forall2 wf_field ks b -> (map fkeyf a = map fkeyf b <-> map lower_field a = map lower_field b).
Proof.
  intros ks a b Fa. revert b. induction Fa as [|k x ks a Wx Fa IH]; intros b Fb; inversion Fb as [|k' y ks' b' Wy Fb']; subst; cbn [map]; [tauto|]. split.
  - intros H. inversion H as [[H1 H2]]. apply IH in H2; auto. f_equal; auto. eapply key_inj; eauto.
  - intros H. inversion H as [[H1 H2]]. apply IH in H2; auto. f_equal; auto. rewrite <- (key_lower _ _ Wx), <- (key_lower _ _ Wy), H1. reflexivity.
Qed.
Lemma rkey_lower : forall t a b, wf_rdata t a -> wf_rdata t b -> (rkey a = rkey b <-> lower_rdata a = lower_rdata b).
Proof.
  intros t a b A B. destruct (wf2 _ _ _ A B) as (V & ks & Fa & Fb). unfold rkey, lower_rdata. rewrite (fields_key_lower ks) by auto. rewrite V. split; congruence.
Qed.
Lemma rdata_eq_spec : forall t a b, wf_rdata t a -> wf_rdata t b -> exists e, rdata_eq a b = Ok e /\ (e = true <-> lower_rdata a = lower_rdata b).
Proof.
  intros t a b A B. destruct (wf2 _ _ _ A B) as (V & ks & Fa & Fb). unfold rdata_eq. rewrite V, N.eqb_refl.
  destruct (fields_eq_key _ _ _ Fa Fb) as (e & -> & E). exists e. split; auto. rewrite E. fold (rkey a) (rkey b). eapply rkey_lower; eauto.
Qed.
Definition rcmp : list (list (list N)) -> list (list (list N)) -> comparison := lexg kcmp.
Lemma laws_r : laws rcmp.
Proof. apply laws_lex, laws_k. Qed.
Lemma fields_cmp_key : forall L md ks a b, Forall2 wf_field ks a -> Forall2 wf_field ks b -> no_overflow L -> Forall (field_from L) a -> Forall (field_from L) b ->
  fields_cmp md a b = Ok (rcmp (map fkeyf a) (map fkeyf b)).
Proof.
  intros L md ks a b Fa. revert b. induction Fa as [|k x ks a Wx Fa IH]; intros b Fb NO Aa Ab; inversion Fb as [|k' y ks' b' Wy Fb']; subst; cbn [fields_cmp map]; [reflexivity|].
  inversion Aa; inversion Ab; subst.
  rewrite (field_cmp_key L md k x y (fkeyf x) (fkeyf y)) by (auto; eapply fkeyf_key; eauto). cbn [rbind]. unfold rcmp. cbn [lexg]. rewrite IH by auto.
  destruct (kcmp _ _); reflexivity.
Qed.
Lemma rdata_cmp_spec : forall L md t a b, no_overflow L -> wf_rdata t a -> wf_rdata t b -> rdata_from L a -> rdata_from L b -> rdata_cmp md a b = Ok (rcmp (rkey a) (rkey b)).
Proof.
  intros L md t a b NO A B Xa Xb. destruct (wf2 _ _ _ A B) as (V & ks & Fa & Fb). unfold rdata_cmp. rewrite V, N.compare_refl.
  eapply fields_cmp_key; eauto; apply Forall_forall; intros v I n ->; auto.
Qed.

(** * The membership test *)
Definition wf_list (t : rrtype) (l : list rdata) : Prop := Forall (wf_rdata t) l.
Lemma rdata_in_spec : forall t x l, wf_rdata t x -> wf_list t l -> exists e, rdata_in x l = Ok e /\ (e = true <-> In (lower_rdata x) (map lower_rdata l)).
Proof.
  intros t x l W. induction 1 as [|y l Wy F IH]; cbn [rdata_in map]; [exists false; cbn; split; [auto|split; [discriminate|tauto]]|].
  destruct (rdata_eq_spec _ _ _ W Wy) as (e & -> & E). cbn [rbind]. destruct e.
  - exists true. split; auto. split; auto. intros _. left. symmetry. apply E. auto.
  - destruct IH as (e' & -> & E'). exists e'. split; auto. rewrite E'. cbn [In]. split; [auto|]. intros [H|H]; auto. symmetry in H. apply E in H. discriminate.
Qed.
Lemma all_in_spec : forall t l o, wf_list t l -> wf_list t o -> exists e, rdata_all_in l o = Ok e /\ (e = true <-> incl (map lower_rdata l) (map lower_rdata o)).
Proof.
  intros t l o F Fo. induction F as [|x l Wx F IH]; cbn [rdata_all_in map]; [exists true; split; auto; split; auto; intros _ y []|].
  destruct (rdata_in_spec _ _ _ Wx Fo) as (e & -> & E). cbn [rbind]. destruct e.
  - destruct IH as (e' & -> & E'). exists e'. split; auto. rewrite E'. split; [|intros H y I; apply H; right; auto].
    intros H y [<-|I]; [apply E; auto|]. auto.
  - exists false. split; auto. split; [discriminate|]. intros H. apply E. apply H. left. reflexivity.
Qed.
Lemma rdatas_eq_spec : forall t a b, wf_list t a -> wf_list t b -> exists e, rdatas_eq a b = Ok e /\ (e = true <-> map lower_rdata a = map lower_rdata b).
Proof.
  intros t a b Fa. revert b. induction Fa as [|x a Wx Fa IH]; intros b Fb; destruct Fb as [|y b Wy Fb]; cbn [rdatas_eq map]; try (eexists; split; [reflexivity|split; congruence]).
  destruct (rdata_eq_spec _ _ _ Wx Wy) as (e & -> & E). cbn [rbind]. destruct e.
  - destruct (IH _ Fb) as (e' & -> & E'). exists e'. split; auto. rewrite E'. split; [intros ->; f_equal; tauto|]. intros H. inversion H. auto.
  - exists false. split; auto. split; [discriminate|]. intros H. apply (f_equal (hd (lower_rdata x))) in H. cbn [hd] in H. tauto.
Qed.

(** * Sorted permutations are unique *)
Lemma sorted_unique : forall A (c : A -> A -> comparison), laws c -> forall l1 l2,
  Permutation l1 l2 -> StronglySorted (fun a b => c a b <> Gt) l1 -> StronglySorted (fun a b => c a b <> Gt) l2 -> l1 = l2.
Proof.
  intros A c (E & O & T). assert (AS : forall a b, c a b <> Gt -> c b a <> Gt -> a = b).
  { intros a b H1 H2. apply E. rewrite O in H2. destruct (c a b); cbn in *; congruence. }
  induction l1 as [|x l1 IH]; intros l2 P S1 S2; [apply Permutation_nil in P; auto|].
  destruct l2 as [|y l2]; [symmetry in P; apply Permutation_nil in P; discriminate|].
  inversion S1 as [|? ? S1' F1]; inversion S2 as [|? ? S2' F2]; subst.
  assert (x = y).
  { assert (I : In x (y :: l2)) by (eapply Permutation_in; [exact P|left; auto]).
    assert (J : In y (x :: l1)) by (eapply Permutation_in; [symmetry; exact P|left; auto]).
    destruct I as [->|I]; auto. destruct J as [->|J]; auto. rewrite Forall_forall in F1, F2. apply AS; auto. }
  subst y. apply Permutation_cons_inv in P. f_equal. auto.
Qed.
Lemma sorted_keys : forall L md t l, no_overflow L -> Forall (fun rd => wf_rdata t rd /\ rdata_from L rd) l -> Sorted (fun a b => rdata_cmp md a b = Ok Lt \/ rdata_cmp md a b = Ok Eq) l ->
  StronglySorted (fun a b => rcmp a b <> Gt) (map rkey l).
Proof.
  intros L md t l NO F Q. destruct laws_r as (E & O & T). apply Sorted_StronglySorted.
  - intros a b d H1 H2. destruct (rcmp a b) eqn:C1; [apply E in C1; subst; auto| |congruence]. destruct (rcmp b d) eqn:C2; [apply E in C2; subst; congruence| |congruence].
    rewrite (T _ _ _ C1 C2). discriminate.
  - induction Q as [|x l Q IH H]; cbn; constructor.
    + apply IH. inversion F. auto.
    + destruct H as [|y l H]; cbn; constructor. inversion F as [|? ? [Wx Ax] F']; subst. inversion F' as [|? ? [Wy Ay] _]; subst.
      rewrite (rdata_cmp_spec L md t) in H by auto. destruct H as [H|H]; inversion H as [H']; rewrite H'; discriminate.
Qed.
Lemma keys_of_lower : forall t l, wf_list t l -> map rkey (map lower_rdata l) = map rkey l.
Proof.
  induction 1 as [|x l W F IH]; auto. cbn [map]. f_equal; auto. destruct W as (_ & ks & _ & W). unfold rkey, lower_rdata. cbn [rd_fields].
  clear - W. induction W; auto. cbn [map]. f_equal; auto. eapply key_lower; eauto.
Qed.

(** * The theorems *)
Section Eq.
Context (t : rrtype) (a b : rrset).
Hypothesis Wa : wf_name (rs_name a) /\ rs_type a = t /\ wf_list t (rs_rdatas a).
Hypothesis Wb : wf_name (rs_name b) /\ wf_list (rs_type b) (rs_rdatas b).
Lemma same_data_len : same_data (rs_rdatas a) (rs_rdatas b) -> length (rs_rdatas a) = length (rs_rdatas b).
Proof. intros P. apply Permutation_length in P. rewrite !map_length in P. auto. Qed.
Lemma eq_small : length (rs_rdatas a) < 4 -> distinct_data (rs_rdatas a) -> forall sort,
  exists e, rrset_eq sort a b = Ok e /\ (e = true <-> same_set a b /\ same_data (rs_rdatas a) (rs_rdatas b)).
Proof.
  intros L D sort. unfold rrset_eq. destruct Wa as (Na & Ta & Fa), Wb as (Nb & Fb). destruct (is_same_spec a b) as (e & -> & E); auto. cbn [rbind].
  destruct e; cbn [negb]; [|exists false; split; auto; split; [discriminate|intros [H _]; tauto]].
  assert (SS : same_set a b) by tauto. destruct (Nat.eqb_spec (length (rs_rdatas a)) (length (rs_rdatas b))) as [Le|Le]; cbn [negb].
  2:{ exists false. split; auto. split; [discriminate|]. intros [_ P]. apply same_data_len in P. contradiction. }
  apply Nat.ltb_lt in L. rewrite L. destruct SS as [TT SO]. rewrite <- TT, Ta in Fb. destruct (all_in_spec _ _ _ Fa Fb) as (e & -> & E2). exists e. split; auto. rewrite E2. split.
  - intros I. split; [split; auto|]. apply NoDup_Permutation_bis; auto. rewrite !map_length. lia.
  - intros [_ P] x I. eapply Permutation_in; eauto.
Qed.
Lemma eq_small_exact : length (rs_rdatas a) < 4 -> forall sort, exists e, rrset_eq sort a b = Ok e /\
  (e = true <-> same_set a b /\ length (rs_rdatas a) = length (rs_rdatas b) /\ incl (map lower_rdata (rs_rdatas a)) (map lower_rdata (rs_rdatas b))).
Proof.
  intros L sort. unfold rrset_eq. destruct Wa as (Na & Ta & Fa), Wb as (Nb & Fb). destruct (is_same_spec a b) as (e & -> & E); auto. cbn [rbind].
  destruct e; cbn [negb]; [|exists false; split; auto; split; [discriminate|intros [H _]; tauto]].
  assert (SS : same_set a b) by tauto. destruct (Nat.eqb_spec (length (rs_rdatas a)) (length (rs_rdatas b))) as [Le|Le]; cbn [negb].
  2:{ exists false. split; auto. split; [discriminate|]. intros (_ & P & _). contradiction. }
  apply Nat.ltb_lt in L. rewrite L. pose proof SS as [TT SO]. rewrite <- TT, Ta in Fb. destruct (all_in_spec _ _ _ Fa Fb) as (e & -> & E2). exists e. split; auto. rewrite E2. tauto.
Qed.
Lemma eq_small_complete : length (rs_rdatas a) < 4 -> forall sort, same_set a b -> same_data (rs_rdatas a) (rs_rdatas b) -> rrset_eq sort a b = Ok true.
Proof.
  intros L sort SS P. unfold rrset_eq. destruct Wa as (Na & Ta & Fa), Wb as (Nb & Fb). destruct (is_same_spec a b) as (e & -> & E); auto. cbn [rbind].
  apply E in SS as X. subst e. cbn [negb]. rewrite (same_data_len P), Nat.eqb_refl. cbn [negb]. rewrite <- (same_data_len P).
  apply Nat.ltb_lt in L. rewrite L. destruct SS as [TT SO]. rewrite <- TT, Ta in Fb. destruct (all_in_spec _ _ _ Fa Fb) as (e & -> & E2). f_equal. apply E2.
  intros x I. eapply Permutation_in; eauto.
Qed.
Lemma eq_large : forall L md sort, no_overflow L -> 4 <= length (rs_rdatas a) -> Forall (rdata_from L) (rs_rdatas a) -> Forall (rdata_from L) (rs_rdatas b) -> sorts L md t sort ->
  exists e, rrset_eq sort a b = Ok e /\ (e = true <-> same_set a b /\ same_data (rs_rdatas a) (rs_rdatas b)).
Proof.
  intros LL md sort NO L Xa Xb So. unfold rrset_eq. destruct Wa as (Na & Ta & Fa), Wb as (Nb & Fb). destruct (is_same_spec a b) as (e & -> & E); auto. cbn [rbind].
  destruct e; cbn [negb]; [|exists false; split; auto; split; [discriminate|intros [H _]; tauto]].
  assert (SS : same_set a b) by tauto. destruct (Nat.eqb_spec (length (rs_rdatas a)) (length (rs_rdatas b))) as [Le|Le]; cbn [negb].
  2:{ exists false. split; auto. split; [discriminate|]. intros [_ P]. apply same_data_len in P. contradiction. }
  apply Nat.ltb_ge in L. rewrite L. destruct SS as [TT SO]. rewrite <- TT, Ta in Fb.
  assert (Qa : Forall (fun rd => wf_rdata t rd /\ rdata_from LL rd) (rs_rdatas a)) by (apply Forall_and; auto).
  assert (Qb : Forall (fun rd => wf_rdata t rd /\ rdata_from LL rd) (rs_rdatas b)) by (apply Forall_and; auto).
  destruct (So _ Qa) as (l1 & -> & P1 & S1). destruct (So _ Qb) as (l2 & -> & P2 & S2). cbn [rbind].
  assert (G1 : Forall (fun rd => wf_rdata t rd /\ rdata_from LL rd) l1) by (eapply Permutation_Forall; eauto).
  assert (G2 : Forall (fun rd => wf_rdata t rd /\ rdata_from LL rd) l2) by (eapply Permutation_Forall; eauto).
  assert (K1 : wf_list t l1) by (eapply Forall_impl; [|exact G1]; tauto). assert (K2 : wf_list t l2) by (eapply Forall_impl; [|exact G2]; tauto).
  destruct (rdatas_eq_spec t l1 l2 K1 K2) as (e & -> & E2). exists e. split; auto. rewrite E2. split.
  - intros M. split; [split; auto|]. unfold same_data. etransitivity; [apply Permutation_map; exact P1|]. rewrite M. apply Permutation_map. symmetry. auto.
  - intros [_ P]. assert (MK : map rkey l1 = map rkey l2).
    { apply (sorted_unique _ rcmp laws_r); try (eapply sorted_keys; eauto). rewrite <- (keys_of_lower t l1), <- (keys_of_lower t l2) by auto.
      apply Permutation_map. etransitivity; [apply Permutation_map; symmetry; exact P1|]. etransitivity; [exact P|]. apply Permutation_map. auto. }
    clear - MK K1 K2. revert l2 MK K2. induction K1 as [|x l1 W K1 IH]; intros [|y l2] MK K2; cbn in MK; try discriminate; auto.
    inversion K2; subst. inversion MK as [[M1 M2]]. cbn [map]. f_equal; auto. eapply rkey_lower; eauto.
Qed.
End Eq.

(** Proofs for C104. *)
From Coq Require String Ascii.
From Verif Require Import Base NameModel RenderModel CodesModel RDataModel TextModel DeriveModel MacroModel SpecMacro SpecName SpecBuf SpecMsg SpecText SpecDerive.
Import String.StringSyntax.
Open Scope string_scope.
Open Scope list_scope.
Open Scope nat_scope.

(** * Parsing *)
Definition args (c d : ident) : list token := [TIdent "codec"; TEq; TStr c; TComma; TIdent "display"; TEq; TStr d].
Lemma parse_args_inv : forall ts v, parse_args ts = (Ok v, []) -> exists c d, ts = args c d /\ v = (c, d).
Proof.
  intros ts v. unfold parse_args, bind, parse_ident, parse_eq, parse_comma, parse_str, ensure, ret, fail.
  destruct ts as [|[s| | | | |] ts]; try discriminate. destruct (String.eqb_spec s "codec") as [->|]; [|discriminate].
  destruct ts as [|[ | | | | |] ts]; try discriminate. destruct ts as [|[ | | |c| |] ts]; try discriminate. destruct ts as [|[ | | | | |] ts]; try discriminate.
  destruct ts as [|[s| | | | |] ts]; try discriminate. destruct (String.eqb_spec s "display") as [->|]; [|discriminate].
  destruct ts as [|[ | | | | |] ts]; try discriminate. destruct ts as [|[ | | |d| |] ts]; try discriminate. intros H. injection H as <- ->. exists c, d. auto.
Qed.
Lemma parse_args_ok : forall ts, fst (parse_args ts) <> Panic /\ fst (parse_args ts) <> Hang.
Proof.
  intros ts. unfold parse_args, bind, parse_ident, parse_eq, parse_comma, parse_str, ensure, ret, fail.
  destruct ts as [|[s| | | | |] ts]; try (split; discriminate). destruct (String.eqb_spec s "codec") as [->|]; [|split; discriminate].
  destruct ts as [|[ | | | | |] ts]; try (split; discriminate). destruct ts as [|[ | | |c| |] ts]; try (split; discriminate). destruct ts as [|[ | | | | |] ts]; try (split; discriminate).
  destruct ts as [|[s| | | | |] ts]; try (split; discriminate). destruct (String.eqb_spec s "display") as [->|]; [|split; discriminate].
  destruct ts as [|[ | | | | |] ts]; try (split; discriminate). destruct ts as [|[ | | |d| |] ts]; split; discriminate.
Qed.
Lemma field_parse_annotated : forall f c d, annotated f c d -> field_parse_token f = Ok (mkPField (f_name f) c d).
Proof. intros f c d A. unfold field_parse_token. rewrite A. reflexivity. Qed.
Lemma field_parse_cases : forall f, (exists c d, annotated f c d) \/ field_parse_token f = Err /\ forall c d, ~ annotated f c d.
Proof.
  intros f. unfold field_parse_token, annotated. destruct (f_attrs f) as [|a [|a' r]].
  - right. split; [reflexivity|discriminate].
  - cbn [length Nat.eqb negb]. cbn [idx nth_error rbind]. destruct a as [p o]. cbn [at_path]. destruct (path_is_ident p "field") eqn:P; cbn [negb].
    + assert (p = ["field"]). { destruct p as [|s [|]]; try discriminate. cbn in P. apply String.eqb_eq in P. now subst. } subst p.
      unfold parse_attr. cbn [at_args]. destruct o as [ts|]; [|right; split; [reflexivity|discriminate]].
      pose proof (parse_args_ok ts) as [S1 S2]. pose proof (parse_args_inv ts) as I.
      destruct (parse_args ts) as [[v| | |] [|t rest]] eqn:E; cbn [fst] in S1, S2; try congruence.
      * destruct (I v eq_refl) as (c & d & -> & ->). left. exists c, d. reflexivity.
      * right. split; [reflexivity|]. intros c d H. injection H as ->. change (parse_args (args c d) = (Ok v, t :: rest)) in E. cbv in E. discriminate.
      * right. split; [reflexivity|]. intros c d H. injection H as ->. cbv in E. discriminate.
      * right. split; [reflexivity|]. intros c d H. injection H as ->. cbv in E. discriminate.
    + right. split; [reflexivity|]. intros c d H. injection H as -> ->. discriminate.
  - right. split; [reflexivity|discriminate].
Qed.
Definition pf (f : rfield) (cd : ident * ident) : pfield := mkPField (f_name f) (fst cd) (snd cd).
Definition ann (f : rfield) (cd : ident * ident) : Prop := annotated f (fst cd) (snd cd).
Lemma fold_parse : forall fs cds acc, Forall2 ann fs cds ->
  rfold (fun fields field => let? f := field_parse_token field in Ok (fields ++ [f])) fs acc = Ok (acc ++ map (fun p => pf (fst p) (snd p)) (combine fs cds)).
Proof.
  intros fs cds acc H. revert acc. induction H as [|f cd fs cds A _ IH]; intros acc; cbn [rfold combine map].
  - rewrite app_nil_r. reflexivity.
  - rewrite (field_parse_annotated _ _ _ A). cbn [rbind]. rewrite IH, <- app_assoc. reflexivity.
Qed.
Lemma fold_parse_err : forall fs acc, (exists f, In f fs /\ forall c d, ~ annotated f c d) ->
  rfold (fun fields field => let? f := field_parse_token field in Ok (fields ++ [f])) fs acc = Err.
Proof.
  induction fs as [|f fs IH]; intros acc (g & I & N); [destruct I|]. cbn [rfold].
  destruct (field_parse_cases f) as [(c & d & A)|[E _]].
  - rewrite (field_parse_annotated _ _ _ A). cbn [rbind]. apply IH. destruct I as [<-|I]; [destruct (N _ _ A)|]. eauto.
  - rewrite E. reflexivity.
Qed.
Lemma all_or_not : forall fs, (exists cds, Forall2 ann fs cds) \/ exists f, In f fs /\ forall c d, ~ annotated f c d.
Proof.
  induction fs as [|f fs IH]; [left; exists []; constructor|]. destruct (field_parse_cases f) as [(c & d & A)|[_ N]].
  - destruct IH as [(cds & H)|(g & I & N)]; [left; exists ((c, d) :: cds); constructor; assumption|right; exists g; split; [right|]; assumption].
  - right. exists f. split; [left; reflexivity|exact N].
Qed.

(** * Identifiers *)
Lemma chars_app : forall a b, String.list_ascii_of_string (String.append a b) = String.list_ascii_of_string a ++ String.list_ascii_of_string b.
Proof. induction a as [|c a IH]; intros b; cbn; [reflexivity|now rewrite IH]. Qed.
Lemma ident_char_iff : forall a, ident_char a = true <-> letter a.
Proof.
  intros a. unfold ident_char, letter. cbv zeta. rewrite !orb_true_iff, !andb_true_iff, !N.leb_le, N.eqb_eq. tauto.
Qed.
Lemma ident_tail_iff : forall a, ident_tail_char a = true <-> letter_digit a.
Proof.
  intros a. unfold ident_tail_char, letter_digit. cbv zeta. rewrite orb_true_iff, andb_true_iff, !N.leb_le, ident_char_iff. tauto.
Qed.
Lemma word_ok : forall c s, String.list_ascii_of_string s <> [] -> ident_ok s = true -> word c <-> ident_ok (String.append c s) = true.
Proof.
  intros c s NE OKs. unfold word, ident_ok in *. rewrite chars_app. destruct (String.list_ascii_of_string c) as [|a r]; cbn [app].
  - destruct (String.list_ascii_of_string s); tauto.
  - rewrite andb_true_iff, ident_char_iff, forallb_app, andb_true_iff, !forallb_forall, Forall_forall.
    destruct (String.list_ascii_of_string s) as [|b t] eqn:Es; [congruence|]. apply andb_prop in OKs. destruct OKs as [B T]. rewrite forallb_forall in T.
    split.
    + intros [L R]. split; [exact L|]. split; [intros x I; apply ident_tail_iff, R, I|]. intros x [<-|I]; [|apply T, I]. unfold ident_tail_char. rewrite B. reflexivity.
    + intros [L [R _]]. split; [exact L|]. intros x I. apply ident_tail_iff, R, I.
Qed.
Lemma ident_new_word : forall c s, String.list_ascii_of_string s <> [] -> ident_ok s = true ->
  (word c /\ ident_new (String.append c s) = Ok (String.append c s)) \/ (~ word c /\ ident_new (String.append c s) = Panic).
Proof.
  intros c s NE OKs. pose proof (word_ok c s NE OKs) as W. unfold ident_new. destruct (ident_ok (String.append c s)); [left|right]; intuition discriminate.
Qed.
Lemma rmap_words : forall {B} (sel : pfield -> ident) (mk : pfield -> ident -> B) s fs, String.list_ascii_of_string s <> [] -> ident_ok s = true ->
  (Forall (fun f => word (sel f)) fs /\ rmap (fun f => let? g := ident_new (String.append (sel f) s) in Ok (mk f g)) fs = Ok (map (fun f => mk f (String.append (sel f) s)) fs)) \/
  (~ Forall (fun f => word (sel f)) fs /\ rmap (fun f => let? g := ident_new (String.append (sel f) s) in Ok (mk f g)) fs = Panic).
Proof.
  intros B sel mk s fs NE OKs. induction fs as [|f fs IH]; [left; split; [constructor|reflexivity]|]. cbn [rmap map].
  destruct (ident_new_word (sel f) s NE OKs) as [[W ->]|[W ->]]; cbn [rbind].
  - destruct IH as [[F ->]|[F ->]]; cbn [rbind]; [left; split; [constructor; assumption|reflexivity]|right; split; [|reflexivity]; intros H; inversion H; contradiction].
  - right. split; [|reflexivity]. intros H. inversion H. contradiction.
Qed.
(** The statements of the generated [fmt]. *)
Fixpoint prints (fs : list pfield) : list pstmt :=
  match fs with
  | [] => []
  | [f] => [Print (String.append (pf_display f) "_to_str") (by_ref (pf_codec f)) (pf_name f)]
  | f :: fs' => Print (String.append (pf_display f) "_to_str") (by_ref (pf_codec f)) (pf_name f) :: PrintSpace :: prints fs'
  end.
Lemma to_str_words : forall fs i count, count = i + length fs ->
  (Forall (fun f => word (pf_display f)) fs /\ derive_to_str_from count i fs = Ok (prints fs)) \/
  (~ Forall (fun f => word (pf_display f)) fs /\ derive_to_str_from count i fs = Panic).
Proof.
  induction fs as [|f fs IH]; intros i count L; [left; split; [constructor|reflexivity]|]. cbn [derive_to_str_from]. cbn [length] in L.
  destruct (ident_new_word (pf_display f) "_to_str" ltac:(discriminate) eq_refl) as [[W ->]|[W ->]]; cbn [rbind].
  - unfold csub. destruct (Nat.leb_spec 1 count); [|lia]. cbn [rbind]. destruct (IH (S i) count ltac:(lia)) as [[F ->]|[F ->]]; cbn [rbind].
    + left. split; [constructor; assumption|]. f_equal. destruct fs as [|f' fs'].
      * cbn [length] in L. replace (i =? count - 1) with true by (symmetry; apply Nat.eqb_eq; lia). reflexivity.
      * cbn [length] in L. replace (i =? count - 1) with false by (symmetry; apply Nat.eqb_neq; lia). reflexivity.
    + right. split; [|reflexivity]. intros H'. inversion H'. contradiction.
  - right. split; [|reflexivity]. intros H'. inversion H'. contradiction.
Qed.

(** The emitted code. *)
Definition emitted (n : ident) (ps : list pfield) : generated :=
  mkGen n (map (fun f => (pf_name f, String.append (pf_codec f) "_from_wire")) ps) (map (fun f => (pf_name f, pf_name f)) ps)
    (map (fun f => (String.append (pf_codec f) "_to_wire", by_ref (pf_codec f), pf_name f)) ps)
    (map (fun f => (pf_name f, String.append (pf_display f) "_from_str")) ps) (prints ps).
Definition pfs (fs : list rfield) (cds : list (ident * ident)) : list pfield := map (fun p => pf (fst p) (snd p)) (combine fs cds).
Lemma derive_annotated : forall n fs cds, Forall2 ann fs cds ->
  let W := Forall (fun cd => word (fst cd) /\ word (snd cd)) cds in
  (W /\ derive (NamedStruct n fs) = Ok (emitted n (pfs fs cds))) \/ (~ W /\ derive (NamedStruct n fs) = Panic).
Proof.
  intros n fs cds H W.
  assert (WC : Forall (fun f => word (pf_codec f)) (pfs fs cds) <-> Forall (fun cd => word (fst cd)) cds).
  { unfold pfs. clear W. induction H; cbn; [split; constructor|]. split; intros F; inversion F; constructor; tauto. }
  assert (WD : Forall (fun f => word (pf_display f)) (pfs fs cds) <-> Forall (fun cd => word (snd cd)) cds).
  { unfold pfs. clear W WC. induction H; cbn; [split; constructor|]. split; intros F; inversion F; constructor; tauto. }
  assert (WW : W <-> Forall (fun cd => word (fst cd)) cds /\ Forall (fun cd => word (snd cd)) cds).
  { unfold W. split; [intros F; split; eapply Forall_impl; [|exact F| |exact F]; cbn; tauto|]. intros [F1 F2]. rewrite Forall_forall in *. intros x I. auto. }
  unfold derive, struct_parse_token. rewrite (fold_parse fs cds [] H). cbn [rbind app]. fold (pfs fs cds).
  unfold derive_from_wire, derive_to_wire, derive_from_str, derive_to_str. cbn [ps_fields ps_name].
  destruct (rmap_words pf_codec (fun f g => (pf_name f, g)) "_from_wire" (pfs fs cds) ltac:(discriminate) eq_refl) as [[F1 ->]|[F1 ->]]; cbn [rbind]; [|right; split; [tauto|reflexivity]].
  destruct (rmap_words pf_codec (fun f g => (g, by_ref (pf_codec f), pf_name f)) "_to_wire" (pfs fs cds) ltac:(discriminate) eq_refl) as [[F2 ->]|[F2 ->]]; cbn [rbind]; [|right; split; [tauto|reflexivity]].
  destruct (rmap_words pf_display (fun f g => (pf_name f, g)) "_from_str" (pfs fs cds) ltac:(discriminate) eq_refl) as [[F3 ->]|[F3 ->]]; cbn [rbind]; [|right; split; [tauto|reflexivity]].
  destruct (to_str_words (pfs fs cds) 0 (length (pfs fs cds)) eq_refl) as [[F4 ->]|[F4 ->]]; cbn [rbind]; [|right; split; [tauto|reflexivity]].
  left. split; [tauto|reflexivity].
Qed.
Lemma derive_not_annotated : forall n fs, (exists f, In f fs /\ forall c d, ~ annotated f c d) -> derive (NamedStruct n fs) = Err.
Proof. intros n fs H. unfold derive, struct_parse_token. rewrite (fold_parse_err fs [] H). reflexivity. Qed.
Lemma ann_unique : forall f c d c' d', annotated f c d -> annotated f c' d' -> c = c' /\ d = d'.
Proof. unfold annotated. intros f c d c' d' A B. rewrite A in B. inversion B. auto. Qed.
Lemma ann_list : forall fs, Forall (fun f => exists c d, annotated f c d) fs -> exists cds, Forall2 ann fs cds.
Proof. induction 1 as [|f fs (c & d & A) _ (cds & IH)]; [exists []; constructor|]. exists ((c, d) :: cds). constructor; assumption. Qed.

(** ** C104, what is accepted *)
Lemma derive_ok : forall n fs, (exists g, derive (NamedStruct n fs) = Ok g) <-> Forall (fun f => exists c d, annotated f c d /\ word c /\ word d) fs.
Proof.
  intros n fs. destruct (all_or_not fs) as [(cds & H)|N].
  - assert (Q : Forall (fun f => exists c d, annotated f c d /\ word c /\ word d) fs <-> Forall (fun cd => word (fst cd) /\ word (snd cd)) cds).
    { induction H as [|f [c d] fs cds A H IH]; [split; constructor|]. cbn [ann fst snd] in A. unfold ann in A; cbn [fst snd] in A. split; intros F; inversion F as [|? ? X Y]; subst; constructor; try tauto.
      - destruct X as (c' & d' & A' & W). destruct (ann_unique _ _ _ _ _ A A') as [-> ->]. exact W.
      - exists c, d. auto. }
    rewrite Q. destruct (derive_annotated n fs cds H) as [[W E]|[W E]]; rewrite E; [split; eauto|]. split; [intros (g & X); discriminate|intros F; contradiction].
  - rewrite (derive_not_annotated n fs N). split; [intros (g & X); discriminate|]. intros F. destruct N as (f & I & N). rewrite Forall_forall in F. destruct (F f I) as (c & d & A & _). destruct (N c d A).
Qed.
Lemma derive_err : forall i, derive i = Err <-> match i with OtherInput _ => True | NamedStruct _ fs => exists f, In f fs /\ forall c d, ~ annotated f c d end.
Proof.
  intros [n fs|n]; [|split; auto]. destruct (all_or_not fs) as [(cds & H)|N].
  - split.
    + destruct (derive_annotated n fs cds H) as [[W E]|[W E]]; rewrite E; discriminate.
    + intros (f & I & N). exfalso. clear -H I N. induction H as [|f' cd fs cds A H IH]; [destruct I|]. destruct I as [->|I]; [exact (N _ _ A)|auto].
  - split; [intros _; exact N|]. intros _. apply derive_not_annotated, N.
Qed.
Lemma derive_no_hang : forall i, derive i <> Hang.
Proof.
  intros [n fs|n]; [|discriminate]. destruct (all_or_not fs) as [(cds & H)|N].
  - destruct (derive_annotated n fs cds H) as [[W E]|[W E]]; rewrite E; discriminate.
  - rewrite (derive_not_annotated n fs N). discriminate.
Qed.

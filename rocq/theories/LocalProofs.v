(** Decoders depend only on the octets up to 256 past the place where they stop. *)
From Verif Require Import Base BaseLemmas NameModel RenderModel CodesModel RDataModel MsgModel SpecName SpecBuf SpecCodes SpecMsg SpecLocal NameWireProofs BufProofs DecodeProofs PropNameAux.
Open Scope list_scope.
Open Scope nat_scope.

Lemma sp_weaken : forall k k' w w', k' <= k -> same_prefix k w w' -> same_prefix k' w w'.
Proof. intros k k' w w' L H i c I. apply H. lia. Qed.
Lemma sp_len : forall k w w' q, same_prefix k w w' -> q <= k -> q <= length w -> q <= length w'.
Proof.
  intros k w w' q H A B. destruct q as [|q]; [lia|]. destruct (nth_error w q) as [c|] eqn:N; [|apply nth_error_None in N; lia].
  apply H in N; [|lia]. assert (nth_error w' q <> None) by congruence. apply nth_error_Some in H0. lia.
Qed.
Lemma sp_idx : forall k w w' i c, same_prefix k w w' -> i < k -> idx w i = Ok c -> idx w' i = Ok c.
Proof. intros k w w' i c H L E. unfold idx in *. destruct (nth_error w i) as [x|] eqn:N; [|discriminate]. rewrite (H _ _ L N). exact E. Qed.
Lemma sp_firstn : forall q w w', same_prefix q w w' -> q <= length w -> firstn q w' = firstn q w.
Proof.
  induction q as [|q IH]; intros w w' H L; [reflexivity|]. destruct w as [|x w]; [cbn in L; lia|]. pose proof (H 0 x ltac:(lia) eq_refl) as X. destruct w' as [|y w']; [discriminate|]. injection X as ->. cbn [firstn]. f_equal.
  apply IH; [|cbn in L; lia]. intros i c I N. apply (H (S i) c); [lia|exact N].
Qed.
Lemma sp_slice : forall q w w' p l, same_prefix q w w' -> slice w p q = Ok l -> slice w' p q = Ok l.
Proof.
  intros q w w' p l H E. unfold slice in *. destruct (p <=? q) eqn:A; [|discriminate]. destruct (q <=? length w) eqn:B; [|discriminate]. cbn [andb] in *. apply Nat.leb_le in A, B.
  rewrite (proj2 (Nat.leb_le q (length w')) (sp_len _ _ _ q H (le_n _) B)). rewrite <- E. f_equal. pose proof (sp_firstn _ _ _ H B) as F.
  rewrite !firstn_skipn_comm. replace (p + (q - p)) with q by lia. rewrite F. reflexivity.
Qed.

Definition local {A} (m : M inbuf A) : Prop := forall w p a b, bytes w -> p <= length w -> m (mkIn w p) = (Ok a, b) ->
  ib_data b = w /\ p <= ib_pos b <= length w /\ forall w', bytes w' -> same_prefix (ib_pos b + 256) w w' -> m (mkIn w' p) = (Ok a, mkIn w' (ib_pos b)).
Lemma local_ret : forall A (a : A), local (ret a).
Proof. intros A a w p a' b B L E. unfold ret in *. injection E as -> <-. cbn. split; [reflexivity|]. split; [lia|]. intros; reflexivity. Qed.
Lemma local_lift : forall A (r : res A), local (lift r).
Proof. intros A r w p a' b B L E. unfold lift in *. injection E as -> <-. cbn. split; [reflexivity|]. split; [lia|]. intros; reflexivity. Qed.
Lemma local_fail : forall A, local (@fail inbuf A).
Proof. intros A w p a b B L E. discriminate. Qed.
Lemma local_ensure : forall c, local (@ensure inbuf c).
Proof. intros [|]; [apply local_ret|apply local_fail]. Qed.
Lemma local_position : local position.
Proof. intros w p a b B L E. unfold position in *. injection E as <- <-. cbn. split; [reflexivity|]. split; [lia|]. intros; reflexivity. Qed.
Lemma local_bind : forall A B (m : M inbuf A) (f : A -> M inbuf B), local m -> (forall a, local (f a)) -> local (bind m f).
Proof.
  intros A B m f Lm Lf w p a b By L E. unfold bind in E. destruct (m (mkIn w p)) as [[x| | |] b1] eqn:E1; try discriminate. destruct (Lm _ _ _ _ By L E1) as (D1 & P1 & X1). destruct b1 as [w1 p1]. cbn [ib_data ib_pos] in *. subst w1.
  destruct (Lf x _ _ _ _ By (proj2 P1) E) as (D2 & P2 & X2). split; [exact D2|]. split; [lia|]. intros w' By' SP. unfold bind. rewrite (X1 w' By'); [|eapply sp_weaken; [|exact SP]; lia]. apply X2; auto.
Qed.
Lemma local_u8 : local read_u8.
Proof.
  intros w p a b By L E. unfold read_u8, ib_len in *. cbn [ib_data ib_pos] in *. destruct (p <? length w) eqn:Z; [|discriminate]. apply Nat.ltb_lt in Z. injection E as E <-. cbn [ib_data ib_pos]. split; [reflexivity|]. split; [lia|]. intros w' By' SP.
  assert (LE := sp_len _ _ _ (p + 1) SP ltac:(lia) ltac:(lia)). rewrite (proj2 (Nat.ltb_lt p (length w'))) by lia. rewrite (sp_idx _ _ _ p a SP ltac:(lia) E). reflexivity.
Qed.
Lemma idx_in : forall (w : list N) i, i < length w -> exists c, idx w i = Ok c.
Proof. intros w i L. unfold idx. destruct (nth_error w i) as [c|] eqn:N; [eauto|]. apply nth_error_None in N. lia. Qed.
Lemma local_u16 : local read_u16.
Proof.
  intros w p a b By L E. unfold read_u16, ib_len in *. cbn [ib_data ib_pos] in *. destruct (p + 1 <? length w) eqn:Z; [|discriminate]. apply Nat.ltb_lt in Z.
  destruct (idx_in w p ltac:(lia)) as [c0 E0]. destruct (idx_in w (p + 1) ltac:(lia)) as [c1 E1]. rewrite E0, E1 in E. cbn [rbind] in E. injection E as <- <-. cbn [ib_data ib_pos]. split; [reflexivity|]. split; [lia|]. intros w' By' SP.
  assert (LE := sp_len _ _ _ (p + 2) SP ltac:(lia) ltac:(lia)). rewrite (proj2 (Nat.ltb_lt (p + 1) (length w'))) by lia. rewrite (sp_idx _ _ _ p c0 SP ltac:(lia) E0), (sp_idx _ _ _ (p + 1) c1 SP ltac:(lia) E1). reflexivity.
Qed.
Lemma local_u32 : local read_u32.
Proof.
  intros w p a b By L E. unfold read_u32, ib_len in *. cbn [ib_data ib_pos] in *. destruct (p + 3 <? length w) eqn:Z; [|discriminate]. apply Nat.ltb_lt in Z.
  destruct (idx_in w p ltac:(lia)) as [c0 E0]. destruct (idx_in w (p + 1) ltac:(lia)) as [c1 E1]. destruct (idx_in w (p + 2) ltac:(lia)) as [c2 E2]. destruct (idx_in w (p + 3) ltac:(lia)) as [c3 E3].
  rewrite E0, E1, E2, E3 in E. cbn [rbind] in E. injection E as <- <-. cbn [ib_data ib_pos]. split; [reflexivity|]. split; [lia|]. intros w' By' SP.
  assert (LE := sp_len _ _ _ (p + 4) SP ltac:(lia) ltac:(lia)). rewrite (proj2 (Nat.ltb_lt (p + 3) (length w'))) by lia.
  rewrite (sp_idx _ _ _ p c0 SP ltac:(lia) E0), (sp_idx _ _ _ (p + 1) c1 SP ltac:(lia) E1), (sp_idx _ _ _ (p + 2) c2 SP ltac:(lia) E2), (sp_idx _ _ _ (p + 3) c3 SP ltac:(lia) E3). reflexivity.
Qed.
Lemma local_bytes : forall n, local (read_bytes n).
Proof.
  intros n w p a b By L E. unfold read_bytes, ib_len in *. cbn [ib_data ib_pos] in *. destruct (p + n <=? length w) eqn:Z; [|discriminate]. apply Nat.leb_le in Z. injection E as E <-. cbn [ib_data ib_pos]. split; [reflexivity|]. split; [lia|]. intros w' By' SP.
  assert (LE := sp_len _ _ _ (p + n) SP ltac:(lia) Z). rewrite (proj2 (Nat.leb_le (p + n) (length w')) LE). rewrite (sp_slice (p + n) w w' p a); [reflexivity|eapply sp_weaken; [|exact SP]; lia|exact E].
Qed.
(** names *)
Lemma wl_nil : wire_len [] = 1.
Proof. reflexivity. Qed.
Lemma wl_cons : forall l ls, wire_len (l :: ls) = 1 + length l + wire_len ls.
Proof. exact NameWireProofs.wire_len_cons. Qed.
Lemma wname_end : forall rd lim pos ls e, wname rd lim pos ls e -> pos < e <= pos + wire_len ls + 1.
Proof.
  intros rd lim pos ls e H. induction H as [lim pos R|lim pos l ls e L R C H IH|lim pos hi lo t ls e R1 Hh R2 Et Lt H IH].
  - rewrite wl_nil. lia.
  - rewrite wl_cons. lia.
  - assert (1 <= wire_len ls) by (destruct ls; [rewrite wl_nil|rewrite wl_cons]; lia). lia.
Qed.
Lemma wname_local : forall rd rd' lim pos ls e k, (forall i c, i < k -> rd i = Some c -> rd' i = Some c) -> e <= k -> lim + wire_len ls + 1 <= k -> wname rd lim pos ls e -> wname rd' lim pos ls e.
Proof.
  intros rd rd' lim pos ls e k SP Ek Lk H. revert Ek Lk. induction H as [lim pos R|lim pos l ls e L R C H IH|lim pos hi lo t ls e R1 Hh R2 Et Lt H IH]; intros Ek Lk.
  - apply wn_root. apply SP; [lia|exact R].
  - pose proof (wname_end _ _ _ _ _ H) as W. apply wn_label; auto.
    + apply SP; [lia|exact R].
    + intros i c N. apply SP; [|apply C; exact N]. assert (nth_error l i <> None) by congruence. apply nth_error_Some in H0. lia.
    + apply IH; [exact Ek|]. rewrite wl_cons in Lk. lia.
  - pose proof (wname_end _ _ _ _ _ H) as W. eapply wn_ptr; [apply SP; [lia|exact R1]|exact Hh|apply SP; [lia|exact R2]|exact Et|exact Lt|]. apply IH; lia.
Qed.
Lemma local_name : local name_from_wire.
Proof.
  intros w p a b By L E. destruct (aux_from_wire_total w p By L) as (r & p' & E0 & Lp & _). rewrite E in E0. injection E0 as <- ->.
  apply (aux_from_wire_exact w p a p' By L) in E. destruct E as (ls & W & WL & ->). pose proof (wname_end _ _ _ _ _ W) as We. cbn [ib_data ib_pos]. split; [reflexivity|]. split; [lia|]. intros w' By' SP.
  apply (aux_from_wire_exact w' p _ p' By'); [eapply sp_len; [exact SP|lia|exact L]|]. exists ls. split; [|split; [exact WL|reflexivity]]. eapply wname_local; [exact SP|lia|lia|exact W].
Qed.
(** the rest by composition *)
Ltac loc := repeat lazymatch goal with
  | |- local (ret _) => apply local_ret | |- local fail => apply local_fail | |- local (lift _) => apply local_lift | |- local (ensure _) => apply local_ensure | |- local position => apply local_position
  | |- local read_u8 => apply local_u8 | |- local read_u16 => apply local_u16 | |- local read_u32 => apply local_u32 | |- local (read_bytes _) => apply local_bytes | |- local name_from_wire => apply local_name
  | |- local (bind _ _) => apply local_bind; [|intros ?] end.
Lemma local_byte_binary : forall L, local (byte_binary_from_wire L).
Proof. intros L. unfold byte_binary_from_wire. loc. Qed.
Lemma local_text : forall f L d, local (text_loop f L d).
Proof. induction f as [|f IH]; intros L d; cbn [text_loop]; [loc|]. destruct (0 <? L)%N; loc. { apply local_byte_binary. } destruct a as [t l']. apply IH. Qed.
Lemma local_rname : forall L, local (rname_from_wire L).
Proof. intros L. unfold rname_from_wire. loc. Qed.
Lemma local_field : forall k L, local (field_from_wire k L).
Proof.
  intros k L. destruct k; cbn [field_from_wire]; unfold ip_from_wire, text_from_wire; loc; try (destruct a); loc; try apply local_byte_binary; try apply local_rname; try apply local_text; try (destruct a; loc).
Qed.
Lemma local_fields : forall ks L, local (fields_from_wire ks L).
Proof. induction ks as [|k ks IH]; intros L; cbn [fields_from_wire]; loc. { apply local_field. } destruct a as [v L']. loc. { apply IH. } destruct a as [vs L2]. loc. Qed.
Lemma local_rdata : forall t L, local (rdata_from_wire t L).
Proof. intros t L. unfold rdata_from_wire. loc. destruct (variant_of_type t); [|loc]. loc. unfold struct_from_wire. loc. { apply local_fields. } destruct a0 as [vs L']. loc. Qed.
Lemma local_rrset : local rrset_from_wire.
Proof. unfold rrset_from_wire, rrtype_from_wire, rrclass_from_wire. loc. destruct (a3 =? 0)%N; [destruct (rrtype_eqb a0 TOPT); loc|]. loc. apply local_rdata. Qed.
Lemma local_section_loop : forall n rs last, local (section_loop n rs last).
Proof.
  induction n as [|n IH]; intros rs last; cbn [section_loop]; [loc|]. loc; [apply local_rrset|]. destruct a0; [|apply IH]. destruct (rrtype_eqb (rs_type a) TOPT); loc. apply IH.
Qed.
Lemma local_section : forall c t, local (section_from_wire c t).
Proof. intros c t. unfold section_from_wire. destruct (c =? 0)%N; [loc|]. loc; [apply local_rrset| |apply local_section_loop|destruct a1; loc]. destruct (_ && _); loc. Qed.
Lemma local_question : local question_from_wire.
Proof. unfold question_from_wire, rrtype_from_wire, rrclass_from_wire. loc. Qed.
Lemma local_header : local header_from_wire.
Proof. unfold header_from_wire. loc. Qed.
Lemma local_response : local response_from_buf.
Proof. unfold response_from_buf. loc; try apply local_section; [apply local_header|apply local_question]. Qed.
Lemma local_request : local request_from_buf.
Proof. unfold request_from_buf. loc; [apply local_header|]. destruct (h_qd a =? 1)%N; [apply local_question|loc]. Qed.

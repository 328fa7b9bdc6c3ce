(** Bit-level facts used by the packed fields and big-endian integers. *)
From Verif Require Import Base BaseLemmas.
Local Open Scope N_scope.

Lemma testbit_small : forall b n i, b < 2 ^ n -> n <= i -> N.testbit b i = false.
Proof.
  intros b n i H Hi. rewrite <- (N.mod_small b (2 ^ n)) by auto. apply N.mod_pow2_bits_high. auto.
Qed.
Lemma lor_shiftl_add : forall a b n, b < 2 ^ n -> N.lor (N.shiftl a n) b = a * 2 ^ n + b.
Proof.
  intros a b n H. rewrite <- (N.shiftl_mul_pow2 a n).
  assert (L : N.land (N.shiftl a n) b = 0).
  { apply N.bits_inj. intro i. rewrite N.land_spec, N.bits_0.
    destruct (N.lt_ge_cases i n).
    - rewrite N.shiftl_spec_low by auto. auto.
    - rewrite (testbit_small b n i) by auto. apply andb_false_r. }
  rewrite N.add_nocarry_lxor by auto. symmetry. apply N.lxor_lor. auto.
Qed.
Lemma lxor_bound : forall a b n, a < 2 ^ n -> b < 2 ^ n -> N.lxor a b < 2 ^ n.
Proof.
  intros a b n Ha Hb.
  assert (E : N.lxor a b = N.lxor a b mod 2 ^ n).
  { apply N.bits_inj. intro i. destruct (N.lt_ge_cases i n).
    - rewrite N.mod_pow2_bits_low by auto. auto.
    - rewrite N.mod_pow2_bits_high by auto. rewrite N.lxor_spec, (testbit_small a n i), (testbit_small b n i) by auto. auto. }
  rewrite E. apply N.mod_lt. apply N.pow_nonzero. discriminate.
Qed.
Lemma land_ones_mod : forall a n, N.land a (2 ^ n - 1) = a mod 2 ^ n.
Proof. intros. rewrite <- N.land_ones. f_equal. rewrite N.ones_equiv. lia. Qed.
Lemma land255 : forall a, N.land a 255 = a mod 256. Proof. intros. apply (land_ones_mod a 8). Qed.
Lemma land65535 : forall a, N.land a 65535 = a mod 65536. Proof. intros. apply (land_ones_mod a 16). Qed.
Lemma shr_mask8 : forall a, N.shiftr (N.land a 65280) 8 = (a / 256) mod 256.
Proof. intros. rewrite N.shiftr_land, N.shiftr_div_pow2. change (N.shiftr 65280 8) with 255. apply land255. Qed.
Lemma shr_mask16 : forall a, N.shiftr (N.land a 16711680) 16 = (a / 65536) mod 256.
Proof. intros. rewrite N.shiftr_land, N.shiftr_div_pow2. change (N.shiftr 16711680 16) with 255. apply land255. Qed.
Lemma shr_mask24 : forall a, N.shiftr (N.land a 4278190080) 24 = (a / 16777216) mod 256.
Proof. intros. rewrite N.shiftr_land, N.shiftr_div_pow2. change (N.shiftr 4278190080 24) with 255. apply land255. Qed.
Lemma shr_mask_hi : forall a, N.shiftr (N.land a 4294901760) 16 = (a / 65536) mod 65536.
Proof. intros. rewrite N.shiftr_land, N.shiftr_div_pow2. change (N.shiftr 4294901760 16) with 65535. apply land65535. Qed.
Lemma shl8_lor : forall h l, l < 256 -> N.lor (N.shiftl h 8) l = h * 256 + l.
Proof. intros. apply (lor_shiftl_add h l 8). auto. Qed.

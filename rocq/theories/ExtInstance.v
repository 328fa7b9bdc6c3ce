(** A concrete implementation of the functions the library takes from other crates (std::net, base64, time), showing that
    the contract [ext_ok] is met by what they are: the address texts of Rust's standard library (StdNet.v),
    standard padded base64 and the proleptic Gregorian calendar in UTC.  Not part of the model of /repo. *)
From Coq Require Import String.
From Verif Require Import Base BaseLemmas NameModel RenderModel CodesModel RDataModel MsgModel TextModel SpecName SpecBuf SpecCodes SpecMsg SpecText
  TextProofs TextProofs2 TextProofs3 TextProofs4 StdNet StdNetProofs.
Open Scope list_scope.
Open Scope nat_scope.

(** * Base64 *)
Definition b64_table : list N := Eval vm_compute in of_string "ABCDEFGHIJKLMNOPQRSTUVWXYZabcdefghijklmnopqrstuvwxyz0123456789+/"%string.
Definition b64c (v : N) : N := nth (N.to_nat v) b64_table 0%N.
Definition b64v (c : N) : option N :=
  if within 65 90 c then Some (c - 65)%N else if within 97 122 c then Some (c - 71)%N else if within 48 57 c then Some (c + 4)%N
  else if (c =? 43)%N then Some 62%N else if (c =? 47)%N then Some 63%N else None.
Fixpoint b64_enc (d : list N) : list N :=
  match d with
  | [] => []
  | [a] => [b64c (a / 4); b64c (a mod 4 * 16); 61; 61]%N
  | [a; b] => [b64c (a / 4); b64c (a mod 4 * 16 + b / 16); b64c (b mod 16 * 4); 61]%N
  | a :: b :: c :: r => [b64c (a / 4); b64c (a mod 4 * 16 + b / 16); b64c (b mod 16 * 4 + c / 64); b64c (c mod 64)]%N ++ b64_enc r
  end.
Fixpoint b64_dec (s : list N) : option (list N) :=
  match s with
  | [] => Some []
  | w :: x :: y :: z :: r =>
      match b64v w, b64v x with
      | Some w, Some x =>
          if (y =? 61)%N then
            match r with [] => if (z =? 61)%N && (x mod 16 =? 0)%N then Some [w * 4 + x / 16]%N else None | _ => None end
          else match b64v y with
          | Some y =>
              if (z =? 61)%N then
                match r with [] => if (y mod 4 =? 0)%N then Some [w * 4 + x / 16; x mod 16 * 16 + y / 4]%N else None | _ => None end
              else match b64v z, b64_dec r with
                   | Some z, Some d => Some ([w * 4 + x / 16; x mod 16 * 16 + y / 4; y mod 4 * 64 + z]%N ++ d)
                   | _, _ => None
                   end
          | None => None
          end
      | _, _ => None
      end
  | _ => None
  end.
Lemma b64c_ok : forall v, (v < 64)%N -> b64v (b64c v) = Some v /\ vis (b64c v) /\ (b64c v =? 61)%N = false.
Proof.
  intros v H. assert (J : forall n, n < 64 -> b64v (b64c (N.of_nat n)) = Some (N.of_nat n) /\ vis (b64c (N.of_nat n)) /\ (b64c (N.of_nat n) =? 61)%N = false).
  { intros n L. do 64 (destruct n as [|n]; [vm_compute; repeat split; congruence|]). lia. }
  specialize (J (N.to_nat v)). rewrite N2Nat.id in J. apply J. lia.
Qed.
Lemma dm : forall a q, (q <> 0)%N -> exists d m, (a / q = d /\ a mod q = m /\ a = q * d + m /\ m < q)%N.
Proof. intros a q H. exists (a / q)%N, (a mod q)%N. repeat split; [apply N.div_mod; exact H|apply N.mod_lt; exact H]. Qed.
Lemma div_mix : forall q h l, (l < q)%N -> ((h * q + l) / q = h /\ (h * q + l) mod q = l)%N.
Proof.
  intros q h l H. assert (q <> 0)%N by lia. rewrite N.div_add_l, N.div_small, N.add_0_r by auto. rewrite N.add_comm, N.mod_add, N.mod_small by auto. auto.
Qed.
Lemma b64_rt : forall n d, length d <= n -> bytes d -> Forall vis (b64_enc d) /\ b64_dec (b64_enc d) = Some d.
Proof.
  induction n as [|n IH]; intros d L B; [destruct d; [split; [constructor|reflexivity]|cbn [length] in L; lia]|].
  destruct d as [|a [|b [|c r]]].
  - split; [constructor|reflexivity].
  - inversion B as [|? ? Ba _]; subst. unfold byte in Ba. destruct (dm a 4 ltac:(discriminate)) as (a1 & a0 & E1 & E2 & E3 & E4).
    cbn [b64_enc]. rewrite E1, E2.
    destruct (b64c_ok a1 ltac:(lia)) as (V1 & P1 & _). destruct (b64c_ok (a0 * 16) ltac:(lia)) as (V2 & P2 & _).
    split; [repeat constructor; first [assumption|apply P1|apply P2|unfold vis; lia]|]. cbn [b64_dec]. rewrite V1, V2.
    destruct (div_mix 16 a0 0 ltac:(lia)) as [Q1 Q2]. rewrite N.add_0_r in Q1, Q2. rewrite N.eqb_refl. rewrite Q2, N.eqb_refl. cbn [andb].
    rewrite Q1. f_equal. f_equal. lia.
  - inversion B as [|? ? Ba B1]; inversion B1 as [|? ? Bb _]; subst. unfold byte in Ba, Bb.
    destruct (dm a 4 ltac:(discriminate)) as (a1 & a0 & E1 & E2 & E3 & E4). destruct (dm b 16 ltac:(discriminate)) as (b1 & b0 & F1 & F2 & F3 & F4).
    cbn [b64_enc]. rewrite E1, E2, F1, F2.
    destruct (b64c_ok a1 ltac:(lia)) as (V1 & P1 & _). destruct (b64c_ok (a0 * 16 + b1) ltac:(lia)) as (V2 & P2 & _). destruct (b64c_ok (b0 * 4) ltac:(lia)) as (V3 & P3 & X3).
    split; [repeat constructor; first [apply P1|apply P2|apply P3|unfold vis; lia]|]. cbn [b64_dec]. rewrite V1, V2, X3, V3.
    destruct (div_mix 16 a0 b1 ltac:(lia)) as [Q1 Q2]. destruct (div_mix 4 b0 0 ltac:(lia)) as [R1 R2]. rewrite N.add_0_r in R1, R2.
    rewrite N.eqb_refl, R2, N.eqb_refl, Q1, Q2, R1. f_equal. f_equal; [lia|f_equal; lia].
  - inversion B as [|? ? Ba B1]; inversion B1 as [|? ? Bb B2]; inversion B2 as [|? ? Bc B3]; subst. unfold byte in Ba, Bb, Bc.
    destruct (dm a 4 ltac:(discriminate)) as (a1 & a0 & E1 & E2 & E3 & E4). destruct (dm b 16 ltac:(discriminate)) as (b1 & b0 & F1 & F2 & F3 & F4).
    destruct (dm c 64 ltac:(discriminate)) as (c1 & c0 & G1 & G2 & G3 & G4).
    cbn [length] in L. destruct (IH r ltac:(lia) B3) as [Pr Dr].
    cbn [b64_enc]. rewrite E1, E2, F1, F2, G1, G2.
    destruct (b64c_ok a1 ltac:(lia)) as (V1 & P1 & _). destruct (b64c_ok (a0 * 16 + b1) ltac:(lia)) as (V2 & P2 & _). destruct (b64c_ok (b0 * 4 + c1) ltac:(lia)) as (V3 & P3 & X3).
    destruct (b64c_ok c0 ltac:(lia)) as (V4 & P4 & X4).
    split; [cbn [app]; constructor; [exact P1|constructor; [exact P2|constructor; [exact P3|constructor; [exact P4|exact Pr]]]]|].
    cbn [app b64_dec]. rewrite V1, V2, X3, V3, X4, V4, Dr.
    destruct (div_mix 16 a0 b1 ltac:(lia)) as [Q1 Q2]. destruct (div_mix 4 b0 c1 ltac:(lia)) as [R1 R2].
    rewrite Q1, Q2, R1, R2. f_equal. cbn [app]. f_equal; [lia|f_equal; [lia|f_equal; lia]].
Qed.
Lemma b64_ok : forall d, d <> [] -> bytes d -> word_text (b64_enc d) /\ b64_dec (b64_enc d) = Some d.
Proof.
  intros d Nn B. destruct (b64_rt (length d) d (le_n _) B) as [V D]. split; auto. split; auto. destruct d as [|a [|b [|c r]]]; try discriminate. congruence.
Qed.
(** * Time *)
Definition leap (y : N) : bool := ((y mod 4 =? 0) && (negb (y mod 100 =? 0) || (y mod 400 =? 0)))%N.
Definition month_days (y m : N) : N :=
  (if m =? 2 then if leap y then 29 else 28 else if (m =? 4) || (m =? 6) || (m =? 9) || (m =? 11) then 30 else 31)%N.
Definition ymd_ok (y : Z) (m d : N) : bool := ((0 <=? y)%Z && (1 <=? m)%N && (m <=? 12)%N && (1 <=? d)%N && (d <=? month_days (Z.to_N y) m)%N).
Definition hms_ok (h m s : N) : bool := ((h <? 24) && (m <? 60) && (s <? 60))%N.
(** Days since 1970-01-01 and back (H. Hinnant's algorithms, years from 0). *)
Definition days_of (y m d : N) : N :=
  (let y' := if m <=? 2 then y - 1 else y in
   let era := y' / 400 in let yoe := y' - era * 400 in
   let doy := (153 * (if m <=? 2 then m + 9 else m - 3) + 2) / 5 + d - 1 in
   let doe := yoe * 365 + yoe / 4 - yoe / 100 + doy in era * 146097 + doe - 719468)%N.
Definition civil_of (z : N) : N * N * N :=
  (let z := z + 719468 in let era := z / 146097 in let doe := z - era * 146097 in
   let yoe := (doe - doe / 1460 + doe / 36524 - doe / 146096) / 365 in
   let y := yoe + era * 400 in let doy := doe - (365 * yoe + yoe / 4 - yoe / 100) in
   let mp := (5 * doy + 2) / 153 in let d := doy - (153 * mp + 2) / 5 + 1 in
   let m := if mp <? 10 then mp + 3 else mp - 9 in ((if m <=? 2 then y + 1 else y), m, d))%N.
Definition unix_of (y : Z) (mo d h mi s : N) : Z := Z.of_N (days_of (Z.to_N y) mo d * 86400 + h * 3600 + mi * 60 + s).
Definition time_str (n : N) : list N :=
  let '(y, m, d) := civil_of (n / 86400) in let t := (n mod 86400)%N in
  pad 4 y ++ pad 2 m ++ pad 2 d ++ pad 2 (t / 3600)%N ++ pad 2 (t mod 3600 / 60)%N ++ pad 2 (t mod 60)%N.
Definition day_check (z : N) : bool :=
  let '(y, m, d) := civil_of z in ((y <? 10000) && (m <? 100) && (d <? 100))%N && ymd_ok (Z.of_N y) m d && (days_of y m d =? z)%N.
Fixpoint all_from (k : nat) (base : N) (f : N -> bool) : bool :=
  match k with O => f base | S k' => all_from k' base f && all_from k' (base + 2 ^ N.of_nat k')%N f end.
Lemma all_from_ok : forall k base f, all_from k base f = true -> forall n, (base <= n < base + 2 ^ N.of_nat k)%N -> f n = true.
Proof.
  induction k as [|k IH]; intros base f H n L; cbn [all_from] in H.
  - cbn in L. assert (n = base) by lia. subst. exact H.
  - apply andb_true_iff in H. destruct H as [H1 H2]. replace (N.of_nat (S k)) with (N.succ (N.of_nat k)) in L by lia. rewrite N.pow_succ_r' in L.
    destruct (N.lt_ge_cases n (base + 2 ^ N.of_nat k)); [eapply IH; [exact H1|lia]|eapply IH; [exact H2|lia]].
Qed.
Lemma days_all : all_from 16 0 day_check = true.
Proof. vm_compute. reflexivity. Qed.
Lemma time_ok : forall n, (n < 4294967296)%N -> exists y mo d h mi s,
    (y < 10000 /\ mo < 100 /\ d < 100 /\ h < 100 /\ mi < 100 /\ s < 100)%N /\
    time_str n = pad 4 y ++ pad 2 mo ++ pad 2 d ++ pad 2 h ++ pad 2 mi ++ pad 2 s /\
    ymd_ok (Z.of_N y) mo d = true /\ hms_ok h mi s = true /\ unix_of (Z.of_N y) mo d h mi s = Z.of_N n.
Proof.
  intros n H. destruct (dm n 86400 ltac:(discriminate)) as (z & t & E1 & E2 & E3 & E4).
  assert (D : day_check z = true). { apply (all_from_ok 16 0 day_check days_all). change (0 + 2 ^ N.of_nat 16)%N with 65536%N. lia. }
  unfold time_str. rewrite E1, E2. unfold day_check in D. destruct (civil_of z) as [[y m] d].
  rewrite !andb_true_iff, !N.ltb_lt, N.eqb_eq in D. destruct D as [[[[Y Mo] Dd] Ok1] Dz].
  destruct (dm t 3600 ltac:(discriminate)) as (h & t1 & F1 & F2 & F3 & F4). destruct (dm t1 60 ltac:(discriminate)) as (mi & s & G1 & G2 & G3 & G4).
  assert (S60 : (t mod 60 = s)%N). { rewrite F3, G3. replace (3600 * h + (60 * mi + s))%N with (s + (60 * h + mi) * 60)%N by lia. rewrite N.mod_add by discriminate. apply N.mod_small. exact G4. }
  rewrite F1, F2, G1, S60. exists y, m, d, h, mi, s. split; [repeat split; try assumption; lia|]. split; [reflexivity|]. split; [exact Ok1|]. split.
  - unfold hms_ok. rewrite !andb_true_iff, !N.ltb_lt. lia.
  - unfold unix_of. rewrite N2Z.id, Dz. f_equal. lia.
Qed.
Definition std_ext : ext := mkExt ip4_str ip4_parse ip6_str ip6_parse b64_enc b64_dec time_str ymd_ok hms_ok unix_of.
Lemma std_ext_ok : ext_ok std_ext.
Proof. split; cbn [x_ip4_str x_ip4_parse x_ip6_str x_ip6_parse x_b64_enc x_b64_dec x_time_str x_ymd x_hms x_unix std_ext]; [exact ip4_ok|exact ip6_ok|exact b64_ok|exact time_ok]. Qed.

(** C12, C20, C45, C46: what the functions do with every value of their [usize] arguments, on 16-, 32- and 64-bit targets, in debug and
    release builds.  Model: UsizeModel.v (machine arithmetic); specification: SpecUsize.v.  The other files use unbounded arguments; the
    theorems here say when that makes no difference and what happens otherwise. *)
From Coq Require String.
Import String.StringSyntax.
From Verif Require Import Base NameModel RenderModel SpecName SpecBuf UsizeModel SpecUsize UsizeProofs.

(** C45: every read whose end fits into a usize behaves as [read_spec] says. *)
Theorem C45_usize_partial : forall W md o w p, machine W -> bytes w -> in_memory W (length w) -> p <= length w -> rop_fits W p o ->
  u_read_call W md o (mkIn w p) = match read_spec w p o with Some (v, p') => (Ok v, mkIn w p') | None => (Err, mkIn w p) end.
Proof. exact u_read_exact. Qed.
Print Assumptions C45_usize_partial.
(** Otherwise (only read_bytes, with a length near usize::MAX and the cursor not at 0) it panics instead of failing, in both builds. *)
Theorem C45_usize_refuted : forall W md n w p, p <= length w -> usize W n -> ~ usize W (p + n) ->
  u_read_call W md (RBytes n) (mkIn w p) = (Panic, mkIn w p).
Proof. exact u_read_over. Qed.
Print Assumptions C45_usize_refuted.

(** C46 *)
Theorem C46_usize_partial : forall W md o b, machine W -> wop_ok o -> wop_usize W o -> in_memory W (ob_capacity b) -> ob_len b <= ob_capacity b -> wop_fits W (ob_len b) o ->
  exists (ok : bool) b', u_write_call W md o b = ((if ok then Ok tt else Err), b') /\
    write_spec (ob_capacity b) (ob_bytes b) o ok (ob_bytes b') /\ ob_capacity b' = ob_capacity b /\ ob_len b' <= ob_capacity b'.
Proof. exact u_write_exact. Qed.
Print Assumptions C46_usize_partial.
(** A skip that does not fit into a usize panics in a debug build; in a release build it succeeds and drops bytes already written. *)
Theorem C46_skip_usize_refuted : forall W n b, ob_len b <= ob_capacity b -> usize W n -> ~ usize W (ob_len b + n) ->
  u_write_call W Debug (WSkip n) b = (Panic, b) /\
  exists b' k, u_write_call W Release (WSkip n) b = (Ok tt, b') /\ N.of_nat k = (N.of_nat (ob_len b) + N.of_nat n - W)%N /\ k < ob_len b /\
    ob_bytes b' = firstn k (ob_bytes b) /\ ob_capacity b' = ob_capacity b.
Proof. exact u_skip_over. Qed.
Print Assumptions C46_skip_usize_refuted.
(** write_u16_at near usize::MAX panics instead of failing (except on an empty buffer in a release build). *)
Theorem C46_at16_usize_refuted : forall W p d b, machine W -> in_memory W (ob_capacity b) -> usize W p -> ~ usize W (p + 2) ->
  u_write_call W Debug (WAt16 p d) b = (Panic, b) /\
  u_write_call W Release (WAt16 p d) b = ((if (ob_len b =? 0) && (N.of_nat p + 1 =? W)%N then Err else Panic), b).
Proof. exact u_at16_over. Qed.
Print Assumptions C46_at16_usize_refuted.

(** C12 *)
Theorem C12_split_usize_partial : forall W md ls i k, machine W -> wf_labels ls -> usize W (i + k) ->
  u_split W md (name_of ls) i k = if i <=? length ls then Ok (name_of (firstn k (skipn i ls))) else Err.
Proof. exact u_split_exact. Qed.
Print Assumptions C12_split_usize_partial.
(** "The rest of the name" written as split(i, usize::MAX) panics for i > 0, in both builds. *)
Theorem C12_split_usize_refuted : forall W md ls i k, machine W -> wf_labels ls -> usize W i -> usize W k -> ~ usize W (i + k) ->
  u_split W md (name_of ls) i k = if i <=? length ls then Panic else Err.
Proof. exact u_split_over. Qed.
Print Assumptions C12_split_usize_refuted.
Theorem C12_parent_usize : forall W md ls lvl, machine W -> wf_labels ls -> usize W lvl -> u_parent W md (name_of ls) lvl = parent md (name_of ls) lvl.
Proof. exact u_parent_same. Qed.
Print Assumptions C12_parent_usize.

(** C20 *)
Theorem C20_split_usize_partial : forall W md fls i k, machine W -> length (body fls) <= 255 -> usize W (i + k) ->
  u_seq_split W md (seqf fls) i k =
  if (i <? length fls) && (0 <? k) then Ok (seqf (firstn k (skipn i fls)), seqf (firstn i fls ++ skipn (i + k) fls)) else Err.
Proof. exact u_seq_split_exact. Qed.
Print Assumptions C20_split_usize_partial.
Theorem C20_split_usize_refuted : forall W md fls i k, machine W -> length (body fls) <= 255 -> usize W i -> usize W k -> ~ usize W (i + k) ->
  u_seq_split W md (seqf fls) i k = if i <? length fls then Panic else Err.
Proof. exact u_seq_split_over. Qed.
Print Assumptions C20_split_usize_refuted.

(** The hypotheses are met: a 16-bit target, where the numbers can be computed with. *)
Definition top : nat := N.to_nat 65535.
Lemma top_N : N.of_nat top = 65535%N. Proof. apply N2Nat.id. Qed.
Example usize_ex : machine 65536 /\ usize 65536 top /\ ~ usize 65536 (1 + top) /\ in_memory 65536 300 /\ usize 65536 (1 + 3).
Proof.
  unfold machine, usize, in_memory. split; [left; reflexivity|]. split; [rewrite top_N; reflexivity|].
  split; [rewrite Nat2N.inj_add, top_N; discriminate|]. split; reflexivity.
Qed.
(** On a 64-bit target. *)
Example usize_ex64 : exists n, machine (2 ^ 64) /\ usize (2 ^ 64) n /\ ~ usize (2 ^ 64) (1 + n).
Proof.
  exists (N.to_nat (2 ^ 64 - 1)). unfold usize. split; [right; right; reflexivity|]. rewrite Nat2N.inj_add, N2Nat.id. split; [reflexivity|discriminate].
Qed.
(** skip(usize::MAX) in a release build on a buffer holding three octets: it succeeds and the last octet is gone. *)
Example C46_skip_ex : exists b', u_write_call 65536 Release (WSkip top) (mkOut [1; 2; 3; 0; 0]%N 3) = (Ok tt, b') /\ ob_bytes b' = [1; 2]%N.
Proof.
  destruct (C46_skip_usize_refuted 65536 top (mkOut [1; 2; 3; 0; 0]%N 3)) as (_ & b' & k & E & K & _ & B & _).
  - cbn. lia.
  - unfold usize. rewrite top_N. reflexivity.
  - unfold usize. rewrite Nat2N.inj_add, top_N. discriminate.
  - exists b'. split; [exact E|]. rewrite B. rewrite top_N in K. cbn [ob_len] in K. assert (K2 : k = 2) by lia. subst k. reflexivity.
Qed.
Example C12_split_ex : u_split 65536 Release (name_of [of_string "a"; of_string "b"; of_string "c"]) 1 1 = Ok (name_of [of_string "b"]) /\
  u_split 65536 Debug (name_of [of_string "a"; of_string "b"; of_string "c"]) 0 7 = Ok (name_of [of_string "a"; of_string "b"; of_string "c"]).
Proof. split; vm_compute; reflexivity. Qed.

(** The debug build once more, with one change: the overflow check of the octet subtraction in the label comparison stops with
    [Err] instead of [Panic].  Every other failure (null or dangling pointer, index, assertion) still is [Panic].  So a run that
    never shows [Panic] here can only fail in that check.  Nothing else of the code is changed; TreeProofs20 proves that this
    program and the debug build differ in nothing but the name of that outcome. *)
From Verif Require Import Base NameModel TreeModel SpecName SpecTree SpecHist SpecOrd.
Open Scope list_scope.
Open Scope nat_scope.

(** label_slice.rs:110, the check stops with [Err] *)
Definition i8_diff_trap (a b : N) : res Z :=
  let d := (as_i8 a - as_i8 b)%Z in if ((-128 <=? d) && (d <=? 127))%Z then Ok d else Err.
(** label_slice.rs:102-125 *)
Fixpoint cmp_label_trap (cs : bool) (d1 d2 : list N) (pos1 pos2 count : nat) : res (option Z) :=
  match count with
  | O => Ok None
  | S k =>
      let? a := idx d1 pos1 in
      let? b := idx d2 pos2 in
      let a := if cs then a else lower_case a in
      let b := if cs then b else lower_case b in
      let? ch := i8_diff_trap a b in
      if negb (ch =? 0)%Z then Ok (Some ch) else cmp_label_trap cs d1 d2 (pos1 + 1) (pos2 + 1) k
  end.
(** label_slice.rs:89-150 *)
Fixpoint cmp_loop_trap (cs : bool) (a b : labelslice) (l l1 l2 nlabels : nat) (ldiff : Z) : res cmp_result :=
  match l with
  | O => Ok (mkCmp (wrap_i8 ldiff) (as_u8 (N.of_nat nlabels)) (if (ldiff <? 0)%Z then SuperDomain else if (0 <? ldiff)%Z then SubDomain else Equal))
  | S k =>
      let? l1 := csub l1 1 in
      let? l2 := csub l2 1 in
      let? o1 := idx (sl_offsets a) (l1 + sl_first a) in
      let? o2 := idx (sl_offsets b) (l2 + sl_first b) in
      let pos1 := N.to_nat o1 in
      let pos2 := N.to_nat o2 in
      let? c1 := idx (sl_data a) pos1 in
      let? c2 := idx (sl_data b) pos2 in
      let cdiff := (Z.of_N c1 - Z.of_N c2)%Z in
      let? r := cmp_label_trap cs (sl_data a) (sl_data b) (pos1 + 1) (pos2 + 1) (Nat.min (N.to_nat c1) (N.to_nat c2)) in
      match r with
      | Some ch => Ok (mkCmp ch (as_u8 (N.of_nat nlabels)) (rel_of nlabels))
      | None =>
          if negb (cdiff =? 0)%Z
          then Ok (mkCmp (wrap_i8 cdiff) (as_u8 (N.of_nat nlabels)) (rel_of nlabels))
          else cmp_loop_trap cs a b k l1 l2 (nlabels + 1) ldiff
      end
  end.
Definition sl_compare_trap (cs : bool) (a b : labelslice) : res cmp_result :=
  let l1 := sl_label_count a in
  let l2 := sl_label_count b in
  cmp_loop_trap cs a b (Nat.min l1 l2) l1 l2 0 (Z.of_nat l1 - Z.of_nat l2)%Z.

Section T.
Context {V : Type}.
(** tree.rs:190-222 *)
Fixpoint insert_loop_trap (fuel : nat) (v : option V) (par up current : ptr) (order : Z) (target : labelslice)
  : MT V ((ptr * option V) + (ptr * ptr * Z * labelslice)) :=
  if is_null current then ret (inr (par, up, order, target))
  else
    match fuel with
    | O => lift Hang
    | S k =>
        let! nm := get_name current in
        let! cs := lift (slice_of_seq nm) in
        let! cr := lift (sl_compare_trap false target cs) in
        match cr_relation cr with
        | Equal => let! old := set_value current v in ret (inl (current, old))
        | NoRelation =>
            let! next := (if (cr_order cr <? 0)%Z then get_left current else get_right current) in
            insert_loop_trap k v current up next (cr_order cr) target
        | SubDomain =>
            let! t' := lift (sl_strip_right target (N.to_nat (cr_common cr))) in
            let! d := get_down current in
            insert_loop_trap k v null current d order t'
        | SuperDomain | CommonAncestor =>
            node_fission current (N.to_nat (cr_common cr)) ;;
            let! q := get_parent current in
            insert_loop_trap k v par up q order target
        end
    end.
(** tree.rs:184-252 *)
Definition insert_trap (target : name) (v : option V) : MT V (ptr * option (option V)) := fun s =>
  (let! ts := lift (slice_of_name target) in
   let! r := insert_loop_trap (2 * dt_next s + 2) v null null (dt_root s) (-1) ts in
   match r with
   | inl (p, old) => ret (p, Some old)
   | inr (par, up, order, ts) =>
       let current_root := if is_null up then LRoot else LDown up in
       add_len 1 ;;
       let! nm := lift (into_label_sequence target (sl_first ts) (sl_last ts)) in
       let! nd := node_new nm v in
       set_parent nd par ;;
       (if is_null par then
          write_loc current_root nd ;;
          set_color nd Black ;;
          set_subtree_root nd true ;;
          set_parent nd up
        else if (order <? 0)%Z then
          set_subtree_root nd false ;;
          set_left par nd ;;
          insert_fixup current_root nd
        else
          set_subtree_root nd false ;;
          set_right par nd ;;
          insert_fixup current_root nd) ;;
       ret (nd, None)
   end) s.
(** tree.rs:277-343, without a callback *)
Fixpoint find_loop_trap (fuel : nat) (nd : ptr) (result : find_result) (target : labelslice) (ch : chain) : MT V (find_result * chain) :=
  if is_null nd then ret (result, ch)
  else
    match fuel with
    | O => lift Hang
    | S k =>
        let! nm := get_name nd in
        let! cs := lift (slice_of_seq nm) in
        let! cr := lift (sl_compare_trap false target cs) in
        let ch := mkChain (ch_level ch) (ch_nodes ch) nd cr in
        match cr_relation cr with
        | Equal => let! ch := lift (chain_push ch nd) in ret (mkFR nd ExactMatch, ch)
        | NoRelation =>
            let! next := (if (cr_order cr <? 0)%Z then get_left nd else get_right nd) in
            find_loop_trap k next result target ch
        | SubDomain =>
            let result := mkFR nd PartialMatch in
            let! en := is_callback_enabled nd in
            let! ch := lift (chain_push ch nd) in
            let! t' := lift (sl_strip_right target (N.to_nat (cr_common cr))) in
            let! d := get_down nd in
            find_loop_trap k d result t' ch
        | SuperDomain | CommonAncestor => ret (result, ch)
        end
    end.
Definition find_trap (target : name) : MT V find_result := fun s =>
  (let! ts := lift (slice_of_name target) in let! (r, _) := find_loop_trap (S (dt_next s)) (dt_root s) fr_new ts chain_new in ret r) s.
(** tree.rs:345-356 *)
Definition remove_trap (target : name) : MT V (option V) :=
  let! r := find_trap target in
  if negb (is_null (fr_node r)) then remove_node (fr_node r) else ret None.
Definition on_exact_trap {A} (ls : list label) (f : ptr -> MT V A) : MT V unit :=
  let! r := find_trap (name_of ls) in
  match fr_flag r with ExactMatch => f (fr_node r) ;; ret tt | _ => ret tt end.
Definition do_op_trap (o : op V) : MT V unit :=
  match o with
  | OInsert ls v => insert_trap (name_of ls) v ;; ret tt
  | OFind ls => find_trap (name_of ls) ;; ret tt
  | ORemove ls => remove_trap (name_of ls) ;; ret tt
  | ODelete ls => on_exact_trap ls remove_node
  | OSetValue ls v => on_exact_trap ls (fun p => set_value p v)
  | OSetCallback ls b => on_exact_trap ls (fun p => set_callback p b)
  | OSetWildcard ls b => on_exact_trap ls (fun p => set_wildcard p b)
  | OClear => clear
  end.
Fixpoint history_trap (ops : list (op V)) : MT V unit :=
  match ops with [] => ret tt | o :: ops' => do_op_trap o ;; history_trap ops' end.

(** The lower-cased labels of the names a history uses, and whether two of them first differ in octets whose difference overflows. *)
Definition labels_used (ops : list (op V)) : list label := flat_map (fun o => lc_labels (op_name o)) ops.
Definition overflowing (ops : list (op V)) : Prop :=
  exists x y p, In x (labels_used ops) /\ In y (labels_used ops) /\ clash_octets x y = Some p /\ overflows p = true.
End T.

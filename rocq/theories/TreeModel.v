(** Model of src/domaintree (flag.rs, node.rs, node_chain.rs, tree.rs): the domain tree as mutable nodes in a memory.
    A raw pointer is a number, 0 is null.  The memory maps addresses to nodes; reading or writing through a null, freed or never
    allocated pointer is [Panic] (undefined behaviour in Rust).  Addresses are handed out in increasing order and not reused: no
    operation of the model ever looks at a freed node without panicking, so reuse by a real allocator would not be visible.
    The state [dtree] is one [DomainTree] (root, len) together with the memory. *)
From Verif Require Import Base NameModel.

(** * flag.rs *)
(** flag.rs:36-39 *)
Definition COLOR_MASK : N := 1.
Definition SUBTREE_ROOT_MASK : N := 2.
Definition CALLBACK_MASK : N := 4.
Definition WILDCARD_MASK : N := 8.
(** flag.rs:5-27; [&= !mask] is [N.ldiff] *)
Definition flag_enable (f mask : N) : N := N.lor f mask.
Definition flag_disable (f mask : N) : N := N.ldiff f mask.
Definition flag_put (f : N) (en : bool) (mask : N) : N := if en then flag_enable f mask else flag_disable f mask.
Definition flag_test (f mask : N) : bool := negb (N.land f mask =? 0)%N.
(** flag.rs:30-34 *)
Definition flag_default : N := 0.
(** flag.rs:41-45 *)
Inductive color := Red | Black.
(** flag.rs:58-73 *)
Definition flag_set_color (f : N) (c : color) : N :=
  match c with Red => flag_disable f COLOR_MASK | Black => flag_enable f COLOR_MASK end.
Definition flag_color (f : N) : color := if flag_test f COLOR_MASK then Black else Red.

Section Tree.
Context {V : Type}.

(** * node.rs *)
Definition ptr := nat.
Definition null : ptr := 0.
(** node.rs:8-16 *)
Record node := mkNode
  { nd_flag : N; nd_left : ptr; nd_right : ptr; nd_parent : ptr; nd_down : ptr; nd_name : labelseq; nd_value : option V }.
(** tree.rs:50-53 and the memory *)
Record dtree := mkDT { dt_heap : ptr -> option node; dt_next : ptr; dt_root : ptr; dt_len : nat }.
Definition MT := M dtree.

Definition is_null (p : ptr) : bool := p =? 0.
Definition with_flag (n : node) (f : N) := mkNode f (nd_left n) (nd_right n) (nd_parent n) (nd_down n) (nd_name n) (nd_value n).
Definition with_left (n : node) (p : ptr) := mkNode (nd_flag n) p (nd_right n) (nd_parent n) (nd_down n) (nd_name n) (nd_value n).
Definition with_right (n : node) (p : ptr) := mkNode (nd_flag n) (nd_left n) p (nd_parent n) (nd_down n) (nd_name n) (nd_value n).
Definition with_parent (n : node) (p : ptr) := mkNode (nd_flag n) (nd_left n) (nd_right n) p (nd_down n) (nd_name n) (nd_value n).
Definition with_down (n : node) (p : ptr) := mkNode (nd_flag n) (nd_left n) (nd_right n) (nd_parent n) p (nd_name n) (nd_value n).
Definition with_name (n : node) (s : labelseq) := mkNode (nd_flag n) (nd_left n) (nd_right n) (nd_parent n) (nd_down n) s (nd_value n).
Definition with_value (n : node) (v : option V) := mkNode (nd_flag n) (nd_left n) (nd_right n) (nd_parent n) (nd_down n) (nd_name n) v.

(** [*p] read and written through a raw pointer *)
Definition deref (p : ptr) : MT node := fun s =>
  (if is_null p then Panic else match dt_heap s p with Some n => Ok n | None => Panic end, s).
Definition hset (h : ptr -> option node) (p : ptr) (n : option node) : ptr -> option node := fun q => if q =? p then n else h q.
Definition store (p : ptr) (f : node -> node) : MT unit := fun s =>
  match dt_heap s p with
  | Some n => if is_null p then (Panic, s) else (Ok tt, mkDT (hset (dt_heap s) p (Some (f n))) (dt_next s) (dt_root s) (dt_len s))
  | None => (Panic, s)
  end.
(** node.rs:64-75 [NodePtr::new]: [Box::into_raw(Box::new(..))] *)
Definition node_new (name : labelseq) (v : option V) : MT ptr := fun s =>
  (Ok (dt_next s),
   mkDT (hset (dt_heap s) (dt_next s) (Some (mkNode flag_default null null null null name v))) (S (dt_next s)) (dt_root s) (dt_len s)).
(** [drop(Box::from_raw(p))]; freeing twice is undefined behaviour *)
Definition node_free (p : ptr) : MT unit := fun s =>
  match dt_heap s p with
  | Some _ => if is_null p then (Panic, s) else (Ok tt, mkDT (hset (dt_heap s) p None) (dt_next s) (dt_root s) (dt_len s))
  | None => (Panic, s)
  end.

(** node.rs:77-107: colours and the subtree-root flag *)
Definition set_color (p : ptr) (c : color) : MT unit := store p (fun n => with_flag n (flag_set_color (nd_flag n) c)).
Definition get_color (p : ptr) : MT color := if is_null p then ret Black else let! n := deref p in ret (flag_color (nd_flag n)).
Definition is_red (p : ptr) : MT bool := let! c := get_color p in ret (match c with Red => true | Black => false end).
Definition is_black (p : ptr) : MT bool := let! b := is_red p in ret (negb b).
Definition set_subtree_root (p : ptr) (en : bool) : MT unit := store p (fun n => with_flag n (flag_put (nd_flag n) en SUBTREE_ROOT_MASK)).
Definition is_subtree_root (p : ptr) : MT bool := let! n := deref p in ret (flag_test (nd_flag n) SUBTREE_ROOT_MASK).
(** node.rs:109-127 *)
Definition set_callback (p : ptr) (en : bool) : MT unit := store p (fun n => with_flag n (flag_put (nd_flag n) en CALLBACK_MASK)).
Definition is_callback_enabled (p : ptr) : MT bool := let! n := deref p in ret (flag_test (nd_flag n) CALLBACK_MASK).
Definition set_wildcard (p : ptr) (en : bool) : MT unit := store p (fun n => with_flag n (flag_put (nd_flag n) en WILDCARD_MASK)).
Definition is_wildcard_node (p : ptr) : MT bool := let! n := deref p in ret (flag_test (nd_flag n) WILDCARD_MASK).
(** node.rs:129-153 *)
Definition get_name (p : ptr) : MT labelseq := let! n := deref p in ret (nd_name n).
Definition get_value (p : ptr) : MT (option V) := let! n := deref p in ret (nd_value n).
Definition set_name (p : ptr) (s : labelseq) : MT unit := store p (fun n => with_name n s).
Definition set_value (p : ptr) (v : option V) : MT (option V) :=
  let! n := deref p in store p (fun n => with_value n v) ;; ret (nd_value n).
(** node.rs:155-177, 201-207 *)
Definition set_parent (p q : ptr) : MT unit := store p (fun n => with_parent n q).
Definition set_left (p q : ptr) : MT unit := store p (fun n => with_left n q).
Definition set_right (p q : ptr) : MT unit := store p (fun n => with_right n q).
Definition set_down (p q : ptr) : MT unit := store p (fun n => with_down n q).
Definition get_parent (p : ptr) : MT ptr := let! n := deref p in ret (nd_parent n).
Definition get_left (p : ptr) : MT ptr := let! n := deref p in ret (nd_left n).
Definition get_right (p : ptr) : MT ptr := let! n := deref p in ret (nd_right n).
Definition get_down (p : ptr) : MT ptr := let! n := deref p in ret (nd_down n).
(** node.rs:179-186 *)
Definition grand_parent (p : ptr) : MT ptr :=
  let! q := get_parent p in if is_null q then ret null else get_parent q.
(** node.rs:188-199 *)
Definition uncle (p : ptr) : MT ptr :=
  let! g := grand_parent p in
  if is_null g then ret null
  else
    let! q := get_parent p in
    let! gl := get_left g in
    if q =? gl then get_right g else get_left g.
(** node.rs:213-219: [while !node.is_subtree_root() { node = node.parent() }] *)
Fixpoint subtree_root (fuel : nat) (p : ptr) : MT ptr :=
  match fuel with
  | O => lift Hang
  | S k => let! b := is_subtree_root p in if b : bool then ret p else let! q := get_parent p in subtree_root k q
  end.
(** node.rs:221-223 *)
Definition get_upper_node (p : ptr) : MT ptr := fun s => (let! r := subtree_root (S (dt_next s)) p in get_parent r) s.

(** [*mut *mut Node]: the address of the tree's root field or of a node's down field (node.rs:233-239) *)
Inductive loc := LRoot | LDown (p : ptr).
Definition read_loc (l : loc) : MT ptr :=
  match l with LRoot => fun s => (Ok (dt_root s), s) | LDown p => get_down p end.
Definition set_root (q : ptr) : MT unit := fun s => (Ok tt, mkDT (dt_heap s) (dt_next s) q (dt_len s)).
Definition write_loc (l : loc) (q : ptr) : MT unit :=
  match l with LRoot => set_root q | LDown p => set_down p q end.
Definition add_len (k : nat) : MT unit := fun s => (Ok tt, mkDT (dt_heap s) (dt_next s) (dt_root s) (dt_len s + k)).
(** [self.len -= 1] *)
Definition dec_len : MT unit := fun s =>
  match dt_len s with O => (Panic, s) | S k => (Ok tt, mkDT (dt_heap s) (dt_next s) (dt_root s) k) end.

(** node.rs:302-310 *)
Definition get_sibling (parent child : ptr) : MT ptr :=
  if is_null parent then ret null
  else let! l := get_left parent in if l =? child then get_right parent else get_left parent.
(** node.rs:312-328 *)
Definition connect_child (root : loc) (current old new : ptr) : MT unit :=
  let! parent := get_parent current in
  if is_null parent then write_loc root new
  else
    let! l := get_left parent in
    if l =? old then set_left parent new
    else
      let! r := get_right parent in
      if r =? old then set_right parent new else set_down parent new.

(** node.rs:241-276 *)
Definition exchange (self lower : ptr) (root : loc) : MT unit :=
  let! a := get_left self in let! b := get_left lower in
  set_left self b ;; set_left lower a ;;
  (let! l := get_left lower in if l =? lower then set_left lower self else ret tt) ;;
  let! a := get_right self in let! b := get_right lower in
  set_right self b ;; set_right lower a ;;
  (let! r := get_right lower in if r =? lower then set_right lower self else ret tt) ;;
  let! a := get_parent self in let! b := get_parent lower in
  set_parent self b ;; set_parent lower a ;;
  (let! q := get_parent self in if q =? self then set_parent self lower else ret tt) ;;
  let! self_color := get_color self in
  let! lower_color := get_color lower in
  set_color self lower_color ;;
  set_color lower self_color ;;
  let! self_is_subroot := is_subtree_root self in
  let! lower_is_subroot := is_subtree_root lower in
  set_subtree_root self lower_is_subroot ;;
  set_subtree_root lower self_is_subroot ;;
  connect_child root lower self lower ;;
  let! q := get_parent self in
  let! ql := get_left q in
  (if ql =? lower then set_left q self
   else let! qr := get_right q in if qr =? lower then set_right q self else ret tt) ;;
  let! lr := get_right lower in
  (if is_null lr then ret tt else set_parent lr lower) ;;
  let! ll := get_left lower in
  (if is_null ll then ret tt else set_parent ll lower).

(** node.rs:278-284; [label_count - parent_label_count] on usize *)
Definition split_to_parent (self : ptr) (parent_label_count : nat) : MT ptr :=
  let! name := get_name self in
  let! i := lift (csub (length (ls_offsets name)) parent_label_count) in
  match seq_split name i parent_label_count with
  | Ok (parent, rest) => set_name self rest ;; node_new parent None
  | Err => lift Panic
  | Panic => lift Panic
  | Hang => lift Hang
  end.
(** node.rs:287-300 *)
Fixpoint deep_clone (fuel : nat) (self : ptr) : MT ptr :=
  match fuel with
  | O => lift Hang
  | S k =>
      let! n := deref self in
      let! nw := node_new (nd_name n) (nd_value n) in
      let! l := get_left self in
      (if is_null l then ret tt else
         let! c := deep_clone k l in set_left nw c ;; let! c := get_left nw in set_parent c nw) ;;
      let! r := get_right self in
      (if is_null r then ret tt else
         let! c := deep_clone k r in set_right nw c ;; let! c := get_right nw in set_parent c nw) ;;
      ret nw
  end.

(** * node_chain.rs *)
(** node_chain.rs:5-11; the array of 128 pointers is a list *)
Record chain := mkChain { ch_level : nat; ch_nodes : list ptr; ch_last : ptr; ch_result : cmp_result }.
(** node_chain.rs:34-46 *)
Definition chain_new : chain := mkChain 0 (repeat null MAX_LABEL_COUNT) null (mkCmp 0 0 Equal).
(** node_chain.rs:72-76 *)
Definition chain_push (c : chain) (p : ptr) : res chain :=
  let? _ := assert_r (ch_level c <? MAX_LABEL_COUNT) in
  let? ns := upd_r (ch_nodes c) (ch_level c) p in
  Ok (mkChain (ch_level c + 1) ns (ch_last c) (ch_result c)).
(** node_chain.rs:78-82 *)
Definition chain_pop (c : chain) : res (ptr * chain) :=
  let? _ := assert_r (0 <? ch_level c) in
  let? l := csub (ch_level c) 1 in
  let? p := idx (ch_nodes c) l in
  Ok (p, mkChain l (ch_nodes c) (ch_last c) (ch_result c)).
(** node_chain.rs:62-70 *)
Definition chain_top (c : chain) : res ptr := let? l := csub (ch_level c) 1 in idx (ch_nodes c) l.
Definition chain_bottom (c : chain) : res ptr := idx (ch_nodes c) 0.
(** node_chain.rs:48-60: the names of the chain, deepest node first ([i] counts up from 0; entry 0 is the array's initial value) *)
Fixpoint chain_names (c : chain) (i todo : nat) : MT (list labelseq) :=
  match todo with
  | O => ret []
  | S k =>
      let! j := lift (csub (ch_level c) (i + 1)) in
      let! p := lift (idx (ch_nodes c) j) in
      let! nm := get_name p in
      let! rest := chain_names c (i + 1) k in ret (nm :: rest)
  end.
Definition expect_r {A} (r : res A) : res A := match r with Err => Panic | _ => r end.
Definition get_absolute_name (c : chain) (child : labelseq) : MT name :=
  if ch_level c =? 0 then lift (expect_r (seq_concat_all child []))
  else let! names := chain_names c 0 (ch_level c) in lift (expect_r (seq_concat_all child names)).

(** * tree.rs *)
(** tree.rs:9-14 *)
Inductive find_flag := ExactMatch | NotFound | PartialMatch.
(** tree.rs:16-29 *)
Record find_result := mkFR { fr_node : ptr; fr_flag : find_flag }.
Definition fr_new : find_result := mkFR null NotFound.
(** tree.rs:31-38; the debug assertion only strengthens the dereference *)
Definition fr_value (r : find_result) : MT (option V) :=
  match fr_flag r with NotFound => ret None | _ => get_value (fr_node r) end.
(** tree.rs:79-84 *)
Definition tree_new : dtree := mkDT (fun _ => None) 1 null 0.
(** tree.rs:90-92 *)
Definition tree_is_empty (s : dtree) : bool := is_null (dt_root s).

(** tree.rs:94-118 *)
Definition left_rotate (root : loc) (nd : ptr) : MT unit :=
  let! rgt := get_right nd in
  let! rleft := get_left rgt in
  set_right nd rleft ;;
  (if is_null rleft then ret tt else set_parent rleft nd) ;;
  let! par := get_parent nd in
  set_parent rgt par ;;
  let! sub := is_subtree_root nd in
  (if negb sub then
     set_subtree_root rgt false ;;
     let! pl := get_left par in
     if nd =? pl then set_left par rgt else set_right par rgt
   else
     set_subtree_root rgt true ;;
     write_loc root rgt) ;;
  set_left rgt nd ;;
  set_parent nd rgt ;;
  set_subtree_root nd false.
(** tree.rs:120-144 *)
Definition right_rotate (root : loc) (nd : ptr) : MT unit :=
  let! lft := get_left nd in
  let! lright := get_right lft in
  set_left nd lright ;;
  (if is_null lright then ret tt else set_parent lright nd) ;;
  let! par := get_parent nd in
  set_parent lft par ;;
  let! sub := is_subtree_root nd in
  (if negb sub then
     set_subtree_root lft false ;;
     let! pr := get_right par in
     if nd =? pr then set_right par lft else set_left par lft
   else
     set_subtree_root lft true ;;
     write_loc root lft) ;;
  set_right lft nd ;;
  set_parent nd lft ;;
  set_subtree_root nd false.

(** tree.rs:148-180: the loop of insert_fixup *)
Fixpoint insert_fixup_loop (fuel : nat) (root : loc) (nd : ptr) : MT unit :=
  match fuel with
  | O => lift Hang
  | S k =>
      let! r := read_loc root in
      if nd =? r then ret tt
      else
        let! par := get_parent nd in
        let! pb := is_black par in
        if pb : bool then ret tt
        else
          let! unc := uncle nd in
          let! gp := grand_parent nd in
          let! ur := (if is_null unc then ret false else is_red unc) in
          if ur : bool then
            set_color par Black ;; set_color unc Black ;; set_color gp Red ;;
            insert_fixup_loop k root gp
          else
            let! pr := get_right par in
            let! c1 := (if nd =? pr then let! gl := get_left gp in ret (par =? gl) else ret false) in
            let! nd' :=
              (if c1 : bool then left_rotate root par ;; ret par
               else
                 let! pl := get_left par in
                 let! c2 := (if nd =? pl then let! gr := get_right gp in ret (par =? gr) else ret false) in
                 if c2 : bool then right_rotate root par ;; ret par else ret nd) in
            let! par := get_parent nd' in
            set_color par Black ;;
            set_color gp Red ;;
            let! pl := get_left par in
            if nd' =? pl then right_rotate root gp else left_rotate root gp
  end.
(** tree.rs:146-181 *)
Definition insert_fixup (root : loc) (nd : ptr) : MT unit := fun s =>
  (insert_fixup_loop (S (dt_next s)) root nd ;; let! r := read_loc root in set_color r Black) s.

(** tree.rs:254-275 *)
Definition node_fission (nd : ptr) (parent_label_count : nat) : MT unit :=
  let! up := split_to_parent nd parent_label_count in
  let! par := get_parent nd in
  set_parent up par ;;
  connect_child LRoot nd nd up ;;
  set_down up nd ;;
  set_parent nd up ;;
  let! l := get_left nd in
  set_left up l ;;
  (if is_null l then ret tt else set_parent l up) ;;
  let! r := get_right nd in
  set_right up r ;;
  (if is_null r then ret tt else set_parent r up) ;;
  set_left nd null ;;
  set_right nd null ;;
  let! c := get_color nd in
  set_color up c ;;
  set_color nd Black ;;
  let! b := is_subtree_root nd in
  set_subtree_root up b ;;
  set_subtree_root nd true ;;
  add_len 1.

(** tree.rs:190-222: the search loop of [insert]; [inl] is the early return *)
Fixpoint insert_loop (md : mode) (fuel : nat) (v : option V) (par up current : ptr) (order : Z) (target : labelslice)
  : MT ((ptr * option V) + (ptr * ptr * Z * labelslice)) :=
  if is_null current then ret (inr (par, up, order, target))
  else
    match fuel with
    | O => lift Hang
    | S k =>
        let! nm := get_name current in
        let! cs := lift (slice_of_seq nm) in
        let! cr := lift (sl_compare md false target cs) in
        match cr_relation cr with
        | Equal => let! old := set_value current v in ret (inl (current, old))
        | NoRelation =>
            let! next := (if (cr_order cr <? 0)%Z then get_left current else get_right current) in
            insert_loop md k v current up next (cr_order cr) target
        | SubDomain =>
            let! t' := lift (sl_strip_right target (N.to_nat (cr_common cr))) in
            let! d := get_down current in
            insert_loop md k v null current d order t'
        | SuperDomain | CommonAncestor =>
            node_fission current (N.to_nat (cr_common cr)) ;;
            let! q := get_parent current in
            insert_loop md k v par up q order target
        end
    end.
(** tree.rs:184-252 *)
Definition insert (md : mode) (target : name) (v : option V) : MT (ptr * option (option V)) := fun s =>
  (let! ts := lift (slice_of_name target) in
   let! r := insert_loop md (2 * dt_next s + 2) v null null (dt_root s) (-1) ts in
   match r with
   | inl (p, old) => ret (p, Some old)
   | inr (par, up, order, ts) =>
       let current_root := if is_null up then LRoot else LDown up in
       add_len 1 ;;
       let! nm := lift (into_label_sequence target (sl_first ts) (sl_last ts)) in
       let! nd := node_new nm v in
       set_parent nd par ;;
       (if is_null par then
          write_loc current_root nd ;;
          set_color nd Black ;;
          set_subtree_root nd true ;;
          set_parent nd up
        else if (order <? 0)%Z then
          set_subtree_root nd false ;;
          set_left par nd ;;
          insert_fixup current_root nd
        else
          set_subtree_root nd false ;;
          set_right par nd ;;
          insert_fixup current_root nd) ;;
       ret (nd, None)
   end) s.

(** tree.rs:291-343.  The callback is a pure function of node pointer, name and parameter; it does not change the tree. *)
Definition callback (P : Type) := ptr -> name -> P -> bool * P.
Fixpoint find_loop {P} (md : mode) (fuel : nat) (cb : option (callback P)) (nd : ptr) (result : find_result) (target : labelslice)
  (ch : chain) (param : P) : MT (find_result * chain * P) :=
  if is_null nd then ret (result, ch, param)
  else
    match fuel with
    | O => lift Hang
    | S k =>
        let! nm := get_name nd in
        let! cs := lift (slice_of_seq nm) in
        let! cr := lift (sl_compare md false target cs) in
        let ch := mkChain (ch_level ch) (ch_nodes ch) nd cr in
        match cr_relation cr with
        | Equal =>
            let! ch := lift (chain_push ch nd) in
            ret (mkFR nd ExactMatch, ch, param)
        | NoRelation =>
            let! next := (if (cr_order cr <? 0)%Z then get_left nd else get_right nd) in
            find_loop md k cb next result target ch param
        | SubDomain =>
            let result := mkFR nd PartialMatch in
            let! en := is_callback_enabled nd in
            let! (stop, param) :=
              match en, cb with
              | true, Some f =>
                  let! nm := get_name nd in
                  let! ab := get_absolute_name ch nm in
                  ret (f nd ab param)
              | _, _ => ret (false, param)
              end in
            if stop : bool then ret (result, ch, param)
            else
              let! ch := lift (chain_push ch nd) in
              let! t' := lift (sl_strip_right target (N.to_nat (cr_common cr))) in
              let! d := get_down nd in
              find_loop md k cb d result t' ch param
        | SuperDomain | CommonAncestor => ret (result, ch, param)
        end
    end.
Definition find_node_ext {P} (md : mode) (target : name) (ch : chain) (cb : option (callback P)) (param : P)
  : MT (find_result * chain * P) := fun s =>
  (let! ts := lift (slice_of_name target) in find_loop md (S (dt_next s)) cb (dt_root s) fr_new ts ch param) s.
(** tree.rs:282-289 *)
Definition find_node (md : mode) (target : name) (ch : chain) : MT (find_result * chain) :=
  let! (r, ch, _) := find_node_ext (P := unit) md target ch None tt in ret (r, ch).
(** tree.rs:277-280 *)
Definition find (md : mode) (target : name) : MT find_result := let! (r, _) := find_node md target chain_new in ret r.

(** tree.rs:421-488 *)
Fixpoint remove_fixup (fuel : nat) (root : loc) (child par : ptr) : MT unit :=
  match fuel with
  | O => lift Hang
  | S k =>
      let! r := read_loc root in
      let! go := (if child =? r then ret false else is_black child) in
      if negb go then ret tt
      else
        let! stop := (if is_null par then ret false else let! d := get_down par in let! r := read_loc root in ret (d =? r)) in
        if stop : bool then ret tt
        else
          let! sib := get_sibling par child in
          let! sr := is_red sib in
          let! sib :=
            (if sr : bool then
               set_color par Red ;; set_color sib Black ;;
               (let! pl := get_left par in if pl =? child then left_rotate root par else right_rotate root par) ;;
               get_sibling par child
             else ret sib) in
          let! sl := get_left sib in
          let! slb := is_black sl in
          let! both := (if slb : bool then let! sr := get_right sib in is_black sr else ret false) in
          if both : bool then
            set_color sib Red ;;
            let! pb := is_black par in
            if pb : bool then let! q := get_parent par in remove_fixup k root par q
            else set_color par Black
          else
            let! ss1 := get_left sib in
            let! ss2 := get_right sib in
            let! pl := get_left par in
            let '(ss1, ss2) := if negb (pl =? child) then (ss2, ss1) else (ss1, ss2) in
            let! b2 := is_black ss2 in
            let! sib :=
              (if b2 : bool then
                 set_color sib Red ;; set_color ss1 Black ;;
                 (let! pl := get_left par in if pl =? child then right_rotate root sib else left_rotate root sib) ;;
                 get_sibling par child
               else ret sib) in
            let! pc := get_color par in
            set_color sib pc ;;
            set_color par Black ;;
            let! ss1 := get_left sib in
            let! ss2 := get_right sib in
            let! pl := get_left par in
            let '(ss1, ss2) := if negb (pl =? child) then (ss2, ss1) else (ss1, ss2) in
            set_color ss2 Black ;;
            let! pl := get_left par in
            if pl =? child then left_rotate root par else right_rotate root par
  end.

(** tree.rs:369-371: [while !right_most.right().is_null()] *)
Fixpoint rightmost (fuel : nat) (p : ptr) : MT ptr :=
  match fuel with
  | O => lift Hang
  | S k => let! r := get_right p in if is_null r then ret p else rightmost k r
  end.
(** tree.rs:365-417: the loop of [remove_node] *)
Fixpoint remove_loop (fuel : nat) (nd : ptr) : MT unit :=
  match fuel with
  | O => lift Hang
  | S k =>
      let! up := get_upper_node nd in
      let! l := get_left nd in
      let! two := (if is_null l then ret false else let! r := get_right nd in ret (negb (is_null r))) in
      (if two : bool then
         let! l := get_left nd in
         let! rm := (fun s => rightmost (S (dt_next s)) l s) in
         exchange nd rm LRoot
       else ret tt) ;;
      let! r := get_right nd in
      let! child := (if is_null r then get_left nd else get_right nd) in
      connect_child LRoot nd nd child ;;
      (if is_null child then ret tt
       else
         let! par := get_parent nd in
         set_parent child par ;;
         let! cp := get_parent child in
         let! top := (if is_null cp then ret true else let! d := get_down cp in ret (d =? child)) in
         if top : bool then let! b := is_subtree_root nd in set_subtree_root child b else ret tt) ;;
      let! nb := is_black nd in
      (if nb : bool then
         let! cred := (if is_null child then ret false else is_red child) in
         if cred : bool then set_color child Black
         else
           let current_root := if is_null up then LRoot else LDown up in
           let! par := get_parent nd in
           (fun s => remove_fixup (S (dt_next s)) current_root child par s)
       else ret tt) ;;
      dec_len ;;
      let! stop :=
        (if is_null up then ret true
         else
           let! v := get_value up in
           match v with
           | Some _ => ret true
           | None => let! d := get_down up in ret (negb (is_null d))
           end) in
      if stop : bool then ret tt else remove_loop k up
  end.
(** tree.rs:358-419 *)
Definition remove_node (nd : ptr) : MT (option V) :=
  let! old := set_value nd None in
  let! d := get_down nd in
  if negb (is_null d) then ret old
  else (fun s => remove_loop (S (dt_next s)) nd s) ;; ret old.
(** tree.rs:345-356 *)
Definition remove (md : mode) (target : name) : MT (option V) :=
  let! r := find md target in
  if negb (is_null (fr_node r)) then remove_node (fr_node r) else ret None.

(** tree.rs:490-499 *)
Fixpoint clear_recurse (fuel : nat) (current : ptr) : MT unit :=
  if is_null current then ret tt
  else
    match fuel with
    | O => lift Hang
    | S k =>
        let! l := get_left current in
        clear_recurse k l ;;
        let! r := get_right current in
        clear_recurse k r ;;
        let! d := get_down current in
        clear_recurse k d ;;
        node_free current
    end.
(** tree.rs:501-505; [Drop::drop], tree.rs:61-65, is the same call *)
Definition clear : MT unit := fun s =>
  (set_root null ;; clear_recurse (S (dt_next s)) (dt_root s)) s.
(** tree.rs:67-76: the new tree and the memory it lives in *)
Definition clone (s : dtree) : res dtree :=
  match deep_clone (S (dt_next s)) (dt_root s) s with
  | (Ok p, s') => Ok (mkDT (dt_heap s') (dt_next s') p (dt_len s))
  | (Err, _) => Err
  | (Panic, _) => Panic
  | (Hang, _) => Hang
  end.
End Tree.
Arguments node V : clear implicits.
Arguments dtree V : clear implicits.
Arguments MT V A : clear implicits.
